(* C67: every literal has a replacement text, and the parser finds it. *)
From Coq Require Import String List NArith ZArith Bool Lia Arith.
From Coq Require Import ZifyBool ZifyNat ZifyN.
From Verif Require Import Base Tables Encoding SpecText SpecUnicode SpecNames SpecLex SpecMisc EncLaws Tok TokMisc UniLaws UniConv SpecConv Charset CharsetLaws CpTag MiscTop DeclFinal AttCp Role Status State AttVal SpecAttVal CtxLaws AttNorm AttTop SpecEntVal EvCp EvNorm Content Prolog SpecRole SpecEnt SpecAttDecl AttDeclLaws SpecDeclEv DeclEvLaws.
From Verif Require EntInv.
From Coq Require Import List.
Import ListNotations.
Local Open Scope N_scope.

Lemma onto_onto p q o : onto p (onto q o) = onto (p ++ q) o.
Proof. destruct o; cbn [onto]; [rewrite app_assoc|]; reflexivity. Qed.
Lemma onto_nil o : onto [] o = o. Proof. destruct o; reflexivity. Qed.
Ltac vstop := unfold vhalts, vlit; reflexivity.

Definition ev_at ext (enc : N -> bytes) t fuel cs s := entity_value ext fuel t (flat_map enc cs) s.
Theorem entval_yields ext ns handled lat inner allowed g cs o : entval ns handled lat inner allowed g cs o ->
  forall t e enc dom s p, vreader e enc dom lat ns inner -> reads e t s -> c_ns (s_cfg s) = ns ->
  d_pents (s_dtd s) = g -> s_isParam s || is_internal t = allowed -> h_external (c_h (s_cfg s)) = handled -> all_in dom (p ++ cs) -> all_in (vlit inner) p ->
  vyields ext enc t (p ++ cs) s (onto p o).
Proof.
  induction 1 as [lat inner allowed g|lat inner allowed g c cs o Hc H13 H IH|lat inner allowed g n cs o Hn H IH|lat allowed g cs o H IH|lat allowed g cs o Hn H IH
    |lat inner allowed g ds cs o Hne Hds Hx H IH|lat inner allowed g ds cs o Hne Hds Hx H IH
    |lat inner g n x text v b cs o Hn Hl Ho Hsy Htx Hsc H1 IH1 H IH|lat inner g n x cs o Hn Hl Ho Hsy Htx H IH|lat inner g n x cs o Hn Hl Ho Hsy Hh H IH
    |lat inner g n cs Hn Hl|lat inner allowed g cs Hno|lat inner allowed g cs Hno|lat inner allowed g ds cs Hne Hds Hx|lat inner allowed g ds cs Hne Hds Hx
    |lat inner g n cs Hn|lat inner g n x cs Hn Hl Ho|lat inner g n x text y cs Hn Hl Ho Hsy Htx Hsc H1 IH1];
  intros t e enc dom s p VR Hr Hns Hg Hal Hex Hd Hlit.
  all: assert (Hd2 := Hd); apply Forall_app in Hd2 as [Hdp Hdc].
  all: assert (Hw := fun v b => reads_wt e t v b s Hr).
  - apply (vyields_prefix _ _ _ _ _ _ _ _ VR); auto; [exact I|]. eapply vyields_nil; eauto.
  - destruct (N.eq_dec c 10) as [->|Hc10].
    + apply (vyields_prefix _ _ _ _ _ _ _ _ VR); auto; [vstop|].
      change (10 :: cs) with ([10] ++ cs). change (onto [10] o) with (onto [10] (after_read true o)). apply vyields_step; [apply (vgoes_lf _ _ _ _ _ _ _ _ VR); auto|].
      rewrite wt_wt. rewrite <- (onto_nil o). inversion Hdc; subst. eapply (IH t e enc dom _ []); eauto. constructor.
    + rewrite onto_onto. replace (p ++ c :: cs) with ((p ++ [c]) ++ cs) in * by (rewrite <- app_assoc; reflexivity).
      eapply IH; eauto. apply Forall_app. split; [exact Hlit|]. constructor; [|constructor]. unfold vlit.
      assert (c <> 38) by (intros ->; apply Hc; left; reflexivity). assert (c <> 37) by (intros ->; apply Hc; right; left; reflexivity).
      destruct inner; [lia|]. assert (c <> 13) by (intros ->; discriminate (H13 eq_refl)). lia.
  - apply (vyields_prefix _ _ _ _ _ _ _ _ VR); auto; [vstop|].
    replace (txt "&" ++ n ++ txt ";" ++ cs) with (written n ++ cs) in * by (unfold written; rewrite <- !app_assoc; reflexivity).
    change (onto (txt "&" ++ n ++ txt ";") o) with (onto (written n) (after_read true o)). apply vyields_step; [apply (vgoes_general _ _ _ _ _ _ _ _ VR); auto|].
    rewrite wt_wt. rewrite <- (onto_nil o). apply Forall_app in Hdc as [_ Hdc]. eapply (IH t e enc dom _ []); eauto. constructor.
  - apply (vyields_prefix _ _ _ _ _ _ _ _ VR); auto; [vstop|].
    change (13 :: 10 :: cs) with ([13; 10] ++ cs). change (onto [10] o) with (onto [10] (after_read true o)). apply vyields_step; [apply (vgoes_crlf _ _ _ _ _ _ _ _ VR); auto|].
    rewrite wt_wt. rewrite <- (onto_nil o). inversion Hdc as [|? ? ? Hdc2]; inversion Hdc2; subst. eapply (IH t e enc dom _ []); eauto. constructor.
  - apply (vyields_prefix _ _ _ _ _ _ _ _ VR); auto; [vstop|].
    change (13 :: cs) with ([13] ++ cs). change (onto [10] o) with (onto [10] (after_read true o)). apply vyields_step; [apply (vgoes_cr _ _ _ _ _ _ _ _ VR); auto|].
    rewrite wt_wt. rewrite <- (onto_nil o). inversion Hdc; subst. eapply (IH t e enc dom _ []); eauto. constructor.
  - apply (vyields_prefix _ _ _ _ _ _ _ _ VR); auto; [vstop|].
    replace (txt "&#" ++ ds ++ txt ";" ++ cs) with ((txt "&#" ++ ds ++ txt ";") ++ cs) by (rewrite <- !app_assoc; reflexivity).
    change (onto [dec_value ds] o) with (onto [dec_value ds] (after_read true o)). apply vyields_step; [apply (vgoes_charref _ _ _ _ _ _ _ _ VR); auto|].
    rewrite wt_wt. rewrite <- (onto_nil o). apply Forall_app in Hdc as [_ Hdc]. apply Forall_app in Hdc as [_ Hdc]. apply Forall_app in Hdc as [_ Hdc].
    eapply (IH t e enc dom _ []); eauto. constructor.
  - apply (vyields_prefix _ _ _ _ _ _ _ _ VR); auto; [vstop|].
    replace (txt "&#x" ++ ds ++ txt ";" ++ cs) with ((txt "&#x" ++ ds ++ txt ";") ++ cs) by (rewrite <- !app_assoc; reflexivity).
    change (onto [hex_value ds] o) with (onto [hex_value ds] (after_read true o)). apply vyields_step; [apply (vgoes_charref _ _ _ _ _ _ _ _ VR); auto|].
    rewrite wt_wt. rewrite <- (onto_nil o). apply Forall_app in Hdc as [_ Hdc]. apply Forall_app in Hdc as [_ Hdc]. apply Forall_app in Hdc as [_ Hdc].
    eapply (IH t e enc dom _ []); eauto. constructor.
  - apply (vyields_prefix _ _ _ _ _ _ _ _ VR); auto; [vstop|].
    replace (txt "%" ++ n ++ txt ";" ++ cs) with (pwritten n ++ cs) in * by (unfold pwritten; rewrite <- !app_assoc; reflexivity).
    set (s1 := with_text p true s) in *. assert (Hl1 : look (utf8 n) (d_pents (s_dtd s1)) = Some x) by (rewrite <- Hl, <- Hg; reflexivity).
    assert (Y1 : vyields ext utf8_encode EInternal text (vopening (utf8 n) x s1) (Text v b)).
    { eapply (IH1 EInternal _ _ _ _ []); [apply inner_vreader| | | |apply orb_true_r| |exact Hsc|constructor].
      - unfold reads, encoding, vopening. change (s_cfg (set_dtd ?a s1)) with (s_cfg s). rewrite Hns. reflexivity.
      - exact Hns.
      - unfold vopening. change (s_dtd (set_dtd ?a s1)) with a. rewrite <- Hg. reflexivity.
      - exact Hex. }
    assert (Y2 : vyields ext enc t cs (with_text v b s1) o).
    { unfold s1. rewrite wt_wt. rewrite <- (onto_nil o). apply Forall_app in Hdc as [_ Hdc]. eapply (IH t e enc dom _ []); eauto. 2: constructor. rewrite <- Hg. unfold with_text. destruct (true && b); reflexivity. }
    destruct Y1 as (n1 & Y1). destruct Y2 as (n2 & Y2). exists (S (Nat.max n1 n2)). intros [|fuel] Hf; [lia|].
    specialize (Y1 fuel ltac:(lia)). specialize (Y2 fuel ltac:(lia)). cbv beta iota in Y1.
    assert (HA : s_isParam s1 || is_internal t = true) by exact Hal.
    assert (Q : ev_at ext enc t (S fuel) (pwritten n ++ cs) s1 = entity_value ext fuel t (flat_map enc cs) (with_text v b s1)).
    { unfold ev_at. rewrite (param_eq ext _ _ _ _ _ _ t VR n cs s1 fuel (Hw _ _) Hdc Hn) by (right; intros; congruence).
      rewrite HA, Hl1, Ho, Hsy, Htx. cbv iota. change (flat_map utf8_encode text) with (utf8 text) in Y1. rewrite Y1. apply then_ret. apply vreclose; auto. }
    unfold ev_at in Q. rewrite Q. destruct o as [w b2|y]; [|destruct b; exact Y2]. rewrite Y2, wt_wt. destruct b; reflexivity.
  - apply (vyields_prefix _ _ _ _ _ _ _ _ VR); auto; [vstop|].
    replace (txt "%" ++ n ++ txt ";" ++ cs) with (pwritten n ++ cs) in * by (unfold pwritten; rewrite <- !app_assoc; reflexivity).
    set (s1 := with_text p true s) in *. assert (Hl1 : look (utf8 n) (d_pents (s_dtd s1)) = Some x) by (rewrite <- Hl, <- Hg; reflexivity).
    assert (HA : s_isParam s1 || is_internal t = true) by exact Hal.
    assert (Y2 : vyields ext enc t cs s1 o).
    { unfold s1. rewrite <- (onto_nil o). apply Forall_app in Hdc as [_ Hdc]. eapply (IH t e enc dom _ []); eauto. constructor. }
    destruct Y2 as (n2 & Y2). exists (S (S n2)). intros [|[|fuel]] Hf; [lia|lia|]. specialize (Y2 (S fuel) ltac:(lia)).
    assert (Q : ev_at ext enc t (S (S fuel)) (pwritten n ++ cs) s1 = entity_value ext (S fuel) t (flat_map enc cs) s1).
    { unfold ev_at. rewrite (param_eq ext _ _ _ _ _ _ t VR n cs s1 (S fuel) (Hw _ _) Hdc Hn) by (right; intros; congruence).
      rewrite HA, Hl1, Ho, Hsy, Htx. 
      replace (entity_value ext (S fuel) EInternal [] (vopening (utf8 n) x s1)) with (Ret XE_NONE (with_text [] true (vopening (utf8 n) x s1))) by (rewrite wt_nil; reflexivity).
      rewrite <- (wt_nil s1) at 2. apply then_ret. apply vreclose; auto. }
    unfold ev_at in Q. rewrite Q. destruct o; exact Y2.
  - apply (vyields_prefix _ _ _ _ _ _ _ _ VR); auto; [vstop|].
    replace (txt "%" ++ n ++ txt ";" ++ cs) with (pwritten n ++ cs) in * by (unfold pwritten; rewrite <- !app_assoc; reflexivity).
    set (s1 := with_text p true s) in *. assert (Hl1 : look (utf8 n) (d_pents (s_dtd s1)) = Some x) by (rewrite <- Hl, <- Hg; reflexivity).
    assert (HA : s_isParam s1 || is_internal t = true) by exact Hal.
    assert (Y2 : vyields ext enc t cs (with_text [] false s1) o).
    { unfold s1. rewrite wt_wt. rewrite <- (onto_nil o). apply Forall_app in Hdc as [_ Hdc]. eapply (IH t e enc dom _ []); eauto. constructor. }
    destruct Y2 as (n2 & Y2). exists (S n2). intros [|fuel] Hf; [lia|]. specialize (Y2 fuel ltac:(lia)).
    assert (Q : ev_at ext enc t (S fuel) (pwritten n ++ cs) s1 = entity_value ext fuel t (flat_map enc cs) (with_text [] false s1)).
    { unfold ev_at. rewrite (param_eq ext _ _ _ _ _ _ t VR n cs s1 fuel (Hw _ _) Hdc Hn) by (left; change (s_cfg s1) with (s_cfg s); congruence).
      rewrite HA, Hl1, Ho. destruct (e_sys x); [reflexivity|congruence]. }
    unfold ev_at in Q. rewrite Q. destruct o as [w b2|y]; [|exact Y2]. rewrite Y2, wt_wt. reflexivity.
  - apply (vyields_prefix _ _ _ _ _ _ _ _ VR); auto; [vstop|].
    replace (txt "%" ++ n ++ txt ";" ++ cs) with (pwritten n ++ cs) in * by (unfold pwritten; rewrite <- !app_assoc; reflexivity).
    set (s1 := with_text p true s) in *. assert (Hl1 : look (utf8 n) (d_pents (s_dtd s1)) = None) by (rewrite <- Hl, <- Hg; reflexivity).
    assert (HA : s_isParam s1 || is_internal t = true) by exact Hal.
    exists 1%nat. intros [|fuel] Hf; [lia|].
    rewrite (param_eq ext _ _ _ _ _ _ t VR n cs s1 fuel (Hw _ _) Hdc Hn) by (right; intros; congruence). rewrite HA, Hl1. reflexivity.
  - apply (vyields_prefix _ _ _ _ _ _ _ _ VR); auto; [vstop|]. apply (vfails_token _ _ _ _ _ _ _ _ VR); auto.
    intros k VC. change (txt "&" ++ cs) with (38 :: cs) in *. rewrite (vtok_ref _ _ _ _ _ VC cs Hdc). apply (tok_stray _ _ _ _ _ (vc_att _ _ _ _ _ VC)); auto.
  - apply (vyields_prefix _ _ _ _ _ _ _ _ VR); auto; [vstop|]. apply (vfails_token _ _ _ _ _ _ _ _ VR); auto.
    intros k VC. apply (vtok_wrong _ _ _ _ _ VC); auto.
  - apply (vyields_prefix _ _ _ _ _ _ _ _ VR); auto; [vstop|]. eapply (vfails_charref _ _ _ _ _ _ _ _ VR); eauto.
  - apply (vyields_prefix _ _ _ _ _ _ _ _ VR); auto; [vstop|]. eapply (vfails_charref _ _ _ _ _ _ _ _ VR); eauto.
  - apply (vyields_prefix _ _ _ _ _ _ _ _ VR); auto; [vstop|].
    replace (txt "%" ++ n ++ txt ";" ++ cs) with (pwritten n ++ cs) in * by (unfold pwritten; rewrite <- !app_assoc; reflexivity).
    set (s1 := with_text p true s) in *. assert (HA : s_isParam s1 || is_internal t = false) by exact Hal.
    exists 1%nat. intros [|fuel] Hf; [lia|]. cbn [entity_value]. unfold pbind at 1. assert (Hr1 : encoding t s1 = Ret e s1) by apply Hw. rewrite Hr1. rewrite (ptok _ _ _ _ _ _ VR) by auto. unfold lift at 1, pbind at 1. unfold pbind at 1, get at 1.
    rewrite HA. eexists. reflexivity.
  - apply (vyields_prefix _ _ _ _ _ _ _ _ VR); auto; [vstop|].
    replace (txt "%" ++ n ++ txt ";" ++ cs) with (pwritten n ++ cs) in * by (unfold pwritten; rewrite <- !app_assoc; reflexivity).
    set (s1 := with_text p true s) in *. assert (Hl1 : look (utf8 n) (d_pents (s_dtd s1)) = Some x) by (rewrite <- Hl, <- Hg; reflexivity).
    assert (HA : s_isParam s1 || is_internal t = true) by exact Hal.
    exists 1%nat. intros [|fuel] Hf; [lia|].
    rewrite (param_eq ext _ _ _ _ _ _ t VR n cs s1 fuel (Hw _ _) Hdc Hn) by (right; intros; congruence). rewrite HA, Hl1, Ho.
    unfold pbind, set_event, pret, upd. destruct (is_internal t); eauto.
  - apply (vyields_prefix _ _ _ _ _ _ _ _ VR); auto; [vstop|].
    replace (txt "%" ++ n ++ txt ";" ++ cs) with (pwritten n ++ cs) in * by (unfold pwritten; rewrite <- !app_assoc; reflexivity).
    set (s1 := with_text p true s) in *. assert (Hl1 : look (utf8 n) (d_pents (s_dtd s1)) = Some x) by (rewrite <- Hl, <- Hg; reflexivity).
    assert (HA : s_isParam s1 || is_internal t = true) by exact Hal.
    assert (Y1 : vyields ext utf8_encode EInternal text (vopening (utf8 n) x s1) (Wrong y)).
    { eapply (IH1 EInternal _ _ _ _ []); [apply inner_vreader| | | |apply orb_true_r| |exact Hsc|constructor].
      - unfold reads, encoding, vopening. change (s_cfg (set_dtd ?a s1)) with (s_cfg s). rewrite Hns. reflexivity.
      - exact Hns.
      - unfold vopening. change (s_dtd (set_dtd ?a s1)) with a. rewrite <- Hg. reflexivity.
      - exact Hex. }
    destruct Y1 as (n1 & Y1). exists (S n1). intros [|fuel] Hf; [lia|]. specialize (Y1 fuel ltac:(lia)). cbv beta iota in Y1. destruct Y1 as (s2 & Y1).
    rewrite (param_eq ext _ _ _ _ _ _ t VR n cs s1 fuel (Hw _ _) Hdc Hn) by (right; intros; congruence). rewrite HA, Hl1, Ho, Hsy, Htx. cbv iota. change (flat_map utf8_encode text) with (utf8 text) in Y1. rewrite Y1.
    pose proof (entval_wrong _ _ _ _ _ _ _ _ H1) as Hy. unfold pbind, upd_entity, upd_dtd, upd, pret. destruct y; try congruence; eauto.
Qed.

Lemma inEV_back v b s : set_inEV (s_inEV s) (with_text v b (set_inEV true s)) = with_text v b s.
Proof. unfold with_text. change (s_dtd (set_inEV true s)) with (s_dtd s). generalize (set_d_ev (d_ev (s_dtd s) ++ utf8 v) (if b then s_dtd s else set_d_keep (d_standalone (s_dtd s)) (s_dtd s))). intros d. destruct s. reflexivity. Qed.
Theorem text_stored ext e enc dom lat ns s cs o :
  text_encoding e enc dom lat ns -> known (c_ns (s_cfg s)) (s_enc s) = e -> c_ns (s_cfg s) = ns -> all_in dom cs ->
  entval ns (h_external (c_h (s_cfg s))) lat false (s_isParam s) (d_pents (s_dtd s)) cs o ->
  exists n0, forall fuel, (n0 <= fuel)%nat ->
  match o with
  | Text v all_read => storeEntityValue ext fuel ENormal (flat_map enc cs) s = Ret XE_NONE (with_text v all_read s)
  | Wrong x => x <> XE_NONE /\ exists s', storeEntityValue ext fuel ENormal (flat_map enc cs) s = Ret x s'
  end.
Proof.
  intros TE He Hns Hd H.
  assert (Y : vyields ext enc ENormal cs (set_inEV true s) o).
  { rewrite <- (onto_nil o). eapply (entval_yields ext _ _ _ _ _ _ _ _ H ENormal e enc dom _ []); auto.
    - now apply te_vreader.
    - unfold reads, encoding. rewrite <- He. reflexivity.
    - apply orb_false_r.
    - constructor. }
  destruct Y as (n0 & Y). exists n0. intros fuel Hf. specialize (Y fuel Hf). unfold storeEntityValue, pbind, get, upd.
  destruct o as [v b|x].
  - rewrite Y. unfold pret. rewrite inEV_back. reflexivity.
  - split; [intros ->; exact (entval_wrong _ _ _ _ _ _ _ _ H eq_refl)|]. destruct Y as (s' & ->). eexists. reflexivity.
Qed.
Lemma parameter_dec lat ns cs : (exists n p, 37 :: cs = txt "%" ++ n ++ txt ";" ++ p /\ is_name lat ns n) \/ no_parameter lat ns (37 :: cs).
Proof.
  destruct (reference_dec lat ns (38 :: cs)) as [(r & p & E & K)|Hno].
  - destruct K as [n Hn ->|ds Hn Hds ->|ds Hn Hds ->].
    + left. exists n, p. split; [|exact Hn]. rewrite <- !app_assoc in E. change (38 :: cs) with (txt "&" ++ cs) in E. apply app_inv_head in E. rewrite E. reflexivity.
    + right. intros n q Eq (c & m & -> & Hc & _). change (txt "%") with [37] in Eq. injection Eq as Eq. change (txt "&#") with [38; 35] in E. cbn [List.app] in E. injection E as E. rewrite E in Eq. injection Eq as <- _. destruct lat, ns; discriminate Hc.
    + right. intros n q Eq (c & m & -> & Hc & _). change (txt "%") with [37] in Eq. injection Eq as Eq. change (txt "&#x") with [38; 35; 120] in E. cbn [List.app] in E. injection E as E. rewrite E in Eq. injection Eq as <- _. destruct lat, ns; discriminate Hc.
  - right. intros n q Eq Hn. change (txt "%") with [37] in Eq. injection Eq as Eq. destruct (Hno (txt "&" ++ n ++ txt ";") q) as [K _]; [rewrite <- !app_assoc, Eq; reflexivity|]. apply K. exists n. auto.
Qed.
Theorem text_exists ns handled lat inner allowed g cs : entity_texts g -> (handled = true -> forall n e, look n g = Some e -> e_sys e = None) ->
  exists o, entval ns handled lat inner allowed g cs o.
Proof.
  remember (AttTop.closed g) as k eqn:Ek. revert lat inner allowed g cs Ek. induction k as [k IHk] using lt_wf_ind. intros lat inner allowed g cs Ek T X.
  remember (length cs) as l eqn:El. revert lat inner allowed cs El. induction l as [l IHl] using lt_wf_ind. intros lat inner allowed cs El.
  assert (Rest : forall r p, cs = r ++ p -> r <> [] -> exists o, entval ns handled lat inner allowed g p o).
  { intros r p E Hr. apply (IHl (length p)); [|reflexivity]. subst. rewrite app_length. destruct r; [congruence|cbn [length]; lia]. }
  destruct cs as [|c cs]; [eexists; constructor|].
  destruct (N.eq_dec c 37) as [->|H37].
  { destruct (parameter_dec lat ns cs) as [(n & p & E & Hn)|Hno]; [|eexists; apply (ev_percent ns handled lat inner allowed g cs); exact Hno].
    rewrite E. destruct (Rest (txt "%" ++ n ++ txt ";") p) as (o & Ho); [rewrite E, <- !app_assoc; reflexivity|discriminate|].
    destruct allowed; [|eexists; now apply ev_forbidden].
    destruct (look (utf8 n) g) as [e|] eqn:Lk; [|eexists; now apply ev_undeclared].
    destruct (e_open e) eqn:Op; [eexists; eapply ev_recursive; eauto|].
    destruct (e_sys e) as [y|] eqn:Sy.
    { destruct handled; [exfalso; specialize (X eq_refl _ _ Lk); congruence|]. eexists; eapply ev_external; eauto. congruence. }
    destruct (e_text e) as [b|] eqn:Tx; [|eexists; eapply ev_no_text; eauto].
    destruct (T _ _ _ Lk Tx) as (text & Hsc & ->).
    destruct (IHk (AttTop.closed (put (utf8 n) (set_e_open true e) g))) with (lat := false) (inner := true) (allowed := true) (g := put (utf8 n) (set_e_open true e) g) (cs := text) as (o2 & Ho2).
    - rewrite Ek, <- (closed_put _ _ _ Lk Op). lia.
    - reflexivity.
    - now apply texts_put.
    - intros Hh m y. rewrite look_put. destruct (beqb m (utf8 n)); [intros Q; injection Q as <-; exact Sy|apply X, Hh].
    - destruct o2 as [v b|x]; [eexists; eapply ev_parameter; eauto|eexists; eapply ev_inside; eauto]. }
  destruct (N.eq_dec c 38) as [->|H38].
  - destruct (reference_dec lat ns (38 :: cs)) as [(r & p & E & K)|Hno]; [|eexists; apply (ev_stray ns handled lat inner allowed g cs); exact Hno].
    destruct (Rest r p E) as (o & Ho); [destruct K; subst r; discriminate|].
    rewrite E. destruct K as [n Hn Er|ds Hn Hds Er|ds Hn Hds Er]; subst r; rewrite <- !app_assoc.
    + eexists. apply ev_general; eauto.
    + destruct (is_xml_char (dec_value ds)) eqn:Xc; [eexists; apply ev_decimal; eauto|eexists; apply ev_bad_decimal; auto].
    + destruct (is_xml_char (hex_value ds)) eqn:Xc; [eexists; apply ev_hexadecimal; eauto|eexists; apply ev_bad_hexadecimal; auto].
  - destruct (Rest [c] cs eq_refl ltac:(discriminate)) as (o & Ho).
    assert (Nc : ~ In c (txt "&%")) by (intros [Q|[Q|[]]]; [apply H38; symmetry; exact Q|apply H37; symmetry; exact Q]).
    destruct (N.eq_dec c 13) as [->|H13]; [|eexists; apply ev_char; eauto; congruence].
    destruct inner eqn:Ei; [eexists; apply ev_char; eauto|].
    destruct cs as [|d cs]; [eexists; apply ev_cr; eauto; intros (r & E); discriminate|].
    destruct (N.eq_dec d 10) as [->|H10]; [|eexists; apply ev_cr; eauto; intros (r & E); congruence].
    destruct (Rest [13; 10] cs eq_refl ltac:(discriminate)) as (o2 & Ho2). eexists; apply ev_crlf; eauto.
Qed.
Lemma with_text_facts v b s : let s1 := with_text v b s in s_cfg s1 = s_cfg s /\ s_declEntity s1 = s_declEntity s /\ s_base s1 = s_base s /\ s_pid s1 = s_pid s /\ s_log s1 = s_log s /\
  d_ev (s_dtd s1) = d_ev (s_dtd s) ++ utf8 v /\ forall ref, entity_of s1 ref = entity_of s ref.
Proof. unfold with_text. cbv zeta. repeat split. intros [[|] n]; unfold entity_of, look_entity; cbn [fst snd]; destruct b; reflexivity. Qed.
Section Told.
Variables (e : EncImpl) (enc : N -> bytes) (dom : N -> bool) (lat ns : bool).
Hypothesis TE : text_encoding e enc dom lat ns.
Lemma value_acts x l o s ref : lit_ok dom l -> introduced s ref -> known (c_ns (s_cfg s)) (s_enc s) = e -> c_ns (s_cfg s) = ns ->
  entval ns (h_external (c_h (s_cfg s))) lat false (s_isParam s) (d_pents (s_dtd s)) (snd l) o ->
  exists n0, forall r k, rc_ext r = x -> (n0 <= rc_fuel r)%nat -> exists s1 s2 a,
    (match o with Text v b => a = XE_NONE /\ s1 = with_text v b s | Wrong w => a = w /\ w <> XE_NONE end) /\
    storeEntityValue x (rc_fuel r) ENormal (flat_map enc (snd l)) s = Ret a s1 /\ s2 = set_dtd (set_d_ev [] (s_dtd s1)) s1 /\
    role_action r R_ENTITY_VALUE k ENormal e false (SpecDeclEv.quoted enc l) 0 s =
      (do hd <- (match s_declEntity s1 with
                  | Some ent =>
                      upd_entity ent (set_e_text (Some (d_ev (s_dtd s1)))) ;;;
                      do y <- entity_at ent;
                      do base <- get s_base;
                      do on <- emit h_entityDecl (EvEntityDecl (snd ent) (e_is_param y) (Some (d_ev (s_dtd s1))) base None None None);
                      pret (negb on)
                  | None => pret true
                  end);
        match a with XE_NONE => pret hd | _ => fail a end) s2.
Proof.
  intros [Q Dcs] [De Ke _] Kn Ns Ent. destruct (text_stored x e enc dom lat ns s (snd l) o TE Kn Ns Dcs Ent) as (n0 & St).
  exists n0. intros r k Ex Hr. specialize (St _ Hr).
  assert (X : exists s1 a, (match o with Text v b => a = XE_NONE /\ s1 = with_text v b s | Wrong w => a = w /\ w <> XE_NONE end) /\ storeEntityValue x (rc_fuel r) ENormal (flat_map enc (snd l)) s = Ret a s1).
  { destruct o as [v b|w]; [eexists _, _; split; [split; reflexivity|exact St]|]. destruct St as (Hw & s' & St). exists s', w. auto. }
  destruct X as (s1 & a & Ho & X). exists s1, (set_dtd (set_d_ev [] (s_dtd s1)) s1), a. split; [exact Ho|]. split; [exact X|]. split; [reflexivity|].
  destruct (AttDeclLaws.quoted e enc dom lat ns TE (fst l) (snd l) Q) as (b & I1 & I2 & I3).
  cbn [role_action]. unfold pbind at 1, getd at 1, get at 1. cbv beta. rewrite Ke. unfold SpecDeclEv.quoted.
  unfold pbind at 1, inc at 1, lift at 1. rewrite I1. unfold pbind at 1, dec at 1. rewrite I2. unfold pret at 1. rewrite I3, Ex. unfold pbind at 1. rewrite X. reflexivity.
Qed.
Lemma value_told x l v b ps s ref : lit_ok dom l -> introduced s ref -> h_entityDecl (c_h (s_cfg s)) = true ->
  known (c_ns (s_cfg s)) (s_enc s) = e -> c_ns (s_cfg s) = ns -> d_ev (s_dtd s) = [] ->
  entval ns (h_external (c_h (s_cfg s))) lat false (s_isParam s) (d_pents (s_dtd s)) (snd l) (Text v b) ->
  spells ps (s_entity enc (SpecRole.Value (SpecDeclEv.quoted enc l))) ->
  exists n0, forall r, rc_ext r = x -> (n0 <= rc_fuel r)%nat -> exists s' y, acts r e ps s = Ret tt s' /\
    s_log s' = (s_pid s, EvEntityDecl (snd ref) (fst ref) (Some (utf8 v)) (s_base s) None None None) :: s_log s /\
    entity_of s' ref = Some y /\ definition y = (Some (utf8 v), None, e_base y, None, None, fst ref, e_is_internal y) /\ only_declared ref s s' /\
    d_ev (s_dtd s') = [].
Proof.
  intros L In H Kn Ns Ev0 Ent Sp. destruct (value_acts x l _ s ref L In Kn Ns Ent) as (n0 & A). destruct In as [De Ke (y & En & Y1 & Y2 & Y3 & Y4 & Y5)].
  assert (Red : forall r, acts r e ps s = acts r e (filter speaks (s_entity enc (SpecRole.Value (SpecDeclEv.quoted enc l)))) s) by (intros r; rewrite <- Sp; apply acts_spoken). clear Sp.
  exists n0. intros r Ex Hr. destruct (A r T_LITERAL Ex Hr) as (s1 & s2 & a & (-> & ->) & _ & -> & B). clear A.
  destruct (with_text_facts v b s) as (F1 & F2 & F3 & F4 & F5 & F6 & F7). set (s1 := with_text v b s) in *. clearbody s1.
  rewrite F2, De, F6, Ev0 in B. change ([] ++ utf8 v) with (utf8 v) in B. set (s2 := set_dtd (set_d_ev [] (s_dtd s1)) s1) in *.
  assert (En2 : forall r', entity_of s2 r' = entity_of s r').
  { intros r'. rewrite <- F7. unfold entity_of, look_entity. destruct (fst r'); reflexivity. }
  destruct (upd_known ref (set_e_text (@Some bytes (utf8 v))) s2 y (eq_trans (En2 ref) En)) as (s3 & U & E3 & K3).
  assert (D3 : d_ev (s_dtd s3) = []).
  { change (upd_entity ref (set_e_text (@Some bytes (utf8 v))) s2) with (Ret tt (EntInv.put_in ref (set_e_text (@Some bytes (utf8 v))) s2)) in U. injection U as <-. unfold EntInv.put_in. change (s_dtd (set_dtd ?z s2)) with z.
    destruct (look_entity ref (s_dtd s2)); [|reflexivity]. unfold put_entity. destruct (fst ref); reflexivity. }
  unfold pbind at 1, pbind at 1 in B. rewrite U in B. cbv beta iota in B. unfold pbind at 1, entity_at at 1, pbind at 1, get at 1 in B. unfold entity_of in E3. rewrite E3 in B. unfold pret at 1 in B.
  unfold pbind at 1, get at 1 in B. unfold pbind at 1, emit at 1, pbind at 1, handler at 1, get at 1 in B. rewrite (ki_cfg _ _ _ K3) in B. change (s_cfg s2) with (s_cfg s1) in B. rewrite F1, H in B. cbv beta iota in B.
  eexists _, (set_e_text (@Some bytes (utf8 v)) y). split.
  - rewrite Red. cbn [s_entity filter speaks snd punct acts]. unfold pbind at 1. rewrite B. reflexivity.
  - split; [|split; [|split; [|split]]].
    + rewrite <- F5, <- F4, <- F3. change (s_log s1) with (s_log s2). change (s_pid s1) with (s_pid s2). change (s_base s1) with (s_base s2). rewrite <- (ki_log _ _ _ K3), <- (ki_pid _ _ _ K3), <- (ki_base _ _ _ K3), <- Y5. reflexivity.
    + exact E3.
    + unfold definition. change (e_text (set_e_text ?z y)) with z. change (e_sys (set_e_text (@Some bytes (utf8 v)) y)) with (e_sys y). change (e_pub (set_e_text (@Some bytes (utf8 v)) y)) with (e_pub y). change (e_notation (set_e_text (@Some bytes (utf8 v)) y)) with (e_notation y). change (e_is_param (set_e_text (@Some bytes (utf8 v)) y)) with (e_is_param y).
      rewrite Y2, Y3, Y4, Y5. reflexivity.
    + intros r' Hr'. rewrite <- (En2 r'). exact (ki_other _ _ _ K3 r' Hr').
    + exact D3.
Qed.
Lemma value_refused x l w ps s ref : lit_ok dom l -> introduced s ref ->
  known (c_ns (s_cfg s)) (s_enc s) = e -> c_ns (s_cfg s) = ns ->
  entval ns (h_external (c_h (s_cfg s))) lat false (s_isParam s) (d_pents (s_dtd s)) (snd l) (Wrong w) ->
  spells ps (s_entity enc (SpecRole.Value (SpecDeclEv.quoted enc l))) ->
  exists n0, forall r, rc_ext r = x -> (n0 <= rc_fuel r)%nat -> match acts r e ps s with Ret _ _ => False | Fail w' _ => w' = w | Die _ => True end.
Proof.
  intros L In Kn Ns Ent Sp. destruct (value_acts x l _ s ref L In Kn Ns Ent) as (n0 & A). destruct In as [De Ke (y & En & _)].
  assert (Red : forall r, acts r e ps s = acts r e (filter speaks (s_entity enc (SpecRole.Value (SpecDeclEv.quoted enc l)))) s) by (intros r; rewrite <- Sp; apply acts_spoken). clear Sp.
  exists n0. intros r Ex Hr. destruct (A r T_LITERAL Ex Hr) as (s1 & s2 & a & (-> & Hw) & X & -> & B). clear A.
  rewrite Red. cbn [s_entity filter speaks snd punct acts]. unfold pbind at 1. rewrite B. unfold pbind at 1.
  assert (Y : forall (m : P bool) s2, (forall w' s', m s2 <> Fail w' s') -> match match m s2 with Ret a s => match w with XE_NONE => pret a | _ => fail w end s | Fail e s => Fail e s | Die x => Die x end with Ret _ _ => False | Fail w' _ => w' = w | Die _ => True end).
  { intros m s2 Hm. destruct (m s2) as [c s3|w' s3|]; [destruct w; try reflexivity; congruence|exfalso; eapply Hm; reflexivity|exact I]. }
  match goal with |- context [match ?m ?s2 with Ret a s => _ | Fail _ _ => _ | Die _ => _ end] => specialize (Y m s2) end.
  match type of Y with ?A -> _ => assert (Z : A) end.
  { clear. intros w' s'. destruct (s_declEntity s1) as [ent|]; [|discriminate]. generalize (set_dtd (set_d_ev [] (s_dtd s1)) s1). generalize (d_ev (s_dtd s1)). intros v s2.
    unfold upd_entity, upd_dtd, upd, entity_at, pbind, get. match goal with |- context [look_entity ent ?d] => destruct (look_entity ent d) end; [|discriminate].
    unfold pret, emit, pbind, handler, get, call, pret. match goal with |- context [if ?c then _ else _] => destruct c end; discriminate. }
  specialize (Y Z). clear Z B. revert Y. match goal with |- context [match ?m ?s2 with Ret a s => _ | Fail _ _ => _ | Die _ => _ end] => destruct (m s2) end; [|intros Y; exact Y|intros; exact I].
  destruct w; try congruence; intros Y; exact Y.
Qed.
End Told.
