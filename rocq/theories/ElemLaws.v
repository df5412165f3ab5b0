(* C71: elements and their content are reported as they were written, in every encoding. *)
From Coq Require Import String List NArith ZArith Bool Lia Arith.
From Coq Require Import ZifyBool ZifyNat ZifyN.
From Verif Require Import Base Tables Encoding SpecText SpecUnicode SpecNames SpecLex SpecMisc EncLaws Tok TokMisc Norm UniLaws UniConv SpecConv Charset CharsetLaws TextEnc CpBase CpTag CpAtts MiscTop DeclFinal AttCp.
From Verif Require Import Status Role State AttVal Bind Atts Content Keep SpecNs NsRules SpecCtx CtxLaws SpecAttVal AttNorm AttTop SpecAtts AttsLaws AttsTop.
From Verif Require Nest CpContent.
From Verif Require Import AttsLog AttsText Core SpecDoc DocLaws DocTok DocItem DocAct SpecRef.
From Verif Require SpecData DataLaws SpecNote NoteLaws RefText.
From Coq Require Import List.
Import ListNotations.
Local Open Scope N_scope.

(* ---- names and values that do not use the extra letters ---- *)
Lemma start_lat lat ns c : start_char false ns c = true -> start_char lat ns c = true.
Proof. unfold start_char. cbn [andb]. rewrite orb_false_r. intros ->. reflexivity. Qed.
Lemma name_lat lat ns c : name_char false ns c = true -> name_char lat ns c = true.
Proof. unfold name_char. cbn [andb]. rewrite orb_false_r. intros ->. reflexivity. Qed.
Lemma is_name_lat lat ns n : is_name false ns n -> is_name lat ns n.
Proof. intros (c & r & -> & H1 & H2). exists c, r. split; [reflexivity|]. split; [apply start_lat, H1|]. eapply Forall_impl; [|exact H2]. intros a. apply name_lat. Qed.
Lemma is_qname_lat lat ns n : is_qname false ns n -> is_qname lat ns n.
Proof. intros [H|(E & p & l & -> & H1 & H2)]; [left; apply is_name_lat, H|right]. split; [exact E|]. exists p, l. repeat split; apply is_name_lat; assumption. Qed.
Lemma att_value_lat lat ns q v : att_value false ns q v -> att_value lat ns q v.
Proof.
  induction 1; [constructor|constructor; assumption|]. constructor; [|assumption]. destruct H as [H|H]; [left|right; exact H].
  destruct H as (n & E & H). exists n. split; [apply is_name_lat; exact E|exact H].
Qed.
Lemma tag_ok_lat lat ns name atts sp : tag_ok false ns name atts sp -> tag_ok lat ns name atts sp.
Proof.
  intros (H1 & H2 & H3). split; [apply is_qname_lat, H1|]. split; [|exact H3]. eapply Forall_impl; [|exact H2]. intros a (A1 & A2 & A3 & A4 & A5 & A6 & A7).
  repeat (split; [solve [assumption|apply is_qname_lat; assumption]|]). apply att_value_lat, A7.
Qed.
Lemma attval_lat lat ns strict cs o : attval ns strict false false [] cs o -> match o with Value v => attval ns strict lat false [] cs (Value v) | Error _ => True end.
Proof.
  intros H. remember false as l0 eqn:E0 in H at 1. remember false as i0 eqn:E1 in H at 1. remember [] as g0 eqn:E2 in H at 1. rewrite <- E1, <- E2. revert E0 E1 E2.
  induction H; intros E0 E1 E2; try exact I; try (subst g; discriminate); try (destruct o as [v'|]; [|exact I]; specialize (IHattval E0 E1 E2); cbn [prepend]).
  - apply av_end.
  - exact (av_literal ns strict lat inner g c cs (Value v') H IHattval).
  - exact (av_space ns strict lat inner g c cs (Value v') H H0 IHattval).
  - exact (av_crlf ns strict lat g cs (Value v') IHattval).
  - exact (av_cr ns strict lat g cs (Value v') H IHattval).
  - exact (av_decimal ns strict lat inner g ds cs (Value v') H H0 H1 IHattval).
  - exact (av_hexadecimal ns strict lat inner g ds cs (Value v') H H0 H1 IHattval).
  - exact (av_predefined ns strict lat inner g n x cs (Value v') H IHattval).
  - exact (av_skipped ns strict lat inner g n cs (Value v') (is_name_lat lat ns n ltac:(subst; assumption)) H0 H1 H2 IHattval).
Qed.

(* ---- what is heard ---- *)
Lemma pos_did s s0 : positions_only s s0 -> did [] s s0.
Proof.
  intros H. assert (E : s0 = set_evEnd (s_evEnd s0) (set_ev (s_ev s0) s)).
  { transitivity (set_evEnd (s_evEnd s0) (set_ev (s_ev s0) (set_evEnd None (set_ev None s0)))); [destruct s0; reflexivity|]. unfold positions_only in H. rewrite H. destruct s; reflexivity. }
  rewrite E. apply (did_more _ _ _ _ (did_ev (s_ev s0) s)). apply did_evEnd.
Qed.
Lemma told_did evs s s' : SpecData.told evs s s' -> did (flat_map heard evs) s s'.
Proof.
  intros (x & y & ->). constructor; [reflexivity|reflexivity|repeat split; reflexivity|apply tame_like; reflexivity|].
  unfold said. change (s_log (set_evEnd ?a (set_ev ?b (set_log ?l s)))) with l. rewrite rev_app_distr, rev_involutive, flat_map_app. f_equal.
  induction evs as [|ev evs IH]; [reflexivity|]. cbn [map flat_map snd]. rewrite IH. reflexivity.
Qed.
Lemma parts_merged parts t : concat parts = t -> merged (map Text parts) = merged [Text t].
Proof.
  intros <-. induction parts as [|a parts IH]; [reflexivity|]. cbn [map concat]. change (Text a :: map Text parts) with ([Text a] ++ map Text parts).
  rewrite (merged_eq [Text a] [Text a] _ _ eq_refl IH). apply merged_text.
Qed.
Lemma heard_parts parts : flat_map heard (map EvCharData parts) = map Text parts.
Proof. induction parts as [|a parts IH]; [reflexivity|]. cbn [map flat_map]. rewrite IH. reflexivity. Qed.

Section TE.
Variables (e : EncImpl) (enc : N -> bytes) (dom : N -> bool) (lat : bool).
Hypothesis TE : text_encoding e enc dom lat false.
Notation T cs := (flat_map enc cs).
Lemma dom_scalar c : dom c = true -> is_scalar c = true.
Proof.
  induction TE; auto; try (unfold is_scalar; lia).
  - unfold is_scalar_be. intros Hc. apply andb_prop in Hc. tauto.
  - unfold is_scalar_be. intros Hc. apply andb_prop in Hc. tauto.
  - intros Hc. destruct (c <? 128) eqn:L; [unfold is_scalar; lia|]. destruct (H2 c ltac:(lia) Hc) as (B & X & _). unfold is_xml_char, is_scalar in *. lia.
Qed.
Lemma dom_scalars cs : all_in dom cs -> all_in is_scalar cs.
Proof. intros H. eapply Forall_impl; [|exact H]. intros c. apply dom_scalar. Qed.
Record tenv (s : st) : Prop := {
  tv_ns : c_ns (s_cfg s) = false; tv_enc : s_enc s = EKnown e; tv_on : all_on (c_h (s_cfg s)); tv_idle : idle s;
  tv_gents : d_gents (s_dtd s) = []; tv_pe : d_hasPE (s_dtd s) = false }.
Lemma tenv_same s s' : same s s' -> tenv s -> tenv s'.
Proof. intros (E1 & E2 & _ & _ & E5 & E6 & _) [A1 A2 A3 A4 A5 A6]. constructor; try (unfold idle in *); rewrite ?E1, ?E2, ?E5, ?E6; assumption. Qed.
Lemma tcall ev s : tenv s -> exists r s', call ev s = Ret r s' /\ did (heard ev) s s'.
Proof.
  intros V. destruct (call_idle ev s (tv_idle s V)) as (r & s' & E & F & Pa & Dt & Sa). exists r, s'. split; [exact E|].
  assert (C : s_cfg s' = s_cfg s) by (apply fixed_cfg; exact F). constructor; auto; [unfold fixed in F; repeat split; congruence|apply tame_like; auto].
Qed.
Lemma temit h ev s : tenv s -> h (c_h (s_cfg s)) = true -> exists s', emit h ev s = Ret true s' /\ did (heard ev) s s'.
Proof. intros V H. unfold emit, pbind, handler, get. rewrite H. destruct (tcall ev s V) as (r & s' & -> & D). exists s'. auto. Qed.
Lemma t_encoding s : tenv s -> encoding ENormal s = Ret e s.
Proof. intros V. unfold encoding. rewrite (tv_enc s V). reflexivity. Qed.

Section Tags.
Variable sref : st.
Hypothesis EV : tenv sref.
Definition treads (k : nat) (a : att_src) (y : list N * list N) : Prop :=
  forall fuel, (k <= fuel)%nat -> storeAttributeValue fuel false ENormal true (T (as_value a)) sref = Ret (utf8 (snd y)) sref.
Lemma tvalue_reads a y : all_in dom (as_value a) -> attval false true false false [] (as_value a) (Value (snd y)) -> exists k, treads k a y.
Proof.
  intros Hs H. pose proof (value_delivered e enc dom lat false false true sref (as_value a) (Value (snd y)) TE) as K.
  destruct K as (n0 & K); [rewrite (tv_enc _ EV); reflexivity|apply (tv_ns _ EV)|exact Hs| |].
  - unfold must_be_declared. rewrite (tv_pe _ EV), (tv_gents _ EV). exact (attval_lat lat _ _ _ _ H).
  - exists n0. intros fuel Hf. exact (K fuel Hf).
Qed.
Lemma treads_all atts given : Forall2 (fun a y => fst y = as_name a /\ attval false true false false [] (as_value a) (Value (snd y))) atts given ->
  all_in dom (flat_map att_text atts) -> exists k, Forall2 (treads k) atts given.
Proof.
  induction 1 as [|a y atts given [_ H] F IH]; intros D; [exists 0%nat; constructor|]. cbn [flat_map] in D. apply Forall_app in D as [D1 D2].
  destruct (IH D2) as (k1 & F1). assert (Dv : all_in dom (as_value a)) by (unfold att_text, all_in in *; rewrite !Forall_app in D1; apply D1).
  destruct (tvalue_reads a y Dv H) as (k2 & F2). exists (k1 + k2)%nat. constructor; [intros f Hf; apply F2; lia|].
  clear -F1. induction F1 as [|a' y' l l' R F1 IH]; constructor; [intros f Hf; apply R; lia|exact IH].
Qed.
Lemma ttag_reads s k fuel el atts given xs : same sref s -> tame s -> (k <= fuel)%nat ->
  Forall2 (fun a y => fst y = as_name a /\ attval false true false false [] (as_value a) (Value (snd y))) atts given ->
  Forall2 (treads k) atts given -> all_in dom (flat_map att_text atts) ->
  Forall2 (fun a x => a_value x = T (as_value a) /\ (a_normalized x = true <-> already_normal (as_value a)) /\
    exists r, a_name x = Some (T (as_name a) ++ r) /\ nameLength e (T (as_name a) ++ r) = Ok (length (T (as_name a)))) atts xs ->
  Forall2 (read s el fuel ENormal) xs (shown given).
Proof.
  intros S Tm L. pose proof (tenv_same _ _ S EV) as V. intros G. revert xs. induction G as [|a y atts given [G1 G2] G IH]; intros xs R D F.
  - inversion F; subst. constructor.
  - inversion F as [|? x ? xs' (X1 & X2 & r & X3 & X4) F']; subst. inversion R as [|? ? ? ? Ra R']; subst. cbn [flat_map] in D. apply Forall_app in D as [D1 D2].
    cbn [shown map]. constructor; [|apply IH; assumption].
    unfold att_text, all_in in D1. rewrite !Forall_app in D1. destruct D1 as (_ & Dn & _ & _ & _ & _ & Dv & _).
    assert (St : forall cs, all_in dom cs -> store ENormal (T cs) s = Ret (utf8 cs) s).
    { intros cs Hc. unfold store, pbind. rewrite (t_encoding s V). unfold lift. rewrite (te_conv e enc dom lat false TE cs Hc). reflexivity. }
    split; cbn [fst snd].
    + exists e, (T (as_name a) ++ r), (length (T (as_name a))), (T (as_name a)). split; [apply t_encoding; exact V|]. split; [exact X3|]. split; [exact X4|]. split; [apply with_len_first|]. rewrite G1. apply St. exact Dn.
    + unfold value_of. destruct (a_normalized x) eqn:An.
      * rewrite X1, (St _ Dv). do 2 f_equal. symmetry. apply (normal_value _ _ _ _ _ _ true (proj1 X2 eq_refl)) in G2. exact G2.
      * unfold is_cdata. destruct Tm as [_ Tm]. rewrite (Tm el). cbn. rewrite X1. pose proof (value_same fuel false ENormal true (T (as_value a)) sref s S) as K. unfold agree in K. rewrite (Ra fuel L) in K. apply K.
Qed.
Lemma tag_doms name atts sp empty : all_in dom (tag_text name atts sp empty) -> all_in dom name /\ all_in dom (flat_map att_text atts).
Proof. unfold tag_text, all_in. rewrite !Forall_app. tauto. Qed.
Lemma tstoreAtts k fuel name atts given sp empty rest s : same sref s -> tame s -> tag_good name atts given sp ->
  all_in dom (tag_text name atts sp empty) -> Forall2 (treads k) atts given -> (k <= fuel)%nat ->
  exists so s', storeAtts fuel ENormal (T (tag_text name atts sp empty) ++ rest) (utf8 name) s = Ret so s' /\
    so_name so = utf8 name /\ so_atts so = shown given /\ so_bindings so = [] /\ did [] s s'.
Proof.
  intros S Tm (Hok & Nd & G) Hs R L. pose proof (tenv_same _ _ S EV) as V. pose proof (tv_ns s V) as Hn.
  destruct (te_getAtts e enc dom lat false TE name atts sp empty rest (tag_ok_lat lat _ _ _ _ Hok) Hs) as (xs & Hx & F).
  destruct (tag_doms _ _ _ _ Hs) as [Sn Sa].
  pose proof (ttag_reads s k fuel (utf8 name) atts given xs S Tm L G R Sa F) as Rd.
  pose proof (storeAtts_out fuel ENormal _ (utf8 name) s e xs (shown given) (proj1 Tm) (no_dangling_off s Hn (proj1 Tm)) (t_encoding s V) Hx Rd) as O.
  pose proof (cm_storeAtts fuel ENormal (T (tag_text name atts sp empty) ++ rest) (utf8 name) s) as C. unfold runs in O.
  destruct (storeAtts fuel ENormal (T (tag_text name atts sp empty) ++ rest) (utf8 name) s) as [so s'|x s'|x]; [| |destruct O].
  - exists so, s'. split; [reflexivity|]. pose proof (accepted_delivered _ _ _ _ _ O) as [D1 D2 D3]. rewrite Hn in D1, D3. rewrite ordinary_off, (attributes_none _ _ _ (proj2 Tm _)) in D1.
    split; [inversion D3; congruence|]. split.
    + clear -D1 Hn. induction D1 as [|y z l l' [A B] D IH]; [reflexivity|]. f_equal; [|exact IH]. inversion A; [|congruence]. destruct y, z; cbn [fst snd] in *; congruence.
    + split.
      * pose proof (ac_bindings _ _ _ _ _ O) as B. rewrite Hn, declared_off in B. cbn in B. destruct (so_bindings so); [reflexivity|discriminate].
      * destruct (C (tv_idle s V)) as (C1 & C2 & C3). constructor; auto.
        -- exact (ac_same _ _ _ _ _ O).
        -- intros _. split; [exact (ac_tables _ _ _ _ _ O)|]. intros el. rewrite (ac_decls _ _ _ _ _ O). apply Tm.
        -- rewrite app_nil_r. exact C3.
  - exfalso. pose proof (shown_nodup given (given_scalars _ _ _ G (dom_scalars _ Sa)) Nd) as Nd'. inversion O; congruence || contradiction.
Qed.
Definition ttag (name : list N) : tag := {| t_raw := T name; t_name := utf8 name; t_bindings := [] |}.
Lemma topen k r name atts given sp rest n s : same sref s -> tame s -> tag_good name atts given sp ->
  all_in dom (tag_text name atts sp false) -> Forall2 (treads k) atts given -> (k <= rc_fuel r)%nat ->
  exists s', start_tag r ENormal e (T (tag_text name atts sp false) ++ rest) n s = Ret tt s' /\
    did [begins name given] (set_tags (ttag name :: s_tags s) (set_tagLevel (S (s_tagLevel s)) s)) s'.
Proof.
  intros S Tm G Hs R L. set (s1 := set_tagLevel (Datatypes.S (s_tagLevel s)) s).
  assert (S1 : same sref s1) by exact S. assert (T1 : tame s1) by (apply (tame_like s); [reflexivity|reflexivity|exact Tm]).
  destruct (tag_doms _ _ _ _ Hs) as [Sn _].
  destruct (tstoreAtts k (rc_fuel r) name atts given sp false rest s1 S1 T1 G Hs R L) as (so & s2 & E & E1 & E2 & E3 & D).
  pose proof (tag_raw_name e enc dom lat false s TE name atts sp false rest (tag_ok_lat lat _ _ _ _ (proj1 G)) Hs s eq_refl) as TR.
  unfold start_tag, pbind at 1. rewrite TR.
  unfold pbind at 1, upd at 1. fold s1. unfold pbind at 1, lift at 1. rewrite (te_conv e enc dom lat false TE name Sn).
  unfold pbind at 1. rewrite E. unfold pbind at 1, get at 1. unfold pbind at 1.
  assert (V2 : tenv s2) by (eapply tenv_same; [exact (did_same _ _ _ D)|exact (tenv_same _ _ S1 EV)]).
  destruct (temit h_startElement (EvStartElement (so_name so) (so_atts so) (so_spec so) (s_idIx s2)) s2 V2) as (s3 & -> & D3); [apply (tv_on s2 V2)|].
  unfold pbind at 1, when at 1, pret at 1, upd at 1. cbn [negb]. eexists. split; [reflexivity|]. rewrite E1, E3. cbn [heard] in D3. rewrite E1, E2 in D3.
  pose proof (did_nil _ _ _ _ D D3) as [A1 A2 A3 A4 A5]. unfold fixed in A1. injection A1; intros.
  constructor.
  - unfold fixed. cbn. unfold ttag. repeat match goal with H : ?a = _ |- context [?a] => rewrite H end. reflexivity.
  - exact A2.
  - exact A3.
  - intros _. apply (tame_like s3); [reflexivity|reflexivity|]. apply A4. exact T1.
  - exact A5.
Qed.
Lemma tempty k r name atts given sp rest n s : same sref s -> tame s -> tag_good name atts given sp ->
  all_in dom (tag_text name atts sp true) -> Forall2 (treads k) atts given -> (k <= rc_fuel r)%nat ->
  exists s', empty_tag r ENormal e (T (tag_text name atts sp true) ++ rest) n s = Ret tt s' /\ did [begins name given; Ends (utf8 name)] s s'.
Proof.
  intros S Tm G Hs R L. pose proof (tenv_same _ _ S EV) as V. destruct (tag_doms _ _ _ _ Hs) as [Sn _].
  destruct (tstoreAtts k (rc_fuel r) name atts given sp true rest s S Tm G Hs R L) as (so & s2 & E & E1 & E2 & E3 & D).
  pose proof (tag_raw_name e enc dom lat false s TE name atts sp true rest (tag_ok_lat lat _ _ _ _ (proj1 G)) Hs s eq_refl) as TR.
  unfold empty_tag, pbind at 1. rewrite TR.
  unfold pbind at 1, lift at 1. rewrite (te_conv e enc dom lat false TE name Sn).
  unfold pbind at 1, try at 1. rewrite E. unfold pbind at 1, get at 1. unfold pbind at 1. pose proof (tenv_same _ _ (did_same _ _ _ D) V) as V2.
  destruct (temit h_startElement (EvStartElement (so_name so) (so_atts so) (so_spec so) (s_idIx s2)) s2 V2) as (s3 & -> & D3); [apply (tv_on s2 V2)|].
  unfold pbind at 1, when at 1, set_event_n, upd at 1. cbn [is_internal]. unfold pbind at 1.
  pose proof (tenv_same _ _ (did_same _ _ _ D3) V2) as V3. pose proof (did_ev (Some (length (T (tag_text name atts sp true) ++ rest) - n)%nat) s3) as D4. pose proof (tenv_same _ _ (did_same _ _ _ D4) V3) as V4.
  destruct (temit h_endElement (EvEndElement (so_name so)) _ V4) as (s5 & -> & D5); [apply (tv_on _ V4)|].
  unfold pbind at 1, when at 1, pret at 1. cbn [negb andb]. rewrite E3. cbn [freeBindings]. exists s5. split; [reflexivity|]. rewrite E1 in *. cbn [heard] in D3, D5. rewrite E2 in D3.
  apply (did_nil _ _ _ _ D). apply (did_trans [_] [_] _ _ _ (did_more _ _ _ _ D3 D4) D5).
Qed.
Lemma tclose name sp rest n s tgs : tenv s -> s_tags s = ttag name :: tgs -> is_name false false name -> spaces sp -> all_in dom name ->
  exists s', end_tag ENormal e (T (etag_text name sp) ++ rest) n s = Ret tt s' /\ did [Ends (utf8 name)] (set_tagLevel (pred (s_tagLevel s)) (set_tags tgs s)) s'.
Proof.
  intros V Et Hn Hsp Hs. destruct (text_encoding_std _ _ _ _ _ TE) as (k & CS & ST).
  assert (L2 : length (T (txt "</")) = (minbpc e * 2)%nat).
  { change (txt "</") with [60; 47]. cbn [flat_map]. rewrite !app_length, !(ch_narrow_len _ _ _ _ CS) by reflexivity. cbn [length]. lia. }
  unfold end_tag, pbind at 1, get at 1. rewrite Et. unfold pbind at 1, upd at 1. unfold etag_text. rewrite !flat_map_app, <- !app_assoc.
  unfold pbind at 1. rewrite <- L2, inc_p.
  unfold pbind at 1. unfold tag_raw. unfold pbind at 1. rewrite <- L2, inc_p. unfold pbind at 1, lift at 1.
  assert (X : exists c q, T sp ++ T (txt ">") ++ rest = enc c ++ q /\ (is_space c = true \/ c = 62)).
  { destruct sp as [|c sp]; [exists 62, rest; split; [|auto]; change (txt ">") with [62]; cbn [flat_map List.app]; rewrite app_nil_r; reflexivity|]. inversion Hsp; subst. cbn [flat_map]. rewrite <- app_assoc. eexists c, _. split; [reflexivity|auto]. }
  destruct X as (c & q & -> & Hc).
  assert (NL : nameLength e (T name ++ enc c ++ q) = Ok (length (T name))).
  { apply (nameLength_exact _ _ _ _ _ _ CS ST (te_ascii_dom _ _ _ _ _ TE)); auto; [left; apply is_name_lat; exact Hn|]. unfold name_end. destruct Hc as [Hc|Hc]; auto. }
  rewrite NL. unfold lift at 1. rewrite with_len_first. cbn [t_raw ttag]. rewrite Nest.beqb_refl. cbn [negb].
  unfold pbind at 1, upd at 1. unfold pbind at 1.
  set (s1 := set_tagLevel _ _).
  assert (V1 : tenv s1) by (destruct V; constructor; assumption).
  destruct (temit h_endElement (EvEndElement (utf8 name)) s1 V1) as (s5 & Em & D5); [apply (tv_on _ V1)|]. cbn [t_name ttag]. rewrite Em.
  unfold pbind at 1, when at 1, pret at 1. cbn [negb t_bindings ttag freeBindings]. exists s5. split; [reflexivity|]. exact D5.
Qed.
End Tags.
(* ---- content ---- *)
Section Run.
Variable sref : st.
Hypothesis EV : tenv sref.
Record ready (level : nat) (s : st) : Prop := { r_same : same sref s; r_tame : tame s; r_parsing : s_parsing s = PARSING; r_level : (level <= s_tagLevel s)%nat; r_one : (1 <= s_tagLevel s)%nat }.
Lemma ready_did level rs s s' : did rs s s' -> ready level s -> ready level s'.
Proof.
  intros [D1 D2 D3 D4 D5] [A1 A2 A3 A4 A5]. assert (E : s_tagLevel s' = s_tagLevel s) by (unfold fixed in D1; congruence).
  constructor; [eapply same_trans; eauto|auto|congruence|lia|lia].
Qed.
Lemma ready_env level s : ready level s -> tenv s. Proof. intros R. exact (tenv_same _ _ (r_same _ _ R) EV). Qed.
Lemma ready_quiet level s : ready level s -> DataLaws.quiet e s.
Proof. intros R. pose proof (ready_env _ _ R) as V. constructor; [apply (tv_enc _ V)|exact (tv_idle _ V)|apply (r_parsing _ _ R)|apply (tv_on _ V)]. Qed.
Definition goes (src : list N) (rs : list report) (ok : list N -> Prop) : Prop :=
  exists K, forall k level more rest s, (K <= k)%nat -> ready level s -> all_in dom (src ++ rest) -> ok rest ->
    exists k' s' rs', (k <= k' + K)%nat /\ doContent (knot k) level ENormal (T (src ++ rest)) more s = doContent (knot k') level ENormal (T rest) more s' /\
      did rs' s s' /\ merged rs' = merged rs.
Lemma goes_seq a ra oa b rb ob : goes a ra oa -> goes b rb ob -> (forall rest, ob rest -> oa (b ++ rest)) -> goes (a ++ b) (ra ++ rb) ob.
Proof.
  intros (K1 & H1) (K2 & H2) I. exists (K1 + K2)%nat. intros k level more rest s L R D O. rewrite <- app_assoc in D |- *.
  destruct (H1 k level more (b ++ rest) s ltac:(lia) R D (I _ O)) as (k1 & s1 & r1 & L1 & E1 & D1 & M1).
  assert (Db : all_in dom (b ++ rest)) by (unfold all_in in D; rewrite Forall_app in D; apply D).
  destruct (H2 k1 level more rest s1 ltac:(lia) (ready_did _ _ _ _ D1 R) Db O) as (k2 & s2 & r2 & L2 & E2 & D2 & M2).
  exists k2, s2, (r1 ++ r2). split; [lia|]. split; [rewrite E1; exact E2|]. split; [eapply did_trans; eauto|apply merged_eq; assumption].
Qed.
Lemma goes_on_ready k level more rest s : ready level s -> exists s', did [] s s' /\ goes_on (knot (S k)) level more rest s = doContent (knot k) level ENormal rest more s'.
Proof.
  intros R. unfold goes_on, after_token, set_event. cbn [is_internal]. unfold pbind, upd, get. change (s_parsing (set_ev ?x s)) with (s_parsing s). rewrite (r_parsing _ _ R).
  eexists. split; [|reflexivity]. apply did_ev.
Qed.
(* one event, then the rest *)
Lemma goes_event src ev : (forall r level more rest s, ready level s -> all_in dom (src ++ rest) -> exists s0 re s1, positions_only s s0 /\ call ev s0 = Ret re s1 /\
    doContent r level ENormal (T (src ++ rest)) more s = goes_on r level more (T rest) s1) -> goes src (heard ev) (fun _ => True).
Proof.
  intros H. exists 1%nat. intros [|k] level more rest s L R D _; [lia|]. destruct (H (knot (S k)) level more rest s R D) as (s0 & re & s1 & P0 & C & E).
  pose proof (pos_did _ _ P0) as D0. pose proof (ready_did _ _ _ _ D0 R) as R0. destruct (tcall ev s0 (ready_env _ _ R0)) as (re' & s1' & C' & D1). rewrite C in C'. injection C' as <- <-.
  destruct (goes_on_ready k level more (T rest) s1 (ready_did _ _ _ _ D1 R0)) as (s2 & D2 & E2).
  exists k, s2, (heard ev). split; [lia|]. split; [rewrite E; exact E2|]. split; [|reflexivity]. exact (did_nil _ _ _ _ D0 (did_more _ _ _ _ D1 D2)).
Qed.
Lemma goes_chars cs : all_in text_char cs -> ~ occurs (txt "]]>") cs -> goes cs [Text (utf8 (norm_eol cs))] SpecData.at_markup.
Proof.
  intros H1 H2. exists (length cs). intros k level more rest s L R D O.
  destruct (DataLaws.data_delivered e enc dom lat false TE level more (length cs) cs rest k s (le_n _) (conj H1 H2) O D (ready_quiet _ _ R) L) as (parts & k' & s' & A & C & B & E).
  exists k', s', (map Text parts). split; [lia|]. split; [exact E|]. split; [|apply parts_merged, C]. rewrite <- heard_parts. apply told_did, A.
Qed.
Lemma goes_section cs : SpecData.section_body cs -> goes (section_text cs) [SectionBegins; Text (utf8 (norm_eol cs)); SectionEnds] (fun _ => True).
Proof.
  intros H1. exists (S (length cs)). intros [|k] level more rest s L R D _; [lia|]. unfold section_text in *. rewrite <- !app_assoc in D |- *.
  pose proof (tv_on _ (ready_env _ _ R)) as On. destruct On as (_ & _ & _ & _ & _ & O1 & O2).
  destruct (DataLaws.section_delivered e enc dom lat false TE level more cs rest k s H1 D (ready_quiet _ _ R) O1 O2 ltac:(lia)) as (parts & s' & A & C & E).
  exists k, s', (SectionBegins :: map Text parts ++ [SectionEnds]). split; [lia|]. split; [exact E|]. split.
  - pose proof (told_did _ _ _ A) as D1. cbn [flat_map] in D1. rewrite flat_map_app, heard_parts in D1. exact D1.
  - apply (merged_eq [SectionBegins] [SectionBegins] _ ([Text (utf8 (norm_eol cs))] ++ [SectionEnds]) eq_refl). apply merged_eq; [apply parts_merged, C|reflexivity].
Qed.
Lemma goes_number cs v : SpecNote.number cs v -> is_xml_char v = true -> goes cs [Text (utf8 [v])] (fun _ => True).
Proof.
  intros Hn X. apply (goes_event cs (EvCharData (utf8 [v]))). intros r level more rest s R D. pose proof (ready_env _ _ R) as V.
  destruct (NoteLaws.number_in_content e enc dom lat false TE r level more s cs v rest Hn (tv_enc _ V) D) as (s0 & P0 & K).
  rewrite X in K. destruct (K ltac:(apply (tv_on _ V))) as (re & s1 & C & E). exists s0, re, s1. auto.
Qed.
Lemma goes_piece p : piece_good p -> match p with Empty _ _ _ _ => True | Chars _ => goes (piece_text p) (piece_reports p) SpecData.at_markup | _ => goes (piece_text p) (piece_reports p) (fun _ => True) end.
Proof.
  destruct p as [name atts given sp|cs|r c|cs|body|target data]; cbn [piece_good piece_text piece_reports]; intros H; auto.
  - apply goes_chars; apply H.
  - destruct H as [ds H1 H2 H3|ds H1 H2 H3|n c H].
    1, 2: apply goes_number; [constructor; assumption|assumption].
    destruct (predef_small n c H) as (_ & U & _). rewrite U. apply (goes_event _ (EvCharData [c])). intros r level more rest s R D. pose proof (ready_env _ _ R) as V.
    destruct (RefText.reference_short e enc dom lat false TE r level more s n rest (Stands c) (tv_enc _ V) (tv_ns _ V) (is_name_lat lat _ _ (predefined_name n c H)) D (mn_predefined _ _ _ H)) as (s0 & P0 & K).
    destruct (K ltac:(apply (tv_on _ V))) as (re & s1 & C & E). exists s0, re, s1. auto.
  - apply goes_section. exact H.
  - apply (goes_event _ (EvComment (utf8 (norm_eol body)))). intros r level more rest s R D. pose proof (ready_env _ _ R) as V.
    apply (NoteLaws.note_in_content e enc dom lat false TE r level more s (comment_text body)); [constructor; exact H|apply (tv_enc _ V)|apply (tv_on _ V)|exact D].
  - destruct H as (H1 & H2 & H3). apply (goes_event _ (EvPI (utf8 target) (utf8 (norm_eol (drop_spaces data))))). intros r level more rest s R D. pose proof (ready_env _ _ R) as V.
    apply (NoteLaws.note_in_content e enc dom lat false TE r level more s (pi_text target data)); [constructor; auto using is_name_lat|apply (tv_enc _ V)|apply (tv_on _ V)|exact D].
Qed.
(* a token in content *)
Lemma token_begins level s a q tok : ready level s -> contentTok e (T (a ++ q)) = Ok (tok, Some (length (T a))) ->
  exists s0, did [] s s0 /\ forall (f : EncImpl -> XML_TOK -> option nat -> P bytes),
    (set_event ENormal (T (a ++ q)) ;;; do e <- encoding ENormal; do (tok, n) <- scan_as ENormal true (T (a ++ q)); set_event_end_tok ENormal false (T (a ++ q)) n ;;; f e tok n) s = f e tok (Some (length (T a))) s0.
Proof.
  intros R Tk. pose proof (tv_enc _ (ready_env _ _ R)) as He. unfold set_event, set_event_end_tok. cbn [is_internal].
  exists (set_evEnd (Some (length (T (a ++ q)) - length (T a))%nat) (set_ev (Some (length (T (a ++ q)))) s)). split; [exact (did_more _ _ _ _ (did_ev _ s) (did_evEnd _ _))|]. intros f.
  unfold pbind at 1, upd at 1. unfold pbind at 1, encoding at 1. change (s_enc (set_ev ?a s)) with (s_enc s). rewrite He. cbn [known].
  unfold pbind at 1, scan_as at 1, scan at 1. change (s_enc (set_ev ?a s)) with (s_enc s). rewrite He. unfold lift at 1. rewrite Tk. reflexivity.
Qed.
Lemma inc_T a q s : inc (length (T a)) (T (a ++ q)) s = Ret (T q) s.
Proof. unfold inc, lift. rewrite flat_map_app, inc_start_app_len. reflexivity. Qed.
Lemma no_epilog r rest s : (1 <= s_tagLevel s)%nat -> maybe_epilog r rest s = Ret None s.
Proof. intros H. unfold maybe_epilog, pbind, get. replace (s_tagLevel s =? 0)%nat with false by lia. reflexivity. Qed.
Lemma dom_dec cs : {all_in dom cs} + {~ all_in dom cs}.
Proof. unfold all_in. apply Forall_dec. intros c. destruct (dom c); [left; reflexivity|right; discriminate]. Qed.
Lemma goes_empty name atts given sp : tag_good name atts given sp -> goes (tag_text name atts sp true) [begins name given; Ends (utf8 name)] (fun _ => True).
Proof.
  intros G. destruct G as (G1 & G2 & G3).
  destruct (dom_dec (tag_text name atts sp true)) as [Hs|Hs]; [|exists 0%nat; intros k level more rest s _ _ D; unfold all_in in D; rewrite Forall_app in D; destruct D; contradiction].
  destruct (treads_all sref EV atts given G3 (proj2 (tag_doms _ _ _ _ Hs))) as (kt & F). exists (S kt). intros [|k] level more rest s L R D _; [lia|].
  set (a := tag_text name atts sp true) in *.
  assert (Tk : contentTok e (T (a ++ rest)) = Ok (tag_token atts true, Some (length (T a)))).
  { apply (CpContent.contentTok_exact e enc dom lat false _ _ _ TE D); [destruct atts; discriminate|]. exists a, rest. split; [reflexivity|]. split; [constructor; apply tag_ok_lat, G1|reflexivity]. }
  destruct (token_begins level s a rest _ R Tk) as (s0 & D0 & B0). pose proof (ready_did _ _ _ _ D0 R) as R0.
  destruct (tempty sref EV kt (knot (S k)) name atts given sp (T rest) (length (T a)) s0 (r_same _ _ R0) (r_tame _ _ R0) (conj G1 (conj G2 G3)) Hs F ltac:(cbn [knot rc_fuel]; lia)) as (s1 & E1 & D1).
  pose proof (ready_did _ _ _ _ D1 R0) as R1. destruct (goes_on_ready k level more (T rest) s1 R1) as (s2 & D2 & E2).
  exists k, s2, [begins name given; Ends (utf8 name)]. split; [lia|]. split; [|split; [exact (did_nil _ _ _ _ D0 (did_more _ _ _ _ D1 D2))|reflexivity]].
  unfold doContent at 1. refine (eq_trans (B0 (fun e tok n => _)) _). fold a in E1. rewrite <- flat_map_app in E1.
  rewrite <- E2. destruct atts; cbn [tag_token]; cbv beta iota; unfold pbind at 1, need, pret at 1; unfold pbind at 1; rewrite E1; unfold pbind at 1; rewrite inc_T; unfold pbind at 1; rewrite (no_epilog _ _ _ (r_one _ _ R1)); reflexivity.
Qed.
Lemma goes_element name atts given sp kids rs sp' : tag_good name atts given sp -> spaces sp' -> goes kids rs SpecData.at_markup ->
  goes (tag_text name atts sp false ++ kids ++ etag_text name sp') (begins name given :: rs ++ [Ends (utf8 name)]) (fun _ => True).
Proof.
  intros (G1 & G2 & G3) Hsp (Kk & Hk). destruct (dom_dec (tag_text name atts sp false)) as [Hs|Hs]; [|exists 0%nat; intros k level more rest s _ _ D; unfold all_in in D; rewrite !Forall_app in D; tauto].
  destruct (treads_all sref EV atts given G3 (proj2 (tag_doms _ _ _ _ Hs))) as (kt & F). exists (S kt + Kk + 1)%nat. intros [|k] level more rest s L R D _; [lia|].
  rewrite <- !app_assoc in D |- *. set (a := tag_text name atts sp false) in *. set (q := kids ++ etag_text name sp' ++ rest) in *.
  assert (Tk : contentTok e (T (a ++ q)) = Ok (tag_token atts false, Some (length (T a)))).
  { apply (CpContent.contentTok_exact e enc dom lat false _ _ _ TE D); [destruct atts; discriminate|]. exists a, q. split; [reflexivity|]. split; [constructor; apply tag_ok_lat, G1|reflexivity]. }
  destruct (token_begins level s a q _ R Tk) as (s0 & D0 & B0). pose proof (ready_did _ _ _ _ D0 R) as R0.
  destruct (topen sref EV kt (knot (S k)) name atts given sp (T q) (length (T a)) s0 (r_same _ _ R0) (r_tame _ _ R0) (conj G1 (conj G2 G3)) Hs F ltac:(cbn [knot rc_fuel]; lia)) as (s1 & E1 & D1).
  set (s0' := set_tags (ttag name :: s_tags s0) (set_tagLevel (S (s_tagLevel s0)) s0)) in *.
  assert (R0' : ready level s0').
  { destruct R0 as [Q1 Q2 Q3 Q4 Q5]. constructor; [exact Q1|apply (tame_like s0); [reflexivity|reflexivity|exact Q2]|exact Q3| |]; change (s_tagLevel s0') with (S (s_tagLevel s0)); lia. }
  pose proof (ready_did _ _ _ _ D1 R0') as R1. destruct (goes_on_ready k level more (T q) s1 R1) as (s2 & D2 & E2). pose proof (ready_did _ _ _ _ D2 R1) as R2.
  assert (Dq : all_in dom q) by (unfold all_in in D; rewrite Forall_app in D; apply D).
  destruct (Hk k level more (etag_text name sp' ++ rest) s2 ltac:(lia) R2 Dq ltac:(exists 60, (47 :: name ++ sp' ++ txt ">" ++ rest); split; [unfold etag_text; rewrite <- !app_assoc; reflexivity|auto]))
    as (k3 & s3 & r3 & L3 & E3 & D3 & M3). pose proof (ready_did _ _ _ _ D3 R2) as R3.
  assert (De : all_in dom (etag_text name sp' ++ rest)) by (unfold all_in in Dq; unfold q in Dq; rewrite Forall_app in Dq; apply Dq).
  assert (Hn : is_name false false name) by (destruct G1 as ([H|(H & _)] & _); [exact H|discriminate]).
  assert (Tk4 : contentTok e (T (etag_text name sp' ++ rest)) = Ok (T_END_TAG, Some (length (T (etag_text name sp'))))).
  { apply (CpContent.contentTok_exact e enc dom lat false _ _ _ TE De); [discriminate|]. exists (etag_text name sp'), rest. split; [reflexivity|]. split; [apply ct_etag; split; [apply is_name_lat, Hn|exact Hsp]|reflexivity]. }
  destruct (token_begins level s3 (etag_text name sp') rest _ R3 Tk4) as (s4 & D4 & B4). pose proof (ready_did _ _ _ _ D4 R3) as R4.
  destruct k3 as [|k3]; [lia|].
  pose proof (did_trans _ _ _ _ _ D1 (did_nil _ _ _ _ D2 (did_more _ _ _ _ D3 D4))) as DD.
  assert (Ft : s_tags s4 = ttag name :: s_tags s0 /\ s_tagLevel s4 = S (s_tagLevel s0)).
  { pose proof (did_fixed _ _ _ DD) as X. unfold fixed in X. split; [transitivity (s_tags s0'); [congruence|reflexivity]|transitivity (s_tagLevel s0'); [congruence|reflexivity]]. }
  destruct Ft as [Ft1 Ft2].
  destruct (tclose name sp' (T rest) (length (T (etag_text name sp'))) s4 (s_tags s0) (ready_env _ _ R4) Ft1 Hn Hsp (proj1 (tag_doms name atts sp false Hs))) as (s5 & E5 & D5).
  set (s4' := set_tagLevel (Init.Nat.pred (s_tagLevel s4)) (set_tags (s_tags s0) s4)) in *.
  assert (D6 : did (begins name given :: r3 ++ [Ends (utf8 name)]) s0 s5).
  { pose proof (did_fixed _ _ _ DD) as X. unfold fixed in X. change (s_cfg s0') with (s_cfg s0) in X. change (s_pid s0') with (s_pid s0) in X. change (s_child s0') with (s_child s0) in X. change (s_isParam s0') with (s_isParam s0) in X.
    change (s_pep s0') with (s_pep s0) in X. change (s_foreign s0') with (s_foreign s0) in X. change (s_enc s0') with (s_enc s0) in X. change (s_processor s0') with (s_processor s0) in X.
    change (s_role s0') with (s_role s0) in X. change (s_open s0') with (s_open s0) in X. change (s_inherited s0') with (s_inherited s0) in X. change (s_final s0') with (s_final s0) in X.
    constructor.
    - rewrite (did_fixed _ _ _ D5). unfold fixed. change (s_tags s4') with (s_tags s0). change (s_tagLevel s4') with (Init.Nat.pred (s_tagLevel s4)). rewrite Ft2. cbn [Init.Nat.pred].
      change (s_cfg s4') with (s_cfg s4). change (s_pid s4') with (s_pid s4). change (s_child s4') with (s_child s4). change (s_isParam s4') with (s_isParam s4).
      change (s_pep s4') with (s_pep s4). change (s_foreign s4') with (s_foreign s4). change (s_enc s4') with (s_enc s4). change (s_processor s4') with (s_processor s4).
      change (s_role s4') with (s_role s4). change (s_open s4') with (s_open s4). change (s_inherited s4') with (s_inherited s4). change (s_final s4') with (s_final s4). congruence.
    - rewrite (did_parsing _ _ _ D5). change (s_parsing s4') with (s_parsing s4). rewrite (did_parsing _ _ _ DD). reflexivity.
    - pose proof (did_same _ _ _ DD) as Y. pose proof (did_same _ _ _ D5) as Z. exact (same_trans _ _ _ Y Z).
    - intros Tm. apply (did_tame _ _ _ D5). apply (tame_like s4); [reflexivity|reflexivity|exact (r_tame _ _ R4)].
    - rewrite (did_said _ _ _ D5). change (said s4') with (said s4). rewrite (did_said _ _ _ DD). change (said s0') with (said s0). cbn [List.app]. rewrite <- app_assoc. reflexivity. }
  pose proof (ready_did _ _ _ _ D6 R0) as R5. destruct (goes_on_ready k3 level more (T rest) s5 R5) as (s6 & D7 & E7).
  exists k3, s6, (begins name given :: r3 ++ [Ends (utf8 name)]). split; [lia|]. split; [|split; [exact (did_nil _ _ _ _ D0 (did_more _ _ _ _ D6 D7))|]].
  - transitivity (goes_on (knot (S k)) level more (T q) s1).
    { unfold doContent at 1. refine (eq_trans (B0 (fun e tok n => _)) _). fold a in E1. rewrite <- flat_map_app in E1.
      destruct atts; cbn [tag_token]; cbv beta iota; unfold pbind at 1, need, pret at 1; unfold pbind at 1; rewrite E1; unfold pbind at 1; rewrite inc_T; reflexivity. }
    rewrite E2; unfold q; rewrite E3, <- E7. unfold doContent at 1. refine (eq_trans (B4 (fun e tok n => _)) _). cbv beta iota. rewrite <- flat_map_app in E5.
    unfold pbind at 1, need, pret at 1. unfold pbind at 1, get at 1. replace (s_tagLevel s4 =? level)%nat with false by (rewrite Ft2; pose proof (r_level _ _ R0); lia).
    unfold pbind at 1. rewrite E5. unfold pbind at 1. rewrite inc_T. unfold pbind at 1. rewrite (no_epilog _ _ _ (r_one _ _ R5)). reflexivity.
  - apply (merged_eq [begins name given] [begins name given] (r3 ++ [Ends (utf8 name)]) (rs ++ [Ends (utf8 name)]) eq_refl). apply merged_eq; [exact M3|reflexivity].
Qed.
Definition is_chars (n : node) : bool := match n with Leaf (Chars _) => true | _ => false end.
Lemma markup_first n rest : good n -> is_chars n = false -> SpecData.at_markup (source n ++ rest).
Proof.
  intros G C. destruct n as [p|name atts given sp kids sp']; [|eexists _, _; split; [reflexivity|auto]].
  inversion G as [? H|]; subst. destruct p as [name atts given sp|cs|r c|cs|body|target data]; try discriminate; try (eexists _, _; split; [reflexivity|auto]).
  cbn [piece_good source piece_text] in *. destruct H; eexists _, _; (split; [reflexivity|auto]).
Qed.
Lemma node_induction (Q : node -> Prop) : (forall p, Q (Leaf p)) -> (forall name atts given sp kids sp', Forall Q kids -> Q (Element name atts given sp kids sp')) -> forall n, Q n.
Proof.
  intros H1 H2. fix IH 1. intros [p|name atts given sp kids sp']; [apply H1|]. apply H2. induction kids as [|x kids IHk]; constructor; [apply IH|exact IHk].
Qed.
Definition after (n : node) : list N -> Prop := if is_chars n then SpecData.at_markup else fun _ => True.
Lemma goes_list l : Forall (fun n => good n -> goes (source n) (reports n) (after n)) l -> Forall good l -> apart l -> goes (flat_map source l) (flat_map reports l) SpecData.at_markup.
Proof.
  induction l as [|n l IH]; intros H G A.
  { exists 0%nat. intros k level more rest s _ R D _. exists k, s, []. split; [lia|]. split; [reflexivity|]. split; [apply did_refl|reflexivity]. }
  inversion H as [|? ? Hn Hl]; subst. inversion G as [|? ? Gn Gl]; subst. cbn [flat_map].
  assert (Al : apart l) by (destruct n as [[]|]; cbn in A; try exact A; destruct l as [|[[]|] l]; try exact A; contradiction || exact I).
  apply (goes_seq _ _ (after n) _ _ SpecData.at_markup (Hn Gn) (IH Hl Gl Al)). intros rest Hr. unfold after. destruct (is_chars n) eqn:C; [|exact I].
  destruct l as [|m l]; [exact Hr|]. cbn [flat_map]. rewrite <- app_assoc. inversion Gl; subst. apply markup_first; [assumption|].
  destruct n as [[]|]; try discriminate. destruct m as [[]|]; try reflexivity. destruct A.
Qed.
Theorem goes_node n : good n -> goes (source n) (reports n) (after n).
Proof.
  induction n as [p|name atts given sp kids sp' IH] using node_induction; intros G; inversion G as [? H|? ? ? ? ? ? G1 G2 G3 G4]; subst.
  - pose proof (goes_piece p H) as K. destruct p; try exact K. apply goes_empty. exact H.
  - cbn [source reports]. apply goes_element; [assumption..|]. apply goes_list; assumption.
Qed.
Definition leads (src : list N) (rs : list report) (name : list N) : Prop :=
  exists K, forall k level more rest s, (K <= k)%nat -> ready level s -> all_in dom (src ++ rest) -> SpecData.at_markup rest ->
    exists k' s' rs', (k <= k' + K)%nat /\ doContent (knot k) level ENormal (T (src ++ rest)) more s = doContent (knot k') level ENormal (T rest) more s' /\
      did rs' (set_tags (ttag name :: s_tags s) (set_tagLevel (S (s_tagLevel s)) s)) s' /\ merged rs' = merged rs /\ ready level s' /\ s_tags s' = ttag name :: s_tags s /\ (level < s_tagLevel s')%nat.
Lemma leads_open name atts given sp kids rs : tag_good name atts given sp -> goes kids rs SpecData.at_markup -> leads (tag_text name atts sp false ++ kids) (begins name given :: rs) name.
Proof.
  intros (G1 & G2 & G3) (Kk & Hk). destruct (dom_dec (tag_text name atts sp false)) as [Hs|Hs]; [|exists 0%nat; intros k level more rest s _ _ D; unfold all_in in D; rewrite !Forall_app in D; tauto].
  destruct (treads_all sref EV atts given G3 (proj2 (tag_doms _ _ _ _ Hs))) as (kt & F). exists (S kt + Kk)%nat. intros [|k] level more rest s L R D O; [lia|].
  rewrite <- !app_assoc in D |- *. set (a := tag_text name atts sp false) in *. set (q := kids ++ rest) in *.
  assert (Tk : contentTok e (T (a ++ q)) = Ok (tag_token atts false, Some (length (T a)))).
  { apply (CpContent.contentTok_exact e enc dom lat false _ _ _ TE D); [destruct atts; discriminate|]. exists a, q. split; [reflexivity|]. split; [constructor; apply tag_ok_lat, G1|reflexivity]. }
  destruct (token_begins level s a q _ R Tk) as (s0 & D0 & B0). pose proof (ready_did _ _ _ _ D0 R) as R0.
  destruct (topen sref EV kt (knot (S k)) name atts given sp (T q) (length (T a)) s0 (r_same _ _ R0) (r_tame _ _ R0) (conj G1 (conj G2 G3)) Hs F ltac:(cbn [knot rc_fuel]; lia)) as (s1 & E1 & D1).
  assert (Es : s_tags s0 = s_tags s /\ s_tagLevel s0 = s_tagLevel s) by (pose proof (did_fixed _ _ _ D0) as X; unfold fixed in X; split; congruence). destruct Es as [Es1 Es2].
  set (s0' := set_tags (ttag name :: s_tags s0) (set_tagLevel (S (s_tagLevel s0)) s0)) in *.
  assert (R0' : ready level s0').
  { destruct R0 as [Q1 Q2 Q3 Q4 Q5]. constructor; [exact Q1|apply (tame_like s0); [reflexivity|reflexivity|exact Q2]|exact Q3| |]; change (s_tagLevel s0') with (S (s_tagLevel s0)); lia. }
  pose proof (ready_did _ _ _ _ D1 R0') as R1. destruct (goes_on_ready k level more (T q) s1 R1) as (s2 & D2 & E2). pose proof (ready_did _ _ _ _ D2 R1) as R2.
  assert (Dq : all_in dom q) by (unfold all_in in D; rewrite Forall_app in D; apply D).
  destruct (Hk k level more rest s2 ltac:(lia) R2 Dq O) as (k3 & s3 & r3 & L3 & E3 & D3 & M3). pose proof (ready_did _ _ _ _ D3 R2) as R3.
  pose proof (did_trans _ _ _ _ _ D1 (did_nil _ _ _ _ D2 D3)) as DD.
  assert (DX : did [] (set_tags (ttag name :: s_tags s) (set_tagLevel (S (s_tagLevel s)) s)) s0').
  { destruct D0 as [X1 X2 X3 X4 X5]. unfold fixed in X1. constructor.
    - unfold fixed, s0'. cbn. congruence.
    - exact X2.
    - exact X3.
    - intros Tm. apply (tame_like s0); [reflexivity|reflexivity|]. apply X4. apply (tame_like (set_tags (ttag name :: s_tags s) (set_tagLevel (S (s_tagLevel s)) s))); [reflexivity|reflexivity|exact Tm].
    - exact X5. }
  exists k3, s3, ([begins name given] ++ r3). split; [lia|]. split; [|split; [exact (did_nil _ _ _ _ DX DD)|]].
  - transitivity (goes_on (knot (S k)) level more (T q) s1); [|rewrite E2; exact E3].
    unfold doContent at 1. refine (eq_trans (B0 (fun e tok n => _)) _). fold a in E1. rewrite <- flat_map_app in E1.
    destruct atts; cbn [tag_token]; cbv beta iota; unfold pbind at 1, need, pret at 1; unfold pbind at 1; rewrite E1; unfold pbind at 1; rewrite inc_T; reflexivity.
  - split; [apply (merged_eq [begins name given] [begins name given] r3 rs eq_refl M3)|]. split; [exact R3|].
    pose proof (did_fixed _ _ _ DD) as X. unfold fixed in X. split; [transitivity (s_tags s0'); [congruence|rewrite <- Es1; reflexivity]|].
    assert (Y : s_tagLevel s3 = s_tagLevel s0') by congruence. rewrite Y. change (s_tagLevel s0') with (S (s_tagLevel s0)). pose proof (r_level _ _ R0). lia.
Qed.
Lemma T_inj a b : all_in dom a -> all_in dom b -> T a = T b -> a = b.
Proof.
  intros Ha Hb E. apply utf8_inj; try (apply dom_scalars; assumption). pose proof (te_conv e enc dom lat false TE a Ha) as X. rewrite E, (te_conv e enc dom lat false TE b Hb) in X. congruence.
Qed.
Lemma wrong_close name other sp rest level k more s : ready level s -> (level < s_tagLevel s)%nat -> (exists tgs, s_tags s = ttag name :: tgs) -> is_name false false other -> spaces sp ->
  all_in dom name -> all_in dom (etag_text other sp ++ rest) -> other <> name ->
  exists s' x tgs, doContent (knot k) level ENormal (T (etag_text other sp ++ rest)) more s = Fail XE_TAG_MISMATCH (set_ev x (set_tags tgs s')) /\ did [] s s'.
Proof.
  intros R Lv (tgs & Et) Hn Hsp Hd De Ne.
  assert (Tk4 : contentTok e (T (etag_text other sp ++ rest)) = Ok (T_END_TAG, Some (length (T (etag_text other sp))))).
  { apply (CpContent.contentTok_exact e enc dom lat false _ _ _ TE De); [discriminate|]. exists (etag_text other sp), rest. split; [reflexivity|]. split; [apply ct_etag; split; [apply is_name_lat, Hn|exact Hsp]|reflexivity]. }
  destruct (token_begins level s (etag_text other sp) rest _ R Tk4) as (s4 & D4 & B4). 
  assert (F4 : s_tags s4 = ttag name :: tgs /\ s_tagLevel s4 = s_tagLevel s) by (pose proof (did_fixed _ _ _ D4) as X; unfold fixed in X; split; congruence). destruct F4 as [F1 F2].
  exists s4, (Some (length (T (other ++ sp ++ txt ">" ++ rest)))), tgs. split; [|exact D4].
  unfold doContent at 1. refine (eq_trans (B4 (fun e tok n => _)) _). cbv beta iota.
  unfold pbind at 1, need, pret at 1. unfold pbind at 1, get at 1. replace (s_tagLevel s4 =? level)%nat with false by lia. unfold pbind at 1.
  destruct (text_encoding_std _ _ _ _ _ TE) as (kk & CS & ST).
  assert (L2 : length (T (txt "</")) = (minbpc e * 2)%nat).
  { change (txt "</") with [60; 47]. cbn [flat_map]. rewrite !app_length, !(ch_narrow_len _ _ _ _ CS) by reflexivity. cbn [length]. lia. }
  unfold end_tag at 1, pbind at 1, get at 1. rewrite F1. unfold pbind at 1, upd at 1. unfold pbind at 1. unfold etag_text. rewrite <- !app_assoc, <- L2, inc_T.
  unfold pbind at 1. unfold tag_raw. unfold pbind at 1. rewrite <- L2, inc_T. unfold pbind at 1, lift at 1.
  assert (X : exists c q, T (sp ++ txt ">" ++ rest) = enc c ++ q /\ (is_space c = true \/ c = 62)).
  { destruct sp as [|c sp']; [exists 62, (T rest); split; [|auto]; reflexivity|]. inversion Hsp; subst. eexists c, _. split; [reflexivity|auto]. }
  destruct X as (c & q & X & Hc). rewrite flat_map_app, X.
  assert (NL : nameLength e (T other ++ enc c ++ q) = Ok (length (T other))).
  { apply (nameLength_exact _ _ _ _ _ _ CS ST (te_ascii_dom _ _ _ _ _ TE)); auto; [left; apply is_name_lat; exact Hn| |].
    - unfold etag_text, all_in in De. rewrite !Forall_app in De. apply De.
    - unfold name_end. destruct Hc as [Hc|Hc]; auto. }
  rewrite NL. unfold lift at 1. rewrite with_len_first. cbn [t_raw ttag].
  assert (Bq : beqb (T other) (T name) = false).
  { apply not_true_is_false. intros B. apply Nest.beqb_eq in B. apply Ne, T_inj; auto. unfold etag_text, all_in in De. rewrite !Forall_app in De. apply De. }
  rewrite Bq. cbn [negb]. unfold set_event. cbn [is_internal]. unfold pbind, upd, fail. reflexivity.
Qed.
End Run.
End TE.
