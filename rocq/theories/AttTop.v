(* C35: collapsing, and every text has a value. *)
From Coq Require Import String List NArith ZArith Bool Lia Arith.
From Coq Require Import ZifyBool ZifyNat ZifyN.
From Verif Require Import Base Tables Encoding SpecText SpecUnicode SpecNames SpecLex SpecMisc EncLaws Tok TokMisc UniLaws UniConv SpecConv Charset CharsetLaws CpTag MiscTop DeclFinal AttCp Status State AttVal SpecAttVal CtxLaws AttNorm.
Import ListNotations.
Local Open Scope N_scope.

(* ---- collapsing ---- *)
Definition at_sp (a : list N) : bool := match rev a with [] => true | c :: _ => c =? 32 end.
Definition addc (a : list N) (c : N) : list N := if (c =? 32) && at_sp a then a else a ++ [c].
Definition strip (a : list N) : list N := if negb (is_nil a) && at_sp a then removelast a else a.
Lemma last_byte c : exists b r, rev (utf8_encode c) = b :: r /\ (b =? 32) = (c =? 32).
Proof.
  unfold utf8_encode.
  destruct (c <? 128) eqn:E1; [exists c, []; split; reflexivity|].
  assert (forall x, 128 + x =? 32 = false) by (intros; lia).
  destruct (c <? 2048); [|destruct (c <? 65536)]; (eexists _, _; split; [reflexivity|]); rewrite H; lia.
Qed.
Lemma at_space_utf8 a : at_space (utf8 a) = at_sp a.
Proof.
  unfold at_space, at_sp. destruct a as [|c a] using rev_ind; [reflexivity|]. rewrite utf8_app, rev_app_distr. cbn [utf8 flat_map].
  rewrite app_nil_r, rev_unit. destruct (last_byte c) as (b & r & -> & H). exact H.
Qed.
Lemma adds_cp v a : adds false (utf8 a) v = utf8 (fold_left addc v a).
Proof.
  revert a. induction v as [|c v IH]; intros a; [reflexivity|]. cbn [adds fold_left]. unfold adds in IH.
  rewrite <- IH. f_equal. unfold add, addc. rewrite at_space_utf8. cbn [negb andb].
  destruct ((c =? 32) && at_sp a); [reflexivity|]. rewrite utf8_app. cbn [utf8 flat_map]. rewrite app_nil_r. reflexivity.
Qed.
Lemma adds_cdata v acc : adds true acc v = acc ++ utf8 v.
Proof.
  revert acc. induction v as [|c v IH]; intros acc; cbn [adds fold_left]; [now rewrite app_nil_r|].
  unfold add at 2. cbn [negb andb]. unfold adds in IH. rewrite IH, utf8_cons, app_assoc. reflexivity.
Qed.
Definition spaced (ws : list (list N)) : list N := flat_map (fun w => w ++ [32]) ws.
Lemma join_last ws x : SpecMisc.join (ws ++ [x]) = spaced ws ++ x.
Proof.
  induction ws as [|w ws IH]; [reflexivity|]. cbn [List.app spaced flat_map]. unfold spaced in IH.
  replace (SpecMisc.join (w :: ws ++ [x])) with (w ++ 32 :: SpecMisc.join (ws ++ [x])) by (destruct ws; reflexivity).
  rewrite IH, <- !app_assoc. reflexivity.
Qed.
Lemma spaced_app a b : spaced (a ++ b) = spaced a ++ spaced b. Proof. apply flat_map_app. Qed.
Lemma at_sp_last a c : at_sp (a ++ [c]) = (c =? 32). Proof. unfold at_sp. rewrite rev_unit. reflexivity. Qed.
Lemma at_sp_spaced ws : at_sp (spaced ws) = true.
Proof.
  destruct ws as [|w ws] using rev_ind; [reflexivity|]. rewrite spaced_app. cbn [spaced flat_map]. rewrite app_nil_r, app_assoc, at_sp_last. reflexivity.
Qed.
Lemma at_sp_word ws w : w <> [] -> Forall (fun c => c <> 32) w -> at_sp (spaced ws ++ w) = false.
Proof.
  intros Hn Hw. destruct w as [|c w] using rev_ind; [congruence|]. rewrite app_assoc, at_sp_last. apply Forall_app in Hw as [_ Hw]. inversion Hw; subst. lia.
Qed.
Lemma is_nil_last (a : list N) c : is_nil (a ++ [c]) = false. Proof. destruct a; reflexivity. Qed.
Lemma strip_collapse v : forall ws w, Forall (fun c => c <> 32) w ->
  strip (fold_left addc v (spaced ws ++ w)) = SpecMisc.join (ws ++ words_after w v).
Proof.
  induction v as [|c v IH]; intros ws w Hw; cbn [fold_left words_after].
  - destruct w as [|d w].
    + rewrite !app_nil_r. unfold strip. rewrite at_sp_spaced, andb_true_r.
      destruct ws as [|x ws _] using rev_ind; [reflexivity|]. rewrite spaced_app, join_last. cbn [spaced flat_map]. rewrite app_nil_r, app_assoc.
      rewrite is_nil_last. cbn [negb]. rewrite removelast_last. reflexivity.
    + unfold strip. rewrite at_sp_word by (auto; discriminate). rewrite andb_false_r. rewrite join_last. reflexivity.
  - unfold addc at 2. destruct (c =? 32) eqn:Ec.
    + cbn [andb]. destruct w as [|d w].
      * rewrite app_nil_r, at_sp_spaced. rewrite <- (app_nil_r (spaced ws)). apply IH. constructor.
      * rewrite at_sp_word by (auto; discriminate). replace ((spaced ws ++ d :: w) ++ [c]) with (spaced (ws ++ [d :: w]) ++ []).
        -- rewrite IH by constructor. rewrite <- app_assoc. reflexivity.
        -- rewrite spaced_app. cbn [spaced flat_map]. rewrite !app_nil_r, <- app_assoc. replace c with 32 by lia. reflexivity.
    + cbn [andb]. rewrite <- app_assoc. apply IH. apply Forall_app. split; [exact Hw|]. constructor; [lia|constructor].
Qed.
Lemma removelast_utf8 a : at_sp a = true -> removelast (utf8 a) = utf8 (removelast a).
Proof.
  destruct a as [|c a] using rev_ind; [reflexivity|]. rewrite at_sp_last. intros H. replace c with 32 by lia.
  rewrite utf8_app. change (utf8 [32]) with [32]. rewrite !removelast_last. reflexivity.
Qed.
Lemma is_nil_utf8 a : is_nil (utf8 a) = is_nil a.
Proof. destruct a as [|c a]; [reflexivity|]. rewrite utf8_cons. pose proof (utf8_ne c). destruct (utf8_encode c); [congruence|reflexivity]. Qed.

Definition delivers (prolog : bool) (cdata : bool) (buf : bytes) (s : st) (o : outcome) : Prop :=
  exists n0, forall fuel, (n0 <= fuel)%nat ->
  match o with
  | Value v => storeAttributeValue fuel prolog ENormal cdata buf s = Ret (utf8 (normalised cdata v)) s
  | Error x => exists s', storeAttributeValue fuel prolog ENormal cdata buf s = Fail x s'
  end.

Theorem value_delivered e enc dom lat ns prolog cdata s cs o :
  text_encoding e enc dom lat ns -> known (c_ns (s_cfg s)) (s_enc s) = e -> c_ns (s_cfg s) = ns -> all_in dom cs ->
  attval ns (must_be_declared prolog s) lat false (d_gents (s_dtd s)) cs o ->
  delivers prolog cdata (flat_map enc cs) s o.
Proof.
  intros TE He Hns Hd H.
  assert (Y : yields prolog cdata enc ENormal cs [] s o).
  { rewrite <- (prepend_nil o). eapply (attval_yields _ _ prolog cdata _ _ _ _ _ H ENormal e enc dom s []); auto.
    - now apply te_reader.
    - unfold reads, encoding. rewrite <- He. reflexivity.
    - constructor. }
  destruct Y as (n0 & Y). exists n0. intros fuel Hf. specialize (Y fuel Hf). unfold storeAttributeValue.
  destruct o as [v|x].
  - unfold pbind at 1. rewrite Y. destruct cdata.
    + cbn [negb andb]. rewrite adds_cdata. reflexivity.
    + change (@nil N) with (utf8 []). rewrite adds_cp. cbn [negb andb normalised]. rewrite at_space_utf8, is_nil_utf8.
      pose proof (strip_collapse v [] [] ltac:(constructor)) as K. cbn [spaced flat_map List.app] in K. unfold collapse. rewrite <- K. unfold strip.
      destruct (negb (is_nil (fold_left addc v [])) && at_sp (fold_left addc v [])) eqn:E; [|reflexivity].
      apply andb_true_iff in E as [_ E]. rewrite <- removelast_utf8 by exact E. reflexivity.
  - destruct Y as (s' & Y). exists s'. unfold pbind. rewrite Y. reflexivity.
Qed.

(* ---- every text has a value ---- *)
Definition all_b (f : N -> bool) (l : list N) : bool := forallb f l.
Lemma all_b_spec f l : all_b f l = true <-> all_in f l.
Proof. unfold all_b, all_in. rewrite forallb_forall, Forall_forall. reflexivity. Qed.
Definition name_b lat ns (n : list N) : bool := match n with [] => false | c :: r => start_char lat ns c && all_b (name_char lat ns) r end.
Lemma name_b_spec lat ns n : name_b lat ns n = true <-> is_name lat ns n.
Proof.
  destruct n as [|c r]; cbn [name_b].
  - split; [discriminate|]. intros (c & r & E & _). discriminate.
  - rewrite andb_true_iff, all_b_spec. split; [intros [A B]; exists c, r; auto|]. intros (c' & r' & E & A & B). injection E as <- <-. auto.
Qed.
(* what stands between the first character and the last one, a semicolon *)
Definition inside (r : list N) : option (list N) :=
  match r with 38 :: r => match rev r with 59 :: n => Some (rev n) | _ => None end | _ => None end.
Lemma inside_some r n : inside r = Some n <-> r = txt "&" ++ n ++ txt ";".
Proof.
  change (txt "&") with [38]. change (txt ";") with [59]. split.
  - unfold inside. destruct r as [|c r]; [discriminate|]. destruct (N.eq_dec c 38) as [->|Hc].
    + destruct (rev r) as [|d q] eqn:E; [discriminate|]. destruct (N.eq_dec d 59) as [->|Hd].
      * intros K. injection K as <-. apply (f_equal (@rev N)) in E. rewrite rev_involutive in E. rewrite E. reflexivity.
      * intros K. exfalso. revert K Hd. clear. destruct d as [|p]; [discriminate|]. do 7 (try match goal with p : positive |- _ => destruct p as [p|p|]; try discriminate end). congruence.
    + intros K. exfalso. revert K Hc. clear. destruct c as [|p]; [discriminate|]. do 7 (try match goal with p : positive |- _ => destruct p as [p|p|]; try discriminate end). congruence.
  - intros ->. unfold inside. cbn [List.app]. rewrite rev_unit. rewrite rev_involutive. reflexivity.
Qed.
Inductive kind lat ns (r : list N) : Prop :=
| k_name n : is_name lat ns n -> r = txt "&" ++ n ++ txt ";" -> kind lat ns r
| k_dec ds : ds <> [] -> all_in is_digit ds -> r = txt "&#" ++ ds ++ txt ";" -> kind lat ns r
| k_hex ds : ds <> [] -> all_in is_hex ds -> r = txt "&#x" ++ ds ++ txt ";" -> kind lat ns r.
Lemma kind_dec lat ns r : kind lat ns r \/ (~ entity_ref lat ns r /\ ~ char_ref r).
Proof.
  destruct (inside r) as [m|] eqn:Ei.
  - destruct (name_b lat ns m) eqn:En.
    { left. apply (k_name _ _ _ m); [now apply name_b_spec|now apply inside_some]. }
    assert (Hn : ~ entity_ref lat ns r).
    { intros (n & Hn & E). apply inside_some in E. rewrite Ei in E. injection E as <-. apply name_b_spec in Hn. congruence. }
    assert (D : (exists ds, ds <> [] /\ all_in is_digit ds /\ m = 35 :: ds) \/ ~ (exists ds, ds <> [] /\ all_in is_digit ds /\ m = 35 :: ds)).
    { destruct m as [|c m]; [right; intros (ds & _ & _ & E); discriminate|]. destruct (N.eq_dec c 35) as [->|Hc]; [|right; intros (ds & _ & _ & E); injection E; auto].
      destruct m as [|d m]; [right; intros (ds & H & _ & E); injection E as <-; auto|].
      destruct (all_b is_digit (d :: m)) eqn:Ea; [left; exists (d :: m); split; [discriminate|split; [now apply all_b_spec|reflexivity]]|].
      right. intros (ds & _ & H & E). injection E as <-. apply all_b_spec in H. congruence. }
    assert (X : (exists ds, ds <> [] /\ all_in is_hex ds /\ m = 35 :: 120 :: ds) \/ ~ (exists ds, ds <> [] /\ all_in is_hex ds /\ m = 35 :: 120 :: ds)).
    { destruct m as [|c [|c2 m]]; [right; intros (ds & _ & _ & E); discriminate|right; intros (ds & _ & _ & E); discriminate|].
      destruct (N.eq_dec c 35) as [->|Hc]; [|right; intros (ds & _ & _ & E); injection E; auto].
      destruct (N.eq_dec c2 120) as [->|Hc]; [|right; intros (ds & _ & _ & E); injection E; auto].
      destruct m as [|d m]; [right; intros (ds & H & _ & E); injection E as <-; auto|].
      destruct (all_b is_hex (d :: m)) eqn:Ea; [left; exists (d :: m); split; [discriminate|split; [now apply all_b_spec|reflexivity]]|].
      right. intros (ds & _ & H & E). injection E as <-. apply all_b_spec in H. congruence. }
    apply inside_some in Ei.
    destruct D as [(ds & A & B & ->)|D]; [left; now apply (k_dec _ _ _ ds)|].
    destruct X as [(ds & A & B & ->)|X]; [left; now apply (k_hex _ _ _ ds)|].
    right. split; [exact Hn|]. intros [(ds & A & B & E)|(ds & A & B & E)].
    + apply D. exists ds. split; [exact A|split; [exact B|]]. rewrite Ei in E. change (txt "&#" ++ ds ++ txt ";") with (txt "&" ++ (35 :: ds) ++ txt ";") in E.
      apply app_inv_head in E. apply app_inv_tail in E. exact E.
    + apply X. exists ds. split; [exact A|split; [exact B|]]. rewrite Ei in E. change (txt "&#x" ++ ds ++ txt ";") with (txt "&" ++ (35 :: 120 :: ds) ++ txt ";") in E.
      apply app_inv_head in E. apply app_inv_tail in E. exact E.
  - right. assert (H : forall m, r <> txt "&" ++ m ++ txt ";") by (intros m E; apply inside_some in E; congruence).
    split; [intros (n & _ & E); exact (H _ E)|]. intros [(ds & _ & _ & E)|(ds & _ & _ & E)]; [exact (H (35 :: ds) E)|exact (H (35 :: 120 :: ds) E)].
Qed.
Lemma reference_dec lat ns cs : (exists r p, cs = r ++ p /\ kind lat ns r) \/ no_reference lat ns cs.
Proof.
  assert (H : forall n, (exists r p, cs = r ++ p /\ kind lat ns r) \/ forall i, (i < n)%nat -> ~ entity_ref lat ns (firstn i cs) /\ ~ char_ref (firstn i cs)).
  { induction n as [|n IH]; [right; lia|]. destruct IH as [IH|IH]; [left; exact IH|].
    destruct (kind_dec lat ns (firstn n cs)) as [K|K]; [left; exists (firstn n cs), (skipn n cs); split; [symmetry; apply firstn_skipn|exact K]|].
    right. intros i Hi. destruct (Nat.eq_dec i n) as [->|]; [exact K|apply IH; lia]. }
  destruct (H (S (length cs))) as [K|K]; [left; exact K|]. right. intros r p ->. specialize (K (length r)).
  rewrite firstn_app_len in K. apply K. rewrite app_length. lia.
Qed.
Lemma predefined_dec n : (exists x, In (n, x) predefined) \/ not_predefined n.
Proof.
  unfold not_predefined. induction predefined as [|[m x] l IH]; [right; intros x []|].
  destruct (list_eq_dec N.eq_dec m n) as [->|Hn]; [left; exists x; left; reflexivity|].
  destruct IH as [(y & IH)|IH]; [left; exists y; right; exact IH|right]. intros y [E|I]; [injection E; auto|exact (IH y I)].
Qed.

Fixpoint closed (g : entities) : nat := match g with [] => O | (_, e) :: g => ((if e_open e then 0 else 1) + closed g)%nat end.
Lemma closed_put n e g : look n g = Some e -> e_open e = false -> S (closed (put n (set_e_open true e) g)) = closed g.
Proof.
  intros H Ho. induction g as [|[m x] g IH]; [discriminate|]. cbn [look put] in *. destruct (beqb n m).
  - injection H as ->. cbn [closed]. rewrite Ho. reflexivity.
  - cbn [closed]. rewrite <- IH by exact H. lia.
Qed.
Lemma texts_put n e g : look n g = Some e -> entity_texts g -> entity_texts (put n (set_e_open true e) g).
Proof.
  intros H T m x b Hl. rewrite look_put in Hl. destruct (beqb m n) eqn:E.
  - injection Hl as <-. intros Hb. exact (T n e b H Hb).
  - exact (T m x b Hl).
Qed.

Theorem value_exists ns strict lat inner g cs : entity_texts g -> exists o, attval ns strict lat inner g cs o.
Proof.
  remember (closed g) as k eqn:Ek. revert lat inner g cs Ek. induction k as [k IHk] using lt_wf_ind. intros lat inner g cs Ek T.
  remember (length cs) as l eqn:El. revert lat inner cs El. induction l as [l IHl] using lt_wf_ind. intros lat inner cs El.
  assert (Rest : forall r p, cs = r ++ p -> r <> [] -> exists o, attval ns strict lat inner g p o).
  { intros r p E Hr. apply (IHl (length p)); [|reflexivity]. subst. rewrite app_length. destruct r; [congruence|cbn [length]; lia]. }
  destruct cs as [|c cs]; [eexists; constructor|].
  destruct (N.eq_dec c 60) as [->|H60]; [eexists; apply (av_less ns strict lat inner g cs)|].
  destruct (N.eq_dec c 38) as [->|H38].
  - destruct (reference_dec lat ns (38 :: cs)) as [(r & p & E & K)|Hno]; [|eexists; apply (av_stray ns strict lat inner g cs); exact Hno].
    destruct (Rest r p E) as (o & Ho); [destruct K; subst r; discriminate|].
    rewrite E. destruct K as [n Hn Er|ds Hn Hds Er|ds Hn Hds Er]; subst r; rewrite <- !app_assoc.
    + destruct (predefined_dec n) as [(x & I)|Hp]; [eexists; eapply av_predefined; eauto|].
      destruct (look (utf8 n) g) as [e|] eqn:Lk.
      2:{ destruct strict eqn:S; [eexists; now apply av_undeclared|eexists; apply av_skipped; eauto]. }
      assert (S : strict = true /\ e_is_internal e = false \/ (strict = true -> e_is_internal e = true)) by (destruct strict, (e_is_internal e); auto; right; discriminate).
      destruct S as [[S1 S2]|S]; [eexists; eapply av_declared_elsewhere; eauto|].
      destruct (e_open e) eqn:Op; [eexists; eapply av_recursive; eauto|].
      destruct (e_notation e) as [y|] eqn:Nt; [eexists; eapply av_unparsed; eauto; congruence|].
      destruct (e_text e) as [b|] eqn:Tx; [|eexists; eapply av_external; eauto].
      destruct (T _ _ _ Lk Tx) as (text & Hsc & ->).
      destruct (IHk (closed (put (utf8 n) (set_e_open true e) g))) with (lat := false) (inner := true) (g := put (utf8 n) (set_e_open true e) g) (cs := text) as (o2 & Ho2).
      * rewrite Ek, <- (closed_put _ _ _ Lk Op). lia.
      * reflexivity.
      * now apply texts_put.
      * destruct o2 as [v|x]; [eexists; eapply av_entity; eauto|eexists; eapply av_inside; eauto].
    + destruct (is_xml_char (dec_value ds)) eqn:X; [eexists; apply av_decimal; eauto|eexists; apply av_bad_decimal; auto].
    + destruct (is_xml_char (hex_value ds)) eqn:X; [eexists; apply av_hexadecimal; eauto|eexists; apply av_bad_hexadecimal; auto].
  - destruct (Rest [c] cs eq_refl ltac:(discriminate)) as (o & Ho).
    destruct (is_space c) eqn:Sp.
    + destruct (N.eq_dec c 13) as [->|H13]; [|eexists; apply av_space; eauto; congruence].
      destruct inner eqn:Ei; [eexists; apply av_space; eauto|].
      destruct cs as [|d cs]; [eexists; apply av_cr; eauto; intros (r & E); discriminate|].
      destruct (N.eq_dec d 10) as [->|H10]; [|eexists; apply av_cr; eauto; intros (r & E); congruence].
      destruct (Rest [13; 10] cs eq_refl ltac:(discriminate)) as (o2 & Ho2). eexists; apply av_crlf; eauto.
    + eexists. apply av_literal; eauto. split; [|exact Sp]. intros [E|[E|[]]]; subst c; [apply H38|apply H60]; reflexivity.
Qed.
