(* Tokenisers never panic, never read outside the buffer, always terminate, and report an end
   position inside the buffer.  Proved for every encoding satisfying [enc_ok]. *)
From Coq Require Import List NArith ZArith Bool Lia Arith.
From Verif Require Import Base Encoding Tok EncLaws TokWp.
Import ListNotations.

Section Safe.
Context {Q : N -> Prop}.
Variable e : EncImpl.
Hypothesis OK : enc_okq Q e.
Local Notation bytes_ok := (Forall Q).

Definition safe {B} (m : M B) : Prop :=
  forall b, bytes_ok b -> wp m b (safe_stop b) (fun _ _ => False).

Lemma safe_use {B} (m : M B) b b0 QC : safe m -> bytes_ok b -> suffix b b0 ->
  wp m b (safe_stop b0) QC.
Proof.
  intros Hm Hb Hs. eapply wp_mono; [apply Hm; auto| |intros ? ? []].
  intros t [p|]; simpl; auto. intros [? ?]; eauto using suffix_trans.
Qed.

Lemma scanComment_safe B : safe (@scanComment e B).
Proof.
  intros b0 Hb0. unfold scanComment.
  repeat wstep. while_tac b0. repeat wstep.
Qed.

Lemma scanDecl_safe B : safe (@scanDecl e B).
Proof.
  intros b0 Hb0. unfold scanDecl.
  repeat wstep; try (apply safe_use; [apply scanComment_safe | solve_side | solve_side]);
    while_tac b0; repeat wstep.
Qed.

Definition pi_res (r : option XML_TOK) : Prop :=
  r = None \/ r = Some T_PI \/ r = Some T_XML_DECL.

Lemma checkPiTarget_ok t : exists r, checkPiTarget e t = Ok r /\ pi_res r.
Proof.
  unfold pi_res.
  unfold checkPiTarget. destruct (length t =? minbpc e * 3) eqn:El; cbn [negb]; eauto.
  apply Nat.eqb_eq in El. pose proof (minbpc_pos _ OK).
  destruct (eo_ascii _ OK t) as [a ->]; [apply has_length; lia|]. cbn [bind].
  destruct (_ || _); cbn [negb]; eauto.
  destruct (inc_start_has (minbpc e) t) as [b1 E1]; [apply has_length; lia|]. rewrite E1. cbn [bind].
  apply inc_suffix in E1.
  destruct (eo_ascii _ OK b1) as [a1 ->]; [apply has_length; lia|]. cbn [bind].
  destruct (_ || _); cbn [negb]; eauto.
  destruct (inc_start_has (minbpc e) b1) as [b2 E2]; [apply has_length; lia|]. rewrite E2. cbn [bind].
  apply inc_suffix in E2.
  destruct (eo_ascii _ OK b2) as [a2 ->]; [apply has_length; lia|]. cbn [bind].
  destruct (_ || _); cbn [negb]; eauto.
  destruct (_ || _); cbn [negb]; eauto.
Qed.

Lemma wp_check_pi target b QS (QC : _ -> _ -> Prop) :
  (forall r, pi_res r -> QC r b) -> wp (check_pi_target e target) b QS QC.
Proof.
  intros HQ. unfold wp, check_pi_target. destruct (checkPiTarget_ok target) as [r [-> Hr]].
  cbn [bind]. auto.
Qed.

Lemma pi_name_safe b0 b : bytes_ok b0 -> suffix b b0 ->
  wp (pi_name e) b (safe_stop b0) (fun _ b' => suffix b' b0 /\ has (minbpc e) b' = true /\ length b' < length b).
Proof.
  intros Hb0 Hs. unfold pi_name. repeat wstep.
  apply (wp_loopb _ _ _ (fun _ b1 => suffix b1 b0 /\ length b1 < length b)); [|split; solve_side].
  intros [] b1 [S1 L1]. repeat wstep.
Qed.

Lemma pi_text_safe B tok b0 b : full_tok tok = true -> bytes_ok b0 -> suffix b b0 ->
  wp (@pi_text e B tok) b (safe_stop b0) (fun _ _ => False).
Proof.
  intros Ht Hb0 Hs. unfold pi_text. while_tac b0. repeat wstep.
Qed.

Lemma scanPi_safe B : safe (@scanPi e B).
Proof.
  intros b0 Hb0. unfold scanPi.
  apply wp_bind, wp_capture.
  eapply wp_mono; [apply (pi_name_safe b0); solve_side | auto |]. cbn [fst snd].
  intros t b (Hs & Hh & Hl).
  assert (G : forall tok, full_tok tok = true -> wp (mbind (adv1 e) (fun _ => @pi_text e B tok)) b (safe_stop b0) (fun _ _ => False)).
  { intros. repeat wstep. apply pi_text_safe; auto; solve_side. }
  repeat wstep; apply wp_check_pi; intros ? [->|[->| ->]]; try (apply G; reflexivity); repeat wstep.
Qed.

Lemma match_string_safe {A} s (k : M A) b0 : (forall b, suffix b b0 -> wp k b (safe_stop b0) (fun _ _ => False)) ->
  forall b, bytes_ok b0 -> suffix b b0 -> has (length s * minbpc e) b = true ->
  wp (match_string e s k) b (safe_stop b0) (fun _ _ => False).
Proof.
  intros Hk. induction s as [|c s IH]; simpl; intros b Hb0 Hs Hh; auto.
  assert (has (minbpc e) b = true) by (apply has_length in Hh; apply has_length; lia).
  repeat wstep. apply IH; auto.
  - solve_side.
  - eapply has_sub; eauto.
Qed.

Lemma scanCdataSection_safe B : safe (@scanCdataSection e B).
Proof.
  intros b0 Hb0. unfold scanCdataSection. apply wp_bind, wp_require; [solve_side|].
  intros Hh. apply match_string_safe; auto using suffix_refl.
  intros. wstep.
Qed.

Lemma scanEndTag_safe B : safe (@scanEndTag e B).
Proof.
  intros b0 Hb0. unfold scanEndTag.
  repeat wstep. while_tac b0. repeat wstep; while_tac b0; repeat wstep.
Qed.

Lemma scanHexCharRef_safe B : safe (@scanHexCharRef e B).
Proof.
  intros b0 Hb0. unfold scanHexCharRef.
  repeat wstep; while_tac b0; repeat wstep.
Qed.

Lemma scanCharRef_safe B : safe (@scanCharRef e B).
Proof.
  intros b0 Hb0. unfold scanCharRef.
  repeat wstep; try (apply safe_use; [apply scanHexCharRef_safe | solve_side | solve_side]);
    while_tac b0; repeat wstep.
Qed.

Lemma scanRef_safe B : safe (@scanRef e B).
Proof.
  intros b0 Hb0. unfold scanRef.
  repeat wstep; try (apply safe_use; [apply scanCharRef_safe | solve_side | solve_side]);
    while_tac b0; repeat wstep.
Qed.

Lemma partial_is_error t : partial_tok t = true -> tok_is_error t = true.
Proof. destruct t; simpl; intros; try discriminate; reflexivity. Qed.

Lemma atts_ref_safe b0 b : bytes_ok b0 -> suffix b b0 -> has (minbpc e) b = true ->
  wp (atts_ref e) b (safe_stop b0) (fun _ b' => suffix b' b0 /\ length b' < length b).
Proof.
  intros Hb0 Hs Hh. unfold wp, atts_ref. destruct (inc_start_has _ _ Hh) as [b1 E]. rewrite E. cbn [bind].
  assert (S1 : suffix b1 b0) by solve_side.
  assert (L1 : length b1 < length b) by solve_side.
  pose proof (scanRef_safe Empty_set b1 (suffix_bytes _ _ S1 Hb0)) as G. unfold wp in G.
  destruct (scanRef e b1) as [[t n|x b']|]; [|destruct x|auto].
  destruct n as [p|]; cbn [safe_stop] in G.
  - destruct G as [G1 G2]. destruct (tok_is_error t) eqn:Et.
    + destruct (tok_eqb t T_INVALID) eqn:Ei; cbn [safe_stop].
      * eauto using suffix_trans.
      * destruct t; try discriminate.
    + split; [eauto using suffix_trans|]. apply suffix_len in G1. lia.
  - rewrite (partial_is_error _ G). destruct (tok_eqb t T_INVALID) eqn:Ei; cbn [safe_stop]; auto.
    destruct t; discriminate.
Qed.

Lemma atts_open_safe b0 b : bytes_ok b0 -> suffix b b0 -> has (minbpc e) b = true ->
  wp (atts_open e) b (safe_stop b0)
     (fun _ b' => suffix b' b0 /\ has (minbpc e) b' = true /\ length b' < length b).
Proof.
  intros Hb0 Hs Hh. unfold atts_open.
  apply (wp_loopb _ _ _ (fun _ b1 => suffix b1 b0 /\ has (minbpc e) b1 = true /\ length b1 <= length b)); [|auto].
  intros [] b1 (S1 & H1 & L1). repeat wstep.
Qed.

Lemma atts_in_value_safe b0 b open : bytes_ok b0 -> suffix b b0 ->
  wp (atts_in_value e open) b (safe_stop b0)
     (fun _ b' => suffix b' b0 /\ has (minbpc e) b' = true /\ length b' <= length b).
Proof.
  intros Hb0 Hs. unfold atts_in_value.
  apply (wp_loopb _ _ _ (fun _ b1 => suffix b1 b0 /\ length b1 <= length b)); [|auto].
  intros [] b1 (S1 & L1). repeat wstep.
  eapply wp_mono; [apply (atts_ref_safe b0); solve_side | auto |].
  intros ? ? [? ?]. repeat wstep.
Qed.

Lemma atts_after_safe b0 b : bytes_ok b0 -> suffix b b0 -> has (minbpc e) b = true ->
  wp (atts_after e) b (safe_stop b0)
     (fun l b' => suffix b' b0 /\ (l <> L_None -> has (minbpc e) b' = true) /\ length b' < length b).
Proof.
  intros Hb0 Hs Hh. unfold atts_after. repeat wstep;
  (apply (wp_loopb _ _ _ (fun _ b1 => suffix b1 b0 /\ has (minbpc e) b1 = true /\ length b1 < length b));
   [|repeat split; solve_side];
   intros [] b1 (S1 & H1' & L1); repeat wstep; congruence).
Qed.

Lemma scanAtts_value_safe b0 b : bytes_ok b0 -> suffix b b0 -> has (minbpc e) b = true ->
  wp (scanAtts_value e) b (safe_stop b0) (fun _ b' => suffix b' b0 /\ length b' < length b).
Proof.
  intros Hb0 Hs Hh. unfold scanAtts_value.
  apply wp_bind. eapply wp_mono; [apply (atts_open_safe b0); solve_side | auto |].
  intros open b1 (S1 & H1 & L1).
  apply wp_bind, wp_adv1; [auto|]. intros b2 E2.
  apply wp_bind. eapply wp_mono; [apply (atts_in_value_safe b0); solve_side | auto |].
  intros _ b3 (S3 & H3 & L3).
  apply wp_bind. eapply wp_mono; [apply (atts_after_safe b0); solve_side | auto |].
  intros l b4 (S4 & H4 & L4).
  destruct l; [| assert (has (minbpc e) b4 = true) by (apply H4; discriminate) ..]; repeat wstep.
Qed.

Lemma atts_eq_safe b0 b : bytes_ok b0 -> suffix b b0 -> has (minbpc e) b = true ->
  wp (atts_eq e) b (safe_stop b0)
     (fun _ b' => suffix b' b0 /\ has (minbpc e) b' = true /\ length b' < length b).
Proof.
  intros Hb0 Hs Hh. unfold atts_eq.
  apply (wp_loopb _ _ _ (fun _ b1 => suffix b1 b0 /\ has (minbpc e) b1 = true /\ length b1 <= length b)); [|auto].
  intros [] b1 (S1 & H1 & L1). repeat wstep.
Qed.

Lemma scanAtts_safe B : safe (@scanAtts e B).
Proof.
  intros b0 Hb0. unfold scanAtts. while_tac b0. unfold scanAtts_body.
  assert (G : wp (mbind (atts_eq e) (fun _ => scanAtts_value e)) b (safe_stop b0)
     (fun _ b' => suffix b' b0 /\ length b' < length b)).
  { apply wp_bind. eapply wp_mono; [apply (atts_eq_safe b0); solve_side | auto |].
    intros _ b1 (S1 & H1 & L1). eapply wp_mono; [apply (scanAtts_value_safe b0); solve_side | auto |].
    intros ? ? [? ?]; split; [auto|lia]. }
  apply wp_bind, (wp_bt _ OK); [solve_side|auto|]. intros t Ht.
  apply (wp_check_name _ OK); [solve_side|auto|solve_side|solve_side|intros; split; solve_side|].
  intros _. destruct t; try exact G; try (apply (scanAtts_value_safe b0); solve_side); repeat wstep.
Qed.

Lemma scanLtHelper_safe B b0 b : bytes_ok b0 -> suffix b b0 -> has (minbpc e) b = true ->
  wp (@scanLtHelper e B) b (safe_stop b0) (fun _ _ => False).
Proof. intros Hb0 Hs Hh. unfold scanLtHelper. repeat wstep. Qed.

Lemma lt_space_safe b0 b : bytes_ok b0 -> suffix b b0 ->
  wp (lt_space e) b (safe_stop b0) (fun _ b' => suffix b' b0 /\ length b' < length b).
Proof.
  intros Hb0 Hs. unfold lt_space.
  apply (wp_loopb _ _ _ (fun _ b1 => suffix b1 b0 /\ length b1 <= length b)); [|auto].
  intros [] b1 (S1 & L1). repeat wstep.
  eapply wp_mono; [apply (scanLtHelper_safe _ b0); solve_side|auto|intros ? ? []].
Qed.

Lemma scanLt_safe B : safe (@scanLt e B).
Proof.
  intros b0 Hb0. unfold scanLt.
  repeat wstep; try (apply safe_use; [first [apply scanComment_safe | apply scanCdataSection_safe
    | apply scanPi_safe | apply scanEndTag_safe] | solve_side | solve_side]).
  while_tac b0. unfold lt_name_body.
  assert (G : wp (mbind (adv1 e) (fun _ => mbind (lt_space e) (fun _ => @scanAtts e bool))) b (safe_stop b0)
     (fun _ b' => suffix b' b0 /\ length b' < length b)).
  { apply wp_bind, wp_adv1; [auto|]. intros b1 E1.
    apply wp_bind. eapply wp_mono; [apply (lt_space_safe b0); solve_side | auto |].
    intros _ b2 (S2 & L2). apply safe_use; [apply scanAtts_safe | solve_side | solve_side]. }
  apply wp_bind, (wp_bt _ OK); [solve_side|auto|]. intros t1 Ht1.
  apply (wp_check_name _ OK); [solve_side|auto|solve_side|solve_side|intros; split; solve_side|].
  intros _. destruct t1; try exact G;
    try (eapply wp_mono; [apply (scanLtHelper_safe _ b0); solve_side|auto|intros ? ? []]); repeat wstep.
Qed.

Lemma scanPercent_safe B : safe (@scanPercent e B).
Proof.
  intros b0 Hb0. unfold scanPercent. repeat wstep. while_tac b0; repeat wstep.
Qed.

Lemma scanPoundName_safe B : safe (@scanPoundName e B).
Proof.
  intros b0 Hb0. unfold scanPoundName. repeat wstep. while_tac b0; repeat wstep.
Qed.

Lemma scanLit_safe B open : safe (@scanLit e B open).
Proof.
  intros b0 Hb0. unfold scanLit. while_tac b0; repeat wstep.
Qed.
End Safe.
