(* Safety of the tokeniser entry points. *)
From Coq Require Import List NArith ZArith Bool Lia Arith.
From Verif Require Import Base Encoding Tok TokMisc EncLaws TokWp TokSafe SpecTok.
Import ListNotations.

Lemma partial_needs_more t : partial_tok t = true -> needs_more t.
Proof. destruct t; intros H; try discriminate H; constructor. Qed.

Section Top.
Context {Q : N -> Prop}.
Variable e : EncImpl.
Hypothesis OK : enc_okq Q e.
Local Notation bytes_ok := (Forall Q).
Local Notation safe := (@safe Q _).

(* at the top level a token also makes progress *)
Definition top_stop (b : bytes) (t : XML_TOK) (n : option bytes) : Prop :=
  match n with
  | Some p => suffix p b /\ (t = T_INVALID \/ t = T_INSTANCE_START \/ length p < length b)
  | None => partial_tok t = true
  end.

Lemma top_safe {A} (m : M A) b b0 QC (QC' : A -> bytes -> Prop) : consumed b0 b -> wp m b (safe_stop b) QC ->
  (forall a b', QC a b' -> QC' a b') -> wp m b (top_stop b0) QC'.
Proof.
  intros [Hs Hl] H HQ. eapply wp_mono; [exact H| |exact HQ].
  intros t [p|]; simpl; auto. intros [S1 F]. split; [eauto using suffix_trans|].
  apply suffix_len in S1. right; right; lia.
Qed.

Lemma top_safe' {A} (m : M A) b b0 QC' : safe m -> bytes_ok b -> consumed b0 b -> wp m b (top_stop b0) QC'.
Proof. intros H Hb Hc. eapply top_safe; eauto. intros ? ? []. Qed.

Ltac tside :=
  match goal with
  | |- top_stop _ T_INVALID (Some ?b) => cbn [top_stop]; split; [solve_side | left; reflexivity]
  | |- top_stop _ T_INSTANCE_START (Some ?b) =>
      cbn [top_stop]; split; [solve_side | right; left; reflexivity]
  | |- top_stop _ _ (Some _) => cbn [top_stop]; split; [solve_side | right; right; solve_side]
  | |- top_stop _ _ None => reflexivity
  | |- consumed _ _ => split; solve_side
  | |- _ => solve_side
  end.

Ltac tstep :=
  match goal with
  | |- wp (mbind _ _) _ _ _ => apply wp_bind
  | |- wp (ret _) _ _ _ => apply wp_ret
  | |- wp (stop_here _) _ _ _ => apply wp_stop_here; [tside]
  | |- wp (stop_none _) _ _ _ => apply wp_stop_none; [tside]
  | |- wp (stop_after _ _) _ _ _ => apply wp_stop_after; [tside | intros; tside]
  | |- wp (require_char _) _ _ _ => apply wp_require_char; [tside | intros]
  | |- wp (require_chars _ _) _ _ _ => apply wp_require; [tside | intros]
  | |- wp (require_or _ _ _) _ _ _ => apply wp_require; [tside | intros]
  | |- wp (require_bytes _ _) _ _ _ => apply wp_require_bytes; [tside | intros]
  | |- wp (bt _) _ _ _ => apply (wp_bt _ OK); [tside | tside | intros]
  | |- wp (matches _ _) _ _ _ => apply (wp_matches _ OK); [tside | intros [|] ?]; cbn [negb]
  | |- wp (bt_at _ 1) _ _ _ => apply (wp_bt_at _ OK); [tside | tside | intros]
  | |- wp (matches_at _ 1 _) _ _ _ => apply (wp_matches_at _ OK); [tside | intros [|]]; cbn [negb]
  | |- wp (adv1 _) _ _ _ => apply wp_adv1; [tside | intros]
  | |- wp (adv _) _ _ _ => apply wp_adv; [tside | intros]
  | |- wp (match_invalid _ _ _ _) _ _ _ =>
      apply (wp_match_invalid _ OK); [tside | tside | tside | tside | intros | intros]
  | |- wp (check_name _ _ _ _) _ _ _ =>
      apply (wp_check_name _ OK); [tside | tside | tside | tside | intros | intros]
  | |- wp (if ?c then _ else _) _ _ _ => destruct c
  | |- wp (match ?t with _ => _ end) _ _ _ => destruct t
  | |- _ /\ _ => split
  | |- _ => solve [tside]
  end.

Lemma cdata_run_safe B f b : bytes_ok b -> length b < f ->
  wp (@cdata_run e B f) b (safe_stop b) (fun _ _ => False).
Proof.
  intros Hb Hf. assert (G : forall f b0 b, bytes_ok b0 -> suffix b b0 -> length b < f ->
     wp (@cdata_run e B f) b (safe_stop b0) (fun _ _ => False)).
  { clear -OK. induction f; intros b0 b Hb0 Hs Hf; [lia|]. unfold wp. cbn [cdata_run].
    unfold has_chars. rewrite Nat.mul_1_l.
    assert (St : safe_stop b0 T_DATA_CHARS (Some b)) by (split; auto).
    pose proof (suffix_bytes _ _ Hs Hb0) as Hb.
    destruct (has (minbpc e) b) eqn:Hh; [|exact St].
    destruct (eo_bt _ OK b Hb Hh) as [t Et]. rewrite Et. cbn [bind].
    assert (G : forall n, 1 <= n -> has n b = true ->
      match (let* b1 := inc_start n b in @cdata_run e B f b1) with
      | Ok (Stop t n) => safe_stop b0 t n | Ok (Cont _ _) => False | Err _ => False end).
    { intros n Hn H. destruct (inc_start_has _ _ H) as [b1 E]. rewrite E. cbn [bind].
      apply inc_suffix in E. destruct E as [S1 L1]. apply IHf; eauto using suffix_trans. lia. }
    pose proof (minbpc_pos _ OK).
    destruct (lead_len t) as [n|] eqn:El.
    - destruct (has n b) eqn:Hn; [|exact St]. cbn [negb].
      destruct (eo_invalid _ OK b t n Hb Et El Hn) as [r Er]. rewrite Er. cbn [bind].
      destruct r; [exact St|]. apply G; auto. eapply lead_pos; eauto.
    - destruct t; try exact St; apply G; auto. }
  apply G; auto using suffix_refl.
Qed.

Lemma content_run_safe B f b : bytes_ok b -> length b < f ->
  wp (@content_run e B f) b (safe_stop b) (fun _ _ => False).
Proof.
  intros Hb Hf. assert (G : forall f b0 b, bytes_ok b0 -> suffix b b0 -> length b < f ->
     wp (@content_run e B f) b (safe_stop b0) (fun _ _ => False)).
  { clear -OK. induction f; intros b0 b Hb0 Hs Hf; [lia|]. unfold wp. cbn [content_run].
    unfold has_chars. rewrite Nat.mul_1_l.
    assert (St : safe_stop b0 T_DATA_CHARS (Some b)) by (split; auto).
    pose proof (suffix_bytes _ _ Hs Hb0) as Hb.
    destruct (has (minbpc e) b) eqn:Hh; [|exact St].
    destruct (eo_bt _ OK b Hb Hh) as [t Et]. rewrite Et. cbn [bind].
    assert (G1 : forall n b1, 1 <= n -> inc_start n b = Ok b1 ->
      match (@content_run e B f b1) with
      | Ok (Stop t n) => safe_stop b0 t n | Ok (Cont _ _) => False | Err _ => False end).
    { intros n b1 Hn E.
      apply inc_suffix in E. destruct E as [S1 L1]. apply IHf; eauto using suffix_trans. lia. }
    assert (G : forall n, 1 <= n -> has n b = true ->
      match (let* b1 := inc_start n b in @content_run e B f b1) with
      | Ok (Stop t n) => safe_stop b0 t n | Ok (Cont _ _) => False | Err _ => False end).
    { intros n Hn H. destruct (inc_start_has _ _ H) as [b1 E]. rewrite E. cbn [bind]. eapply G1; eauto. }
    pose proof (minbpc_pos _ OK) as Hm.
    destruct (lead_len t) as [n|] eqn:El.
    - destruct (has n b) eqn:Hn; [|exact St]. cbn [negb].
      destruct (eo_invalid _ OK b t n Hb Et El Hn) as [r Er]. rewrite Er. cbn [bind].
      destruct r; [exact St|]. apply G; auto. eapply lead_pos; eauto.
    - destruct t; try exact St; try (apply G; auto; fail).
      destruct (has (2 * minbpc e) b) eqn:H2; [|exact St].
      destruct (inc_start_has _ _ Hh) as [b1 E]. rewrite E. cbn [bind].
      destruct (eo_match _ OK b1 c_RSQB) as [r Er].
      { eapply has_sub; [|eauto]. replace (minbpc e + minbpc e) with (2 * minbpc e) by lia. auto. }
      rewrite Er. cbn [bind]. destruct r; cbn [negb]; [|eapply G1; eauto].
      destruct (has (3 * minbpc e) b) eqn:H3; [|exact St].
      destruct (inc_start_has _ _ H2) as [b2 E2]. rewrite E2. cbn [bind].
      destruct (eo_match _ OK b2 c_GT) as [r Er2].
      { eapply has_sub; [|eauto]. replace (2 * minbpc e + minbpc e) with (3 * minbpc e) by lia. auto. }
      rewrite Er2. cbn [bind]. destruct r; cbn [negb]; [|eapply G1; eauto].
      apply inc_suffix in E2. destruct E2. split; eauto using suffix_trans. }
  apply G; auto using suffix_refl.
Qed.

Lemma cdataSectionScan_safe b0 : bytes_ok b0 -> has (minbpc e) b0 = true ->
  wp (@cdataSectionScan e Empty_set) b0 (top_stop b0) (fun _ _ => False).
Proof.
  intros Hb0 Hh. unfold cdataSectionScan. apply wp_bind, (wp_bt _ OK); [tside|tside|]. intros t Ht.
  apply wp_bind.
  eapply (wp_mono _ _ (top_stop b0) _ (fun _ b' => consumed b0 b')); [|auto|].
  2:{ intros _ b' C. eapply top_safe; [eauto|apply cdata_run_safe|auto].
      - destruct C; tside.
      - lia. }
  repeat tstep.
Qed.

Lemma scan_in {B} (m : M B) b0 b QC : bytes_ok b0 -> safe m -> consumed b0 b -> wp m b (top_stop b0) QC.
Proof. intros Hb0 Hm C. apply top_safe'; auto. destruct C. eauto using suffix_bytes. Qed.

Lemma contentScan_safe b0 : bytes_ok b0 -> has (minbpc e) b0 = true ->
  wp (@contentScan e Empty_set) b0 (top_stop b0) (fun _ _ => False).
Proof.
  intros Hb0 Hh. unfold contentScan. apply wp_bind, (wp_bt _ OK); [tside|tside|]. intros t Ht.
  apply wp_bind.
  eapply (wp_mono _ _ (top_stop b0) _ (fun _ b' => consumed b0 b')); [|auto|].
  2:{ intros _ b' C. eapply top_safe; [eauto|apply content_run_safe|auto].
      - destruct C; tside.
      - lia. }
  repeat tstep; try (apply scan_in; [tside| |tside]); auto using scanLt_safe, scanRef_safe.
Qed.

Lemma prolog_s_run_safe B f b0 b : bytes_ok b0 -> suffix b b0 -> has (minbpc e) b = true -> length b < f ->
  wp (@prolog_s_run e B f) b (top_stop b0) (fun _ _ => False).
Proof.
  revert b. induction f; intros b Hb0 Hs Hh Hf; [lia|]. unfold wp. cbn [prolog_s_run].
  destruct (inc_start_has _ _ Hh) as [b1 E]. rewrite E. cbn [bind].
  apply inc_suffix in E. destruct E as [S1 L1]. pose proof (minbpc_pos _ OK) as Hm.
  assert (S2 : suffix b1 b0) by eauto using suffix_trans.
  assert (St : top_stop b0 T_PROLOG_S (Some b1)).
  { split; auto. right; right. apply suffix_len in Hs. lia. }
  unfold has_chars. rewrite Nat.mul_1_l. destruct (has (minbpc e) b1) eqn:Hh1; [|exact St]. cbn [negb].
  destruct (eo_bt _ OK b1) as [t Et]; eauto using suffix_bytes. rewrite Et. cbn [bind].
  assert (G : wp (@prolog_s_run e B f) b1 (top_stop b0) (fun _ _ => False)).
  { apply IHf; auto. lia. }
  destruct t; try exact St; try exact G.
  destruct (length b1 =? minbpc e); [exact St|exact G].
Qed.

(* the states of the name loop: NAME, NMTOKEN or PREFIXED_NAME *)
Definition name_tok (t : XML_TOK) : bool :=
  match t with T_NAME | T_NMTOKEN | T_PREFIXED_NAME => true | _ => false end.

Lemma prolog_name_safe B tok b0 b : name_tok tok = true -> bytes_ok b0 -> consumed b0 b ->
  wp (@prolog_name e B tok) b (top_stop b0) (fun _ _ => False).
Proof.
  intros Ht Hb0 C. unfold prolog_name.
  apply (wp_while e _ _ _ _ (fun t b => name_tok t = true /\ consumed b0 b)).
  - intros s b1 [Hs C1] Hh. unfold prolog_name_body.
    pose proof (suffix_bytes _ _ (proj1 C1) Hb0) as Hb1. destruct C1 as [S1 L1].
    assert (Sn : forall p, suffix p b0 -> length p < length b0 -> top_stop b0 s (Some p)).
    { intros p Sp Lp. split; auto. }
    repeat tstep; try (apply Sn; solve_side); destruct s; try discriminate; repeat tstep.
  - intros s b1 [Hs _]. destruct s; try discriminate; eexists; split; reflexivity.
  - auto.
Qed.

Lemma prologScan_safe b0 : bytes_ok b0 -> has (minbpc e) b0 = true ->
  wp (@prologScan e Empty_set) b0 (top_stop b0) (fun _ _ => False).
Proof.
  intros Hb0 Hh. unfold prologScan. apply wp_bind, (wp_bt _ OK); [tside|tside|]. intros t Ht.
  pose proof (minbpc_pos _ OK) as Hm.
  destruct (lead_len t) as [n|] eqn:El.
  - assert (1 <= n) by (eapply lead_pos; eauto).
    repeat (first [ lazymatch goal with |- wp (lift_check _) _ _ _ => apply wp_lift; [eauto using eo_nmstrt, eo_name|intros [|]] end | tstep ]);
    apply prolog_name_safe; auto; split; solve_side.
  - assert (Gs : wp (@prolog_s_run e Empty_set (S (length b0))) b0 (top_stop b0) (fun _ _ => False)).
    { apply prolog_s_run_safe; auto using suffix_refl. }
    destruct t; try exact Gs;
    repeat (first [ lazymatch goal with |- wp (lift_check _) _ _ _ => apply wp_lift; [eauto using eo_nmstrtm, eo_namem|intros [|]] end | tstep ]);
    try (apply prolog_name_safe; auto; tside);
    try (apply scan_in; [tside|first [apply scanLit_safe|apply scanPercent_safe|apply scanPoundName_safe
      |apply scanDecl_safe|apply scanPi_safe]; exact OK|tside]).
    unfold wp. destruct (length b0 =? minbpc e)%nat; [|exact Gs].
    cbn [top_stop]. split; [apply suffix_nil|]. right; right. apply has_length in Hh. simpl; lia.
Qed.

Lemma ignoreScan_safe b0 : bytes_ok b0 ->
  wp (@ignoreScan e Empty_set) b0 (top_stop b0) (fun _ _ => False).
Proof.
  intros Hb0. unfold ignoreScan. while_tac b0. 2:reflexivity.
  apply wp_bind, (wp_bt _ OK); [tside|tside|]. intros t Ht.
  apply (wp_match_invalid _ OK); [tside|tside|tside|tside|intros; split; tside|intros].
  destruct t; repeat tstep.
  apply suffix_len in HI. lia.
Qed.

(* attributeValueTok and entityValueTok do not check for truncated characters: their input must
   end at a character boundary *)
Lemma value_run_ok (m : nat -> bool -> M Empty_set) :
  (forall f first b b0, bytes_ok b -> suffix b b0 ->
     (first = false -> length b < length b0) ->
     has (minbpc e) b = true ->
     (forall b', consumed b b' -> whole_chars e b' -> wp (m f false) b' (top_stop b0) (fun _ _ => False)) ->
     whole_chars e b ->
     wp (m (S f) first) b (top_stop b0) (fun _ _ => False)) ->
  (forall f b, has (minbpc e) b = false -> m f false b = Ok (Stop T_DATA_CHARS (Some b))) ->
  forall f first b b0, bytes_ok b0 -> suffix b b0 -> (first = false -> length b < length b0) ->
    (first = true -> has (minbpc e) b = true) -> length b < f ->
    whole_chars e b -> wp (m f first) b (top_stop b0) (fun _ _ => False).
Proof.
  intros Hstep Hend. induction f; intros first b b0 Hb0 Hs Hf Ht Hl Hw; [lia|].
  destruct (has (minbpc e) b) eqn:Hh.
  - apply Hstep; eauto using suffix_bytes. intros b' [C1 C2] Hw'.
    apply IHf; eauto using suffix_trans; try lia; try discriminate.
    intros _. apply suffix_len in Hs. lia.
  - destruct first; [specialize (Ht eq_refl); congruence|].
    unfold wp. rewrite Hend by auto. cbn [top_stop]. split; auto.
Qed.

Lemma whole_lead b t n : whole_chars e b -> has (minbpc e) b = true -> byte_type e b = Ok t ->
  lead_len t = Some n -> exists b', inc_start n b = Ok b' /\ whole_chars e b' /\ consumed b b'.
Proof.
  intros [? ?|? t1 n1 b' E1 E2 E3 W|? t1 b' E1 E2 E3 W] Hh E El.
  - congruence.
  - replace n with n1 by congruence. exists b'. repeat split; auto; [apply inc_suffix in E3; tauto|].
    apply (lead_pos e _ t1 n1 E1) in E2. apply inc_suffix in E3. lia.
  - congruence.
Qed.

Lemma whole_one b t : whole_chars e b -> has (minbpc e) b = true -> byte_type e b = Ok t ->
  lead_len t = None -> exists b', inc_start (minbpc e) b = Ok b' /\ whole_chars e b' /\ consumed b b'.
Proof.
  pose proof (minbpc_pos _ OK).
  intros [? ?|? t1 n1 b' E1 E2 E3 W|? t1 b' E1 E2 E3 W] Hh E El; try congruence.
  exists b'. repeat split; auto; apply inc_suffix in E3; [tauto|lia].
Qed.

Lemma data_stop b0 b first : suffix b b0 -> (first = false -> length b < length b0) -> first = false ->
  top_stop b0 T_DATA_CHARS (Some b).
Proof. intros Hs H ->. split; auto. Qed.

Lemma attributeValue_run_ok f first b b0 : bytes_ok b0 -> suffix b b0 ->
    (first = false -> length b < length b0) ->
    (first = true -> has (minbpc e) b = true) -> length b < f -> whole_chars e b ->
  wp (@attributeValue_run e Empty_set f first) b (top_stop b0) (fun _ _ => False).
Proof.
  revert f first b b0. apply (value_run_ok (@attributeValue_run e Empty_set)).
  2:{ intros f b Hh. destruct f; cbn [attributeValue_run]; unfold has_chars; rewrite Nat.mul_1_l, Hh; reflexivity. }
  intros f first b b0 Hb Hs Hf Hh IH Hw.
  unfold wp. cbn [attributeValue_run]. unfold has_chars. rewrite Nat.mul_1_l, Hh.
  destruct (eo_bt _ OK b Hb Hh) as [t Et]. rewrite Et. cbn [bind].
  pose proof (suffix_len _ _ Hs) as Ls.
  destruct (lead_len t) as [n|] eqn:El.
  - destruct (whole_lead _ _ _ Hw Hh Et El) as (b' & E & W & C). rewrite E. cbn [bind]. exact (IH b' C W).
  - destruct (whole_one _ _ Hw Hh Et El) as (b' & E & W & C).
    assert (G : wp (fun b => let* b1 := inc_start (minbpc e) b in @attributeValue_run e Empty_set f false b1) b
       (top_stop b0) (fun _ _ => False)).
    { unfold wp. rewrite E. cbn [bind]. exact (IH b' C W). }
    assert (SR : forall (m : M Empty_set), (wp m b (top_stop b) (fun _ _ => False)) -> wp m b (top_stop b0) (fun _ _ => False)).
    { intros m Hm. eapply wp_mono; [exact Hm| |auto]. intros t0 [p|]; simpl; auto.
      intros [? D]. split; [eauto using suffix_trans|]. intuition lia. }
    destruct t; try exact G;
     try (destruct first;
       [apply SR; repeat tstep; (apply scan_in; [tside|auto using scanRef_safe|tside])
       |apply (data_stop _ _ false); auto]; fail).
    split; auto.
Qed.

Lemma entityValue_run_ok f first b b0 : bytes_ok b0 -> suffix b b0 ->
    (first = false -> length b < length b0) ->
    (first = true -> has (minbpc e) b = true) -> length b < f -> whole_chars e b ->
  wp (@entityValue_run e Empty_set f first) b (top_stop b0) (fun _ _ => False).
Proof.
  revert f first b b0. apply (value_run_ok (@entityValue_run e Empty_set)).
  2:{ intros f b Hh. destruct f; cbn [entityValue_run]; unfold has_chars; rewrite Nat.mul_1_l, Hh; reflexivity. }
  intros f first b b0 Hb Hs Hf Hh IH Hw.
  unfold wp. cbn [entityValue_run]. unfold has_chars. rewrite Nat.mul_1_l, Hh.
  destruct (eo_bt _ OK b Hb Hh) as [t Et]. rewrite Et. cbn [bind].
  pose proof (suffix_len _ _ Hs) as Ls.
  destruct (lead_len t) as [n|] eqn:El.
  - destruct (whole_lead _ _ _ Hw Hh Et El) as (b' & E & W & C). rewrite E. cbn [bind]. exact (IH b' C W).
  - destruct (whole_one _ _ Hw Hh Et El) as (b' & E & W & C).
    assert (G : wp (fun b => let* b1 := inc_start (minbpc e) b in @entityValue_run e Empty_set f false b1) b
       (top_stop b0) (fun _ _ => False)).
    { unfold wp. rewrite E. cbn [bind]. exact (IH b' C W). }
    assert (SR : forall (m : M Empty_set), (wp m b (top_stop b) (fun _ _ => False)) -> wp m b (top_stop b0) (fun _ _ => False)).
    { intros m Hm. eapply wp_mono; [exact Hm| |auto]. intros t0 [p|]; simpl; auto.
      intros [? D]. split; [eauto using suffix_trans|]. intuition lia. }
    assert (PS : safe (percent_as_invalid (@scanPercent e Empty_set))).
    { intros b1 Hb1. pose proof (scanPercent_safe e OK Empty_set b1 Hb1) as P. unfold wp, percent_as_invalid in *.
      destruct (scanPercent e b1) as [[t1 [p|]|? ?]|]; auto; destruct t1; auto; destruct P; split; auto. }
    destruct t; try exact G;
     try (destruct first;
       [apply SR; repeat tstep; (apply scan_in; [tside|auto using scanRef_safe|tside])
       |apply (data_stop _ _ false); auto]; fail).
Qed.

(* ---- entry points ---- *)

Lemma even_prefix_spec b : exists k, even_prefix b = firstn k b /\ k <= length b /\ length b <= S k /\ Nat.Even k.
Proof.
  exists (2 * Nat.div2 (length b)). pose proof (Nat.div2_odd (length b)).
  destruct (Nat.odd (length b)); simpl Nat.b2n in *; repeat split; try lia; exists (Nat.div2 (length b)); lia.
Qed.

Lemma round_down_facts b : exists k, round_down e b = firstn k b /\ k <= length b.
Proof.
  unfold round_down. destruct (minbpc e =? 2)%nat.
  - destruct (even_prefix_spec b) as (k & ? & ? & _). eauto.
  - exists (length b). rewrite firstn_all. auto.
Qed.

Lemma round_down_has b : is_nil (round_down e b) = false -> has (minbpc e) (round_down e b) = true.
Proof.
  unfold round_down. pose proof (eo_min _ OK) as Hm. destruct (minbpc e =? 2)%nat eqn:E2.
  - apply Nat.eqb_eq in E2. rewrite E2.
    destruct (even_prefix_spec b) as (k & -> & H1 & H2 & [j Hj]).
    intros H. apply has_length. rewrite firstn_length_le by auto. destruct j; [subst; discriminate H|lia].
  - apply Nat.eqb_neq in E2. assert (minbpc e = 1) as -> by tauto. destruct b; [discriminate|reflexivity].
Qed.

Lemma bytes_firstn k b : bytes_ok b -> bytes_ok (firstn k b).
Proof. intros H. rewrite <- (firstn_skipn k b) in H. apply Forall_app in H. tauto. Qed.

Lemma run_ok m b n : wp m (firstn n b) (top_stop (firstn n b)) (fun _ _ => False) -> n <= length b ->
  tok_result_ok b (run m (firstn n b)).
Proof.
  intros H Hn. unfold run, wp in *. destruct (m (firstn n b)) as [[t [p|]|x ?]|]; try destruct x; auto.
  - destruct H as [Hs Hp]. cbn [option_map tok_result_ok]. apply suffix_len in Hs.
    rewrite firstn_length_le in * by auto. split; [lia|]. intuition lia.
  - apply partial_needs_more; auto.
Qed.

Lemma run_ok_all m b : wp m b (top_stop b) (fun _ _ => False) -> tok_result_ok b (run m b).
Proof.
  intros H. rewrite <- (firstn_all b) at 2. apply run_ok; [|lia]. now rewrite firstn_all.
Qed.

Lemma tok_entry (m : M Empty_set) b : bytes_ok b ->
  (forall b0, bytes_ok b0 -> has (minbpc e) b0 = true -> wp m b0 (top_stop b0) (fun _ _ => False)) ->
  tok_result_ok b (if is_nil b then Ok (T_NONE, None)
    else if is_nil (round_down e b) then Ok (T_PARTIAL, None) else run m (round_down e b)).
Proof.
  intros Hb Hm. destruct (is_nil b); [constructor|].
  destruct (is_nil (round_down e b)) eqn:E; [constructor|].
  apply round_down_has in E. destruct (round_down_facts b) as (k & Ek & Hk). rewrite Ek in *.
  apply run_ok; auto. apply Hm; auto. apply bytes_firstn; auto.
Qed.

Theorem contentTok_ok b : bytes_ok b -> tok_result_ok b (contentTok e b).
Proof. intros. apply tok_entry; auto using contentScan_safe. Qed.
Theorem cdataSectionTok_ok b : bytes_ok b -> tok_result_ok b (cdataSectionTok e b).
Proof. intros. apply tok_entry; auto using cdataSectionScan_safe. Qed.
Theorem prologTok_ok b : bytes_ok b -> tok_result_ok b (prologTok e b).
Proof. intros. apply tok_entry; auto using prologScan_safe. Qed.
Theorem ignoreSectionTok_ok b : bytes_ok b -> tok_result_ok b (ignoreSectionTok e b).
Proof.
  intros. unfold ignoreSectionTok. destruct (round_down_facts b) as (k & -> & Hk).
  apply run_ok; auto. apply ignoreScan_safe, bytes_firstn; auto.
Qed.
Theorem attributeValueTok_ok b : bytes_ok b -> whole_chars e b -> tok_result_ok b (attributeValueTok e b).
Proof.
  intros Hb Hw. unfold attributeValueTok. destruct (is_nil b); [constructor|].
  unfold has_chars. rewrite Nat.mul_1_l. destruct (has (minbpc e) b) eqn:Hh; [|constructor].
  apply run_ok_all, attributeValue_run_ok; auto using suffix_refl; discriminate.
Qed.
Theorem entityValueTok_ok b : bytes_ok b -> whole_chars e b -> tok_result_ok b (entityValueTok e b).
Proof.
  intros Hb Hw. unfold entityValueTok. destruct (is_nil b); [constructor|].
  unfold has_chars. rewrite Nat.mul_1_l. destruct (has (minbpc e) b) eqn:Hh; [|constructor].
  apply run_ok_all, entityValue_run_ok; auto using suffix_refl; discriminate.
Qed.

(* isPublicId is called on a whole literal, including its quotes *)
Theorem isPublicId_ok b : bytes_ok b -> 2 * minbpc e <= length b ->
  exists r, isPublicId e b = Ok r /\ (forall k, r = Some k -> k < length b).
Proof.
  intros Hb Hl. unfold isPublicId. pose proof (minbpc_pos _ OK) as Hm.
  destruct (inc_start_has (minbpc e) b) as [b1 E]; [apply has_length; lia|]. rewrite E. cbn [bind].
  apply inc_suffix in E. destruct E as [S1 L1].
  destruct (length b1 <? minbpc e) eqn:El; [apply Nat.ltb_lt in El; lia|].
  set (b2 := firstn _ b1).
  assert (Hb2 : bytes_ok b2) by (apply bytes_firstn; eauto using suffix_bytes).
  assert (L2 : length b2 = length b1 - minbpc e) by (unfold b2; rewrite firstn_length_le; lia).
  assert (G : forall f c, bytes_ok c -> suffix c b2 -> length c < f ->
    exists r, isPublicId_loop e f c = Ok r /\ (forall p, r = Some p -> suffix p b2)).
  { clear -OK Hm. induction f; intros c Hc Hs Hl; [lia|]. cbn [isPublicId_loop]. unfold has_chars. rewrite Nat.mul_1_l.
    destruct (has (minbpc e) c) eqn:Hh; [|eexists; split; [reflexivity|discriminate]].
    destruct (eo_bt _ OK c Hc Hh) as [t Et]. rewrite Et. cbn [bind].
    destruct (eo_ascii _ OK c Hh) as [a Ea]. rewrite Ea. cbn [bind]. cbv zeta.
    destruct (inc_start_has _ _ Hh) as [c1 E]. rewrite E. cbn [bind].
    apply inc_suffix in E. destruct E as [S1 L1].
    destruct (IHf c1) as (r & Er & Hr); eauto using suffix_bytes, suffix_trans; [lia|].
    assert (Hc' : exists r : option bytes, Ok (Some c) = Ok r /\ (forall p, r = Some p -> suffix p b2)).
    { eexists; split; [reflexivity|]. intros p [= <-]. auto. }
    destruct (eo_match _ OK c c_TAB Hh) as [tb Etb].
    destruct t; rewrite ?Etb; cbn [bind];
      repeat match goal with
      | |- context [if ?x then _ else _] => destruct x
      end; auto; exists r; auto. }
  destruct (G (S (length b2)) b2) as (r & Er & Hr); auto using suffix_refl. rewrite Er. cbn [bind].
  eexists; split; [reflexivity|]. intros k. destruct r as [p|]; simpl; [|discriminate].
  intros [= <-]. specialize (Hr p eq_refl). apply suffix_len in Hr. lia.
Qed.
End Top.

Lemma unknown_entries_length c i table es : unknown_entries c i table = Ok (Some es) -> length es = length table.
Proof.
  revert i es. induction table as [|v t IH]; intros i es; cbn [unknown_entries].
  - intros [= <-]. reflexivity.
  - destruct (unknown_entry _ _ _) as [[x|]|]; cbn [bind]; try discriminate.
    destruct (unknown_entries c (i + 1) t) as [[xs|]|] eqn:E; cbn [bind]; try discriminate.
    intros [= <-]. simpl. f_equal. eapply IH; eauto.
Qed.

Lemma set_nth_length {A} n (x : A) l : length (set_nth n x l) = length l.
Proof. revert l; induction n; intros [|y l]; simpl; auto. Qed.

Lemma unknown_initialize_ok table c ns u : length table = 256 -> unknown_initialize table c ns = Ok (Some u) ->
  enc_ok (unknown_enc u).
Proof.
  intros Hl H. apply unknown_enc_ok. revert H. unfold unknown_initialize.
  destruct (negb _); [discriminate|]. destruct (unknown_entries _ _ _) as [[es|]|] eqn:E; cbn [bind]; try discriminate.
  apply unknown_entries_length in E.
  intros H. assert (Hu : ue_types u = let ts := map (fun e : ByteType * N * list N => fst (fst e)) es in if ns then set_nth 58 BT_COLON ts else ts)
    by (injection H; intros <-; reflexivity).
  rewrite Hu. cbv zeta. destruct ns; rewrite ?set_nth_length, map_length; lia.
Qed.

Lemma doc_encoding_ok e : doc_encoding e -> enc_ok e.
Proof.
  intros [| | | | | | | | | | | |]; try (apply utf8_enc_ok; reflexivity); try (apply latin1_enc_ok; reflexivity);
    try (apply ascii_enc_ok; reflexivity); try (apply little2_enc_ok; reflexivity).
  eapply unknown_initialize_ok; eauto.
Qed.
