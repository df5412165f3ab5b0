(* Chunk stability of the tokeniser entry points. *)
From Coq Require Import List NArith ZArith Bool Lia Arith.
From Verif Require Import Base Encoding Tok EncLaws TokWp TokSafe SpecTok TokTop TokStab.
Import ListNotations.

Section Top.
Context {Q : N -> Prop}.
Variable e : EncImpl.
Hypothesis OK : enc_okq Q e.
Local Notation bytes_ok := (Forall Q).
Local Notation stab := (@stab Q _).

Definition content_head : M unit :=
  (t <- bt e ;;
  match_invalid e t tt (
    match t with
    | BT_LT => adv1 e ;; scanLt e
    | BT_AMP => adv1 e ;; scanRef e
    | BT_CR =>
        adv1 e ;; require_or e 1 T_TRAILING_CR ;;
        t2 <- bt e ;;
        if bt_eqb t2 BT_LF then stop_after e T_DATA_NEWLINE else stop_here T_DATA_NEWLINE
    | BT_LF => stop_after e T_DATA_NEWLINE
    | BT_RSQB =>
        adv1 e ;; require_or e 1 T_TRAILING_RSQB ;;
        m <- matches e c_RSQB ;;
        if m then
          require_or e 2 T_TRAILING_RSQB ;;
          g <- matches_at e 1 c_GT ;;
          if negb g then ret tt else (adv1 e ;; stop_here T_INVALID)
        else ret tt
    | _ => adv1 e
    end))%scan.

Lemma contentScan_eq b : @contentScan e Empty_set b =
  mbind content_head (fun _ buf => content_run e (S (length buf)) buf) b.
Proof. unfold contentScan, content_head, mbind. destruct (bt e b) as [[|]|]; reflexivity. Qed.

Definition cdata_head : M unit :=
  (t <- bt e ;;
  match_invalid e t tt (
    match t with
    | BT_RSQB =>
        adv1 e ;; require_char e ;;
        m <- matches e c_RSQB ;;
        if m then
          require_chars e 2 ;;
          g <- matches_at e 1 c_GT ;;
          if negb g then ret tt else (adv1 e ;; stop_after e T_CDATA_SECT_CLOSE)
        else ret tt
    | BT_CR =>
        adv1 e ;; require_char e ;;
        t2 <- bt e ;;
        if bt_eqb t2 BT_LF then stop_after e T_DATA_NEWLINE else stop_here T_DATA_NEWLINE
    | BT_LF => stop_after e T_DATA_NEWLINE
    | _ => adv1 e
    end))%scan.

Lemma cdataSectionScan_eq b : @cdataSectionScan e Empty_set b =
  mbind cdata_head (fun _ buf => cdata_run e (S (length buf)) buf) b.
Proof. unfold cdataSectionScan, cdata_head, mbind. destruct (bt e b) as [[|]|]; reflexivity. Qed.

Ltac st := repeat match goal with
  | |- forall _, _ => intro
  | |- stab (mbind _ _) => apply stab_bind
  | |- stab (ret _) => apply stab_ret
  | |- stab (stop_here _) => apply stab_stop_here
  | |- stab (stop_after _ _) => apply stab_stop_after
  | |- stab (require_char _) => apply stab_require
  | |- stab (require_chars _ _) => apply stab_require
  | |- stab (require_or _ _ _) => apply stab_require
  | |- stab (require_bytes _ _) => apply stab_require_bytes
  | |- stab (bt _) => apply (stab_bt _ OK)
  | |- stab (matches _ _) => apply (stab_matches _ OK)
  | |- stab (bt_at _ _) => apply (stab_bt_at _ OK)
  | |- stab (matches_at _ _ _) => apply (stab_matches_at _ OK)
  | |- stab (adv1 _) => apply stab_adv
  | |- stab (adv _) => apply stab_adv
  | |- stab (match_invalid _ _ _ _) => apply (stab_match_invalid _ OK)
  | |- stab (if ?c then _ else _) => destruct c
  | |- stab (match ?t with _ => _ end) => destruct t
  end.

Lemma content_head_stab : stab content_head.
Proof. unfold content_head; st; auto using scanLt_stab, scanRef_stab. Qed.
Lemma cdata_head_stab : stab cdata_head.
Proof. unfold cdata_head; st. Qed.

(* content_head itself never produces DATA_CHARS *)
Definition no_data {A} (m : M A) : Prop := forall b p, bytes_ok b -> m b <> Ok (Stop T_DATA_CHARS (Some p)).

Definition nd_stop (b : bytes) (t : XML_TOK) (n : option bytes) : Prop := t <> T_DATA_CHARS.
Lemma even_prefix_app b x : exists y, even_prefix (b ++ x) = even_prefix b ++ y /\ (bytes_ok b -> bytes_ok x -> bytes_ok y).
Proof.
  destruct (even_prefix_spec b) as (k & E & H1 & H2 & [j Hj]).
  destruct (even_prefix_spec (b ++ x)) as (k' & E' & H1' & H2' & [j' Hj']).
  assert (k <= k') by (rewrite app_length in *; lia).
  rewrite E, E'. exists (firstn (k' - k) (skipn k (b ++ x))). split.
  - rewrite <- (firstn_skipn k (firstn k' (b ++ x))). rewrite firstn_firstn, Nat.min_l by lia.
    rewrite firstn_app_len by lia. f_equal. now rewrite skipn_firstn_comm.
  - intros Hb Hx. apply bytes_firstn. assert (bytes_ok (b ++ x)) as G by (apply Forall_app; auto).
    rewrite <- (firstn_skipn k (b ++ x)) in G. apply Forall_app in G. tauto.
Qed.
Lemma round_down_app b x : exists y, round_down e (b ++ x) = round_down e b ++ y /\ (bytes_ok b -> bytes_ok x -> bytes_ok y).
Proof.
  unfold round_down. destruct (minbpc e =? 2)%nat; [apply even_prefix_app|].
  exists x. auto.
Qed.
Lemma round_down_bytes b : bytes_ok b -> bytes_ok (round_down e b).
Proof. destruct (round_down_facts e b) as (k & -> & _). apply bytes_firstn. Qed.

Definition entry (m : M Empty_set) (b : bytes) : tokres :=
  if is_nil b then Ok (T_NONE, None)
  else if is_nil (round_down e b) then Ok (T_PARTIAL, None) else run m (round_down e b).

Lemma run_some m b t n : run m b = Ok (t, Some n) -> exists p, m b = Ok (Stop t (Some p)) /\ n = length b - length p.
Proof.
  unfold run. destruct (m b) as [[t' [p|]|[] ?]|]; simpl; try discriminate. intros [= <- <-]. eauto.
Qed.

Lemma entry_some m b t n : entry m b = Ok (t, Some n) ->
  exists p, m (round_down e b) = Ok (Stop t (Some p)) /\ n = length (round_down e b) - length p /\
    is_nil (round_down e b) = false.
Proof.
  unfold entry. destruct (is_nil b); [discriminate|]. destruct (is_nil (round_down e b)); [discriminate|].
  intros H. apply run_some in H. destruct H as (p & ? & ?). eauto.
Qed.

Lemma entry_run m b x y : is_nil (round_down e b) = false -> round_down e (b ++ x) = round_down e b ++ y ->
  entry m (b ++ x) = run m (round_down e b ++ y).
Proof.
  intros Hn E. unfold entry. rewrite E.
  destruct (round_down e b) as [|h l] eqn:Er; [discriminate|]. simpl.
  destruct (b ++ x) eqn:Eb; [|reflexivity].
  apply app_eq_nil in Eb. destruct Eb as [-> ->]. unfold round_down, even_prefix in Er.
  destruct (minbpc e =? 2)%nat; discriminate.
Qed.

Lemma entry_stab m b x t n : stab m -> bytes_ok b -> entry m b = Ok (t, Some n) -> entry m (b ++ x) = Ok (t, Some n).
Proof.
  intros Hm Hb H. apply entry_some in H. destruct H as (p & E & -> & Hn).
  destruct (round_down_app b x) as (y & Ey & _). rewrite (entry_run m b x y Hn Ey).
  specialize (Hm (round_down e b) y (round_down_bytes b Hb)). rewrite E in Hm.
  unfold run. rewrite Hm. simpl. do 3 f_equal. rewrite !app_length. lia.
Qed.

Theorem ignoreSectionTok_stable b x t n : bytes_ok b -> ignoreSectionTok e b = Ok (t, Some n) ->
  ignoreSectionTok e (b ++ x) = Ok (t, Some n).
Proof.
  intros Hb H. unfold ignoreSectionTok in *. apply run_some in H. destruct H as (p & E & ->).
  destruct (round_down_app b x) as (y & Ey & _). rewrite Ey.
  pose proof (ignoreScan_stab e OK Empty_set (round_down e b) y (round_down_bytes b Hb)) as Hm. rewrite E in Hm.
  unfold run. rewrite Hm. simpl. do 3 f_equal. rewrite !app_length. lia.
Qed.

(* ---- content ---- *)

Lemma content_head_safe b0 : bytes_ok b0 -> has (minbpc e) b0 = true ->
  wp content_head b0 (top_stop b0) (fun _ b' => consumed b0 b').
Proof.
  (* contentScan_safe's argument, without the run *)
  intros Hb0 Hh. unfold content_head. apply wp_bind, (wp_bt _ OK); [auto|auto|]. intros t Ht.
  assert (C1 : forall b', inc_start (minbpc e) b0 = Ok b' -> consumed b0 b').
  { intros b' E. eapply consumed_inc; [|eauto]. eapply minbpc_pos; eauto. }
  assert (TS : forall (m : M unit) , (forall b', consumed b0 b' -> wp m b' (top_stop b0) (fun _ b'' => consumed b0 b'')) ->
     wp (mbind (adv1 e) (fun _ => m)) b0 (top_stop b0) (fun _ b'' => consumed b0 b'')).
  { intros m Hm. apply wp_bind, wp_adv1; auto. }
  assert (SI : forall b' t, consumed b0 b' -> top_stop b0 t (Some b')).
  { intros b' t' [? ?]. split; auto. }
  assert (BB : forall b', consumed b0 b' -> bytes_ok b') by (intros b' [? ?]; eauto using suffix_bytes).
  assert (CT : forall b b' n, consumed b0 b -> inc_start n b = Ok b' -> consumed b0 b').
  { intros b b' n [? ?] E. apply inc_suffix in E. split; [destruct E; eauto using suffix_trans|lia]. }
  apply (wp_match_invalid _ OK); auto.
  { reflexivity. }
  { split; auto using suffix_refl. }
  intros _. destruct t;
   try (apply wp_adv1; auto; fail);
   try (apply TS; intros b' Hc).
  - eapply scan_in; eauto. apply scanLt_safe; auto.
  - eapply scan_in; eauto. apply scanRef_safe; auto.
  - apply wp_bind, wp_require; [reflexivity|]. rewrite Nat.mul_1_l. intros H1.
    apply wp_bind, (wp_matches _ OK); auto. intros [|] _; [|apply wp_ret; auto].
    apply wp_bind, wp_require; [reflexivity|]. intros H2.
    apply wp_bind, (wp_matches_at _ OK); auto. intros [|]; cbn [negb]; [|apply wp_ret; auto].
    apply wp_bind, wp_adv1; auto. intros b2 E2. apply wp_stop_here. apply SI. eauto.
  - apply wp_bind, wp_require; [reflexivity|]. rewrite Nat.mul_1_l. intros H1.
    apply wp_bind, (wp_bt _ OK); auto. intros t2 _. destruct (bt_eqb t2 BT_LF).
    + apply wp_stop_after; auto. intros b2 E2. apply SI. eauto.
    + apply wp_stop_here; auto.
  - apply SI; auto.
Qed.

Lemma contentScan_app b y t p : bytes_ok b -> bytes_ok y -> has (minbpc e) b = true ->
  @contentScan e Empty_set b = Ok (Stop t (Some p)) ->
  suffix p b /\
  (t <> T_DATA_CHARS -> @contentScan e Empty_set (b ++ y) = Ok (Stop t (Some (p ++ y)))) /\
  (3 * minbpc e < length p -> @contentScan e Empty_set (b ++ y) = Ok (Stop t (Some (p ++ y)))) /\
  (t = T_DATA_CHARS -> exists p', suffix p' (p ++ y) /\
     (@contentScan e Empty_set (b ++ y) = Ok (Stop T_DATA_CHARS (Some p')) \/
      @contentScan e Empty_set (b ++ y) = Ok (Stop T_INVALID (Some p')) /\
      exists q, suffix q (p ++ y) /\ bad_end e q p')).
Proof.
  intros Hb Hy Hh H. rewrite contentScan_eq in *. unfold mbind in *.
  pose proof (content_head_safe b Hb Hh) as P. unfold wp in P.
  pose proof (content_head_stab b y Hb) as G.
  destruct (content_head b) as [[t1 [p1|]|[] b1]|]; try discriminate.
  - injection H as <- <-. rewrite G. destruct P as [P _]. repeat split; auto.
    intros ->. exists (p1 ++ y). split; [apply suffix_refl|]. auto.
  - destruct G as [G _]. rewrite G. destruct P as [P1 P2].
    pose proof (suffix_bytes _ _ P1 Hb) as Hb1.
    destruct (content_run_shape e OK Empty_set (S (length b1)) b1) as (p2 & S2 & D); [auto|lia|].
    assert (suffix p b). { destruct D as [D|[D _]]; rewrite D in H; injection H as <- <-; eauto using suffix_trans. }
    assert (Ht : t = T_DATA_CHARS \/ t = T_INVALID).
    { destruct D as [D|[D _]]; rewrite D in H; injection H as <- <-; auto. }
    destruct (content_run_app e OK Empty_set (S (length b1)) (S (length (b1 ++ y))) b1 y t p)
      as (I1 & I2 & I3); auto; try (rewrite ?app_length; lia).
    split; auto. split; [|split].
    + intros Hd. apply I1. tauto.
    + intros Hl. destruct Ht as [->| ->]; [apply I3; auto; discriminate|apply I1; auto].
    + intros ->. destruct I2 as (Sp & f'' & Hf & E); [discriminate|]. rewrite E.
      apply (content_run_shape e OK); auto. apply Forall_app. split; auto. eauto using suffix_bytes.
Qed.

Theorem contentTok_stable b x t n : bytes_ok b -> bytes_ok x -> contentTok e b = Ok (t, Some n) ->
  t <> T_DATA_CHARS -> contentTok e (b ++ x) = Ok (t, Some n).
Proof.
  intros Hb Hx H Ht. change (entry (contentScan e) b = Ok (t, Some n)) in H.
  change (entry (contentScan e) (b ++ x) = Ok (t, Some n)).
  apply entry_some in H. destruct H as (p & E & -> & Hn).
  destruct (round_down_app b x) as (y & Ey & Hy). rewrite (entry_run _ b x y Hn Ey).
  destruct (contentScan_app (round_down e b) y t p) as (Sp & I1 & _); eauto using round_down_bytes, round_down_has.
  unfold run. rewrite (I1 Ht). simpl. do 3 f_equal. rewrite !app_length. lia.
Qed.

Lemma round_down_len b : length b <= length (round_down e b) + (minbpc e - 1).
Proof.
  unfold round_down. pose proof (eo_min _ OK). destruct (minbpc e =? 2) eqn:E2.
  - apply Nat.eqb_eq in E2. rewrite E2. destruct (even_prefix_spec b) as (k & -> & ? & ? & _).
    rewrite firstn_length_le by auto. lia.
  - lia.
Qed.

Theorem contentTok_data_decided b x n : bytes_ok b -> bytes_ok x ->
  contentTok e b = Ok (T_DATA_CHARS, Some n) -> n + 4 * minbpc e <= length b ->
  contentTok e (b ++ x) = Ok (T_DATA_CHARS, Some n).
Proof.
  intros Hb Hx H Hl. change (entry (contentScan e) b = Ok (T_DATA_CHARS, Some n)) in H.
  change (entry (contentScan e) (b ++ x) = Ok (T_DATA_CHARS, Some n)).
  apply entry_some in H. destruct H as (p & E & -> & Hn).
  destruct (round_down_app b x) as (y & Ey & Hy). rewrite (entry_run _ b x y Hn Ey).
  destruct (contentScan_app (round_down e b) y T_DATA_CHARS p) as (Sp & _ & I1 & _);
    eauto using round_down_bytes, round_down_has.
  unfold run. rewrite I1. simpl. { do 3 f_equal. rewrite !app_length. lia. }
  apply suffix_len in Sp. pose proof (round_down_len b). pose proof (minbpc_pos _ OK).
  assert (minbpc e <= 2) by (destruct (eo_min _ OK); lia). lia.
Qed.

Lemma inc_start_skipn' n b b' : inc_start n b = Ok b' -> b' = skipn n b.
Proof. intros H. apply inc_start_spec in H. destruct H as (pre & <- & ->). rewrite skipn_app, Nat.sub_diag, skipn_all. reflexivity. Qed.

Lemma skipn_skipn' {A} a b (l : list A) : skipn a (skipn b l) = skipn (b + a) l.
Proof. revert l. induction b; intros [|x l]; simpl; auto. apply skipn_nil. Qed.

Theorem contentTok_data b x n : bytes_ok b -> bytes_ok x ->
  contentTok e b = Ok (T_DATA_CHARS, Some n) ->
  (exists n', n <= n' /\ contentTok e (b ++ x) = Ok (T_DATA_CHARS, Some n')) \/
  (exists k, n <= k /\ contentTok e (b ++ x) = Ok (T_INVALID, Some (k + 2 * minbpc e)) /\
     cdata_end_at e (b ++ x) k).
Proof.
  intros Hb Hx H. change (entry (contentScan e) b = Ok (T_DATA_CHARS, Some n)) in H.
  change (contentTok e (b ++ x)) with (entry (contentScan e) (b ++ x)).
  apply entry_some in H. destruct H as (p & E & -> & Hn).
  destruct (round_down_app b x) as (y & Ey & Hy). rewrite (entry_run _ b x y Hn Ey).
  destruct (contentScan_app (round_down e b) y T_DATA_CHARS p) as (Sp & _ & _ & I);
    eauto using round_down_bytes, round_down_has.
  destruct (I eq_refl) as (p' & Sp' & D). unfold run.
  apply suffix_len in Sp. destruct Sp' as [w Hw]. assert (Lw := f_equal (@length N) Hw). rewrite !app_length in Lw.
  destruct D as [D|[D (q & Sq & QQ)]]; rewrite D; cbn [option_map].
  - left. eexists; split; [|reflexivity]. rewrite app_length. lia.
  - right. destruct QQ as (Q1 & (q1 & Q2 & Q3) & Q4 & Q5).
    pose proof (suffix_len _ _ Sq) as Lq. rewrite app_length in Lq.
    pose proof (proj2 (inc_suffix _ _ _ Q4)) as L4.
    exists (length (round_down e b ++ y) - length q). rewrite app_length. split; [lia|].
    split; [do 3 f_equal; rewrite ?app_length; lia|].
    destruct (round_down_facts e (b ++ x)) as (kk & Ek & _). rewrite Ey in Ek.
    assert (Hpre : b ++ x = (round_down e b ++ y) ++ skipn kk (b ++ x)) by (rewrite Ek; symmetry; apply firstn_skipn).
    set (z := skipn kk (b ++ x)) in *.
    assert (Sq2 : suffix q (round_down e b ++ y)).
    { destruct Sq as [u Hu]. assert (E2 := contentScan_app (round_down e b) y T_DATA_CHARS p).
      destruct E2 as ([v Hv] & _); eauto using round_down_bytes, round_down_has. rewrite Hv, <- app_assoc, Hu.
      exists (v ++ u). now rewrite app_assoc. }
    destruct Sq2 as [u Hu].
    assert (Hk : length (round_down e b) + length y - length q = length u).
    { assert (L := f_equal (@length N) Hu). rewrite !app_length in L. lia. }
    rewrite Hk. assert (Sk : forall m, skipn (length u + m) (b ++ x) = skipn m (q ++ z)).
    { intros m. rewrite Hpre, Hu, <- app_assoc, <- skipn_skipn'. rewrite skipn_app, skipn_all, Nat.sub_diag. reflexivity. }
    unfold cdata_end_at. rewrite !Sk. replace (length u) with (length u + 0) by lia. rewrite Sk. cbn [skipn].
    apply (inc_start_app _ _ _ z) in Q2. apply (inc_start_app _ _ _ z) in Q4.
    rewrite <- (inc_start_skipn' _ _ _ Q2), <- (inc_start_skipn' _ _ _ Q4).
    split; [eapply eo_bt_app; eauto|]. split; eapply eo_match_app; eauto.
Qed.

(* ---- CDATA sections ---- *)

Lemma cdata_head_safe b0 : bytes_ok b0 -> has (minbpc e) b0 = true ->
  wp cdata_head b0 (top_stop b0) (fun _ b' => consumed b0 b').
Proof.
  intros Hb0 Hh. unfold cdata_head. apply wp_bind, (wp_bt _ OK); [auto|auto|]. intros t Ht.
  assert (C1 : forall b', inc_start (minbpc e) b0 = Ok b' -> consumed b0 b').
  { intros b' E. eapply consumed_inc; [|eauto]. eapply minbpc_pos; eauto. }
  assert (TS : forall (m : M unit) , (forall b', consumed b0 b' -> wp m b' (top_stop b0) (fun _ b'' => consumed b0 b'')) ->
     wp (mbind (adv1 e) (fun _ => m)) b0 (top_stop b0) (fun _ b'' => consumed b0 b'')).
  { intros m Hm. apply wp_bind, wp_adv1; auto. }
  assert (SI : forall b' t, consumed b0 b' -> top_stop b0 t (Some b')).
  { intros b' t' [? ?]. split; auto. }
  assert (BB : forall b', consumed b0 b' -> bytes_ok b') by (intros b' [? ?]; eauto using suffix_bytes).
  assert (CT : forall b b' n, consumed b0 b -> inc_start n b = Ok b' -> consumed b0 b').
  { intros b b' n [? ?] E. apply inc_suffix in E. split; [destruct E; eauto using suffix_trans|lia]. }
  apply (wp_match_invalid _ OK); auto.
  { reflexivity. }
  { split; auto using suffix_refl. }
  intros _. destruct t;
   try (apply wp_adv1; auto; fail);
   try (apply TS; intros b' Hc).
  - apply wp_bind, wp_require; [reflexivity|]. rewrite Nat.mul_1_l. intros H1.
    apply wp_bind, (wp_matches _ OK); auto. intros [|] _; [|apply wp_ret; auto].
    apply wp_bind, wp_require; [reflexivity|]. intros H2.
    apply wp_bind, (wp_matches_at _ OK); auto. intros [|]; cbn [negb]; [|apply wp_ret; auto].
    apply wp_bind, wp_adv1; auto. intros b2 E2. apply wp_stop_after.
    { eapply has_sub; [|eauto]. replace (minbpc e + minbpc e) with (2 * minbpc e) by lia. auto. }
    intros b3 E3. apply SI. eauto.
  - apply wp_bind, wp_require; [reflexivity|]. rewrite Nat.mul_1_l. intros H1.
    apply wp_bind, (wp_bt _ OK); auto. intros t2 _. destruct (bt_eqb t2 BT_LF).
    + apply wp_stop_after; auto. intros b2 E2. apply SI. eauto.
    + apply wp_stop_here; auto.
  - apply SI; auto.
Qed.

Lemma cdataScan_app b y t p : bytes_ok b -> bytes_ok y -> has (minbpc e) b = true ->
  @cdataSectionScan e Empty_set b = Ok (Stop t (Some p)) ->
  suffix p b /\
  (t <> T_DATA_CHARS -> @cdataSectionScan e Empty_set (b ++ y) = Ok (Stop t (Some (p ++ y)))) /\
  (3 * minbpc e < length p -> @cdataSectionScan e Empty_set (b ++ y) = Ok (Stop t (Some (p ++ y)))) /\
  (t = T_DATA_CHARS -> exists p', suffix p' (p ++ y) /\
     @cdataSectionScan e Empty_set (b ++ y) = Ok (Stop T_DATA_CHARS (Some p'))).
Proof.
  intros Hb Hy Hh H. rewrite cdataSectionScan_eq in *. unfold mbind in *.
  pose proof (cdata_head_safe b Hb Hh) as P. unfold wp in P.
  pose proof (cdata_head_stab b y Hb) as G.
  destruct (cdata_head b) as [[t1 [p1|]|[] b1]|]; try discriminate.
  - injection H as <- <-. rewrite G. destruct P as [P _]. repeat split; auto.
    intros ->. exists (p1 ++ y). split; [apply suffix_refl|]. auto.
  - destruct G as [G _]. rewrite G. destruct P as [P1 P2].
    pose proof (suffix_bytes _ _ P1 Hb) as Hb1.
    destruct (cdata_run_shape e OK Empty_set (S (length b1)) b1) as (p2 & S2 & D); [auto|lia|].
    assert (suffix p b). { rewrite D in H; injection H as <- <-; eauto using suffix_trans. }
    assert (Ht : t = T_DATA_CHARS) by (rewrite D in H; injection H as <- <-; auto). subst t.
    destruct (cdata_run_app e OK Empty_set (S (length b1)) (S (length (b1 ++ y))) b1 y p)
      as ((Sp & f'' & Hf & E) & I3); auto; try (rewrite ?app_length; lia).
    split; auto. split; [congruence|]. split.
    + pose proof (minbpc_pos _ OK). intros. apply I3; lia.
    + intros _. rewrite E.
      apply (cdata_run_shape e OK); auto. apply Forall_app. split; auto. eauto using suffix_bytes.
Qed.

Theorem cdataSectionTok_stable b x t n : bytes_ok b -> bytes_ok x -> cdataSectionTok e b = Ok (t, Some n) ->
  t <> T_DATA_CHARS -> cdataSectionTok e (b ++ x) = Ok (t, Some n).
Proof.
  intros Hb Hx H Ht. change (entry (cdataSectionScan e) b = Ok (t, Some n)) in H.
  change (entry (cdataSectionScan e) (b ++ x) = Ok (t, Some n)).
  apply entry_some in H. destruct H as (p & E & -> & Hn).
  destruct (round_down_app b x) as (y & Ey & Hy). rewrite (entry_run _ b x y Hn Ey).
  destruct (cdataScan_app (round_down e b) y t p) as (Sp & I1 & _); eauto using round_down_bytes, round_down_has.
  unfold run. rewrite (I1 Ht). simpl. do 3 f_equal. rewrite !app_length. lia.
Qed.

Theorem cdataSectionTok_data b x n : bytes_ok b -> bytes_ok x ->
  cdataSectionTok e b = Ok (T_DATA_CHARS, Some n) ->
  exists n', n <= n' /\ cdataSectionTok e (b ++ x) = Ok (T_DATA_CHARS, Some n') /\
    (n + 4 * minbpc e <= length b -> n' = n).
Proof.
  intros Hb Hx H. change (entry (cdataSectionScan e) b = Ok (T_DATA_CHARS, Some n)) in H.
  change (cdataSectionTok e (b ++ x)) with (entry (cdataSectionScan e) (b ++ x)).
  apply entry_some in H. destruct H as (p & E & -> & Hn).
  destruct (round_down_app b x) as (y & Ey & Hy). rewrite (entry_run _ b x y Hn Ey).
  destruct (cdataScan_app (round_down e b) y T_DATA_CHARS p) as (Sp & _ & I1 & I);
    eauto using round_down_bytes, round_down_has.
  destruct (I eq_refl) as (p' & Sp' & D). unfold run.
  apply suffix_len in Sp, Sp'. rewrite app_length in Sp'.
  rewrite D. cbn [option_map]. eexists; split; [|split; [reflexivity|]]; rewrite app_length; [lia|].
  intros Hl. rewrite I1 in D.
  - injection D as <-. rewrite app_length. lia.
  - pose proof (round_down_len b). pose proof (minbpc_pos _ OK).
    assert (minbpc e <= 2) by (destruct (eo_min _ OK); lia). lia.
Qed.

(* ---- prolog ---- *)

Lemma prolog_s_run_shape B f b : bytes_ok b -> has (minbpc e) b = true -> length b < f ->
  exists p, suffix p b /\ @prolog_s_run e B f b = Ok (Stop T_PROLOG_S (Some p)).
Proof.
  revert b. induction f; intros b Hb Hh Hf; [lia|]. cbn [prolog_s_run].
  destruct (inc_start_has _ _ Hh) as [b1 E]. rewrite E. cbn [bind].
  apply inc_suffix in E. destruct E as [S1 L1]. pose proof (minbpc_pos _ OK) as Hm.
  assert (St : exists p, suffix p b /\ Ok (@Stop B T_PROLOG_S (Some b1)) = Ok (Stop T_PROLOG_S (Some p))) by eauto.
  unfold has_chars. rewrite Nat.mul_1_l. destruct (has (minbpc e) b1) eqn:Hh1; [|exact St]. cbn [negb].
  pose proof (suffix_bytes _ _ S1 Hb) as Hb1.
  destruct (eo_bt _ OK b1) as [t Et]; auto. rewrite Et. cbn [bind].
  assert (G : exists p, suffix p b /\ @prolog_s_run e B f b1 = Ok (Stop T_PROLOG_S (Some p))).
  { destruct (IHf b1) as (p & Sp & D); auto; [lia|]. exists p; split; eauto using suffix_trans. }
  destruct t; try exact St; try exact G. destruct (length b1 =? minbpc e); [exact St|exact G].
Qed.

(* the longer buffer's run ends no earlier *)
Lemma prolog_s_run_app B f f' b x p : bytes_ok (b ++ x) -> has (minbpc e) b = true -> length (b ++ x) < f' -> f <= f' ->
  @prolog_s_run e B f b = Ok (Stop T_PROLOG_S (Some p)) ->
  exists p', suffix p' (p ++ x) /\ @prolog_s_run e B f' (b ++ x) = Ok (Stop T_PROLOG_S (Some p')).
Proof.
  revert f' b. induction f; intros f' b Hb Hh Hl Hf H; [discriminate|].
  cbn [prolog_s_run] in H. destruct f' as [|f']; [lia|]. cbn [prolog_s_run].
  destruct (inc_start_has _ _ Hh) as [b1 E]. rewrite E in H. rewrite (inc_start_app _ _ _ x E). cbn [bind] in *.
  apply inc_suffix in E. destruct E as [S1 L1]. pose proof (minbpc_pos _ OK) as Hm.
  rewrite app_length in Hl.
  assert (Hb' : bytes_ok b1 /\ bytes_ok x /\ bytes_ok (b1 ++ x)).
  { apply Forall_app in Hb. destruct Hb. rewrite Forall_app. repeat split; eauto using suffix_bytes. }
  destruct Hb' as (Hb1 & Hx & Hb1x).
  (* where the shorter run stops, the longer one stops there or continues *)
  assert (St : exists p', suffix p' (b1 ++ x) /\
     (if negb (has (minbpc e) (b1 ++ x)) then stop_here T_PROLOG_S (b1 ++ x)
      else let* t := byte_type e (b1 ++ x) in
        match t with
        | BT_CR => if (length (b1 ++ x) =? minbpc e)%nat then stop_here T_PROLOG_S (b1 ++ x) else @prolog_s_run e B f' (b1 ++ x)
        | BT_S | BT_LF => prolog_s_run e f' (b1 ++ x)
        | _ => stop_here T_PROLOG_S (b1 ++ x)
        end) = Ok (Stop T_PROLOG_S (Some p'))).
  { assert (Sh : exists p', suffix p' (b1 ++ x) /\ Ok (@Stop B T_PROLOG_S (Some (b1 ++ x))) = Ok (Stop T_PROLOG_S (Some p')))
      by (eexists; split; [apply suffix_refl|reflexivity]).
    destruct (has (minbpc e) (b1 ++ x)) eqn:Hh1; cbn [negb]; [|exact Sh].
    destruct (eo_bt _ OK _ Hb1x Hh1) as [t Et]. rewrite Et. cbn [bind].
    assert (G : exists p', suffix p' (b1 ++ x) /\ @prolog_s_run e B f' (b1 ++ x) = Ok (Stop T_PROLOG_S (Some p')))
      by (apply prolog_s_run_shape; auto; rewrite app_length; lia).
    destruct t; try exact Sh; try exact G. destruct (length (b1 ++ x) =? minbpc e); [exact Sh|exact G]. }
  unfold has_chars in *. rewrite Nat.mul_1_l in *.
  assert (StH : Ok (@Stop B T_PROLOG_S (Some b1)) = Ok (Stop T_PROLOG_S (Some p)) -> p = b1) by congruence.
  destruct (has (minbpc e) b1) eqn:Hh1; cbn [negb] in H; [|rewrite (StH H); exact St].
  destruct (eo_bt _ OK b1) as [t Et]; auto. rewrite Et in H. cbn [bind] in H.
  rewrite has_app', (eo_bt_app _ OK _ x _ Et) in St |- * by auto. cbn [negb bind] in *.
  assert (IH : @prolog_s_run e B f b1 = Ok (Stop T_PROLOG_S (Some p)) ->
     exists p', suffix p' (p ++ x) /\ @prolog_s_run e B f' (b1 ++ x) = Ok (Stop T_PROLOG_S (Some p'))).
  { intros. apply IHf; auto; rewrite ?app_length; lia. }
  destruct t; try (rewrite (StH H); exact St); try (apply IH; exact H).
  destruct (length b1 =? minbpc e) eqn:E1.
  - rewrite (StH H). exact St.
  - destruct (length (b1 ++ x) =? minbpc e) eqn:E2; [|apply IH; auto].
    apply Nat.eqb_neq in E1. apply Nat.eqb_eq in E2. apply has_length in Hh1. rewrite app_length in E2. lia.
Qed.

Definition is_space_run (t : ByteType) : bool := match t with BT_S | BT_CR | BT_LF => true | _ => false end.


Lemma prologScan_decomp : exists K : ByteType -> M Empty_set,
  @prologScan e Empty_set = mbind (bt e) K /\
  (forall t, is_space_run t = false -> stab (K t)) /\
  (forall t b, is_space_run t = true -> K t b =
     if bt_eqb t BT_CR && (length b =? minbpc e)%nat then Ok (Stop T_PROLOG_S_NEG (Some []))
     else prolog_s_run e (S (length b)) b).
Proof.
  eexists. split; [reflexivity|]. split.
  - intros t Ht. cbv beta. destruct (lead_len t) as [n|].
    + st; try (apply stab_lift; intros; first [eapply eo_nmstrt_app; eauto | eapply eo_name_app; eauto]);
      apply prolog_name_stab; auto.
    + destruct t; try discriminate Ht; st;
      try (apply stab_lift; intros; first [eapply eo_nmstrtm_app; eauto | eapply eo_namem_app; eauto]);
      auto using prolog_name_stab, scanLit_stab, scanDecl_stab, scanPi_stab, scanPercent_stab, scanPoundName_stab.
  - intros t b Ht. destruct t; try discriminate Ht; reflexivity.
Qed.

Theorem prologTok_stable b x t n : bytes_ok b -> prologTok e b = Ok (t, Some n) ->
  t <> T_PROLOG_S -> t <> T_PROLOG_S_NEG -> prologTok e (b ++ x) = Ok (t, Some n).
Proof.
  intros Hb H Ht1 Ht2. change (entry (prologScan e) b = Ok (t, Some n)) in H.
  change (entry (prologScan e) (b ++ x) = Ok (t, Some n)).
  apply entry_some in H. destruct H as (p & E & -> & Hn).
  destruct (round_down_app b x) as (y & Ey & Hy). rewrite (entry_run _ b x y Hn Ey).
  pose proof (round_down_bytes b Hb) as Hrb. pose proof (round_down_has e OK b Hn) as Hh.
  enough (G : @prologScan e Empty_set (round_down e b ++ y) = Ok (Stop t (Some (p ++ y)))).
  { unfold run. rewrite G. simpl. do 3 f_equal. rewrite !app_length. lia. }
  set (rb := round_down e b) in *. clearbody rb.
  destruct prologScan_decomp as (K & EK & K1 & K2). rewrite EK in *.
  unfold mbind, bt in *. destruct (eo_bt _ OK rb Hrb Hh) as [ty Et]. rewrite Et in E. rewrite (eo_bt_app _ OK _ y _ Et).
  cbn [bind] in *. destruct (is_space_run ty) eqn:Es.
  - exfalso. rewrite (K2 _ _ Es) in E. destruct (bt_eqb ty BT_CR && _); [congruence|].
    destruct (prolog_s_run_shape Empty_set (S (length rb)) rb) as (p' & _ & D); auto. rewrite D in E. congruence.
  - specialize (K1 ty Es rb y Hrb). rewrite E in K1. exact K1.
Qed.

Theorem prologTok_space b x n : bytes_ok b -> bytes_ok x -> prologTok e b = Ok (T_PROLOG_S, Some n) ->
  exists n', n <= n' /\ prologTok e (b ++ x) = Ok (T_PROLOG_S, Some n').
Proof.
  intros Hb Hx H. change (entry (prologScan e) b = Ok (T_PROLOG_S, Some n)) in H.
  change (prologTok e (b ++ x)) with (entry (prologScan e) (b ++ x)).
  apply entry_some in H. destruct H as (p & E & -> & Hn).
  destruct (round_down_app b x) as (y & Ey & Hy). rewrite (entry_run _ b x y Hn Ey).
  pose proof (round_down_bytes b Hb) as Hrb. pose proof (round_down_has e OK b Hn) as Hh.
  pose proof (prologScan_safe e OK _ Hrb Hh) as P. unfold wp in P. rewrite E in P.
  specialize (Hy Hb Hx).
  set (rb := round_down e b) in *. clearbody rb.
  enough (G : exists p', suffix p' (p ++ y) /\ @prologScan e Empty_set (rb ++ y) = Ok (Stop T_PROLOG_S (Some p'))).
  { destruct G as (p' & Sp' & G). unfold run. rewrite G. cbn [option_map]. eexists. split; [|reflexivity].
    destruct P as [P _]. apply suffix_len in P, Sp'. rewrite !app_length in *. lia. }
  destruct prologScan_decomp as (K & EK & K1 & K2). rewrite EK in *.
  unfold mbind, bt in *. destruct (eo_bt _ OK rb Hrb Hh) as [ty Et]. rewrite Et in E. rewrite (eo_bt_app _ OK _ y _ Et).
  cbn [bind] in *. destruct (is_space_run ty) eqn:Es.
  - rewrite (K2 _ _ Es) in E. rewrite (K2 _ _ Es).
    destruct (bt_eqb ty BT_CR && (length rb =? minbpc e)) eqn:Ec; [discriminate|].
    destruct (bt_eqb ty BT_CR && (length (rb ++ y) =? minbpc e)) eqn:Ec2.
    { apply andb_true_iff in Ec2. destruct Ec2 as [C1 C2]. rewrite C1 in Ec. simpl in Ec.
      apply Nat.eqb_eq in C2. apply Nat.eqb_neq in Ec. apply has_length in Hh. rewrite app_length in C2. lia. }
    eapply (prolog_s_run_app Empty_set (S (length rb))); eauto.
    + apply Forall_app; auto.
    + rewrite app_length; lia.
  - specialize (K1 ty Es rb y Hrb). rewrite E in K1. eexists; split; [apply suffix_refl|exact K1].
Qed.
End Top.
