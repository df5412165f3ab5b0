(* Laws that the tokeniser relies on, and their proof for every shipped encoding except UTF-16BE
   (whose [byte_type] can panic, see Big2 in the Props files). *)
From Coq Require Import List NArith ZArith Bool Lia.
From Coq Require Import ZifyBool ZifyNat ZifyN.
From Verif Require Import Base Tables Encoding.
Import ListNotations.
Local Open Scope N_scope.

Record enc_okq (Q : N -> Prop) (e : EncImpl) : Prop := {
  eo_min : minbpc e = 1%nat \/ minbpc e = 2%nat;
  eo_bt : forall b, Forall Q b -> has (minbpc e) b = true -> exists t, byte_type e b = Ok t;
  eo_bt_has : forall b t, byte_type e b = Ok t -> has (minbpc e) b = true;
  eo_bt_app : forall b x t, byte_type e b = Ok t -> byte_type e (b ++ x) = Ok t;
  eo_lead : forall b t n, byte_type e b = Ok t -> lead_len t = Some n -> (minbpc e <= n)%nat;
  eo_name : forall b t n, Forall Q b -> byte_type e b = Ok t -> lead_len t = Some n ->
      has n b = true -> exists r, is_name_char e b n = Ok r;
  eo_name_app : forall b n x r, is_name_char e b n = Ok r -> is_name_char e (b ++ x) n = Ok r;
  eo_nmstrt : forall b t n, Forall Q b -> byte_type e b = Ok t -> lead_len t = Some n ->
      has n b = true -> exists r, is_nmstrt_char e b n = Ok r;
  eo_nmstrt_app : forall b n x r, is_nmstrt_char e b n = Ok r -> is_nmstrt_char e (b ++ x) n = Ok r;
  eo_invalid : forall b t n, Forall Q b -> byte_type e b = Ok t -> lead_len t = Some n ->
      has n b = true -> exists r, is_invalid_char e b n = Ok r;
  eo_invalid_app : forall b n x r, is_invalid_char e b n = Ok r -> is_invalid_char e (b ++ x) n = Ok r;
  eo_namem : forall b, Forall Q b -> has (minbpc e) b = true -> exists r, is_name_char_minbpc e b = Ok r;
  eo_namem_app : forall b x r, is_name_char_minbpc e b = Ok r -> is_name_char_minbpc e (b ++ x) = Ok r;
  eo_nmstrtm : forall b, Forall Q b -> has (minbpc e) b = true -> exists r, is_nmstrt_char_minbpc e b = Ok r;
  eo_nmstrtm_app : forall b x r, is_nmstrt_char_minbpc e b = Ok r -> is_nmstrt_char_minbpc e (b ++ x) = Ok r;
  eo_match : forall b c, has (minbpc e) b = true -> exists r, char_matches e b c = Ok r;
  eo_match_app : forall b c x r, char_matches e b c = Ok r -> char_matches e (b ++ x) c = Ok r;
  eo_ascii : forall b, has (minbpc e) b = true -> exists r, byte_to_ascii e b = Ok r;
  eo_ascii_app : forall b x r, byte_to_ascii e b = Ok r -> byte_to_ascii e (b ++ x) = Ok r;
}.
Arguments eo_min {Q} e _.
Arguments eo_bt {Q} e _.
Arguments eo_bt_has {Q} e _.
Arguments eo_bt_app {Q} e _.
Arguments eo_lead {Q} e _.
Arguments eo_name {Q} e _.
Arguments eo_name_app {Q} e _.
Arguments eo_nmstrt {Q} e _.
Arguments eo_nmstrt_app {Q} e _.
Arguments eo_invalid {Q} e _.
Arguments eo_invalid_app {Q} e _.
Arguments eo_namem {Q} e _.
Arguments eo_namem_app {Q} e _.
Arguments eo_nmstrtm {Q} e _.
Arguments eo_nmstrtm_app {Q} e _.
Arguments eo_match {Q} e _.
Arguments eo_match_app {Q} e _.
Arguments eo_ascii {Q} e _.
Arguments eo_ascii_app {Q} e _.
(* for buffers of bytes *)
Notation enc_ok := (enc_okq (fun b => b < 256)%N).


(* ---- generic facts about buffers ---- *)

Lemma has_length n b : has n b = true <-> (n <= length b)%nat.
Proof.
  revert b; induction n; intros [|x b]; simpl; split; intros; try lia; try congruence; auto.
  - apply IHn in H; lia.
  - apply IHn; lia.
Qed.

Lemma has_false n b : has n b = false <-> (length b < n)%nat.
Proof.
  destruct (has n b) eqn:E.
  - apply has_length in E. split; [congruence | lia].
  - split; auto; intros _. destruct (Nat.lt_ge_cases (length b) n) as [?|H]; auto.
    apply has_length in H; congruence.
Qed.

Lemma inc_start_spec n b b' :
  inc_start n b = Ok b' <-> exists pre, length pre = n /\ b = pre ++ b'.
Proof.
  revert b; induction n; intros b; simpl.
  - split.
    + intros H; injection H as <-. exists []; auto.
    + intros (pre & Hl & ->). destruct pre; try discriminate. reflexivity.
  - destruct b as [|x b].
    + split; [discriminate|]. intros (pre & Hl & H). destruct pre; discriminate.
    + rewrite IHn. split.
      * intros (pre & Hl & ->). exists (x :: pre); simpl; auto.
      * intros (pre & Hl & H). destruct pre as [|y pre]; try discriminate.
        injection H as <- ->. exists pre; simpl in Hl; auto.
Qed.

Lemma inc_start_has n b : has n b = true -> exists b', inc_start n b = Ok b'.
Proof.
  intros H; apply has_length in H.
  exists (skipn n b). apply inc_start_spec. exists (firstn n b).
  rewrite firstn_skipn, firstn_length; split; auto; lia.
Qed.

Lemma inc_start_skipn n b b' : inc_start n b = Ok b' -> b' = skipn n b /\ (n <= length b)%nat.
Proof.
  rewrite inc_start_spec. intros (pre & <- & ->).
  rewrite skipn_app, skipn_all, Nat.sub_diag, app_length; simpl. split; auto; lia.
Qed.

Lemma inc_start_app n b b' x : inc_start n b = Ok b' -> inc_start n (b ++ x) = Ok (b' ++ x).
Proof.
  rewrite !inc_start_spec. intros (pre & Hl & ->). exists pre. now rewrite app_assoc.
Qed.

Lemma has_app n b x : has n b = true -> has n (b ++ x) = true.
Proof. rewrite !has_length, app_length; lia. Qed.

Lemma peek_app n b x v : peek n b = Ok v -> peek n (b ++ x) = Ok v.
Proof.
  unfold peek. destruct (nth_error b n) eqn:E; try discriminate.
  rewrite nth_error_app1, E; auto. apply nth_error_Some; congruence.
Qed.

Lemma peek_has n b : (n < length b)%nat -> exists v, peek n b = Ok v.
Proof.
  intros H. unfold peek. destruct (nth_error b n) eqn:E; eauto.
  apply nth_error_None in E; lia.
Qed.

Lemma peek_byte n b v : bytes_ok b -> peek n b = Ok v -> v < 256.
Proof.
  unfold peek, bytes_ok. rewrite Forall_forall. intros H.
  destruct (nth_error b n) eqn:E; try discriminate. intros G; injection G as <-.
  apply H. eapply nth_error_In; eauto.
Qed.

Lemma peek_len n b v : peek n b = Ok v -> (n < length b)%nat.
Proof.
  unfold peek. destruct (nth_error b n) eqn:E; try discriminate. intros _.
  apply nth_error_Some; congruence.
Qed.

Lemma index_ok {A} (l : list A) n : n < N.of_nat (length l) -> exists v, index l n = Ok v.
Proof.
  intros H. unfold index. destruct (nth_error l (N.to_nat n)) eqn:E; eauto.
  apply nth_error_None in E; lia.
Qed.

Lemma index_in {A} (l : list A) n v : index l n = Ok v -> In v l.
Proof.
  unfold index. destruct (nth_error l (N.to_nat n)) eqn:E; try discriminate.
  intros G; injection G as <-. eapply nth_error_In; eauto.
Qed.

Lemma bytes_ok_app a b : bytes_ok (a ++ b) <-> bytes_ok a /\ bytes_ok b.
Proof. unfold bytes_ok. apply Forall_app. Qed.

(* ---- naming tables ---- *)

Lemma land_lt a k : N.land a (N.ones k) < 2 ^ k.
Proof. rewrite N.land_ones. apply N.mod_lt. apply N.pow_nonzero; discriminate. Qed.

Lemma land7 a : N.land a 7 < 8. Proof. exact (land_lt a 3). Qed.
Lemma land3 a : N.land a 3 < 4. Proof. exact (land_lt a 2). Qed.
Lemma land1 a : N.land a 1 < 2. Proof. exact (land_lt a 1). Qed.
Lemma land15 a : N.land a 15 < 16. Proof. exact (land_lt a 4). Qed.
Lemma land31 a : N.land a 31 < 32. Proof. exact (land_lt a 5). Qed.
Lemma land255 a : N.land a 255 < 256. Proof. exact (land_lt a 8). Qed.

Definition pages_ok (pages : list N) : bool :=
  (length pages =? 256)%nat &&
  forallb (fun pg => 8 * pg + 8 <=? N.of_nat (length namingBitmap)) pages.

Lemma namePages_ok : pages_ok namePages = true. Proof. vm_compute; reflexivity. Qed.
Lemma nmstrtPages_ok : pages_ok nmstrtPages = true. Proof. vm_compute; reflexivity. Qed.

Lemma pages_index pages hi : pages_ok pages = true -> hi < 256 ->
  exists pg, index pages hi = Ok pg /\ 8 * pg + 8 <= N.of_nat (length namingBitmap).
Proof.
  unfold pages_ok. rewrite andb_true_iff, forallb_forall, Nat.eqb_eq. intros [Hl Hp] Hh.
  destruct (index_ok pages hi) as [pg Hpg]; [lia|]. exists pg; split; auto.
  apply index_in in Hpg. apply Hp in Hpg. lia.
Qed.

Lemma bitmap_ok i bit : i < N.of_nat (length namingBitmap) -> exists r, bitmap_bit i bit = Ok r.
Proof.
  intros H. unfold bitmap_bit. destruct (index_ok namingBitmap i H) as [w ->]. simpl; eauto.
Qed.

Opaque namingBitmap namePages nmstrtPages.

Lemma ucs2_ok pages hi lo : pages_ok pages = true -> hi < 256 -> lo < 256 ->
  exists r, ucs2_get_naming pages hi lo = Ok r.
Proof.
  intros Hp Hh Hl. unfold ucs2_get_naming.
  destruct (pages_index _ _ Hp Hh) as (pg & -> & Hb). cbn [bind].
  apply bitmap_ok. rewrite N.shiftl_mul_pow2, N.shiftr_div_pow2.
  change (2^3) with 8. change (2^5) with 32.
  assert (lo / 32 < 8) by (apply N.div_lt_upper_bound; lia). lia.
Qed.

Lemma utf8_naming_ok pages b n : pages_ok pages = true -> (n = 2 \/ n = 3 \/ n = 4)%nat ->
  has n b = true -> exists r, utf8_naming pages b n = Ok r.
Proof.
  intros Hp Hn Hh. apply has_length in Hh.
  destruct Hn as [->|[->| ->]]; unfold utf8_naming.
  - destruct (peek_has 0 b) as [b0 ->]; [lia|]. destruct (peek_has 1 b) as [b1 ->]; [lia|].
    cbn [bind].
    destruct (pages_index pages (N.land (N.shiftr b0 2) 7)) as (pg & -> & Hb); auto.
    { pose proof (land7 (N.shiftr b0 2)); lia. }
    cbn [bind]. apply bitmap_ok. rewrite !N.shiftl_mul_pow2.
    change (2^3) with 8. change (2^1) with 2.
    pose proof (land3 b0). pose proof (land1 (N.shiftr b1 5)). lia.
  - destruct (peek_has 0 b) as [b0 ->]; [lia|]. destruct (peek_has 1 b) as [b1 ->]; [lia|].
    destruct (peek_has 2 b) as [b2 ->]; [lia|].
    cbn [bind].
    destruct (pages_index pages (N.shiftl (N.land b0 15) 4 + N.land (N.shiftr b1 2) 15))
      as (pg & -> & Hb); auto.
    { rewrite N.shiftl_mul_pow2. change (2^4) with 16.
      pose proof (land15 b0). pose proof (land15 (N.shiftr b1 2)). lia. }
    cbn [bind]. apply bitmap_ok. rewrite !N.shiftl_mul_pow2.
    change (2^3) with 8. change (2^1) with 2.
    pose proof (land3 b1). pose proof (land1 (N.shiftr b2 5)). lia.
  - eauto.
Qed.

Lemma bind_ok {A B} (r : res A) (k : A -> res B) v :
  bind r k = Ok v <-> exists a, r = Ok a /\ k a = Ok v.
Proof.
  destruct r; simpl; split; intros H.
  - eauto.
  - destruct H as (a' & E & H). injection E as ->; auto.
  - discriminate.
  - destruct H as (a' & E & _). discriminate.
Qed.

Ltac bind_inv H :=
  match type of H with
  | bind _ _ = Ok _ =>
      let a := fresh "v" in let E := fresh "E" in
      apply bind_ok in H; destruct H as (a & E & H)
  end.

Ltac peek_app_tac :=
  repeat match goal with
  | E : peek ?n ?b = Ok _ |- context [peek ?n (?b ++ ?x)] =>
      rewrite (peek_app _ _ x _ E); cbn [bind]
  | E : index ?l ?n = Ok _ |- context [index ?l ?n] => rewrite E; cbn [bind]
  end.

Lemma utf8_naming_app pages b n x r :
  utf8_naming pages b n = Ok r -> utf8_naming pages (b ++ x) n = Ok r.
Proof.
  unfold utf8_naming. destruct n as [|[|[|[|[|n]]]]]; try discriminate; auto; intros H;
    repeat bind_inv H; peek_app_tac; auto.
Qed.

Lemma utf8_is_invalid_ok b n : (n = 2 \/ n = 3 \/ n = 4)%nat ->
  has n b = true -> exists r, utf8_is_invalid b n = Ok r.
Proof.
  intros Hn Hh. apply has_length in Hh.
  destruct Hn as [->|[->| ->]]; unfold utf8_is_invalid.
  - destruct (peek_has 0 b) as [b0 ->]; [lia|]. destruct (peek_has 1 b) as [b1 ->]; [lia|].
    cbn [bind]; eauto.
  - destruct (peek_has 0 b) as [b0 ->]; [lia|]. destruct (peek_has 1 b) as [b1 ->]; [lia|].
    destruct (peek_has 2 b) as [b2 ->]; [lia|]. cbn [bind]; eauto.
  - destruct (peek_has 0 b) as [b0 ->]; [lia|]. destruct (peek_has 1 b) as [b1 ->]; [lia|].
    destruct (peek_has 2 b) as [b2 ->]; [lia|]. destruct (peek_has 3 b) as [b3 ->]; [lia|].
    cbn [bind]; eauto.
Qed.

Lemma utf8_is_invalid_app b n x r :
  utf8_is_invalid b n = Ok r -> utf8_is_invalid (b ++ x) n = Ok r.
Proof.
  unfold utf8_is_invalid. destruct n as [|[|[|[|[|n]]]]]; try discriminate; auto; intros H;
    repeat bind_inv H; peek_app_tac; auto.
Qed.

Lemma table_bt_ok types b : length types = 256%nat -> bytes_ok b -> has 1 b = true ->
  exists t, table_byte_type types b = Ok t.
Proof.
  intros Ht Hb Hh. apply has_length in Hh. unfold table_byte_type.
  destruct (peek_has 0 b) as [b0 E]; [lia|]. rewrite E. cbn [bind].
  apply index_ok. rewrite Ht. pose proof (peek_byte _ _ _ Hb E). lia.
Qed.

Lemma table_bt_app types b x t :
  table_byte_type types b = Ok t -> table_byte_type types (b ++ x) = Ok t.
Proof. unfold table_byte_type. intros H. bind_inv H. peek_app_tac. auto. Qed.

Lemma table_bt_has types b t : table_byte_type types b = Ok t -> has 1 b = true.
Proof.
  unfold table_byte_type. intros H. bind_inv H. apply peek_len in E. apply has_length. lia.
Qed.

Lemma lead_len_cases t n : lead_len t = Some n -> (n = 2 \/ n = 3 \/ n = 4)%nat.
Proof. destruct t; simpl; intros H; inversion H; auto. Qed.

Ltac one_byte_tac :=
  unfold char_matches1, byte_to_ascii1; intros;
  match goal with
  | H : has 1 ?b = true |- _ =>
      apply has_length in H; destruct (peek_has 0 b) as [? ->]; [lia|]; cbn [bind]; eauto
  | H : _ = Ok _ |- _ => first [apply (peek_app _ _ _ _ H) | bind_inv H; peek_app_tac; auto]
  end.

Lemma utf8_enc_ok types : length types = 256%nat -> enc_ok (utf8_enc types).
Proof.
  intros Ht. constructor; cbn [utf8_enc minbpc byte_type byte_to_ascii is_name_char is_nmstrt_char
    is_invalid_char is_name_char_minbpc is_nmstrt_char_minbpc char_matches]; auto.
  - intros. apply table_bt_ok; auto.
  - apply table_bt_has.
  - intros. apply table_bt_app; auto.
  - intros. apply lead_len_cases in H0. lia.
  - intros. apply lead_len_cases in H1. apply utf8_naming_ok; auto using namePages_ok, nmstrtPages_ok.
  - intros; apply utf8_naming_app; auto.
  - intros. apply lead_len_cases in H1. apply utf8_naming_ok; auto using namePages_ok, nmstrtPages_ok.
  - intros; apply utf8_naming_app; auto.
  - intros. apply lead_len_cases in H1. apply utf8_is_invalid_ok; auto.
  - intros; apply utf8_is_invalid_app; auto.
  - eauto.
  - eauto.
  - one_byte_tac.
  - one_byte_tac.
  - one_byte_tac.
  - one_byte_tac.
Qed.

Lemma latin1_enc_ok types : length types = 256%nat -> enc_ok (latin1_enc types).
Proof.
  intros Ht. constructor; cbn [latin1_enc minbpc byte_type byte_to_ascii is_name_char is_nmstrt_char
    is_invalid_char is_name_char_minbpc is_nmstrt_char_minbpc char_matches]; eauto.
  - intros. apply table_bt_ok; auto.
  - apply table_bt_has.
  - intros. apply table_bt_app; auto.
  - intros. apply lead_len_cases in H0. lia.
  - one_byte_tac.
  - one_byte_tac.
  - one_byte_tac.
  - one_byte_tac.
Qed.

Lemma ascii_enc_ok types : length types = 256%nat -> enc_ok (ascii_enc types).
Proof.
  intros Ht. constructor; cbn [ascii_enc minbpc byte_type byte_to_ascii is_name_char is_nmstrt_char
    is_invalid_char is_name_char_minbpc is_nmstrt_char_minbpc char_matches]; eauto.
  - intros. apply table_bt_ok; auto.
  - apply table_bt_has.
  - intros. apply table_bt_app; auto.
  - intros. apply lead_len_cases in H0. lia.
  - one_byte_tac.
  - one_byte_tac.
  - one_byte_tac.
  - one_byte_tac.
Qed.

(* In the two-byte encodings the only multi-unit lead is LEAD4. *)
Lemma unicode_bt_lead hi lo n : lead_len (unicode_byte_type hi lo) = Some n -> n = 4%nat.
Proof.
  unfold unicode_byte_type.
  destruct (_ && _); [intros H; inversion H; auto|].
  destruct (_ && _); [discriminate|]. destruct (_ && _); discriminate.
Qed.

Ltac two_byte_tac :=
  unfold char_matches2, byte_to_ascii2, naming2; intros;
  match goal with
  | H : has 2 ?b = true |- _ =>
      apply has_length in H; destruct (peek_has 0 b) as [? ->]; [lia|];
      destruct (peek_has 1 b) as [? ->]; [lia|]; cbn [bind]; eauto
  | H : _ = Ok _ |- _ => repeat bind_inv H; peek_app_tac; auto
  end.

Lemma little2_enc_ok types : length types = 256%nat -> enc_ok (little2_enc types).
Proof.
  intros Ht. constructor; cbn [little2_enc minbpc byte_type byte_to_ascii is_name_char is_nmstrt_char
    is_invalid_char is_name_char_minbpc is_nmstrt_char_minbpc char_matches]; eauto.
  - intros b Hb Hh. apply has_length in Hh. unfold little2_byte_type.
    destruct (peek_has 0 b) as [b0 E0]; [lia|]. destruct (peek_has 1 b) as [b1 E1]; [lia|].
    rewrite E0, E1. cbn [bind]. destruct (b1 =? 0); eauto.
    apply index_ok. rewrite Ht. pose proof (peek_byte _ _ _ Hb E0). lia.
  - unfold little2_byte_type. intros. repeat bind_inv H. apply peek_len in E0. apply has_length. lia.
  - unfold little2_byte_type. intros. repeat bind_inv H. peek_app_tac. auto.
  - intros. apply lead_len_cases in H0. lia.
  - unfold naming2. intros b Hb Hh. apply has_length in Hh.
    destruct (peek_has 0 b) as [b0 E0]; [lia|]. destruct (peek_has 1 b) as [b1 E1]; [lia|].
    rewrite E0, E1. cbn [bind]. apply ucs2_ok; [apply namePages_ok | |]; eapply peek_byte; eauto.
  - two_byte_tac.
  - unfold naming2. intros b Hb Hh. apply has_length in Hh.
    destruct (peek_has 0 b) as [b0 E0]; [lia|]. destruct (peek_has 1 b) as [b1 E1]; [lia|].
    rewrite E0, E1. cbn [bind]. apply ucs2_ok; [apply nmstrtPages_ok | |]; eapply peek_byte; eauto.
  - two_byte_tac.
  - two_byte_tac.
  - two_byte_tac.
  - unfold byte_to_ascii2. intros b H. apply has_length in H.
    destruct (peek_has 0 b) as [b0 ->]; [lia|]. destruct (peek_has 1 b) as [b1 ->]; [lia|]. cbn [bind].
    destruct (b1 =? 0); eauto.
  - two_byte_tac.
Qed.

(* ---- user-supplied encodings ---- *)

Lemma checkCharRefNumber_ok c : (0 <= c)%Z -> exists r, checkCharRefNumber c = Ok r.
Proof.
  intros Hc. unfold checkCharRefNumber. cbv zeta.
  destruct ((216 <=? Z.shiftr c 8) && (Z.shiftr c 8 <=? 223))%Z; eauto.
  destruct (Z.shiftr c 8 =? 0)%Z eqn:E.
  - destruct (index_ok Latin1EncodingTable (Z.to_N c)) as [t ->].
    + change (length Latin1EncodingTable) with 256%nat.
      rewrite Z.shiftr_div_pow2 in E by lia. change (2^8)%Z with 256%Z in E.
      assert (c < 256)%Z by (apply Z.eqb_eq in E; apply Z.div_small_iff in E; lia). lia.
    + cbn [bind]. eauto.
  - destruct (_ && _); eauto.
Qed.

Lemma unknown_check_total u (P : option (bytes -> Z)) b n :
  ue_convert u = P -> has n b = true ->
  exists r, unknown_is_invalid u b n = Ok r.
Proof.
  intros HP Hh. unfold unknown_is_invalid. rewrite HP. destruct P as [conv|]; eauto.
  rewrite Hh. cbn [negb]. cbv zeta.
  destruct ((conv (firstn n b) <? 0)%Z || (65535 <? conv (firstn n b))%Z) eqn:E; eauto.
  destruct (checkCharRefNumber_ok (conv (firstn n b))) as [r ->]; [lia|]. cbn [bind]; eauto.
Qed.

Lemma unknown_naming_total u pages b n : pages_ok pages = true -> has n b = true ->
  exists r, unknown_naming u pages b n = Ok r.
Proof.
  intros Hp Hh. unfold unknown_naming. destruct (ue_convert u) as [conv|]; eauto.
  rewrite Hh. cbn [negb]. cbv zeta.
  destruct ((conv (firstn n b) <? 0)%Z || (65535 <? conv (firstn n b))%Z) eqn:E; eauto.
  apply ucs2_ok; auto.
  - rewrite N.shiftr_div_pow2. apply N.div_lt_upper_bound; lia.
  - apply land255.
Qed.

Lemma firstn_has_app {A} n (b x : list A) : (n <= length b)%nat -> firstn n (b ++ x) = firstn n b.
Proof.
  intros H. rewrite firstn_app. replace (n - length b)%nat with 0%nat by lia.
  simpl. apply app_nil_r.
Qed.

Lemma unknown_naming_app u pages b n x r :
  unknown_naming u pages b n = Ok r -> unknown_naming u pages (b ++ x) n = Ok r.
Proof.
  unfold unknown_naming. destruct (ue_convert u); auto.
  destruct (has n b) eqn:Hh; [|discriminate]. rewrite (has_app _ _ x Hh).
  apply has_length in Hh. rewrite firstn_has_app by auto. auto.
Qed.

Lemma unknown_invalid_app u b n x r :
  unknown_is_invalid u b n = Ok r -> unknown_is_invalid u (b ++ x) n = Ok r.
Proof.
  unfold unknown_is_invalid. destruct (ue_convert u); auto.
  destruct (has n b) eqn:Hh; [|discriminate]. rewrite (has_app _ _ x Hh).
  apply has_length in Hh. rewrite firstn_has_app by auto. auto.
Qed.

Lemma unknown_enc_ok u : length (ue_types u) = 256%nat -> enc_ok (unknown_enc u).
Proof.
  intros Ht. constructor; cbn [unknown_enc minbpc byte_type byte_to_ascii is_name_char is_nmstrt_char
    is_invalid_char is_name_char_minbpc is_nmstrt_char_minbpc char_matches]; eauto.
  - intros. apply table_bt_ok; auto.
  - apply table_bt_has.
  - intros. apply table_bt_app; auto.
  - intros. apply lead_len_cases in H0. lia.
  - intros. apply unknown_naming_total; auto using namePages_ok, nmstrtPages_ok.
  - intros; apply unknown_naming_app; auto.
  - intros. apply unknown_naming_total; auto using namePages_ok, nmstrtPages_ok.
  - intros; apply unknown_naming_app; auto.
  - intros. eapply unknown_check_total; eauto.
  - intros; apply unknown_invalid_app; auto.
  - one_byte_tac.
  - one_byte_tac.
  - one_byte_tac.
  - one_byte_tac.
Qed.

(* The shipped encodings (XML_ENCODINGS tables), without UTF-16BE. *)
Lemma utf8_ok : enc_ok utf8_encoding. Proof. apply utf8_enc_ok; reflexivity. Qed.
Lemma utf8_ns_ok : enc_ok utf8_encoding_ns. Proof. apply utf8_enc_ok; reflexivity. Qed.
Lemma iutf8_ok : enc_ok internal_utf8_encoding. Proof. apply utf8_enc_ok; reflexivity. Qed.
Lemma iutf8_ns_ok : enc_ok internal_utf8_encoding_ns. Proof. apply utf8_enc_ok; reflexivity. Qed.
Lemma latin1_ok : enc_ok latin1_encoding. Proof. apply latin1_enc_ok; reflexivity. Qed.
Lemma latin1_ns_ok : enc_ok latin1_encoding_ns. Proof. apply latin1_enc_ok; reflexivity. Qed.
Lemma ascii_ok : enc_ok ascii_encoding. Proof. apply ascii_enc_ok; reflexivity. Qed.
Lemma ascii_ns_ok : enc_ok ascii_encoding_ns. Proof. apply ascii_enc_ok; reflexivity. Qed.
Lemma little2_ok : enc_ok little2_encoding. Proof. apply little2_enc_ok; reflexivity. Qed.
Lemma little2_ns_ok : enc_ok little2_encoding_ns. Proof. apply little2_enc_ok; reflexivity. Qed.
