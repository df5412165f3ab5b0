(* Proofs about the Unicode conversions and the UTF-8 validator. *)
From Coq Require Import List NArith ZArith Bool Lia.
From Coq Require Import ZifyBool ZifyNat ZifyN.
From Verif Require Import Base Tables Encoding EncLaws SpecUnicode SpecConv.
Import ListNotations.
Local Open Scope N_scope.

Ltac Zify.zify_post_hook ::= Z.div_mod_to_equations.

(* ---- bit operations as arithmetic ---- *)

Lemma lor_add a b k : a < 2 ^ k -> b mod 2 ^ k = 0 -> N.lor a b = a + b.
Proof.
  intros Ha Hb.
  assert (L : N.land a b = 0).
  { apply N.bits_inj. intros n. rewrite N.land_spec, N.bits_0.
    destruct (N.lt_ge_cases n k) as [H|H].
    - rewrite <- (N.mod_pow2_bits_low b k n H), Hb, N.bits_0. apply andb_false_r.
    - rewrite <- (N.mod_small a (2^k) Ha), (N.mod_pow2_bits_high a k n H). reflexivity. }
  rewrite (N.add_nocarry_lxor a b L), (N.lxor_lor a b L). reflexivity.
Qed.

Lemma shr a k : N.shiftr a k = a / 2 ^ k. Proof. apply N.shiftr_div_pow2. Qed.
Lemma shl a k : N.shiftl a k = a * 2 ^ k. Proof. apply N.shiftl_mul_pow2. Qed.
Lemma land63 a : N.land a 63 = a mod 64. Proof. exact (N.land_ones a 6). Qed.
Lemma land15' a : N.land a 15 = a mod 16. Proof. exact (N.land_ones a 4). Qed.
Lemma land3' a : N.land a 3 = a mod 4. Proof. exact (N.land_ones a 2). Qed.
Lemma land7' a : N.land a 7 = a mod 8. Proof. exact (N.land_ones a 3). Qed.
Lemma land31' a : N.land a 31 = a mod 32. Proof. exact (N.land_ones a 5). Qed.
Lemma land1' a : N.land a 1 = a mod 2. Proof. exact (N.land_ones a 1). Qed.
Lemma land1023 a : N.land a 1023 = a mod 1024. Proof. exact (N.land_ones a 10). Qed.
Lemma land255' a : N.land a 255 = a mod 256. Proof. exact (N.land_ones a 8). Qed.

(* a sweep over all bytes *)
Fixpoint upto (n : nat) : list N := match n with O => [] | S n => upto n ++ [N.of_nat n] end.
Lemma upto_in n k : k < N.of_nat n -> In k (upto n).
Proof.
  induction n; intros H; [lia|]. cbn [upto]. apply in_or_app.
  destruct (N.eq_dec k (N.of_nat n)) as [->|E]; [right; left; auto | left; apply IHn; lia].
Qed.
Lemma byte_sweep (P : N -> bool) : forallb P (upto 256) = true -> forall b, b < 256 -> P b = true.
Proof. rewrite forallb_forall. intros H b Hb. apply H, upto_in. lia. Qed.

Definition mask_ok (b : N) : bool :=
  eqb (N.land b 128 =? 0) (b <? 128)
  && eqb (N.land b 192 =? 192) (192 <=? b)
  && eqb (N.land b 248 =? 240) ((240 <=? b) && (b <? 248))
  && eqb (N.land b 240 =? 224) ((224 <=? b) && (b <? 240))
  && eqb (N.land b 224 =? 192) ((192 <=? b) && (b <? 224)).
Lemma masks b : b < 256 -> mask_ok b = true.
Proof. apply byte_sweep. vm_compute; reflexivity. Qed.
Lemma mask128 b : b < 256 -> (N.land b 128 =? 0) = (b <? 128).
Proof.
  intros H. pose proof (masks b H) as M. unfold mask_ok in M.
  repeat rewrite andb_true_iff in M. repeat rewrite eqb_true_iff in M. tauto.
Qed.
Lemma mask192 b : b < 256 -> (N.land b 192 =? 192) = (192 <=? b).
Proof.
  intros H. pose proof (masks b H) as M. unfold mask_ok in M.
  repeat rewrite andb_true_iff in M. repeat rewrite eqb_true_iff in M. tauto.
Qed.
Lemma mask248 b : b < 256 -> (N.land b 248 =? 240) = ((240 <=? b) && (b <? 248)).
Proof.
  intros H. pose proof (masks b H) as M. unfold mask_ok in M.
  repeat rewrite andb_true_iff in M. repeat rewrite eqb_true_iff in M. tauto.
Qed.
Lemma mask240 b : b < 256 -> (N.land b 240 =? 224) = ((224 <=? b) && (b <? 240)).
Proof.
  intros H. pose proof (masks b H) as M. unfold mask_ok in M.
  repeat rewrite andb_true_iff in M. repeat rewrite eqb_true_iff in M. tauto.
Qed.
Lemma mask224 b : b < 256 -> (N.land b 224 =? 192) = ((192 <=? b) && (b <? 224)).
Proof.
  intros H. pose proof (masks b H) as M. unfold mask_ok in M.
  repeat rewrite andb_true_iff in M. repeat rewrite eqb_true_iff in M. tauto.
Qed.

Lemma cons_inj {A} (x y : A) l m : x :: l = y :: m -> x = y /\ l = m.
Proof. intros H; inversion H; auto. Qed.
Ltac cinj :=
  repeat match goal with
  | H : _ :: _ = _ :: _ |- _ => apply cons_inj in H; destruct H
  end.

(* ---- shape of utf8_encode ---- *)

Inductive utf8_form (c : N) : list N -> Prop :=
| form1 : c < 128 -> utf8_form c [c]
| form2 a b : 128 <= c < 2048 -> c = a * 64 + b -> 2 <= a < 32 -> b < 64 ->
    utf8_form c [192 + a; 128 + b]
| form3 a b d : 2048 <= c < 65536 -> c = a * 4096 + b * 64 + d -> a < 16 -> b < 64 -> d < 64 ->
    (a = 0 -> 32 <= b) -> utf8_form c [224 + a; 128 + b; 128 + d]
| form4 a b d f : 65536 <= c < 1114112 -> c = a * 262144 + b * 4096 + d * 64 + f ->
    a < 5 -> b < 64 -> d < 64 -> f < 64 -> (a = 0 -> 16 <= b) -> (a = 4 -> b < 16) ->
    utf8_form c [240 + a; 128 + b; 128 + d; 128 + f].

Lemma scalar_bound c : is_scalar c = true -> c < 1114112.
Proof. unfold is_scalar. lia. Qed.

Lemma utf8_encode_form c : c < 1114112 -> utf8_form c (utf8_encode c).
Proof.
  intros H. unfold utf8_encode.
  destruct (c <? 128) eqn:E1; [apply form1; lia|].
  destruct (c <? 2048) eqn:E2; [apply form2; lia|].
  destruct (c <? 65536) eqn:E3.
  - apply form3; try lia.
  - replace ((c / 4096) mod 64) with ((c / 4096) mod 64) by auto.
    apply form4; try lia.
Qed.

Lemma utf8_form_encode c l : utf8_form c l -> utf8_encode c = l.
Proof.
  intros F. destruct F; unfold utf8_encode.
  - replace (c <? 128) with true by lia. reflexivity.
  - replace (c <? 128) with false by lia. replace (c <? 2048) with true by lia.
    f_equal; [lia|]. f_equal; lia.
  - replace (c <? 128) with false by lia. replace (c <? 2048) with false by lia.
    replace (c <? 65536) with true by lia.
    f_equal; [lia|]. f_equal; [lia|]. f_equal; lia.
  - replace (c <? 128) with false by lia. replace (c <? 2048) with false by lia.
    replace (c <? 65536) with false by lia.
    f_equal; [lia|]. f_equal; [lia|]. f_equal; [lia|]. f_equal; lia.
Qed.

Lemma utf8_encode_bytes c : c < 1114112 -> bytes_ok (utf8_encode c).
Proof.
  intros H. destruct (utf8_encode_form c H); repeat (apply Forall_cons; [lia|]); apply Forall_nil.
Qed.

Lemma utf8_encode_inj c d : c < 1114112 -> d < 1114112 -> utf8_encode c = utf8_encode d -> c = d.
Proof.
  intros Hc Hd E. destruct (utf8_encode_form c Hc), (utf8_encode_form d Hd);
    try discriminate; cinj; lia.
Qed.

Lemma utf8_encode_len c : (1 <= length (utf8_encode c) <= 4)%nat.
Proof.
  unfold utf8_encode. destruct (_ <? _); [simpl; lia|]. destruct (_ <? _); [simpl; lia|].
  destruct (_ <? _); simpl; lia.
Qed.

Lemma utf8_app a b : utf8 (a ++ b) = utf8 a ++ utf8 b.
Proof. apply flat_map_app. Qed.

Lemma utf8_bytes cs : Forall (fun c => c < 1114112) cs -> bytes_ok (utf8 cs).
Proof.
  induction 1; [apply Forall_nil|]. cbn. apply Forall_app; split; auto. now apply utf8_encode_bytes.
Qed.

(* ---- XmlUtf8Encode ---- *)

Lemma zlor_add a b k : (0 <= a)%Z -> (0 <= b)%Z -> (0 <= k)%Z ->
  (a < 2 ^ k)%Z -> (b mod 2 ^ k = 0)%Z -> Z.lor a b = (a + b)%Z.
Proof.
  intros Ha Hb Hk Hl Hm.
  assert (L : Z.land a b = 0%Z).
  { apply Z.bits_inj'. intros n Hn. rewrite Z.land_spec, Z.bits_0.
    destruct (Z.lt_ge_cases n k) as [H|H].
    - rewrite <- (Z.mod_pow2_bits_low b k n H), Hm, Z.bits_0. apply andb_false_r.
    - rewrite <- (Z.mod_small a (2^k)) by lia. rewrite Z.mod_pow2_bits_high by lia. reflexivity. }
  rewrite (Z.add_nocarry_lxor a b L), (Z.lxor_lor a b L). reflexivity.
Qed.

Lemma zland63 a : Z.land a 63 = (a mod 64)%Z. Proof. exact (Z.land_ones a 6 ltac:(lia)). Qed.
Lemma zshr a k : (0 <= k)%Z -> Z.shiftr a k = (a / 2 ^ k)%Z. Proof. apply Z.shiftr_div_pow2. Qed.

Lemma XmlUtf8Encode_spec c : c < 1114112 -> XmlUtf8Encode (Z.of_N c) = utf8_encode c.
Proof.
  intros H. unfold XmlUtf8Encode, utf8_encode, as_char.
  replace (Z.of_N c <? 0)%Z with false by lia.
  replace (Z.of_N c <? 128)%Z with (c <? 128) by lia.
  replace (Z.of_N c <? 2048)%Z with (c <? 2048) by lia.
  replace (Z.of_N c <? 65536)%Z with (c <? 65536) by lia.
  replace (Z.of_N c <? 1114112)%Z with true by lia.
  rewrite !zland63, !zshr by lia.
  change (2^6)%Z with 64%Z. change (2^12)%Z with 4096%Z. change (2^18)%Z with 262144%Z.
  destruct (c <? 128) eqn:E1.
  { rewrite Z.lor_0_r. f_equal. lia. }
  rewrite !(zlor_add (_ mod 64) 128 6) by (try reflexivity; lia).
  destruct (c <? 2048) eqn:E2.
  { rewrite (zlor_add _ 192 6) by (try reflexivity; lia). f_equal; [lia|]. f_equal. lia. }
  destruct (c <? 65536) eqn:E3.
  { rewrite (zlor_add _ 224 5) by (try reflexivity; lia).
    f_equal; [lia|]. f_equal; [lia|]. f_equal. lia. }
  rewrite (zlor_add _ 240 4) by (try reflexivity; lia).
  f_equal; [lia|]. f_equal; [lia|]. f_equal; [lia|]. f_equal. lia.
Qed.

Lemma XmlUtf8Encode_none z : (z < 0 \/ 1114112 <= z)%Z -> XmlUtf8Encode z = [].
Proof.
  intros H. unfold XmlUtf8Encode.
  destruct (z <? 0)%Z eqn:E; auto.
  replace (z <? 128)%Z with false by lia. replace (z <? 2048)%Z with false by lia.
  replace (z <? 65536)%Z with false by lia. replace (z <? 1114112)%Z with false by lia. reflexivity.
Qed.

(* ---- the validator ---- *)

Definition utf8_types (types : list ByteType) : Prop :=
  types = Utf8EncodingTable \/ types = Utf8EncodingTableNS \/
  types = InternalUtf8EncodingTable \/ types = InternalUtf8EncodingTableNS.

Definition utf8_lead_ok (types : list ByteType) (b : N) : bool :=
  match index types b with
  | Ok t =>
      match lead_len t with
      | Some n => ((n =? 2)%nat && (192 <=? b) && (b <? 224))
                  || ((n =? 3)%nat && (224 <=? b) && (b <? 240))
                  || ((n =? 4)%nat && (240 <=? b) && (b <? 245))
      | None => (b <? 192) || (245 <=? b)
      end
  | _ => false
  end.
Lemma utf8_lead types b t : utf8_types types -> b < 256 -> index types b = Ok t ->
  utf8_lead_ok types b = true.
Proof.
  intros H Hb _. revert b Hb. apply byte_sweep.
  destruct H as [->|[->|[->| ->]]]; vm_compute; reflexivity.
Qed.

Definition xml_scalar (c : N) : bool := is_scalar c && negb (c =? 65534) && negb (c =? 65535).

Lemma utf8_invalid_exact types b t n : utf8_types types -> bytes_ok b ->
  byte_type (utf8_enc types) b = Ok t -> lead_len t = Some n -> has n b = true ->
  (is_invalid_char (utf8_enc types) b n = Ok false <->
   exists c, xml_scalar c = true /\ utf8_encode c = firstn n b).
Proof.
  intros Ht Hb E L Hn. cbn [utf8_enc byte_type is_invalid_char] in *.
  unfold table_byte_type in E. bind_inv E. unfold peek in E0.
  destruct b as [|b0 b]; cbn in E0; try discriminate. injection E0 as <-.
  apply Forall_cons_iff in Hb as [B0 Hb].
  pose proof (utf8_lead _ _ _ Ht B0 E) as U. unfold utf8_lead_ok in U. rewrite E, L in U.
  apply has_length in Hn.
  destruct (lead_len_cases _ _ L) as [->|[->| ->]]; cbn in Hn.
  - destruct b as [|b1 b]; [cbn in Hn; lia|]. apply Forall_cons_iff in Hb as [B1 Hb].
    cbn [utf8_is_invalid peek nth_error bind firstn]. rewrite mask128, mask192 by auto.
    split.
    + intros H. injection H as H. exists ((b0 - 192) * 64 + (b1 - 128)). split.
      * unfold xml_scalar, is_scalar. lia.
      * replace b0 with (192 + (b0 - 192)) at 2 by lia. replace b1 with (128 + (b1 - 128)) at 2 by lia.
        apply utf8_form_encode, form2; lia.
    + intros (c & S & F). f_equal. unfold xml_scalar, is_scalar in S.
      destruct (utf8_encode_form c); try discriminate; [lia|]. cinj. lia.
  - destruct b as [|b1 [|b2 b]]; [cbn in Hn; lia|cbn in Hn; lia|].
    apply Forall_cons_iff in Hb as [B1 Hb]. apply Forall_cons_iff in Hb as [B2 Hb].
    cbn [utf8_is_invalid peek nth_error bind firstn]. rewrite !mask128, !mask192 by auto.
    split.
    + intros H. injection H as H.
      exists ((b0 - 224) * 4096 + (b1 - 128) * 64 + (b2 - 128)).
      assert (H1 : 128 <= b1 < 192 /\ 128 <= b2 < 192 /\ (b0 = 224 -> 160 <= b1)
                   /\ (b0 = 237 -> b1 < 160) /\ (b0 = 239 -> b1 = 191 -> b2 < 190)).
      { destruct ((b0 =? 239) && (b1 =? 191)) eqn:X1, (b0 =? 224) eqn:X2, (b0 =? 237) eqn:X3; lia. }
      split.
      * unfold xml_scalar, is_scalar. lia.
      * replace b0 with (224 + (b0 - 224)) at 2 by lia. replace b1 with (128 + (b1 - 128)) at 2 by lia.
        replace b2 with (128 + (b2 - 128)) at 2 by lia.
        apply utf8_form_encode, form3; lia.
    + intros (c & S & F). f_equal. unfold xml_scalar, is_scalar in S.
      destruct (utf8_encode_form c); try discriminate; [lia|]. cinj.
      destruct ((b0 =? 239) && (b1 =? 191)) eqn:X1, (b0 =? 224) eqn:X2, (b0 =? 237) eqn:X3; lia.
  - destruct b as [|b1 [|b2 [|b3 b]]]; try (cbn in Hn; lia).
    apply Forall_cons_iff in Hb as [B1 Hb]. apply Forall_cons_iff in Hb as [B2 Hb].
    apply Forall_cons_iff in Hb as [B3 Hb].
    cbn [utf8_is_invalid peek nth_error bind firstn]. rewrite !mask128, !mask192 by auto.
    split.
    + intros H. injection H as H.
      exists ((b0 - 240) * 262144 + (b1 - 128) * 4096 + (b2 - 128) * 64 + (b3 - 128)).
      assert (H1 : 128 <= b1 < 192 /\ 128 <= b2 < 192 /\ 128 <= b3 < 192 /\ (b0 = 240 -> 144 <= b1)
                   /\ (b0 = 244 -> b1 < 144)).
      { destruct (b0 =? 240) eqn:X2, (b0 =? 244) eqn:X3; lia. }
      split.
      * unfold xml_scalar, is_scalar. lia.
      * replace b0 with (240 + (b0 - 240)) at 2 by lia. replace b1 with (128 + (b1 - 128)) at 2 by lia.
        replace b2 with (128 + (b2 - 128)) at 2 by lia. replace b3 with (128 + (b3 - 128)) at 2 by lia.
        apply utf8_form_encode, form4; lia.
    + intros (c & S & F). f_equal. unfold xml_scalar, is_scalar in S.
      destruct (utf8_encode_form c); try discriminate; [lia|]. cinj.
      destruct (b0 =? 240) eqn:X2, (b0 =? 244) eqn:X3; lia.
Qed.

(* the same for the four encoding constants *)
Definition utf8_encs : list EncImpl :=
  [utf8_encoding; utf8_encoding_ns; internal_utf8_encoding; internal_utf8_encoding_ns].
Lemma utf8_encs_types e : In e utf8_encs -> exists types, utf8_types types /\ e = utf8_enc types.
Proof.
  unfold utf8_types. intros [<-|[<-|[<-|[<-|[]]]]]; eexists; (split; [|reflexivity]); auto.
Qed.
Lemma utf8_invalid_exact' e b t n : In e utf8_encs -> bytes_ok b ->
  byte_type e b = Ok t -> lead_len t = Some n -> (n <= length b)%nat ->
  (is_invalid_char e b n = Ok false <->
   exists c, is_scalar c = true /\ c <> 65534 /\ c <> 65535 /\ utf8_encode c = firstn n b).
Proof.
  intros He H2 H3 H4 H5. destruct (utf8_encs_types e He) as (types & H1 & ->).
  apply has_length in H5.
  destruct (utf8_invalid_exact types b t n H1 H2 H3 H4 H5) as [A B]. unfold xml_scalar in *. split.
  - intros X. destruct (A X) as (c & C & D). exists c.
    apply andb_prop in C as [C C3]. apply andb_prop in C as [C1 C2]. repeat split; auto; lia.
  - intros (c & C1 & C2 & C3 & D). apply B. exists c. split; auto. rewrite C1. lia.
Qed.
Lemma utf8_lead' e b r t : In e utf8_encs -> b < 256 -> byte_type e (b :: r) = Ok t ->
  lead_len t = (if (192 <=? b) && (b <? 224) then Some 2%nat else if (224 <=? b) && (b <? 240) then Some 3%nat
                else if (240 <=? b) && (b <? 245) then Some 4%nat else None).
Proof.
  intros He Hb E. destruct (utf8_encs_types e He) as (types & Ht & ->).
  change (index types b = Ok t) in E.
  pose proof (utf8_lead types b t Ht Hb E) as L. unfold utf8_lead_ok in L. rewrite E in L.
  revert L. destruct ((192 <=? b) && (b <? 224)) eqn:X1; destruct ((224 <=? b) && (b <? 240)) eqn:X2;
    destruct ((240 <=? b) && (b <? 245)) eqn:X3; destruct t; cbn [lead_len Nat.eqb andb orb]; intros L;
    try reflexivity; exfalso; lia.
Qed.
Definition stray_ok (types : list ByteType) (b : N) : bool :=
  if (b <? 128) || ((192 <=? b) && (b <? 245)) then true
  else match index types b with Ok BT_TRAIL | Ok BT_NONXML | Ok BT_MALFORM => true | _ => false end.
Lemma utf8_stray e b r : In e utf8_encs -> 128 <= b < 192 \/ 245 <= b < 256 ->
  byte_type e (b :: r) = Ok BT_TRAIL \/ byte_type e (b :: r) = Ok BT_NONXML \/ byte_type e (b :: r) = Ok BT_MALFORM.
Proof.
  intros He Hb. destruct (utf8_encs_types e He) as (types & Ht & ->).
  change (byte_type (utf8_enc types) (b :: r)) with (index types b).
  assert (L : stray_ok types b = true).
  { assert (b < 256) as Hb2 by lia. clear Hb. revert b Hb2. apply byte_sweep.
    destruct Ht as [->|[->|[->| ->]]]; vm_compute; reflexivity. }
  unfold stray_ok in L. replace (_ || _) with false in L by lia.
  destruct (index types b) as [[]|]; try discriminate; auto.
Qed.
