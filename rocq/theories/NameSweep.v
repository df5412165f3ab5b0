(* The naming bitmaps of src/lib/nametab.rs are the XML 1.0 (fourth edition) name classes on the
   whole Basic Multilingual Plane.  Swept word by word (32 code points each). *)
From Coq Require Import List NArith ZArith Bool Lia Arith ZifyBool ZifyNat ZifyN.
From Verif Require Import Base Tables Encoding SpecNames.
Import ListNotations.
Local Open Scope N_scope.
Ltac Zify.zify_post_hook ::= Z.div_mod_to_equations.

Fixpoint all_below (n : nat) (c : N) (f : N -> bool) : bool :=
  match n with O => true | S n' => f c && all_below n' (c + 1) f end.
Lemma all_below_spec n : forall c f, all_below n c f = true -> forall d, c <= d < c + N.of_nat n -> f d = true.
Proof.
  induction n; intros c f H d Hd; [lia|]. cbn in H. apply andb_prop in H as [H1 H2].
  destruct (N.eq_dec c d) as [->|]; auto. apply (IHn (c + 1)); auto. lia.
Qed.

Definition near (lo : N) (rs : list (N * N)) : list (N * N) :=
  filter (fun r => (fst r <=? lo + 31) && (lo <=? snd r)) rs.
Lemma near_ok lo rs c : lo <= c < lo + 32 -> in_ranges (near lo rs) c = in_ranges rs c.
Proof.
  intros H. unfold near, in_ranges. induction rs as [|[a b] rs IH]; auto.
  cbn [filter existsb fst snd]. destruct ((a <=? lo + 31) && (lo <=? b)) eqn:E; cbn [existsb fst snd].
  - now rewrite IH.
  - rewrite IH. replace ((a <=? c) && (c <=? b)) with false by lia. reflexivity.
Qed.

Definition start_ranges := BaseChar ++ Ideographic ++ [(0x5F, 0x5F); (0x3A, 0x3A)].
Definition name_ranges :=
  start_ranges ++ Digit ++ CombiningChar ++ Extender ++ [(0x2E, 0x2E); (0x2D, 0x2D)].
Lemma in_ranges_app a b c : in_ranges (a ++ b) c = in_ranges a c || in_ranges b c.
Proof. unfold in_ranges. apply existsb_app. Qed.
Lemma single x c : ((x <=? c) && (c <=? x)) = (c =? x). Proof. lia. Qed.
Lemma start_ok c : in_ranges start_ranges c = is_name_start c.
Proof.
  unfold start_ranges, is_name_start, is_Letter. rewrite !in_ranges_app.
  cbn [in_ranges existsb fst snd]. rewrite !single, orb_false_r, !orb_assoc. reflexivity.
Qed.

(* the word that holds code points 32 w .. 32 w + 31 *)
Definition word (pages : list N) (w : N) : res N :=
  let* pg := index pages (w / 8) in index namingBitmap (pg * 8 + w mod 8).
Definition word_ok (pages : list N) (rs : list (N * N)) (w : N) : bool :=
  match word pages w with
  | Ok v => let near := near (w * 32) rs in
            all_below 32 0 (fun b => Bool.eqb (N.testbit v b) (in_ranges near (w * 32 + b)))
  | _ => false
  end.
Lemma start_words : all_below 2048 0 (word_ok nmstrtPages start_ranges) = true.
Proof. vm_compute. reflexivity. Qed.
Lemma name_words : all_below 2048 0 (word_ok namePages name_ranges) = true.
Proof. vm_compute. reflexivity. Qed.
Lemma name_ok c : in_ranges name_ranges c = is_NameChar c.
Proof.
  unfold name_ranges, is_NameChar. rewrite !in_ranges_app, start_ok. unfold is_name_start.
  cbn [in_ranges existsb fst snd]. rewrite !single.
  destruct (is_Letter c), (in_ranges Digit c), (in_ranges CombiningChar c), (in_ranges Extender c),
    (c =? 95), (c =? 58), (c =? 46), (c =? 45); reflexivity.
Qed.

Lemma word_lookup pages w : word pages w = let* pg := index pages (w / 8) in index namingBitmap (pg * 8 + w mod 8).
Proof. reflexivity. Qed.
Lemma index_len {A} (l : list A) n v : index l n = Ok v -> n < N.of_nat (length l).
Proof.
  unfold index. intros H. destruct (nth_error l (N.to_nat n)) eqn:E; [|discriminate].
  assert (N.to_nat n < length l)%nat by (apply nth_error_Some; congruence). lia.
Qed.

Opaque namingBitmap namePages nmstrtPages.
Lemma naming_from_words pages rs : all_below 2048 0 (word_ok pages rs) = true ->
  forall c, c < 65536 -> ucs2_get_naming pages (c / 256) (c mod 256) = Ok (in_ranges rs c).
Proof.
  intros H c Hc. pose proof (all_below_spec _ _ _ H (c / 32)) as W.
  assert (0 <= c / 32 < 0 + N.of_nat 2048) as Q by lia. specialize (W Q).
  unfold word_ok, word in W. unfold ucs2_get_naming, bitmap_bit.
  rewrite N.shiftr_div_pow2. change 31 with (N.ones 5). rewrite N.land_ones.
  change (2^5) with 32.
  replace (c / 256) with (c / 32 / 8) by lia.
  destruct (index pages (c / 32 / 8)) as [pg|]; cbn [bind] in *; [|discriminate].
  rewrite N.shiftl_mul_pow2. change (2^3) with 8.
  replace (c mod 256 / 32) with (c / 32 mod 8) by lia.
  destruct (index namingBitmap _) as [v|]; cbn [bind] in *; [|discriminate].
  pose proof (all_below_spec _ _ _ W (c mod 32)) as B. cbv beta in B.
  assert (0 <= c mod 32 < 0 + N.of_nat 32) as Q2 by lia. specialize (B Q2).
  apply eqb_prop in B. replace (c mod 256 mod 32) with (c mod 32) by lia. rewrite B.
  rewrite near_ok by lia. do 2 f_equal. lia.
Qed.
Lemma ucs2_nmstrt c : c < 65536 -> ucs2_get_naming nmstrtPages (c / 256) (c mod 256) = Ok (is_name_start c).
Proof. intros H. rewrite (naming_from_words _ _ start_words) by auto. now rewrite start_ok. Qed.
Lemma ucs2_name c : c < 65536 -> ucs2_get_naming namePages (c / 256) (c mod 256) = Ok (is_NameChar c).
Proof. intros H. rewrite (naming_from_words _ _ name_words) by auto. now rewrite name_ok. Qed.

(* no supplementary character is in the classes *)
Lemma in_ranges_top rs c : forallb (fun r => snd r <? 65536) rs = true -> 65536 <= c -> in_ranges rs c = false.
Proof.
  intros H Hc. unfold in_ranges. induction rs as [|[a b] rs IH]; auto. cbn in H |- *.
  apply andb_prop in H as [H1 H2]. rewrite IH by auto. lia.
Qed.
Lemma start_top c : 65536 <= c -> is_name_start c = false.
Proof. intros H. rewrite <- start_ok. apply in_ranges_top; auto; vm_compute; reflexivity. Qed.
Lemma name_top c : 65536 <= c -> is_NameChar c = false.
Proof. intros H. rewrite <- name_ok. apply in_ranges_top; auto; vm_compute; reflexivity. Qed.
