(* Application-supplied encodings: which maps are accepted, and the charset an accepted map gives. *)
From Coq Require Import String List NArith ZArith Bool Lia Arith.
From Coq Require Import ZifyBool ZifyNat ZifyN.
From Verif Require Import Base Tables Encoding SpecText SpecUnicode SpecNames SpecLex SpecUnknown SpecConv EncLaws UniLaws UniConv NameSweep Charset CharsetLaws.
Import ListNotations.
Local Open Scope N_scope.
Ltac Zify.zify_post_hook ::= Z.div_mod_to_equations.
Opaque namingBitmap namePages nmstrtPages.

Definition plain_type (t : ByteType) : bool := bt_eqb t BT_OTHER || bt_eqb t BT_NONXML.
Lemma sweep128 (f : N -> bool) : forallb f (map N.of_nat (seq 0 128)) = true -> forall c, c < 128 -> f c = true.
Proof. intros H c Hc. rewrite forallb_forall in H. apply H. apply in_map_iff. exists (N.to_nat c). split; [lia|]. apply in_seq. lia. Qed.
Lemma sweep256 (f : N -> bool) : forallb f (map N.of_nat (seq 0 256)) = true -> forall c, c < 256 -> f c = true.
Proof. intros H c Hc. rewrite forallb_forall in H. apply H. apply in_map_iff. exists (N.to_nat c). split; [lia|]. apply in_seq. lia. Qed.
Lemma sig_types c : c < 128 -> significant c = negb (plain_type (nth (N.to_nat c) Latin1EncodingTable BT_NONXML)).
Proof.
  intros Hc. apply eqb_prop. revert c Hc. apply sweep128. vm_compute. reflexivity.
Qed.
Lemma sig_lt c : significant c = true -> c < 128.
Proof.
  unfold significant. rewrite !orb_true_iff. intros [[H|H]|H].
  - unfold is_space in H. lia.
  - lia.
  - apply existsb_exists in H as (x & I & E). apply N.eqb_eq in E. subst x. cbn in I. repeat (destruct I as [<-|I]; [lia|]). destruct I.
Qed.

Lemma check_spec' v : v < 1114112 -> checkCharRefNumber (Z.of_N v) = Ok (if is_xml_char v then Z.of_N v else -1)%Z.
Proof.
  intros Hv. unfold checkCharRefNumber. rewrite Z.shiftr_div_pow2 by lia. change (2 ^ 8)%Z with 256%Z.
  unfold is_xml_char. destruct ((216 <=? Z.of_N v / 256) && (Z.of_N v / 256 <=? 223))%Z eqn:A.
  { match goal with |- Ok _ = Ok (if ?c then _ else _) => replace c with false by lia end. reflexivity. }
  destruct (Z.of_N v / 256 =? 0)%Z eqn:B.
  { rewrite N2Z.id. rewrite (index_nth _ _ BT_NONXML) by (reflexivity || lia). cbn [bind].
    assert (L : v < 256) by lia. clear A B Hv.
    assert (forallb (fun c => Bool.eqb (bt_eqb (nth (N.to_nat c) Latin1EncodingTable BT_NONXML) BT_NONXML) (negb (is_xml_char c))) (map N.of_nat (seq 0 256)) = true) as H by (vm_compute; reflexivity).
    pose proof (sweep256 _ H v L) as K. cbv beta in K. apply eqb_prop in K. fold (is_xml_char v). rewrite K. now destruct (is_xml_char v). }
  destruct ((Z.of_N v / 256 =? 255)%Z && ((Z.of_N v =? 65534)%Z || (Z.of_N v =? 65535)%Z)) eqn:C.
  { match goal with |- Ok _ = Ok (if ?c then _ else _) => replace c with false by lia end. reflexivity. }
  match goal with |- Ok _ = Ok (if ?c then _ else _) => replace c with true by lia end. reflexivity.
Qed.
Lemma check_big c : (65536 <= c)%Z -> checkCharRefNumber c = Ok c.
Proof.
  intros H. unfold checkCharRefNumber. rewrite Z.shiftr_div_pow2 by lia. change (2 ^ 8)%Z with 256%Z.
  replace ((216 <=? c / 256) && (c / 256 <=? 223))%Z with false by lia. replace (c / 256 =? 0)%Z with false by lia.
  replace ((c / 256 =? 255) && ((c =? 65534) || (c =? 65535)))%Z with false by lia. reflexivity.
Qed.

(* the type a wide code point gets *)
Definition unit_type (c : N) : ByteType :=
  if is_xml_char c then (if is_name_start c then BT_NMSTRT else if is_NameChar c then BT_NAME else BT_OTHER) else BT_NONXML.
Definition entry_ok (hc : bool) (i : N) (c : Z) : bool :=
  ((c =? -1) || ((-4 <=? c) && (c <? 0) && hc) || ((0 <=? c) && (c <=? 65535)))%Z
  && ((c <? 0)%Z || negb (significant (Z.to_N c)) || (Z.to_N c =? i)).
Lemma entry_eval hc i c : unknown_entry hc i c = Ok (
  if entry_ok hc i c then Some (
    if (c =? -1)%Z then (BT_MALFORM, 65535, [0])
    else if (c <? 0)%Z then (match c with -2 => BT_LEAD2 | -3 => BT_LEAD3 | _ => BT_LEAD4 end%Z, 0, [])
    else let u := Z.to_N c in
      if u <? 128 then (nth (N.to_nat u) Latin1EncodingTable BT_NONXML, (if u =? 0 then 65535 else u), [u])
      else if is_xml_char u then (unit_type u, u, utf8_encode u) else (BT_NONXML, 65535, [0]))
  else None).
Proof.
  unfold unknown_entry, entry_ok. destruct (c =? -1)%Z eqn:E1. { replace (c <? 0)%Z with true by lia. reflexivity. }
  destruct (c <? 0)%Z eqn:E2.
  { replace (0 <=? c)%Z with false by lia. cbn [orb andb]. rewrite !andb_true_r, !orb_false_r. destruct (c <? -4)%Z eqn:E3.
    - replace (-4 <=? c)%Z with false by lia. reflexivity.
    - replace (-4 <=? c)%Z with true by lia. destruct hc; reflexivity. }
  rewrite !andb_false_r. cbn [orb]. replace (0 <=? c)%Z with true by lia. cbn [andb].
  assert (Ec : c = Z.of_N (Z.to_N c)) by lia. set (u := Z.to_N c) in *. clearbody u. subst c.
  destruct (Z.of_N u <? 128)%Z eqn:E3.
  - replace (Z.of_N u <=? 65535)%Z with true by lia. replace (u <? 128) with true by lia. cbn [andb].
    rewrite (index_nth _ _ BT_NONXML) by (reflexivity || lia). cbn [bind]. pose proof (sig_types u ltac:(lia)) as S. unfold plain_type in S.
    replace (Z.of_N u =? Z.of_N i)%Z with (u =? i) by lia. replace (Z.of_N u =? 0)%Z with (u =? 0) by lia.
    destruct (bt_eqb _ BT_OTHER); cbn [orb negb] in S; rewrite S; cbn [negb andb orb]; [reflexivity|].
    destruct (bt_eqb _ BT_NONXML); cbn [orb negb andb]; [reflexivity|]. destruct (u =? i); reflexivity.
  - assert (S : significant u = false). { destruct (significant u) eqn:S; auto. apply sig_lt in S. lia. }
    rewrite S. cbn [negb orb]. rewrite andb_true_r. replace (u <? 128) with false by lia.
    destruct (Z.of_N u <=? 65535)%Z eqn:E4.
    + rewrite check_spec' by lia. cbn [bind]. unfold unit_type. destruct (is_xml_char u) eqn:X; [|reflexivity].
      replace (Z.of_N u <? 0)%Z with false by lia. replace (65535 <? Z.of_N u)%Z with false by lia.
      rewrite shr. change (2 ^ 8) with 256. replace (N.land u 255) with (u mod 256) by (symmetry; exact (N.land_ones u 8)). rewrite ucs2_nmstrt, ucs2_name by lia. cbn [bind].
      rewrite XmlUtf8Encode_spec by lia. reflexivity.
    + rewrite check_big by lia. cbn [bind]. replace (Z.of_N u <? 0)%Z with false by lia. replace (65535 <? Z.of_N u)%Z with true by lia. reflexivity.
Qed.

(* ---- the whole map ---- *)
Definition hasc (convert : option (bytes -> Z)) : bool := match convert with Some _ => true | None => false end.
Definition entry_val (c : Z) : ByteType * N * list N :=
  if (c =? -1)%Z then (BT_MALFORM, 65535, [0])
  else if (c <? 0)%Z then (match c with -2 => BT_LEAD2 | -3 => BT_LEAD3 | _ => BT_LEAD4 end%Z, 0, [])
  else let u := Z.to_N c in
    if u <? 128 then (nth (N.to_nat u) Latin1EncodingTable BT_NONXML, (if u =? 0 then 65535 else u), [u])
    else if is_xml_char u then (unit_type u, u, utf8_encode u) else (BT_NONXML, 65535, [0]).
Fixpoint entries_ok (hc : bool) (i : N) (table : list Z) : bool :=
  match table with [] => true | c :: t => entry_ok hc i c && entries_ok hc (i + 1) t end.
Lemma entries_eval hc table : forall i, unknown_entries hc i table = Ok (if entries_ok hc i table then Some (map entry_val table) else None).
Proof.
  induction table as [|c t IH]; intros i; [reflexivity|]. cbn [unknown_entries entries_ok map]. rewrite entry_eval. cbn [bind]. destruct (entry_ok hc i c); cbn [andb].
  - fold (entry_val c). rewrite IH. cbn [bind]. destruct (entries_ok hc (i + 1) t); reflexivity.
  - reflexivity.
Qed.
Lemma entries_ok_nth hc table : forall i, entries_ok hc i table = true <-> forall n c, nth_error table n = Some c -> entry_ok hc (i + N.of_nat n) c = true.
Proof.
  induction table as [|c t IH]; intros i; cbn [entries_ok].
  - split; auto. intros _ [|n] c H; discriminate.
  - rewrite andb_true_iff, IH. split.
    + intros [H1 H2] [|n] c' E; cbn in E. { injection E as <-. now replace (i + N.of_nat 0) with i by lia. }
      replace (i + N.of_nat (S n)) with (i + 1 + N.of_nat n) by lia. auto.
    + intros H. split. { replace i with (i + N.of_nat 0) by lia. now apply H. }
      intros n c' E. replace (i + 1 + N.of_nat n) with (i + N.of_nat (S n)) by lia. now apply H.
Qed.
Lemma ascii_ok_nth types : forall i table, length table = length types ->
  (unknown_ascii_ok i types table = true <-> forall n t, nth_error types n = Some t -> plain_type t = false -> nth_error table n = Some (Z.of_N (i + N.of_nat n))).
Proof.
  induction types as [|t types IH]; intros i [|c table] L; try discriminate; cbn [unknown_ascii_ok].
  - split; auto. intros _ [|n] t H; discriminate.
  - injection L as L. rewrite andb_true_iff, IH by auto. split.
    + intros [H1 H2] [|n] t' E P; cbn in E.
      * injection E as <-. unfold plain_type in P. rewrite P in H1. cbn in H1 |- *. f_equal. lia.
      * cbn [nth_error]. replace (i + N.of_nat (S n)) with (i + 1 + N.of_nat n) by lia. now apply (H2 n t').
    + intros H. split.
      * destruct (plain_type t) eqn:P; unfold plain_type in P; rewrite P; auto. specialize (H 0%nat t eq_refl P). cbn in H. injection H as H. cbn [orb]. lia.
      * intros n t' E P. replace (i + 1 + N.of_nat n) with (i + N.of_nat (S n)) by lia. apply (H (S n) t' E P).
Qed.

Lemma entry_ok_iff hc i c : entry_ok hc i c = true <->
  (c = -1 \/ (-4 <= c <= -2) /\ hc = true)%Z \/ exists u, c = Z.of_N u /\ u <= 0xFFFF /\ (significant u = true -> u = i).
Proof.
  unfold entry_ok. split.
  - intros H. apply andb_prop in H as [H1 H2]. destruct (c <? 0)%Z eqn:N0.
    + left. destruct hc; lia.
    + right. exists (Z.to_N c). split; [lia|]. split; [lia|]. intros S. rewrite S in H2. cbn in H2. lia.
  - intros [[-> |[H ->]]|(u & -> & H1 & H2)]; [reflexivity|lia|]. replace (Z.of_N u =? -1)%Z with false by lia. replace (Z.of_N u <? 0)%Z with false by lia.
    replace (0 <=? Z.of_N u)%Z with true by lia. replace (Z.of_N u <=? 65535)%Z with true by lia. rewrite andb_false_r. cbn [orb andb]. rewrite N2Z.id. destruct (significant u); cbn; auto. rewrite H2 by auto. lia.
Qed.

Definition the_unknown (table : list Z) (convert : option (bytes -> Z)) (ns : bool) : UnknownEnc := {|
  ue_types := if ns then set_nth 58 BT_COLON (map (fun c => fst (fst (entry_val c))) table) else map (fun c => fst (fst (entry_val c))) table;
  ue_convert := convert;
  ue_utf16 := map (fun c => snd (fst (entry_val c))) table;
  ue_utf8 := map (fun c => snd (entry_val c)) table |}.
Lemma init_eval table convert ns : length table = 256%nat ->
  (map_ok table convert /\ unknown_initialize table convert ns = Ok (Some (the_unknown table convert ns))) \/
  (~ map_ok table convert /\ unknown_initialize table convert ns = Ok None).
Proof.
  intros L. unfold unknown_initialize. fold (hasc convert). rewrite entries_eval. cbn [bind].
  assert (L2 : length (firstn 128 table) = length (firstn 128 Latin1EncodingTable)) by (rewrite firstn_length, L; reflexivity).
  assert (N1 : forall (A : Type) (l : list A) n, (n < 128)%nat -> nth_error (firstn 128 l) n = nth_error l n).
  { intros A l n. revert l. generalize 128%nat. induction n as [|n IH]; intros [|m] [|x l] H; try lia; auto. cbn. apply IH. lia. }
  assert (A1 : unknown_ascii_ok 0 (firstn 128 Latin1EncodingTable) (firstn 128 table) = true <-> forall i, significant i = true -> nth_error table (N.to_nat i) = Some (Z.of_N i)).
  { rewrite ascii_ok_nth by auto. split.
    - intros H i S. pose proof (sig_lt _ S) as Li. rewrite <- N1 by lia. rewrite (H (N.to_nat i) (nth (N.to_nat i) Latin1EncodingTable BT_NONXML)).
      + f_equal. lia.
      + rewrite N1 by lia. apply nth_error_nth'. change (length Latin1EncodingTable) with 256%nat. lia.
      + rewrite sig_types in S by auto. now apply negb_true_iff.
    - intros H n t E P. assert (Ln : (n < 128)%nat) by (assert (n < length (firstn 128 Latin1EncodingTable))%nat by (apply nth_error_Some; congruence); exact H0).
      rewrite N1 in * by auto. specialize (H (N.of_nat n)). rewrite Nat2N.id in H. cbn [N.add]. apply H. rewrite sig_types, Nat2N.id by lia.
      apply negb_true_iff. apply (nth_error_nth _ _ BT_NONXML) in E. now rewrite E. }
  assert (A2 : entries_ok (hasc convert) 0 table = true <-> forall i c, nth_error table (N.to_nat i) = Some c ->
     c = (-1)%Z \/ (-4 <= c <= -2)%Z /\ convert <> None \/ exists u, c = Z.of_N u /\ u <= 0xFFFF /\ (significant u = true -> u = i)).
  { rewrite entries_ok_nth. split.
    - intros H i c E. specialize (H _ _ E). rewrite N2Nat.id in H. cbn [N.add] in H. apply entry_ok_iff in H. destruct H as [[H|[H1 H2]]|H]; auto.
      right; left. split; auto. destruct convert; [discriminate|discriminate H2].
    - intros H n c E. apply entry_ok_iff. specialize (H (N.of_nat n) c). rewrite Nat2N.id in H. cbn [N.add]. destruct (H E) as [K|[[K1 K2]|K]]; auto. left. right. split; auto. now destruct convert. }
  unfold map_ok. rewrite <- A1, <- A2. destruct (unknown_ascii_ok _ _ _); cbn [negb]; [|right; split; [intuition discriminate|reflexivity]].
  destruct (entries_ok _ _ _); [left|right; split; [intuition discriminate|reflexivity]].
  split; [auto|]. unfold the_unknown. rewrite !map_map. reflexivity.
Qed.

Lemma set_nth_nth {A} (x : A) n : forall l m, nth_error (set_nth n x l) m = if Nat.eqb n m then (match nth_error l m with Some _ => Some x | None => None end) else nth_error l m.
Proof.
  induction n as [|n IH]; intros [|y l] [|m]; try reflexivity; cbn.
  - now destruct (Nat.eqb n m).
  - apply IH.
Qed.
Definition entry_type (ns : bool) (b : N) (c : Z) : ByteType := if ns && (b =? 58) then BT_COLON else fst (fst (entry_val c)).
Lemma unk_type table convert ns b c r : nth_error table (N.to_nat b) = Some c ->
  byte_type (unknown_enc (the_unknown table convert ns)) (b :: r) = Ok (entry_type ns b c).
Proof.
  intros E. cbn [unknown_enc byte_type]. unfold table_byte_type. cbn [peek nth_error bind]. unfold index, entry_type.
  cbn [the_unknown ue_types]. destruct ns; cbn [andb].
  - rewrite set_nth_nth, (map_nth_error _ _ _ E). replace (Nat.eqb 58 (N.to_nat b)) with (b =? 58). { now destruct (b =? 58). }
    destruct (b =? 58) eqn:E2; symmetry; [apply Nat.eqb_eq|apply Nat.eqb_neq]; lia.
  - now rewrite (map_nth_error _ _ _ E).
Qed.
Lemma unk_utf8 table convert ns b c : nth_error table (N.to_nat b) = Some c -> index (ue_utf8 (the_unknown table convert ns)) b = Ok (snd (entry_val c)).
Proof. intros E. unfold index. cbn [the_unknown ue_utf8]. now rewrite (map_nth_error _ _ _ E). Qed.

Lemma entry_ascii ns c : c < 128 -> entry_type ns c (Z.of_N c) = nth (N.to_nat c) (if ns then Latin1EncodingTableNS else Latin1EncodingTable) BT_NONXML.
Proof.
  intros Hc. unfold entry_type, entry_val. replace (Z.of_N c =? -1)%Z with false by lia. replace (Z.of_N c <? 0)%Z with false by lia. rewrite N2Z.id.
  cbv zeta. replace (c <? 128) with true by lia. cbn [fst]. destruct ns; cbn [andb]; [|reflexivity].
  assert (H : forallb (fun c => bt_eqb (if c =? 58 then BT_COLON else nth (N.to_nat c) Latin1EncodingTable BT_NONXML) (nth (N.to_nat c) Latin1EncodingTableNS BT_NONXML)) (map N.of_nat (seq 0 128)) = true) by (vm_compute; reflexivity).
  apply (fun H => sweep128 _ H c Hc) in H. now apply bt_eqb_eq in H.
Qed.
Lemma inc_app' (a b : bytes) : inc_start (length a) (a ++ b) = Ok b.
Proof. induction a as [|x a IH]; [now destruct b|exact IH]. Qed.
Section U.
Variables (table : list Z) (convert : option (bytes -> Z)) (ns : bool) (enc : N -> bytes) (dom : N -> bool).
Hypothesis LT : length table = 256%nat.
Hypothesis AS : forall c, c < 128 -> nth_error table (N.to_nat c) = Some (Z.of_N c) /\ enc c = [c] /\ dom c = true.
Hypothesis WD : forall c, 128 <= c -> dom c = true -> c < 65536 /\ is_xml_char c = true /\ written table convert (enc c) c.
Notation u := (the_unknown table convert ns).
Notation e := (unknown_enc u).

Definition unk_cls : cls := {|
  ty := fun c => if c <? 128 then entry_type ns c (Z.of_N c) else if Nat.eqb (length (enc c)) 1 then unit_type c else wide_type c;
  nst := is_name_start; nmc := is_NameChar |}.
Lemma wide_cases c : 128 <= c -> dom c = true ->
  (exists b, enc c = [b] /\ 128 <= b < 256 /\ nth_error table (N.to_nat b) = Some (Z.of_N c)) \/
  (exists b r f, enc c = b :: r /\ 128 <= b < 256 /\ (2 <= length (enc c) <= 4)%nat /\
     nth_error table (N.to_nat b) = Some (- Z.of_nat (length (enc c)))%Z /\ convert = Some f /\ f (enc c) = Z.of_N c).
Proof.
  intros Hc Hd. destruct (WD c Hc Hd) as (_ & _ & [(b & E & Hb & Hn)|(b & r & f & E & Hb & L & Hn & H)]).
  - left. exists b. repeat split; auto. destruct (N.lt_ge_cases b 128) as [K|]; auto. destruct (AS b K) as (K1 & _). rewrite Hn in K1. injection K1 as K1. lia.
  - right. exists b, r, f. repeat split; auto; try apply L; try apply H. destruct (N.lt_ge_cases b 128) as [K|]; auto. destruct (AS b K) as (K1 & _). rewrite Hn in K1. injection K1 as K1. lia.
Qed.
Lemma wide_entry c : 128 <= c -> c < 65536 -> is_xml_char c = true -> entry_val (Z.of_N c) = (unit_type c, c, utf8_encode c).
Proof.
  intros H1 H2 X. unfold entry_val. replace (Z.of_N c =? -1)%Z with false by lia. replace (Z.of_N c <? 0)%Z with false by lia. rewrite N2Z.id. cbv zeta.
  replace (c <? 128) with false by lia. now rewrite X.
Qed.
Lemma lead_entry n : (2 <= n <= 4)%nat -> exists t, entry_val (- Z.of_nat n) = (t, 0, []) /\ lead_len t = Some n.
Proof. intros H. assert (n = 2 \/ n = 3 \/ n = 4)%nat as [-> |[-> | -> ]] by lia; eexists; split; reflexivity. Qed.
Lemma firstn_enc c r : firstn (length (enc c)) (enc c ++ r) = enc c.
Proof. rewrite firstn_app, Nat.sub_diag, firstn_all. cbn. apply app_nil_r. Qed.
Lemma has_enc c r : has (length (enc c)) (enc c ++ r) = true.
Proof. induction (enc c) as [|x l IH]; [destruct r; reflexivity|]. cbn. destruct l; [destruct r; reflexivity|exact IH]. Qed.

Lemma unk_charset : charset e enc dom unk_cls.
Proof.
  constructor.
  - now left.
  - intros c Hc. destruct (AS c Hc) as (_ & -> & _). reflexivity.
  - intros c r Hc. destruct (AS c Hc) as (Hn & -> & _). cbn [app]. rewrite (unk_type _ _ _ _ _ _ Hn). cbn [unk_cls ty]. now replace (c <? 128) with true by lia.
  - intros c Hc. cbn [unk_cls ty]. replace (c <? 128) with true by lia. rewrite entry_ascii by auto.
    assert (H : forallb (fun c => match lead_len (nth (N.to_nat c) (if ns then Latin1EncodingTableNS else Latin1EncodingTable) BT_NONXML) with None => negb (bt_eqb (nth (N.to_nat c) (if ns then Latin1EncodingTableNS else Latin1EncodingTable) BT_NONXML) BT_NONASCII) | _ => false end) (map N.of_nat (seq 0 128)) = true)
      by (destruct ns; vm_compute; reflexivity).
    apply (fun H => sweep128 _ H c Hc) in H. cbv beta in H. destruct (lead_len _); [discriminate|]. split; auto. apply negb_true_iff, bt_eqb_ne in H. exact H.
  - intros c r Hc. destruct (AS c Hc) as (_ & -> & _). reflexivity.
  - intros c r x Hd Hx. cbn [unknown_enc char_matches]. unfold char_matches1. destruct (N.lt_ge_cases c 128) as [Hc|Hc].
    + destruct (AS c Hc) as (_ & -> & _). reflexivity.
    + destruct (wide_cases c Hc Hd) as [(b & -> & Hb & _)|(b & w & f & -> & Hb & _)]; cbn [app peek nth_error bind]; f_equal; lia.
  - intros c r Hd Hc. destruct (WD c Hc Hd) as (Hc2 & Hx & _). destruct (wide_cases c Hc Hd) as [(b & E & Hb & Hn)|(b & w & f & E & Hb & L & Hn & Hf & Hv)].
    + assert (T : ty unk_cls c = unit_type c) by (cbn [unk_cls ty]; replace (c <? 128) with false by lia; rewrite E; reflexivity).
      apply wc_unit.
      * rewrite E. reflexivity.
      * rewrite T, E. cbn [app]. rewrite (unk_type _ _ _ _ _ _ Hn). unfold entry_type. replace (b =? 58) with false by lia. rewrite andb_false_r, wide_entry by auto. reflexivity.
      * rewrite T. unfold unit_type. destruct (is_xml_char c), (is_name_start c), (is_NameChar c); cbn; tauto.
      * rewrite T. unfold unit_type. rewrite Hx. split; [|discriminate]. destruct (is_name_start c), (is_NameChar c); discriminate.
      * rewrite T. unfold unit_type. rewrite Hx. destruct (is_name_start c), (is_NameChar c); discriminate.
    + destruct (lead_entry _ L) as (t & Et & Hl). apply (wc_lead _ _ _ _ _ t).
      * rewrite E. cbn [app]. rewrite (unk_type _ _ _ _ _ _ Hn). unfold entry_type. replace (b =? 58) with false by lia. rewrite andb_false_r, Et. reflexivity.
      * exact Hl.
      * cbn [unknown_enc is_invalid_char]. unfold unknown_is_invalid. cbn [the_unknown ue_convert]. rewrite Hf, has_enc. cbn [negb]. rewrite firstn_enc, Hv.
        replace ((Z.of_N c <? 0) || (65535 <? Z.of_N c))%Z with false by lia. rewrite check_spec' by lia. rewrite Hx. cbn [bind negb]. f_equal. lia.
      * cbn [unknown_enc is_name_char unk_cls nmc]. unfold unknown_naming. cbn [the_unknown ue_convert]. rewrite Hf, has_enc. cbn [negb]. rewrite firstn_enc, Hv.
        replace ((Z.of_N c <? 0) || (65535 <? Z.of_N c))%Z with false by lia. rewrite N2Z.id, shr. change (2 ^ 8) with 256. replace (N.land c 255) with (c mod 256) by (symmetry; exact (N.land_ones c 8)). now apply ucs2_name.
      * cbn [unknown_enc is_nmstrt_char unk_cls nst]. unfold unknown_naming. cbn [the_unknown ue_convert]. rewrite Hf, has_enc. cbn [negb]. rewrite firstn_enc, Hv.
        replace ((Z.of_N c <? 0) || (65535 <? Z.of_N c))%Z with false by lia. rewrite N2Z.id, shr. change (2 ^ 8) with 256. replace (N.land c 255) with (c mod 256) by (symmetry; exact (N.land_ones c 8)). now apply ucs2_nmstrt.
      * cbn [unk_cls ty]. replace (c <? 128) with false by lia. replace (Nat.eqb (length (enc c)) 1) with false by (symmetry; apply Nat.eqb_neq; lia). reflexivity.
  - intros c r Hd Hc. cbn [unknown_enc byte_to_ascii]. unfold byte_to_ascii1.
    destruct (wide_cases c Hc Hd) as [(b & -> & Hb & _)|(b & w & f & -> & Hb & _)]; cbn [app peek nth_error bind]; exists b; (split; [reflexivity|lia]).
  - intros c Hd. cbn [unknown_enc minbpc]. destruct (N.lt_ge_cases c 128) as [Hc|Hc].
    + destruct (AS c Hc) as (_ & -> & _). now exists 0%nat.
    + destruct (wide_cases c Hc Hd) as [(b & -> & _)|(b & w & f & -> & _)]; [now exists 0%nat|]. exists (length w). cbn. lia.
  - apply name_xml.
  - apply start_xml.
Qed.

Lemma unk_loop : forall cs, Forall (fun c => dom c = true) cs -> forall fuel cap out, (length (flat_map enc cs) < fuel)%nat ->
  exists done left, cs = done ++ left /\ (length (utf8 done) <= cap)%nat /\
  match left with
  | [] => unknown_utf8_loop u fuel (flat_map enc cs) cap out = Ok (COMPLETED, out ++ utf8 done, [])
  | c :: _ => unknown_utf8_loop u fuel (flat_map enc cs) cap out = Ok (OUTPUT_EXHAUSTED, out ++ utf8 done, flat_map enc left)
              /\ (cap < length (utf8 (done ++ [c])))%nat
  end.
Proof.
  assert (UA : forall d c, utf8 (d :: c) = utf8_encode d ++ utf8 c) by reflexivity.
  assert (Step : forall c, dom c = true -> forall fuel r cap out,
    unknown_utf8_loop u (S fuel) (enc c ++ r) cap out =
      if (cap <? length (utf8_encode c))%nat then Ok (OUTPUT_EXHAUSTED, out, enc c ++ r)
      else unknown_utf8_loop u fuel r (cap - length (utf8_encode c)) (out ++ utf8_encode c)).
  { intros c Hd fuel r cap out. destruct (N.lt_ge_cases c 128) as [Hc|Hc].
    - destruct (AS c Hc) as (Hn & -> & _). cbn [app unknown_utf8_loop]. rewrite (unk_utf8 _ _ _ _ _ Hn). cbn [bind].
      unfold entry_val. replace (Z.of_N c =? -1)%Z with false by lia. replace (Z.of_N c <? 0)%Z with false by lia. rewrite N2Z.id. cbv zeta. replace (c <? 128) with true by lia. cbn [snd].
      unfold utf8_encode. replace (c <? 128) with true by lia. reflexivity.
    - destruct (WD c Hc Hd) as (Hc2 & Hx & _). destruct (wide_cases c Hc Hd) as [(b & E & Hb & Hn)|(b & w & f & E & Hb & L & Hn & Hf & Hv)].
      + rewrite E. cbn [app unknown_utf8_loop]. rewrite (unk_utf8 _ _ _ _ _ Hn), wide_entry by auto. cbn [bind snd].
        destruct (utf8_encode c) as [|x l] eqn:U; [|reflexivity]. pose proof (utf8_encode_len c) as K. rewrite U in K. cbn in K. lia.
      + destruct (lead_entry _ L) as (t & Et & Hl). pose proof (firstn_enc c r) as FE. pose proof (inc_app' (enc c) r) as IA. 
        pose proof (unk_type table convert ns b _ r Hn) as UT. cbn [unknown_enc byte_type] in UT. unfold table_byte_type in UT. cbn [peek nth_error bind] in UT.
        assert (L2 : length (enc c) = S (length w)) by now rewrite E.
        rewrite E in FE, IA |- *. cbn [app] in *. cbn [unknown_utf8_loop]. rewrite (unk_utf8 _ _ _ _ _ Hn), Et. cbn [bind snd the_unknown ue_convert]. rewrite Hf.
        unfold the_unknown in UT. rewrite <- Hf. unfold the_unknown. rewrite UT. unfold entry_type. replace (b =? 58) with false by lia. rewrite andb_false_r, Et. cbn [bind fst]. rewrite Hl.
        rewrite <- E in *. rewrite FE, Hv, XmlUtf8Encode_spec by lia. cbv zeta. destruct (cap <? length (utf8_encode c))%nat; [reflexivity|].
        rewrite IA. reflexivity. }
  induction 1 as [|c cs Hd _ IH]; intros fuel cap out Hf.
  - exists [], []. split; auto. split; [cbn; lia|]. destruct fuel; [cbn in Hf; lia|]. cbn. now rewrite app_nil_r.
  - destruct fuel as [|fuel]; [lia|]. cbn [flat_map] in Hf. rewrite app_length in Hf. cbn [flat_map]. rewrite Step by auto.
    assert (Ne : (0 < length (enc c))%nat).
    { destruct (N.lt_ge_cases c 128) as [Hc|Hc]; [destruct (AS c Hc) as (_ & -> & _); cbn; lia|].
      destruct (wide_cases c Hc Hd) as [(b & -> & _)|(b & w & f & -> & _)]; cbn; lia. }
    destruct (cap <? length (utf8_encode c))%nat eqn:C.
    + exists [], (c :: cs). split; auto. split; [cbn; lia|]. cbn [utf8 flat_map app]. rewrite !app_nil_r. split; auto. lia.
    + destruct (IH fuel (cap - length (utf8_encode c))%nat (out ++ utf8_encode c) ltac:(lia)) as (done & left & -> & L & M).
      exists (c :: done), left. split; auto. rewrite UA, app_length. split; [lia|].
      destruct left as [|d left].
      * rewrite M, <- app_assoc. reflexivity.
      * destruct M as [M1 M2]. rewrite M1, <- app_assoc. split; [reflexivity|]. cbn [app]. rewrite UA, app_length. lia.
Qed.
Lemma unk_transfers : transfers (utf8Convert e) enc (fun c => dom c = true).
Proof.
  intros cs cap Hd. destruct (unk_loop cs Hd (S (length (flat_map enc cs))) cap []) as (done & left & E & L & M); [lia|].
  exists done, left. split; auto. 
Qed.
End U.

(* ---- single bytes of an accepted map ---- *)
Lemma unk_byte_types table convert ns u i c r : length table = 256%nat -> unknown_initialize table convert ns = Ok (Some u) ->
  nth_error table (N.to_nat i) = Some c ->
  byte_type (unknown_enc u) (i :: r) = Ok (
    if (c =? -1)%Z then BT_MALFORM
    else if (c =? -2)%Z then BT_LEAD2 else if (c =? -3)%Z then BT_LEAD3 else if (c =? -4)%Z then BT_LEAD4
    else let v := Z.to_N c in
      if negb (is_xml_char v) then BT_NONXML
      else if v <? 128 then (if ns && (v =? 58) then BT_COLON else nth (N.to_nat v) Latin1EncodingTable BT_NONXML)
      else if is_name_start v then BT_NMSTRT else if is_NameChar v then BT_NAME else BT_OTHER).
Proof.
  intros L I E. destruct (init_eval table convert ns L) as [[[M1 M2] I2]|[_ I2]]; rewrite I2 in I; [|discriminate]. injection I as <-.
  rewrite (unk_type _ _ _ _ _ _ E). f_equal. unfold entry_type. specialize (M2 i c E).
  assert (C58 : (i =? 58) = (c =? 58)%Z).
  { specialize (M1 58 eq_refl). destruct (i =? 58) eqn:K.
    - assert (i = 58) by lia. subst i. rewrite M1 in E. injection E as <-. reflexivity.
    - destruct M2 as [-> |[[H _]|(u & -> & _ & H)]]; [reflexivity|lia|]. destruct (N.eq_dec u 58) as [-> |]; [|lia]. rewrite <- (H eq_refl) in K. discriminate. }
  rewrite C58. unfold entry_val. destruct M2 as [-> |[[H _]|(u & -> & H1 & _)]].
  - rewrite andb_false_r. reflexivity.
  - replace (c =? 58)%Z with false by lia. rewrite andb_false_r. assert (c = -2 \/ c = -3 \/ c = -4)%Z as [-> |[-> | -> ]] by lia; reflexivity.
  - replace (Z.of_N u =? -1)%Z with false by lia. replace (Z.of_N u =? -2)%Z with false by lia. replace (Z.of_N u =? -3)%Z with false by lia. replace (Z.of_N u =? -4)%Z with false by lia.
    replace (Z.of_N u <? 0)%Z with false by lia. rewrite N2Z.id. cbv zeta. replace (Z.of_N u =? 58)%Z with (u =? 58) by lia. destruct (u <? 128) eqn:U.
    + destruct (is_xml_char u) eqn:X; cbn [negb fst].
      * reflexivity.
      * assert (H : forallb (fun u => is_xml_char u || negb (u =? 58) && bt_eqb (nth (N.to_nat u) Latin1EncodingTable BT_NONXML) BT_NONXML) (map N.of_nat (seq 0 128)) = true) by (vm_compute; reflexivity).
        apply (fun H => sweep128 _ H u ltac:(lia)) in H. cbv beta in H. rewrite X in H. cbn [orb] in H. apply andb_prop in H as [H2 H3]. apply negb_true_iff in H2. rewrite H2, andb_false_r. now apply bt_eqb_eq in H3.
    + replace (u =? 58) with false by lia. rewrite andb_false_r. unfold unit_type. destruct (is_xml_char u) eqn:X; cbn [negb fst]; reflexivity.
Qed.
Lemma unk_byte_utf8 table convert ns u i v cap : length table = 256%nat -> unknown_initialize table convert ns = Ok (Some u) ->
  nth_error table (N.to_nat i) = Some (Z.of_N v) -> is_xml_char v = true ->
  utf8Convert (unknown_enc u) [i] cap = if (length (utf8_encode v) <=? cap)%nat then Ok (COMPLETED, utf8_encode v, []) else Ok (OUTPUT_EXHAUSTED, [], [i]).
Proof.
  intros L I E X. destruct (init_eval table convert ns L) as [[[M1 M2] I2]|[_ I2]]; rewrite I2 in I; [|discriminate]. injection I as <-.
  assert (V : v <= 65535). { destruct (M2 i _ E) as [K|[[K _]|(w & K & ? & _)]]; lia. }
  cbn [unknown_enc utf8Convert]. unfold unknown_utf8Convert. cbn [length unknown_utf8_loop]. rewrite (unk_utf8 _ _ _ _ _ E). cbn [bind].
  assert (S : snd (entry_val (Z.of_N v)) = utf8_encode v).
  { unfold entry_val. replace (Z.of_N v =? -1)%Z with false by lia. replace (Z.of_N v <? 0)%Z with false by lia. rewrite N2Z.id. cbv zeta. destruct (v <? 128) eqn:U; [|now rewrite X].
    unfold utf8_encode. replace (v <? 0x80) with true by lia. reflexivity. }
  rewrite S. pose proof (utf8_encode_len v) as K. destruct (utf8_encode v) as [|x l] eqn:U; [cbn in K; lia|].
  replace (cap <? length (x :: l))%nat with (negb (length (x :: l) <=? cap)%nat) by lia. destruct (length (x :: l) <=? cap)%nat; reflexivity.
Qed.
