(* The encodings of the library classify characters as XML prescribes. *)
From Coq Require Import String List NArith ZArith Bool Lia Arith.
From Coq Require Import ZifyBool ZifyNat ZifyN.
From Verif Require Import Base Tables Encoding SpecText SpecUnicode SpecNames SpecLex Tok TokMisc EncLaws TokWp TokSafe SpecTok TokTop UniLaws Charset CharsetLaws CharsetBe UnkLaws Sim SimTok SimTop.
Import ListNotations.
Local Open Scope N_scope.

(* the types of the characters below 128; 256 entries, the rest is ignored *)
Definition ascii_table (ns : bool) : list ByteType := if ns then Utf8EncodingTableNS else Utf8EncodingTable.
Definition kstart (k : cls) (c : N) : bool :=
  match ty k c with BT_NMSTRT | BT_HEX => true | BT_NONASCII => nst k c | _ => false end.
Definition kname (k : cls) (c : N) : bool :=
  match ty k c with BT_NMSTRT | BT_HEX | BT_DIGIT | BT_NAME | BT_MINUS => true | BT_NONASCII => nmc k c | _ => false end.

Record std (lat ns : bool) (dom : N -> bool) (k : cls) : Prop := {
  st_ascii : forall c, c < 128 -> ty k c = nth (N.to_nat c) (ascii_table ns) BT_NONXML;
  st_wide : forall c, dom c = true -> 128 <= c -> In (ty k c) [BT_NONASCII; BT_NMSTRT; BT_NAME; BT_OTHER; BT_NONXML];
  st_xml : forall c, dom c = true -> (ty k c = BT_NONXML <-> is_xml_char c = false);
  st_start : forall c, dom c = true -> kstart k c = start_char lat ns c;
  st_name : forall c, dom c = true -> kname k c = name_char lat ns c;
}.

Lemma below128 (f : N -> bool) : forallb f (map N.of_nat (seq 0 128)) = true -> forall c, c < 128 -> f c = true.
Proof.
  intros H c Hc. rewrite forallb_forall in H. apply H. apply in_map_iff. exists (N.to_nat c). split; [lia|].
  apply in_seq. lia.
Qed.
Lemma below256 (f : N -> bool) : forallb f (map N.of_nat (seq 0 256)) = true -> forall c, c < 256 -> f c = true.
Proof.
  intros H c Hc. rewrite forallb_forall in H. apply H. apply in_map_iff. exists (N.to_nat c). split; [lia|].
  apply in_seq. lia.
Qed.

Definition table_start (k : cls) (lat ns : bool) (c : N) : bool :=
  Bool.eqb (kstart k c) (start_char lat ns c) && Bool.eqb (kname k c) (name_char lat ns c)
  && Bool.eqb (bt_eqb (ty k c) BT_NONXML) (negb (is_xml_char c)).

Lemma wide_std lat ns k c : 256 <= c -> ty k c = wide_type c -> nst k c = is_name_start c -> nmc k c = is_NameChar c ->
  kstart k c = start_char lat ns c /\ kname k c = name_char lat ns c /\ (ty k c = BT_NONXML <-> is_xml_char c = false).
Proof.
  intros Hc T S1 S2. unfold kstart, kname, start_char, name_char. rewrite T, S1, S2. unfold wide_type.
  replace (c =? 0x3A) with false by lia. replace (latin_extra c) with false by (unfold latin_extra; lia).
  rewrite !andb_false_r, !orb_false_r, !andb_true_r.
  destruct (is_xml_char c) eqn:X; repeat split; intros; try discriminate; auto.
  - destruct (is_name_start c) eqn:Y; auto. apply start_xml in Y. congruence.
  - destruct (is_NameChar c) eqn:Y; auto. apply name_xml in Y. congruence.
Qed.

Lemma text_encoding_std e enc dom lat ns : text_encoding e enc dom lat ns ->
  exists k, charset e enc dom k /\ std lat ns dom k.
Proof.
  assert (Hn : forall ns k, Forall (fun c => ty k c = nth (N.to_nat c) (ascii_table ns) BT_NONXML) (map N.of_nat (seq 0 128)) ->
    forall c, c < 128 -> ty k c = nth (N.to_nat c) (ascii_table ns) BT_NONXML).
  { intros ns0 k H c Hc. rewrite Forall_forall in H. apply H. apply in_map_iff. exists (N.to_nat c). split; [lia|]. apply in_seq; lia. }
  assert (Hu : forall (ns : bool) types, types = ascii_table ns -> utf8_types types -> std false ns is_scalar (table_cls types 128)).
  { intros ns0 types Et Ht. subst types. set (k := table_cls (ascii_table ns0) 128).
    assert (W : forall c, 128 <= c -> ty k c = wide_type c).
    { intros c Hc. unfold k. cbn [table_cls ty]. now replace (c <? 128) with false by lia. }
    assert (G : forall c, c < 256 -> table_start k false ns0 c = true).
    { apply below256. unfold k. destruct ns0; vm_compute; reflexivity. }
    assert (G2 : forall c, kstart k c = start_char false ns0 c /\ kname k c = name_char false ns0 c /\ (ty k c = BT_NONXML <-> is_xml_char c = false)).
    { intros c. destruct (N.lt_ge_cases c 256) as [Hc|Hc].
      - specialize (G c Hc). unfold table_start in G. apply andb_prop in G as [G G3]. apply andb_prop in G as [G1 G2].
        apply eqb_prop in G1, G2, G3. repeat split; auto; intros H.
        + rewrite H in G3. change (bt_eqb BT_NONXML BT_NONXML) with true in G3. now destruct (is_xml_char c).
        + rewrite H in G3. now apply bt_eqb_eq in G3.
      - apply wide_std; auto. apply W; lia. }
    constructor; intros c; try (intros; apply G2).
    - intros Hc. unfold k. cbn [table_cls ty]. now replace (c <? 128) with true by lia.
    - intros _ Hc. rewrite W by auto. unfold wide_type. destruct (is_xml_char c); cbn; tauto. }
  assert (Hl : forall (ns : bool) types, types = (if ns then Latin1EncodingTableNS else Latin1EncodingTable) ->
    forall dom : N -> bool, std true ns dom (table_cls types 256)).
  { intros ns0 types0 Et dom0. subst types0. set (types := if ns0 then Latin1EncodingTableNS else Latin1EncodingTable). set (k := table_cls types 256).
    assert (Lt : latin1_types types) by (unfold types, latin1_types; destruct ns0; auto).
    assert (G : forall c, c < 256 -> table_start k true ns0 c = true).
    { apply below256. unfold k, types. destruct ns0; vm_compute; reflexivity. }
    assert (G2 : forall c, kstart k c = start_char true ns0 c /\ kname k c = name_char true ns0 c /\ (ty k c = BT_NONXML <-> is_xml_char c = false)).
    { intros c. destruct (N.lt_ge_cases c 256) as [Hc|Hc].
      - specialize (G c Hc). unfold table_start in G. apply andb_prop in G as [G G3]. apply andb_prop in G as [G1 G2].
        apply eqb_prop in G1, G2, G3. repeat split; auto; intros H.
        + rewrite H in G3. change (bt_eqb BT_NONXML BT_NONXML) with true in G3. now destruct (is_xml_char c).
        + rewrite H in G3. now apply bt_eqb_eq in G3.
      - apply wide_std; auto. unfold k. cbn [table_cls ty]. now replace (c <? 256) with false by lia. }
    constructor; intros c; try (intros; apply G2).
    - intros Hc. apply (fun H => Hn ns0 k H c Hc). unfold k, types, ascii_table.
      destruct ns0; repeat (apply Forall_cons; [reflexivity|]); apply Forall_nil.
    - intros _ Hc. unfold k. cbn [table_cls ty]. destruct (c <? 256) eqn:E.
      + apply latin1_wide; auto. lia.
      + unfold wide_type. destruct (is_xml_char c); cbn; tauto. }
  assert (Ha : forall (ns : bool) types, types = (if ns then AsciiEncodingTableNS else AsciiEncodingTable) ->
    std false ns (fun c => c <? 128) (table_cls types 256)).
  { intros ns0 types0 Et. subst types0. set (types := if ns0 then AsciiEncodingTableNS else AsciiEncodingTable). set (k := table_cls types 256).
    assert (G : forall c, c < 128 -> table_start k false ns0 c = true).
    { apply below128. unfold k, types. destruct ns0; vm_compute; reflexivity. }
    assert (G2 : forall c, (c <? 128) = true -> kstart k c = start_char false ns0 c /\ kname k c = name_char false ns0 c /\ (ty k c = BT_NONXML <-> is_xml_char c = false)).
    { intros c Hc. assert (Hc' : c < 128) by lia.
      specialize (G c Hc'). unfold table_start in G. apply andb_prop in G as [G G3]. apply andb_prop in G as [G1 G2].
      apply eqb_prop in G1, G2, G3. repeat split; auto; intros H.
      + rewrite H in G3. change (bt_eqb BT_NONXML BT_NONXML) with true in G3. now destruct (is_xml_char c).
      + rewrite H in G3. now apply bt_eqb_eq in G3. }
    constructor; intros c; try (intros; now apply G2).
    - intros Hc. apply (fun H => Hn ns0 k H c Hc). unfold k, types, ascii_table.
      destruct ns0; repeat (apply Forall_cons; [reflexivity|]); apply Forall_nil.
    - intros; lia. }
  assert (Hk : forall (ns : bool) table convert u enc dom, length table = 256%nat -> unknown_initialize table convert ns = Ok (Some u) ->
    (forall c, c < 128 -> nth_error table (N.to_nat c) = Some (Z.of_N c) /\ enc c = [c] /\ dom c = true) ->
    (forall c, 128 <= c -> dom c = true -> c < 65536 /\ is_xml_char c = true /\ written table convert (enc c) c) ->
    exists k, charset (unknown_enc u) enc dom k /\ std false ns dom k).
  { intros ns0 table convert u enc0 dom0 L I A W. destruct (init_eval table convert ns0 L) as [[_ I2]|[_ I2]]; rewrite I2 in I; [|discriminate]. injection I as <-.
    exists (unk_cls ns0 enc0). split; [now apply (unk_charset table convert ns0 enc0 dom0)|]. set (k := unk_cls ns0 enc0).
    assert (T : forall c, 128 <= c -> ty k c = unit_type c \/ ty k c = wide_type c).
    { intros c Hc. unfold k. cbn [unk_cls ty]. replace (c <? 128) with false by lia. destruct (Nat.eqb _ 1); auto. }
    assert (TA : forall c, c < 128 -> ty k c = nth (N.to_nat c) (if ns0 then Latin1EncodingTableNS else Latin1EncodingTable) BT_NONXML).
    { intros c Hc. unfold k. cbn [unk_cls ty]. replace (c <? 128) with true by lia. now apply entry_ascii. }
    assert (G : forall c, c < 128 -> table_start (table_cls (if ns0 then Latin1EncodingTableNS else Latin1EncodingTable) 128) false ns0 c = true).
    { apply below128. destruct ns0; vm_compute; reflexivity. }
    assert (G2 : forall c, dom0 c = true -> kstart k c = start_char false ns0 c /\ kname k c = name_char false ns0 c /\ (ty k c = BT_NONXML <-> is_xml_char c = false)).
    { intros c Hd. destruct (N.lt_ge_cases c 128) as [Hc|Hc].
      - specialize (G c Hc). unfold table_start, kstart, kname in G. cbn [table_cls ty] in G. replace (c <? 128) with true in G by lia. rewrite <- (TA c Hc) in G.
        fold (kstart k c) in G. apply andb_prop in G as [G G3]. apply andb_prop in G as [G1 G2]. apply eqb_prop in G1, G2, G3.
        unfold kstart, kname. split; [exact G1|]. split; [exact G2|]. split; intros H.
        + rewrite H in G3. change (bt_eqb BT_NONXML BT_NONXML) with true in G3. now destruct (is_xml_char c).
        + rewrite H in G3. now apply bt_eqb_eq in G3.
      - destruct (W c Hc Hd) as (_ & Hx & _). unfold kstart, kname, start_char, name_char.
        replace (c =? 0x3A) with false by lia. rewrite !andb_false_r, !orb_false_r, !andb_true_r. cbn [andb].
        destruct (T c Hc) as [-> | ->]; unfold unit_type, wide_type; rewrite Hx.
        + destruct (is_name_start c) eqn:S; [|destruct (is_NameChar c) eqn:M]; repeat split; try congruence.
          unfold is_name_start in S. unfold is_NameChar. apply orb_prop in S as [S|S]; [apply orb_prop in S as [S|S]|]; [|lia|lia]. now rewrite S.
        + repeat split; congruence. }
    constructor; intros c; try (intros; now apply G2).
    - intros Hc. rewrite TA by auto. assert (H : forallb (fun c => bt_eqb (nth (N.to_nat c) (if ns0 then Latin1EncodingTableNS else Latin1EncodingTable) BT_NONXML) (nth (N.to_nat c) (ascii_table ns0) BT_NONXML)) (map N.of_nat (seq 0 128)) = true) by (destruct ns0; vm_compute; reflexivity).
      apply (fun H => below128 _ H c Hc) in H. now apply bt_eqb_eq in H.
    - intros Hd Hc. destruct (T c Hc) as [-> | ->]; unfold unit_type, wide_type; destruct (is_xml_char c), (is_name_start c), (is_NameChar c); cbn; tauto. }
  intros []; [| | | | | | | | | |now apply (Hk ns0 table convert u enc0 dom0)]; eexists; (split; [|first [apply Hu; [reflexivity|] | apply Hl; reflexivity | apply Ha; reflexivity]]).
  all: try (unfold utf8_types; auto; fail).
  - apply utf8_charset; unfold utf8_types; auto.
  - apply utf8_charset; unfold utf8_types; auto.
  - apply latin1_charset; unfold latin1_types; auto.
  - apply latin1_charset; unfold latin1_types; auto.
  - apply ascii_charset; unfold ascii_types; auto.
  - apply ascii_charset; unfold ascii_types; auto.
  - apply utf16_charset; unfold latin1_types; auto.
  - apply utf16_charset; unfold latin1_types; auto.
  - apply utf16be_charset; unfold latin1_types; auto.
  - apply utf16be_charset; unfold latin1_types; auto.
Qed.

