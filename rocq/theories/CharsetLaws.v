(* The built-in encodings are charsets. *)
From Coq Require Import List NArith ZArith Bool Lia Arith ZifyBool ZifyNat ZifyN.
From Verif Require Import Base Tables Encoding SpecUnicode SpecNames EncLaws UniLaws NameSweep Charset.
Import ListNotations.
Local Open Scope N_scope.
Ltac Zify.zify_post_hook ::= Z.div_mod_to_equations.

Opaque namingBitmap namePages nmstrtPages.

Lemma naming_lookup pages hi lo pg bit i v : index pages hi = Ok pg ->
  ucs2_get_naming pages hi lo = Ok v -> i = pg * 8 + lo / 32 -> bit = lo mod 32 ->
  bitmap_bit i bit = Ok v.
Proof.
  intros E H -> ->. unfold ucs2_get_naming in H. rewrite E in H. cbn [bind] in H.
  rewrite shl, shr, land31' in H. exact H.
Qed.
Lemma naming_page pages hi lo v : ucs2_get_naming pages hi lo = Ok v -> exists pg, index pages hi = Ok pg.
Proof. unfold ucs2_get_naming. destruct (index pages hi); [eauto|discriminate]. Qed.

Lemma utf8_naming2 pages c v a b r : c = a * 64 + b -> 2 <= a < 32 -> b < 64 ->
  ucs2_get_naming pages (c / 256) (c mod 256) = Ok v ->
  utf8_naming pages ((192 + a) :: (128 + b) :: r) 2 = Ok v.
Proof.
  intros E Ha Hb H. unfold utf8_naming. cbn [peek nth_error bind].
  rewrite !shr, !shl, land7', land3', land1', land31'.
  change (2^2) with 4. change (2^3) with 8. change (2^5) with 32. change (2^1) with 2.
  replace ((192 + a) / 4 mod 8) with (c / 256) by lia.
  destruct (naming_page _ _ _ _ H) as [pg P]. rewrite P. cbn [bind]. rewrite ?shl. change (2^3) with 8.
  eapply naming_lookup; eauto; lia.
Qed.
Lemma utf8_naming3 pages c v a b d r : c = a * 4096 + b * 64 + d -> a < 16 -> b < 64 -> d < 64 ->
  ucs2_get_naming pages (c / 256) (c mod 256) = Ok v ->
  utf8_naming pages ((224 + a) :: (128 + b) :: (128 + d) :: r) 3 = Ok v.
Proof.
  intros E Ha Hb Hd H. unfold utf8_naming. cbn [peek nth_error bind].
  rewrite !shr, !shl, !land15', land3', land1', land31'.
  change (2^2) with 4. change (2^3) with 8. change (2^5) with 32. change (2^1) with 2. change (2^4) with 16.
  replace ((224 + a) mod 16 * 16 + (128 + b) / 4 mod 16) with (c / 256) by lia.
  destruct (naming_page _ _ _ _ H) as [pg P]. rewrite P. cbn [bind]. rewrite ?shl. change (2^3) with 8.
  eapply naming_lookup; eauto; lia.
Qed.

Definition xml_range (r : N * N) : bool :=
  (32 <=? fst r) && (snd r <=? 0xD7FF) || (0xE000 <=? fst r) && (snd r <=? 0xFFFD).
Lemma ranges_xml rs c : forallb xml_range rs = true -> in_ranges rs c = true -> is_xml_char c = true.
Proof.
  unfold in_ranges. rewrite forallb_forall, existsb_exists. intros H (r & Hi & Hr). specialize (H r Hi).
  unfold xml_range in H. unfold is_xml_char. lia.
Qed.
Lemma name_xml c : is_NameChar c = true -> is_xml_char c = true.
Proof.
  unfold is_NameChar, is_Letter. rewrite !orb_true_iff. intros H.
  decompose [or] H; try (eapply ranges_xml; [|eassumption]; vm_compute; reflexivity); unfold is_xml_char; lia.
Qed.
Lemma start_xml c : is_name_start c = true -> is_xml_char c = true.
Proof.
  unfold is_name_start, is_Letter. rewrite !orb_true_iff. intros H.
  decompose [or] H; try (eapply ranges_xml; [|eassumption]; vm_compute; reflexivity); unfold is_xml_char; lia.
Qed.

Lemma utf8_is_invalid_char c r n : is_scalar c = true -> 128 <= c -> n = length (utf8_encode c) ->
  utf8_is_invalid (utf8_encode c ++ r) n = Ok (negb (is_xml_char c)).
Proof.
  intros Hs Hc ->. pose proof (scalar_bound _ Hs) as Hb. unfold is_xml_char. unfold is_scalar in Hs.
  destruct (utf8_encode_form c Hb) as [?|a b ? ? ? ?|a b d ? E ? ? ? ?|a b d f ? E ? ? ? ? ?]; [lia|..];
    cbn [length app utf8_is_invalid peek nth_error bind]; f_equal.
  - rewrite mask128, mask192 by lia. lia.
  - rewrite !mask128, !mask192 by lia.
    destruct ((224 + a =? 239) && (128 + b =? 191)) eqn:E1; destruct (224 + a =? 224) eqn:E2;
      destruct (224 + a =? 237) eqn:E3; lia.
  - rewrite !mask128, !mask192 by lia.
    destruct (240 + a =? 240) eqn:E2; destruct (240 + a =? 244) eqn:E3; lia.
Qed.

Definition lead_types_ok (types : list ByteType) (b : N) : bool :=
  let t := nth (N.to_nat b) types BT_NONXML in
  if b <? 128 then match lead_len t with None => negb (bt_eqb t BT_NONASCII) | Some _ => false end
  else if (194 <=? b) && (b <? 224) then bt_eqb t BT_LEAD2
  else if (224 <=? b) && (b <? 240) then bt_eqb t BT_LEAD3
  else if (240 <=? b) && (b <? 245) then bt_eqb t BT_LEAD4 else true.
Lemma bt_eqb_eq a b : bt_eqb a b = true -> a = b.
Proof. destruct a, b; (reflexivity || discriminate). Qed.
Lemma utf8_table_ok types : utf8_types types -> forall b, b < 256 -> lead_types_ok types b = true.
Proof. intros H. apply byte_sweep. destruct H as [->|[->|[->| ->]]]; vm_compute; reflexivity. Qed.
Lemma utf8_types_len types : utf8_types types -> length types = 256%nat.
Proof. intros [->|[->|[->| ->]]]; reflexivity. Qed.
Lemma index_nth (types : list ByteType) b d : length types = 256%nat -> b < 256 ->
  index types b = Ok (nth (N.to_nat b) types d).
Proof.
  intros Hl Hb. unfold index. rewrite (nth_error_nth' types d) by lia. reflexivity.
Qed.

Lemma bt_eqb_ne a b : bt_eqb a b = false -> a <> b.
Proof. intros H ->. destruct b; discriminate. Qed.

Lemma utf8_charset types : utf8_types types ->
  charset (utf8_enc types) utf8_encode is_scalar (table_cls types 128).
Proof.
  intros Ht. pose proof (utf8_types_len _ Ht) as Hl. pose proof (utf8_table_ok _ Ht) as T.
  assert (Bt : forall b r, b < 256 -> byte_type (utf8_enc types) (b :: r) = Ok (nth (N.to_nat b) types BT_NONXML)).
  { intros b r Hb. change (index types b = Ok (nth (N.to_nat b) types BT_NONXML)). apply index_nth; auto. }
  assert (Na : forall c, c < 128 -> utf8_encode c = [c]).
  { intros c Hc. unfold utf8_encode. now replace (c <? 128) with true by lia. }
  constructor.
  - auto.
  - intros c Hc. rewrite Na; auto.
  - intros c r Hc. rewrite Na by auto. cbn [app]. rewrite Bt by lia. cbn [table_cls ty].
    now replace (c <? 128) with true by lia.
  - intros c Hc. cbn [table_cls ty]. replace (c <? 128) with true by lia.
    specialize (T c ltac:(lia)). unfold lead_types_ok in T. replace (c <? 128) with true in T by lia.
    destruct (lead_len _); [discriminate|]. apply negb_true_iff, bt_eqb_ne in T. auto.
  - intros c r Hc. rewrite Na by auto. reflexivity.
  - intros c r x Hs Hx. pose proof (scalar_bound _ Hs) as Hb.
    cbn [utf8_enc char_matches]. unfold char_matches1.
    destruct (utf8_encode_form c Hb); cbn [app peek nth_error bind]; f_equal; lia.
  - intros c r Hs Hc. pose proof (scalar_bound _ Hs) as Hb.
    pose proof (utf8_is_invalid_char c r _ Hs Hc eq_refl) as Iv.
    destruct (utf8_encode_form c Hb) as [?|a b ? E ? ?|a b d ? E ? ? ? ?|a b d f ? E ? ? ? ? ? ?]; [lia|..];
      cbn [length] in *.
    + apply (wc_lead _ _ _ _ _ BT_LEAD2); auto.
      * cbn [app]. rewrite Bt by lia. specialize (T (192 + a) ltac:(lia)). unfold lead_types_ok in T.
        replace (192 + a <? 128) with false in T by lia.
        replace ((194 <=? 192 + a) && (192 + a <? 224)) with true in T by lia. apply bt_eqb_eq in T. congruence.
      * apply (utf8_naming2 namePages c _ a b); auto. apply ucs2_name. lia.
      * apply (utf8_naming2 nmstrtPages c _ a b); auto. apply ucs2_nmstrt. lia.
      * cbn [table_cls ty]. now replace (c <? 128) with false by lia.
    + apply (wc_lead _ _ _ _ _ BT_LEAD3); auto.
      * cbn [app]. rewrite Bt by lia. specialize (T (224 + a) ltac:(lia)). unfold lead_types_ok in T.
        replace (224 + a <? 128) with false in T by lia.
        replace ((194 <=? 224 + a) && (224 + a <? 224)) with false in T by lia.
        replace ((224 <=? 224 + a) && (224 + a <? 240)) with true in T by lia. apply bt_eqb_eq in T. congruence.
      * apply (utf8_naming3 namePages c _ a b d); auto. apply ucs2_name. lia.
      * apply (utf8_naming3 nmstrtPages c _ a b d); auto. apply ucs2_nmstrt. lia.
      * cbn [table_cls ty]. now replace (c <? 128) with false by lia.
    + apply (wc_lead _ _ _ _ _ BT_LEAD4); auto.
      * cbn [app]. rewrite Bt by lia. specialize (T (240 + a) ltac:(lia)). unfold lead_types_ok in T.
        replace (240 + a <? 128) with false in T by lia.
        replace ((194 <=? 240 + a) && (240 + a <? 224)) with false in T by lia.
        replace ((224 <=? 240 + a) && (240 + a <? 240)) with false in T by lia.
        replace ((240 <=? 240 + a) && (240 + a <? 245)) with true in T by lia. apply bt_eqb_eq in T. congruence.
      * cbn [table_cls nmc]. rewrite name_top by lia. reflexivity.
      * cbn [table_cls nst]. rewrite start_top by lia. reflexivity.
      * cbn [table_cls ty]. now replace (c <? 128) with false by lia.
  - intros c r Hs Hc. pose proof (scalar_bound _ Hs) as Hb.
    destruct (utf8_encode_form c Hb); [lia|..]; (eexists; split; [reflexivity|lia]).
  - intros c Hs. pose proof (scalar_bound _ Hs) as Hb.
    destruct (utf8_encode_form c Hb); [exists 0%nat|exists 1%nat|exists 2%nat|exists 3%nat]; reflexivity.
  - apply name_xml.
  - apply start_xml.
Qed.

(* one byte per character: Latin-1 and ASCII *)
Definition single_ok (types : list ByteType) (b : N) : bool :=
  let t := nth (N.to_nat b) types BT_NONXML in
  if b <? 128 then match lead_len t with None => negb (bt_eqb t BT_NONASCII) | Some _ => false end
  else bt_eqb t BT_NMSTRT || bt_eqb t BT_NAME || bt_eqb t BT_OTHER.
Definition latin1_types (types : list ByteType) : Prop :=
  types = Latin1EncodingTable \/ types = Latin1EncodingTableNS \/
  types = InternalLatin1EncodingTable \/ types = InternalLatin1EncodingTableNS.
Lemma latin1_table_ok types : latin1_types types -> forall b, b < 256 -> single_ok types b = true.
Proof. intros H. apply byte_sweep. destruct H as [->|[->|[->| ->]]]; vm_compute; reflexivity. Qed.
Lemma latin1_types_len types : latin1_types types -> length types = 256%nat.
Proof. intros [->|[->|[->| ->]]]; reflexivity. Qed.

Definition is_byte (c : N) : bool := c <? 256.
Definition is_ascii (c : N) : bool := c <? 128.
Definition single (c : N) : bytes := [c].

Lemma latin1_wide types c : latin1_types types -> 128 <= c < 256 ->
  In (nth (N.to_nat c) types BT_NONXML) [BT_NONASCII; BT_NMSTRT; BT_NAME; BT_OTHER; BT_NONXML] /\
  nth (N.to_nat c) types BT_NONXML <> BT_NONXML /\ nth (N.to_nat c) types BT_NONXML <> BT_NONASCII.
Proof.
  intros Ht Hc. pose proof (latin1_table_ok _ Ht c ltac:(lia)) as T. unfold single_ok in T.
  replace (c <? 128) with false in T by lia.
  destruct (nth (N.to_nat c) types BT_NONXML); try discriminate T; cbn; split; try (split; discriminate); tauto.
Qed.

Lemma latin1_charset types : latin1_types types ->
  charset (latin1_enc types) single is_byte (table_cls types 256).
Proof.
  intros Ht. pose proof (latin1_types_len _ Ht) as Hl. pose proof (latin1_table_ok _ Ht) as T.
  assert (Bt : forall b r, b < 256 -> byte_type (latin1_enc types) (b :: r) = Ok (nth (N.to_nat b) types BT_NONXML)).
  { intros b r Hb. change (index types b = Ok (nth (N.to_nat b) types BT_NONXML)). apply index_nth; auto. }
  constructor; unfold single; cbn [app length]; unfold is_byte.
  - auto.
  - auto.
  - intros c r Hc. rewrite Bt by lia. cbn [table_cls ty]. now replace (c <? 256) with true by lia.
  - intros c Hc. cbn [table_cls ty]. replace (c <? 256) with true by lia.
    specialize (T c ltac:(lia)). unfold single_ok in T. replace (c <? 128) with true in T by lia.
    destruct (lead_len _); [discriminate|]. apply negb_true_iff, bt_eqb_ne in T. auto.
  - reflexivity.
  - reflexivity.
  - intros c r Hd Hc. destruct (latin1_wide types c Ht ltac:(lia)) as (W1 & W2 & W3).
    apply wc_unit; cbn [table_cls ty]; replace (c <? 256) with true by lia; auto.
    + rewrite Bt by lia. auto.
    + unfold is_xml_char. split; [congruence|lia].
    + congruence.
  - intros c r Hd Hc. exists c. split; auto.
  - intros c Hd. exists 0%nat. reflexivity.
  - apply name_xml.
  - apply start_xml.
Qed.

Definition ascii_types (types : list ByteType) : Prop := types = AsciiEncodingTable \/ types = AsciiEncodingTableNS.
Lemma ascii_table_ok types : ascii_types types -> forall b, b < 128 -> single_ok types b = true.
Proof.
  intros H b Hb. assert (b < 256) as Hb2 by lia. revert b Hb2 Hb.
  assert (G : forall b, b < 256 -> (negb (b <? 128) || single_ok types b) = true).
  { apply byte_sweep. destruct H as [->| ->]; vm_compute; reflexivity. }
  intros b Hb2 Hb. specialize (G b Hb2). destruct (b <? 128) eqn:E; [exact G|lia].
Qed.
Lemma ascii_charset types : ascii_types types -> charset (ascii_enc types) single is_ascii (table_cls types 256).
Proof.
  intros Ht. assert (Hl : length types = 256%nat) by (destruct Ht as [->| ->]; reflexivity).
  pose proof (ascii_table_ok _ Ht) as T.
  assert (Bt : forall b r, b < 256 -> byte_type (ascii_enc types) (b :: r) = Ok (nth (N.to_nat b) types BT_NONXML)).
  { intros b r Hb. change (index types b = Ok (nth (N.to_nat b) types BT_NONXML)). apply index_nth; auto. }
  constructor; unfold single; cbn [app length]; unfold is_ascii.
  - auto.
  - auto.
  - intros c r Hc. rewrite Bt by lia. cbn [table_cls ty]. now replace (c <? 256) with true by lia.
  - intros c Hc. cbn [table_cls ty]. replace (c <? 256) with true by lia.
    specialize (T c ltac:(lia)). unfold single_ok in T. replace (c <? 128) with true in T by lia.
    destruct (lead_len _); [discriminate|]. apply negb_true_iff, bt_eqb_ne in T. auto.
  - reflexivity.
  - reflexivity.
  - intros; lia.
  - intros; lia.
  - intros c Hd. exists 0%nat. reflexivity.
  - apply name_xml.
  - apply start_xml.
Qed.

(* UTF-16, little endian *)
Lemma utf16_charset types : latin1_types types ->
  charset (little2_enc types) utf16le_encode is_scalar (table_cls types 256).
Proof.
  intros Ht. pose proof (latin1_types_len _ Ht) as Hl. pose proof (latin1_table_ok _ Ht) as T.
  assert (U : forall c, c < 65536 -> utf16le_encode c = [c mod 256; c / 256]).
  { intros c Hc. unfold utf16le_encode, utf16_units. replace (c <? 65536) with true by lia. reflexivity. }
  assert (Bt : forall lo hi r, lo < 256 -> byte_type (little2_enc types) (lo :: hi :: r) =
    Ok (if hi =? 0 then nth (N.to_nat lo) types BT_NONXML else unicode_byte_type hi lo)).
  { intros lo hi r Hb. cbn [little2_enc byte_type]. unfold little2_byte_type. cbn [peek nth_error bind].
    destruct (hi =? 0); auto. apply index_nth; auto. }
  constructor.
  - auto.
  - intros c Hc. rewrite U by lia. reflexivity.
  - intros c r Hc. rewrite U by lia. cbn [app]. rewrite Bt by lia. cbn [table_cls ty].
    replace (c / 256 =? 0) with true by lia. replace (c <? 256) with true by lia.
    replace (c mod 256) with c by lia. reflexivity.
  - intros c Hc. cbn [table_cls ty]. replace (c <? 256) with true by lia.
    specialize (T c ltac:(lia)). unfold single_ok in T. replace (c <? 128) with true in T by lia.
    destruct (lead_len _); [discriminate|]. apply negb_true_iff, bt_eqb_ne in T. auto.
  - intros c r Hc. rewrite U by lia. cbn [app little2_enc byte_to_ascii]. unfold byte_to_ascii2.
    cbn [peek nth_error bind]. replace (c / 256 =? 0) with true by lia. f_equal. lia.
  - intros c r x Hs Hx. pose proof (scalar_bound _ Hs) as Hb. cbn [little2_enc char_matches]. unfold char_matches2.
    destruct (c <? 65536) eqn:E.
    + rewrite U by lia. cbn [app peek nth_error bind]. f_equal. lia.
    + unfold utf16le_encode, utf16_units. rewrite E. cbn [flat_map app peek nth_error bind]. f_equal. lia.
  - intros c r Hs Hc. pose proof (scalar_bound _ Hs) as Hb. unfold is_scalar in Hs.
    destruct (c <? 65536) eqn:E.
    + rewrite U by lia. cbn [app length]. apply wc_unit.
      * reflexivity.
      * rewrite Bt by lia. cbn [table_cls ty]. destruct (c <? 256) eqn:E2.
        -- replace (c / 256 =? 0) with true by lia. replace (c mod 256) with c by lia. reflexivity.
        -- replace (c / 256 =? 0) with false by lia. unfold unicode_byte_type, wide_type.
           replace ((216 <=? c / 256) && (c / 256 <=? 219)) with false by lia.
           replace ((220 <=? c / 256) && (c / 256 <=? 223)) with false by lia.
           destruct (is_xml_char c) eqn:X; unfold is_xml_char in X.
           ++ replace ((c / 256 =? 255) && ((c mod 256 =? 255) || (c mod 256 =? 254))) with false by lia. reflexivity.
           ++ replace ((c / 256 =? 255) && ((c mod 256 =? 255) || (c mod 256 =? 254))) with true by lia. reflexivity.
      * cbn [table_cls ty]. destruct (c <? 256) eqn:E2.
        -- apply latin1_wide; auto. lia.
        -- unfold wide_type. destruct (is_xml_char c); cbn; tauto.
      * cbn [table_cls ty]. destruct (c <? 256) eqn:E2.
        -- destruct (latin1_wide types c Ht ltac:(lia)) as (W1 & W2 & W3). unfold is_xml_char. split; [congruence|lia].
        -- unfold wide_type. destruct (is_xml_char c); split; congruence.
      * intros _. cbn [little2_enc is_name_char_minbpc is_nmstrt_char_minbpc]. unfold naming2.
        cbn [peek nth_error bind table_cls nmc nst]. rewrite ucs2_name, ucs2_nmstrt by lia. auto.
    + unfold utf16le_encode, utf16_units. rewrite E. cbn [flat_map app length].
      apply (wc_lead _ _ _ _ _ BT_LEAD4).
      * rewrite Bt by lia. replace ((55296 + (c - 65536) / 1024) / 256 =? 0) with false by lia.
        unfold unicode_byte_type. 
        replace ((216 <=? (55296 + (c - 65536) / 1024) / 256) && ((55296 + (c - 65536) / 1024) / 256 <=? 219)) with true by lia.
        reflexivity.
      * reflexivity.
      * cbn [little2_enc is_invalid_char]. unfold is_xml_char. f_equal. lia.
      * cbn [table_cls nmc little2_enc is_name_char]. rewrite name_top by lia. reflexivity.
      * cbn [table_cls nst little2_enc is_nmstrt_char]. rewrite start_top by lia. reflexivity.
      * cbn [table_cls ty]. now replace (c <? 256) with false by lia.
  - intros c r Hs Hc. pose proof (scalar_bound _ Hs) as Hb.
    cbn [little2_enc byte_to_ascii]. unfold byte_to_ascii2.
    destruct (c <? 65536) eqn:E.
    + rewrite U by lia. cbn [app peek nth_error bind]. destruct (c / 256 =? 0) eqn:Z0; eexists; (split; [reflexivity|lia]).
    + unfold utf16le_encode, utf16_units. rewrite E. cbn [flat_map app peek nth_error bind].
      replace ((55296 + (c - 65536) / 1024) / 256 =? 0) with false by lia. eexists; split; [reflexivity|lia].
  - intros c Hs. unfold utf16le_encode, utf16_units.
    destruct (c <? 65536); [exists 0%nat|exists 1%nat]; reflexivity.
  - apply name_xml.
  - apply start_xml.
Qed.
