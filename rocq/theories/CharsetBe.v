(* UTF-16BE writes characters as the charset interface demands. *)
From Coq Require Import List NArith ZArith Bool Lia Arith ZifyBool ZifyNat ZifyN.
From Verif Require Import Base Tables Encoding SpecUnicode SpecNames SpecLex EncLaws UniLaws NameSweep Charset CharsetLaws.
Import ListNotations.
Local Open Scope N_scope.

Lemma utf16be_charset types : latin1_types types ->
  charset (big2_enc types) utf16be_encode is_scalar_be (table_cls types 256).
Proof.
  intros Ht. pose proof (latin1_types_len _ Ht) as Hl. pose proof (latin1_table_ok _ Ht) as T.
  assert (U : forall c, c < 65536 -> utf16be_encode c = [c / 256; c mod 256]).
  { intros c Hc. unfold utf16be_encode, utf16_units. replace (c <? 65536) with true by lia. reflexivity. }
  assert (Bt : forall lo hi r, lo < 256 -> (hi = 0 -> lo < 128) -> byte_type (big2_enc types) (hi :: lo :: r) =
    Ok (if hi =? 0 then nth (N.to_nat lo) types BT_NONXML else unicode_byte_type hi lo)).
  { intros lo hi r Hb H0. cbn [big2_enc byte_type]. unfold big2_byte_type. cbn [peek nth_error bind].
    destruct (hi =? 0) eqn:Eh; auto. assert (L128 : lo < 128) by (apply H0; lia). unfold i8_as_usize. replace (lo <? 128) with true by lia.
    rewrite Hl. change (N.of_nat 256) with 256. replace (lo <? 256) with true by lia. apply index_nth; auto. }
  constructor.
  - auto.
  - intros c Hc. rewrite U by lia. reflexivity.
  - intros c r Hc. rewrite U by lia. cbn [app]. rewrite Bt by lia. cbn [table_cls ty].
    replace (c / 256 =? 0) with true by lia. replace (c <? 256) with true by lia.
    replace (c mod 256) with c by lia. reflexivity.
  - intros c Hc. cbn [table_cls ty]. replace (c <? 256) with true by lia.
    specialize (T c ltac:(lia)). unfold single_ok in T. replace (c <? 128) with true in T by lia.
    destruct (lead_len _); [discriminate|]. apply negb_true_iff, bt_eqb_ne in T. auto.
  - intros c r Hc. rewrite U by lia. cbn [app big2_enc byte_to_ascii]. unfold byte_to_ascii2.
    cbn [peek nth_error bind]. replace (c / 256 =? 0) with true by lia. f_equal. lia.
  - intros c r x Hs Hx. apply andb_prop in Hs as [Hs Hr]. pose proof (scalar_bound _ Hs) as Hb. cbn [big2_enc char_matches]. unfold char_matches2.
    destruct (c <? 65536) eqn:E.
    + rewrite U by lia. cbn [app peek nth_error bind]. f_equal. lia.
    + unfold utf16be_encode, utf16_units. rewrite E. cbn [flat_map app peek nth_error bind]. f_equal. lia.
  - intros c r Hs Hc. apply andb_prop in Hs as [Hs Hr]. pose proof (scalar_bound _ Hs) as Hb. unfold is_scalar in Hs. assert (R : c < 128 \/ 255 < c) by lia. clear Hr.
    destruct (c <? 65536) eqn:E.
    + rewrite U by lia. cbn [app length]. apply wc_unit.
      * reflexivity.
      * rewrite Bt by lia. cbn [table_cls ty]. destruct (c <? 256) eqn:E2.
        -- replace (c / 256 =? 0) with true by lia. replace (c mod 256) with c by lia. reflexivity.
        -- replace (c / 256 =? 0) with false by lia. unfold unicode_byte_type, wide_type.
           replace ((216 <=? c / 256) && (c / 256 <=? 219)) with false by lia.
           replace ((220 <=? c / 256) && (c / 256 <=? 223)) with false by lia.
           destruct (is_xml_char c) eqn:X; unfold is_xml_char in X.
           ++ replace ((c / 256 =? 255) && ((c mod 256 =? 255) || (c mod 256 =? 254))) with false by lia. reflexivity.
           ++ replace ((c / 256 =? 255) && ((c mod 256 =? 255) || (c mod 256 =? 254))) with true by lia. reflexivity.
      * cbn [table_cls ty]. destruct (c <? 256) eqn:E2.
        -- apply latin1_wide; auto. lia.
        -- unfold wide_type. destruct (is_xml_char c); cbn; tauto.
      * cbn [table_cls ty]. destruct (c <? 256) eqn:E2.
        -- destruct (latin1_wide types c Ht ltac:(lia)) as (W1 & W2 & W3). unfold is_xml_char. split; [congruence|lia].
        -- unfold wide_type. destruct (is_xml_char c); split; congruence.
      * intros _. cbn [big2_enc is_name_char_minbpc is_nmstrt_char_minbpc]. unfold naming2.
        cbn [peek nth_error bind table_cls nmc nst]. rewrite ucs2_name, ucs2_nmstrt by lia. auto.
    + unfold utf16be_encode, utf16_units. rewrite E. cbn [flat_map app length].
      apply (wc_lead _ _ _ _ _ BT_LEAD4).
      * rewrite Bt by lia. replace ((55296 + (c - 65536) / 1024) / 256 =? 0) with false by lia.
        unfold unicode_byte_type. 
        replace ((216 <=? (55296 + (c - 65536) / 1024) / 256) && ((55296 + (c - 65536) / 1024) / 256 <=? 219)) with true by lia.
        reflexivity.
      * reflexivity.
      * cbn [big2_enc is_invalid_char]. unfold is_xml_char. f_equal. lia.
      * cbn [table_cls nmc big2_enc is_name_char]. rewrite name_top by lia. reflexivity.
      * cbn [table_cls nst big2_enc is_nmstrt_char]. rewrite start_top by lia. reflexivity.
      * cbn [table_cls ty]. now replace (c <? 256) with false by lia.
  - intros c r Hs Hc. apply andb_prop in Hs as [Hs Hr]. pose proof (scalar_bound _ Hs) as Hb.
    cbn [big2_enc byte_to_ascii]. unfold byte_to_ascii2.
    destruct (c <? 65536) eqn:E.
    + rewrite U by lia. cbn [app peek nth_error bind]. destruct (c / 256 =? 0) eqn:Z0; eexists; (split; [reflexivity|lia]).
    + unfold utf16be_encode, utf16_units. rewrite E. cbn [flat_map app peek nth_error bind].
      replace ((55296 + (c - 65536) / 1024) / 256 =? 0) with false by lia. eexists; split; [reflexivity|lia].
  - intros c Hs. unfold utf16be_encode, utf16_units.
    destruct (c <? 65536); [exists 0%nat|exists 1%nat]; reflexivity.
  - apply name_xml.
  - apply start_xml.
Qed.
