(* The properties of references, names, attributes, positions and normalised strings: C02, C16 to
   C20, C22 and C23. *)
From Coq Require Import String List NArith ZArith Bool.
From Verif Require Import Base Encoding SpecText SpecUnicode SpecNames SpecLex SpecMisc Tok TokMisc Norm NormLaws NameSweep CpNames CpIgnore MiscTop.
Import ListNotations.
Local Open Scope N_scope.

(* C02: numeric character references; -1 is the result for a reference that is refused *)
Theorem C02_decimal : forall e enc dom lat ns ds rest, text_encoding e enc dom lat ns ->
  ds <> [] -> all_in is_digit ds ->
  charRefNumber e (flat_map enc (txt "&#" ++ ds ++ txt ";") ++ rest) =
  Ok (if is_xml_char (dec_value ds) then Z.of_N (dec_value ds) else -1)%Z.
Proof. intros e enc dom lat ns ds rest TE. exact (te_charref_dec e enc dom lat ns TE ds rest). Qed.
Print Assumptions C02_decimal.
Theorem C02_hexadecimal : forall e enc dom lat ns ds rest, text_encoding e enc dom lat ns ->
  ds <> [] -> all_in is_hex ds ->
  charRefNumber e (flat_map enc (txt "&#x" ++ ds ++ txt ";") ++ rest) =
  Ok (if is_xml_char (hex_value ds) then Z.of_N (hex_value ds) else -1)%Z.
Proof. intros e enc dom lat ns ds rest TE. exact (te_charref_hex e enc dom lat ns TE ds rest). Qed.
Print Assumptions C02_hexadecimal.
Example C02_example :
  dec_value (txt "128512") = 0x1F600 /\ is_xml_char 0x1F600 = true /\ hex_value (txt "1f600") = 0x1F600 /\
  charRefNumber little2_encoding (flat_map utf16le_encode (txt "&#x1F600;")) = Ok 0x1F600%Z /\
  charRefNumber utf8_encoding (txt "&#4294967361;") = Ok (-1)%Z /\
  charRefNumber utf8_encoding (txt "&#xD800;") = Ok (-1)%Z.
Proof. vm_compute. repeat split. Qed.

(* C16: the attributes of a start tag; the name of each ends where [nameLength] says *)
Theorem C16_attributes : forall e enc dom lat ns name atts sp empty rest, text_encoding e enc dom lat ns ->
  tag_ok lat ns name atts sp -> all_in dom (tag_text name atts sp empty) ->
  exists l, getAtts e (flat_map enc (tag_text name atts sp empty) ++ rest) = Ok l /\
    Forall2 (fun a x =>
      a_value x = flat_map enc (as_value a) /\
      (a_normalized x = true <-> already_normal (as_value a)) /\
      exists r, a_name x = Some (flat_map enc (as_name a) ++ r) /\
        nameLength e (flat_map enc (as_name a) ++ r) = Ok (List.length (flat_map enc (as_name a)))) atts l.
Proof. intros e enc dom lat ns name atts sp empty rest TE. exact (te_getAtts e enc dom lat ns TE name atts sp empty rest). Qed.
Print Assumptions C16_attributes.
Theorem C16_name_length : forall e enc dom lat ns n c rest, text_encoding e enc dom lat ns ->
  is_qname lat ns n -> all_in dom n -> is_space c = true \/ In c (txt "=>/;?") ->
  nameLength e (flat_map enc (n ++ c :: rest)) = Ok (List.length (flat_map enc n)).
Proof. intros e enc dom lat ns n c rest TE. exact (te_nameLength e enc dom lat ns TE n c rest). Qed.
Print Assumptions C16_name_length.
Example C16_example :
  let a1 := {| as_space := [32]; as_name := txt "x"; as_eq1 := [9]; as_eq2 := [13; 10]; as_quote := 34; as_value := txt "a 'b'>" |} in
  let a2 := {| as_space := [10; 32]; as_name := txt "y:z"; as_eq1 := []; as_eq2 := []; as_quote := 39; as_value := txt " &amp; " |} in
  tag_text (txt "e") [a1; a2] [32] true = txt "<e x" ++ [9; 61; 13; 10] ++ [34] ++ txt "a 'b'>" ++ [34; 10; 32] ++ txt "y:z=' &amp; ' />" /\
  (exists r1 r2, getAtts utf8_encoding (tag_text (txt "e") [a1; a2] [32] true) =
    Ok [{| a_name := Some r1; a_value := txt "a 'b'>"; a_normalized := true |};
        {| a_name := Some r2; a_value := txt " &amp; "; a_normalized := false |}]).
Proof. split; [reflexivity|]. eexists _, _. vm_compute. reflexivity. Qed.

(* C17: which characters may begin and continue a name; [is_name_start] and [is_NameChar] are the
   productions of XML 1.0 *)
Theorem C17_tables : forall c, c < 65536 ->
  ucs2_get_naming Tables.nmstrtPages (c / 256) (c mod 256) = Ok (is_name_start c) /\
  ucs2_get_naming Tables.namePages (c / 256) (c mod 256) = Ok (is_NameChar c).
Proof. intros c Hc. exact (conj (ucs2_nmstrt c Hc) (ucs2_name c Hc)). Qed.
Print Assumptions C17_tables.
Theorem C17_name_start : forall e enc dom lat ns c, text_encoding e enc dom lat ns -> dom c = true ->
  ((exists n, contentTok e (flat_map enc (txt "&" ++ [c] ++ txt ";")) = Ok (T_ENTITY_REF, Some n)) <-> start_char lat ns c = true).
Proof. intros e enc dom lat ns c TE. exact (te_name_start e enc dom lat ns TE c). Qed.
Print Assumptions C17_name_start.
Theorem C17_name_character : forall e enc dom lat ns c, text_encoding e enc dom lat ns -> dom c = true ->
  ((exists n, contentTok e (flat_map enc (txt "&a" ++ [c] ++ txt ";")) = Ok (T_ENTITY_REF, Some n)) <-> name_char lat ns c = true \/ c = 0x3B).
Proof. intros e enc dom lat ns c TE. exact (te_name_char e enc dom lat ns TE c). Qed.
Print Assumptions C17_name_character.
Theorem C17_supplementary : forall c, 65536 <= c -> is_name_start c = false /\ is_NameChar c = false.
Proof. intros c Hc. exact (conj (start_top c Hc) (name_top c Hc)). Qed.
Print Assumptions C17_supplementary.
Example C17_example : start_char false true 0x4E00 = true /\ start_char false true 0x3A = false /\
  name_char false true 0x0300 = true /\ start_char false true 0x0300 = false /\
  contentTok utf8_encoding_ns (flat_map utf8_encode (txt "&" ++ [0x4E00] ++ txt ";")) = Ok (T_ENTITY_REF, Some 5%nat).
Proof. vm_compute. repeat split. Qed.

(* C18: the predefined entities; 0 means that the name is not predefined *)
Theorem C18_predefined : forall e enc dom lat ns name x, text_encoding e enc dom lat ns -> all_in dom name -> x <> 0 ->
  (predefinedEntityName e (flat_map enc name) = Ok x <-> In (name, x) predefined).
Proof. intros e enc dom lat ns name x TE. exact (te_predef e enc dom lat ns TE name x). Qed.
Print Assumptions C18_predefined.
Theorem C18_others : forall e enc dom lat ns name, text_encoding e enc dom lat ns -> all_in dom name ->
  (forall x, ~ In (name, x) predefined) -> predefinedEntityName e (flat_map enc name) = Ok 0.
Proof. intros e enc dom lat ns name TE. exact (te_predef_none e enc dom lat ns TE name). Qed.
Print Assumptions C18_others.
Example C18_example : In (txt "apos", 39) predefined /\
  predefinedEntityName little2_encoding (flat_map utf16le_encode (txt "apos")) = Ok 39 /\
  predefinedEntityName utf8_encoding (utf8_encode 0x1F600) = Ok 0 /\
  predefinedEntityName utf8_encoding (txt "lT") = Ok 0.
Proof. vm_compute. intuition. Qed.

(* C19: line and column numbers (64-bit) *)
Theorem C19_position : forall e enc dom lat ns cs p, text_encoding e enc dom lat ns -> all_in dom cs ->
  pos_line p < 2 ^ 64 -> pos_col p < 2 ^ 64 ->
  updatePosition e (flat_map enc cs) p =
  Ok {| pos_line := (pos_line p + line_ends cs) mod 2 ^ 64;
        pos_col := (if existsb is_eol cs then N.of_nat (List.length (last_line cs))
                    else pos_col p + N.of_nat (List.length cs)) mod 2 ^ 64 |}.
Proof. intros e enc dom lat ns cs p TE. exact (te_position e enc dom lat ns TE cs p). Qed.
Print Assumptions C19_position.
Theorem C19_pieces : forall e enc dom lat ns a b p p1, text_encoding e enc dom lat ns -> all_in dom a -> all_in dom b ->
  pos_line p < 2 ^ 64 -> pos_col p < 2 ^ 64 ->
  ~ ((exists a', a = a' ++ [13]) /\ exists b', b = 10 :: b') ->
  updatePosition e (flat_map enc a) p = Ok p1 ->
  updatePosition e (flat_map enc (a ++ b)) p = updatePosition e (flat_map enc b) p1.
Proof. intros e enc dom lat ns a b p p1 TE. exact (te_position_app e enc dom lat ns TE a b p p1). Qed.
Print Assumptions C19_pieces.
Example C19_example : line_ends [97; 13; 10; 98; 13; 99; 10; 0x20AC; 100] = 3 /\ last_line [97; 13; 10; 98; 13; 99; 10; 0x20AC; 100] = [0x20AC; 100] /\
  updatePosition utf8_encoding (flat_map utf8_encode [97; 13; 10; 98; 13; 99; 10; 0x20AC; 100]) {| pos_line := 5; pos_col := 7 |} =
  Ok {| pos_line := 8; pos_col := 2 |}.
Proof. vm_compute. repeat split. Qed.

(* C20: line ends in comments and processing instructions; a string is the array up to the NUL *)
Theorem C20_normalised : forall s rest, ~ In 0 s ->
  exists a, normalizeLines (s ++ 0 :: rest) = Ok a /\ cstr a = norm_eol s /\ List.length a = List.length (s ++ 0 :: rest).
Proof. exact normalizeLines_in. Qed.
Print Assumptions C20_normalised.
Theorem C20_no_cr : forall s, ~ In 13 (norm_eol s).
Proof. exact norm_eol_nocr. Qed.
Print Assumptions C20_no_cr.
Theorem C20_unchanged : forall s, ~ In 13 s -> norm_eol s = s.
Proof. exact norm_eol_id. Qed.
Print Assumptions C20_unchanged.
Example C20_example : norm_eol [97; 13; 10; 13; 13; 98; 10] = [97; 10; 10; 10; 98; 10] /\
  normalizeLines [97; 13; 10; 13; 13; 98; 10; 0; 7] = Ok [97; 10; 10; 10; 98; 10; 0; 0; 7].
Proof. vm_compute. repeat split. Qed.

(* C22: ignored sections.  The code does not see the end of a section at "]]]>". *)
Theorem C22_section_partial : forall e enc dom lat ns cs n, text_encoding e enc dom lat ns -> all_in dom cs ->
  ~ occurs (txt "]]]>") cs ->
  (ignoreSectionTok e (flat_map enc cs) = Ok (T_IGNORE_SECT, Some n) <->
   exists body rest, cs = body ++ txt "]]>" ++ rest /\ ignore_contents body /\
     n = List.length (flat_map enc (body ++ txt "]]>"))).
Proof. exact ignore_exact. Qed.
Print Assumptions C22_section_partial.
Theorem C22_section_refuted : exists body, ignore_contents body /\
  forall n, ignoreSectionTok utf8_encoding (body ++ txt "]]>") <> Ok (T_IGNORE_SECT, n).
Proof. exact ignore_refuted. Qed.
Print Assumptions C22_section_refuted.
Example C22_example : ignore_contents (txt "a<![b]]>c") /\
  ignoreSectionTok utf8_encoding (txt "a<![b]]>c]]>d") = Ok (T_IGNORE_SECT, Some 12%nat).
Proof.
  split; [|vm_compute; reflexivity]. apply (ic_nest (txt "a") (txt "b") (txt "c")); [exact (ignore_text_one 97 eq_refl)|apply ic_text; exact (ignore_text_one 98 eq_refl)|apply ic_text; exact (ignore_text_one 99 eq_refl)].
Qed.

(* C23: public identifiers.  [None]: accepted; [Some k]: refused, the offending character is at
   byte [k]. *)
Theorem C23_characters : forall e enc dom lat ns q cs, text_encoding e enc dom lat ns -> q = 34 \/ q = 39 -> all_in dom cs ->
  (isPublicId e (flat_map enc (q :: cs ++ [q])) = Ok None <-> all_in pubid_char cs) /\
  (forall good c r, cs = good ++ c :: r -> all_in pubid_char good -> pubid_char c = false ->
     isPublicId e (flat_map enc (q :: cs ++ [q])) = Ok (Some (List.length (flat_map enc (q :: good))))).
Proof. exact te_pubid_iff. Qed.
Print Assumptions C23_characters.
Theorem C23_normalised : forall s rest, ~ In 0 s ->
  exists a, normalizePublicId (s ++ 0 :: rest) = Ok a /\ cstr a = join (words s).
Proof. exact normalizePublicId_in. Qed.
Print Assumptions C23_normalised.
Theorem C23_idempotent : forall s, join (words (join (words s))) = join (words s).
Proof. exact pubid_idem. Qed.
Print Assumptions C23_idempotent.
Example C23_example : words (txt "  -//W3C//DTD  X ") = [txt "-//W3C//DTD"; txt "X"] /\
  normalizePublicId (txt "  a  b " ++ [0]) = Ok (txt "a b" ++ [0] ++ skipn 4 (txt "  a  b " ++ [0])) /\
  isPublicId utf8_encoding (txt "'-//W3C//DTD XML 1.0//EN'") = Ok None /\
  isPublicId utf8_encoding (txt "'ab^c'") = Ok (Some 3%nat).
Proof. vm_compute. repeat split. Qed.
