(* Which texts the tokenisers recognise, over every built-in encoding (UTF-16BE without U+0080..U+00FF, see C08). *)
From Coq Require Import String List NArith Bool Arith.
From Verif Require Import Base Encoding SpecText SpecUnicode SpecNames SpecLex Tok CpContent CpProlog CpUse CpAgree.
Import ListNotations.
Local Open Scope N_scope.

(* C13: comments, in content and in the prolog *)
Theorem C13_content : forall e enc dom lat ns cs n, text_encoding e enc dom lat ns -> all_in dom cs ->
  (contentTok e (flat_map enc cs) = Ok (T_COMMENT, Some n) <->
   exists body rest, cs = txt "<!--" ++ body ++ txt "-->" ++ rest /\ comment_body body /\
     n = List.length (flat_map enc (txt "<!--" ++ body ++ txt "-->"))).
Proof. intros e enc dom lat ns cs n TE Hd. exact (content_comment e enc dom lat ns TE cs T_COMMENT n Hd eq_refl). Qed.
Print Assumptions C13_content.
Theorem C13_prolog : forall e enc dom lat ns cs n, text_encoding e enc dom lat ns -> all_in dom cs ->
  (forall c, In c cs -> 128 <= c -> is_xml_char c = true) ->
  (prologTok e (flat_map enc cs) = Ok (T_COMMENT, Some n) <->
   exists body rest, cs = txt "<!--" ++ body ++ txt "-->" ++ rest /\ comment_body body /\
     n = List.length (flat_map enc (txt "<!--" ++ body ++ txt "-->"))).
Proof. intros e enc dom lat ns cs n TE. exact (prolog_comment e enc dom lat ns TE cs n). Qed.
Print Assumptions C13_prolog.
(* "--" not followed by ">" is an error *)
Theorem C13_hyphens : forall e enc dom lat ns body f q, text_encoding e enc dom lat ns ->
  all_in dom (txt "<!--" ++ body ++ txt "--" ++ f :: q) -> comment_body body -> f <> 62 ->
  contentTok e (flat_map enc (txt "<!--" ++ body ++ txt "--" ++ f :: q)) =
  Ok (T_INVALID, Some (List.length (flat_map enc (txt "<!--" ++ body ++ txt "--")))).
Proof. intros e enc dom lat ns body f q TE. exact (comment_hyphens e enc dom lat ns TE body f q). Qed.
Print Assumptions C13_hyphens.
Example C13_example : text_encoding little2_encoding_ns utf16le_encode is_scalar true true /\
  all_in is_scalar (txt "<!--" ++ [0x20AC; 45; 0x1F600] ++ txt "-->x") /\
  contentTok little2_encoding_ns (flat_map utf16le_encode (txt "<!--" ++ [0x20AC; 45; 0x1F600] ++ txt "-->x")) = Ok (T_COMMENT, Some 22%nat) /\
  contentTok utf8_encoding (flat_map utf8_encode (txt "<!--a--b-->")) = Ok (T_INVALID, Some 7%nat).
Proof.
  split; [constructor|]. split; [repeat (apply Forall_cons; [reflexivity|]); apply Forall_nil|].
  split; vm_compute; reflexivity.
Qed.

(* C14: processing instructions *)
Theorem C14_content : forall e enc dom lat ns cs n, text_encoding e enc dom lat ns -> all_in dom cs ->
  (contentTok e (flat_map enc cs) = Ok (T_PI, Some n) <->
   exists name d rest, cs = txt "<?" ++ name ++ d ++ txt "?>" ++ rest /\
     is_name lat ns name /\ ~ is_xml_name name /\ pi_data d /\
     n = List.length (flat_map enc (txt "<?" ++ name ++ d ++ txt "?>"))).
Proof. intros e enc dom lat ns cs n TE. exact (content_pi e enc dom lat ns TE cs n). Qed.
Print Assumptions C14_content.
Theorem C14_prolog : forall e enc dom lat ns cs n, text_encoding e enc dom lat ns -> all_in dom cs ->
  (forall c, In c cs -> 128 <= c -> is_xml_char c = true) ->
  (prologTok e (flat_map enc cs) = Ok (T_PI, Some n) <->
   exists name d rest, cs = txt "<?" ++ name ++ d ++ txt "?>" ++ rest /\
     is_name lat ns name /\ ~ is_xml_name name /\ pi_data d /\
     n = List.length (flat_map enc (txt "<?" ++ name ++ d ++ txt "?>"))).
Proof. intros e enc dom lat ns cs n TE. exact (prolog_pi e enc dom lat ns TE cs n). Qed.
Print Assumptions C14_prolog.
Theorem C14_declaration : forall e enc dom lat ns cs n, text_encoding e enc dom lat ns -> all_in dom cs ->
  (forall c, In c cs -> 128 <= c -> is_xml_char c = true) ->
  (prologTok e (flat_map enc cs) = Ok (T_XML_DECL, Some n) <->
   exists d rest, cs = txt "<?xml" ++ d ++ txt "?>" ++ rest /\ pi_data d /\
     n = List.length (flat_map enc (txt "<?xml" ++ d ++ txt "?>"))).
Proof. intros e enc dom lat ns cs n TE. exact (prolog_decl e enc dom lat ns TE cs n). Qed.
Print Assumptions C14_declaration.
(* any other capitalisation of "xml" is an error *)
Theorem C14_reserved : forall e enc dom lat ns name d q, text_encoding e enc dom lat ns ->
  all_in dom (txt "<?" ++ name ++ d :: q) ->
  is_name lat ns name -> is_xml_name name -> name <> txt "xml" -> is_space d = true \/ d = 63 ->
  contentTok e (flat_map enc (txt "<?" ++ name ++ d :: q)) =
  Ok (T_INVALID, Some (List.length (flat_map enc (txt "<?" ++ name)))).
Proof. intros e enc dom lat ns name d q TE. exact (pi_reserved e enc dom lat ns TE name d q). Qed.
Print Assumptions C14_reserved.
Example C14_example :
  prologTok utf8_encoding_ns (txt "<?pi a?b?>?>") = Ok (T_PI, Some 10%nat) /\
  prologTok utf8_encoding_ns (txt "<?xmlx?>") = Ok (T_PI, Some 8%nat) /\
  prologTok utf8_encoding_ns (txt "<?xml a?>") = Ok (T_XML_DECL, Some 9%nat) /\
  is_name false true (txt "xMl") /\ is_xml_name (txt "xMl") /\
  contentTok utf8_encoding_ns (txt "<?xMl ?>") = Ok (T_INVALID, Some 5%nat).
Proof.
  repeat split; try (vm_compute; reflexivity). exists 120, (txt "Ml"). repeat split.
  repeat (apply Forall_cons; [reflexivity|]); apply Forall_nil.
Qed.

(* C15: a CDATA section *)
Theorem C15_open : forall e enc dom lat ns cs n, text_encoding e enc dom lat ns -> all_in dom cs ->
  (contentTok e (flat_map enc cs) = Ok (T_CDATA_SECT_OPEN, Some n) <->
   exists rest, cs = txt "<![CDATA[" ++ rest /\ n = List.length (flat_map enc (txt "<![CDATA["))).
Proof. intros e enc dom lat ns cs n TE. exact (cdata_open e enc dom lat ns TE cs n). Qed.
Print Assumptions C15_open.
Theorem C15_close : forall e enc dom lat ns cs n, text_encoding e enc dom lat ns -> all_in dom cs ->
  (cdataSectionTok e (flat_map enc cs) = Ok (T_CDATA_SECT_CLOSE, Some n) <->
   exists rest, cs = txt "]]>" ++ rest /\ n = List.length (flat_map enc (txt "]]>"))).
Proof. intros e enc dom lat ns cs n TE. exact (cdata_close e enc dom lat ns TE cs n). Qed.
Print Assumptions C15_close.
(* the section's text, up to the first "]]>", arrives in data tokens, in order and complete *)
Theorem C15_section : forall e enc dom lat ns body rest, text_encoding e enc dom lat ns ->
  all_in dom (body ++ txt "]]>" ++ rest) -> xml_text body -> ~ occurs (txt "]]>") (body ++ txt "]]") ->
  exists l,
    lexes (cdataSectionTok e) (flat_map enc (body ++ txt "]]>" ++ rest))
      (l ++ [(T_CDATA_SECT_CLOSE, flat_map enc (txt "]]>"))]) (flat_map enc rest) /\
    Forall (fun x => is_data (fst x) = true) l /\ concat (map snd l) = flat_map enc body.
Proof. intros e enc dom lat ns body rest TE. exact (cdata_section e enc dom lat ns TE body rest). Qed.
Print Assumptions C15_section.
(* the data tokens: what each of them spells *)
Theorem C15_tokens : forall e enc dom lat ns cs t n, text_encoding e enc dom lat ns -> all_in dom cs -> t <> T_INVALID ->
  (cdataSectionTok e (flat_map enc cs) = Ok (t, Some n) <->
   exists lexeme rest, cs = lexeme ++ rest /\ cdata_token t lexeme rest /\ n = List.length (flat_map enc lexeme)).
Proof. exact cdataTok_exact. Qed.
Print Assumptions C15_tokens.
Example C15_example : xml_text (txt "a]]b]") /\
  lexes (cdataSectionTok utf8_encoding) (txt "a]]b]]]>c")
    [(T_DATA_CHARS, txt "a"); (T_DATA_CHARS, txt "]"); (T_DATA_CHARS, txt "]b"); (T_DATA_CHARS, txt "]"); (T_CDATA_SECT_CLOSE, txt "]]>")] (txt "c").
Proof.
  split; [repeat (apply Forall_cons; [reflexivity|]); apply Forall_nil|].
  apply (lx_cons _ (txt "a") (txt "]]b]]]>c")); [vm_compute; reflexivity|].
  apply (lx_cons _ (txt "]") (txt "]b]]]>c")); [vm_compute; reflexivity|].
  apply (lx_cons _ (txt "]b") (txt "]]]>c")); [vm_compute; reflexivity|].
  apply (lx_cons _ (txt "]") (txt "]]>c")); [vm_compute; reflexivity|].
  apply (lx_cons _ (txt "]]>") (txt "c")); [vm_compute; reflexivity|]. constructor.
Qed.

(* C21: "]]>" in character data *)
Theorem C21_never_in_data : forall e enc dom lat ns cs n, text_encoding e enc dom lat ns -> all_in dom cs ->
  contentTok e (flat_map enc cs) = Ok (T_DATA_CHARS, Some n) ->
  exists run rest, cs = run ++ rest /\ run <> [] /\ n = List.length (flat_map enc run) /\
    forall more a1 a2 r, run = a1 ++ a2 -> a2 <> [] -> a2 ++ rest ++ more <> txt "]]>" ++ r.
Proof. intros e enc dom lat ns cs n TE. exact (data_no_close e enc dom lat ns TE cs n). Qed.
Print Assumptions C21_never_in_data.
Theorem C21_rejected : forall e enc dom lat ns a rest, text_encoding e enc dom lat ns ->
  all_in dom (a ++ txt "]]>" ++ rest) -> all_in data_char a -> ~ occurs (txt "]]>") (a ++ txt "]]") ->
  contentTok e (flat_map enc (a ++ txt "]]>" ++ rest)) =
  Ok (T_INVALID, Some (List.length (flat_map enc (a ++ txt "]]")))).
Proof. exact content_close_invalid. Qed.
Print Assumptions C21_rejected.
Example C21_example :
  contentTok utf8_encoding (txt "ab]]") = Ok (T_DATA_CHARS, Some 2%nat) /\
  contentTok utf8_encoding (txt "ab]]]>c") = Ok (T_INVALID, Some 5%nat) /\
  contentTok utf8_encoding (txt "]]x>") = Ok (T_DATA_CHARS, Some 4%nat) /\
  all_in data_char (txt "ab]").
Proof. split; [|split; [|split]]; try (vm_compute; reflexivity). repeat (apply Forall_cons; [reflexivity|]); apply Forall_nil. Qed.

(* C56: start tags and empty-element tags *)
Theorem C56_start_tag : forall e enc dom lat ns cs t n, text_encoding e enc dom lat ns -> all_in dom cs ->
  tag_tok t = true ->
  (contentTok e (flat_map enc cs) = Ok (t, Some n) <->
   exists name atts sp empty rest, cs = tag_text name atts sp empty ++ rest /\ tag_ok lat ns name atts sp /\
     t = tag_token atts empty /\ n = List.length (flat_map enc (tag_text name atts sp empty))).
Proof. intros e enc dom lat ns cs t n TE. exact (content_tag e enc dom lat ns TE cs t n). Qed.
Print Assumptions C56_start_tag.
Example C56_example : exists name atts sp, tag_ok false true name atts sp /\
  tag_text name atts sp true = txt "<p:a b = '&lt;>' />" /\
  contentTok utf8_encoding_ns (txt "<p:a b = '&lt;>' />t") = Ok (T_EMPTY_ELEMENT_WITH_ATTS, Some 19%nat).
Proof.
  exists (txt "p:a"), [{| as_space := txt " "; as_name := txt "b"; as_eq1 := txt " "; as_eq2 := txt " "; as_quote := 39; as_value := txt "&lt;>" |}], (txt " ").
  split; [|split; vm_compute; reflexivity].
  assert (L : forall s, forallb (name_char false true) s = true -> all_in (name_char false true) s) by (intros s H; apply Forall_forall; now apply forallb_forall).
  assert (S1 : spaces (txt " ")) by (repeat constructor).
  split; [|split; [|exact S1]].
  - right. split; auto. exists (txt "p"), (txt "a"). split; [reflexivity|]. split; eexists _, _; (split; [reflexivity|split; [reflexivity|now apply L]]).
  - constructor; [|constructor]. repeat split; auto; try discriminate.
    + left. eexists _, _; (split; [reflexivity|split; [reflexivity|now apply L]]).
    + cbn [as_value as_quote]. apply (av_ref false true 39 (txt "&lt;") (txt ">")).
      * left. exists (txt "lt"). split; [|reflexivity]. eexists _, _; (split; [reflexivity|split; [reflexivity|now apply L]]).
      * apply av_char; try discriminate; try reflexivity. constructor.
Qed.

(* C57: end tags and references *)
Theorem C57_end_tag : forall e enc dom lat ns cs n, text_encoding e enc dom lat ns -> all_in dom cs ->
  (contentTok e (flat_map enc cs) = Ok (T_END_TAG, Some n) <->
   exists name sp rest, cs = etag_text name sp ++ rest /\ etag_ok lat ns name sp /\
     n = List.length (flat_map enc (etag_text name sp))).
Proof. intros e enc dom lat ns cs n TE. exact (content_etag e enc dom lat ns TE cs n). Qed.
Print Assumptions C57_end_tag.
Theorem C57_entity_reference : forall e enc dom lat ns cs n, text_encoding e enc dom lat ns -> all_in dom cs ->
  (contentTok e (flat_map enc cs) = Ok (T_ENTITY_REF, Some n) <->
   exists name rest, cs = txt "&" ++ name ++ txt ";" ++ rest /\ is_name lat ns name /\
     n = List.length (flat_map enc (txt "&" ++ name ++ txt ";"))).
Proof. intros e enc dom lat ns cs n TE. exact (content_entity e enc dom lat ns TE cs n). Qed.
Print Assumptions C57_entity_reference.
Theorem C57_character_reference : forall e enc dom lat ns cs n, text_encoding e enc dom lat ns -> all_in dom cs ->
  (contentTok e (flat_map enc cs) = Ok (T_CHAR_REF, Some n) <->
   exists r rest, cs = r ++ rest /\ char_ref r /\ n = List.length (flat_map enc r)).
Proof. intros e enc dom lat ns cs n TE. exact (content_charref e enc dom lat ns TE cs n). Qed.
Print Assumptions C57_character_reference.
(* and every token of content, markup or data *)
Theorem C57_content_tokens : forall e enc dom lat ns cs t n, text_encoding e enc dom lat ns -> all_in dom cs -> t <> T_INVALID ->
  (contentTok e (flat_map enc cs) = Ok (t, Some n) <->
   exists lexeme rest, cs = lexeme ++ rest /\ content_token lat ns t lexeme rest /\ n = List.length (flat_map enc lexeme)).
Proof. exact contentTok_exact. Qed.
Print Assumptions C57_content_tokens.
Example C57_example :
  contentTok latin1_encoding (txt "</a >b") = Ok (T_END_TAG, Some 5%nat) /\
  contentTok latin1_encoding (txt "&ab;b") = Ok (T_ENTITY_REF, Some 4%nat) /\
  contentTok latin1_encoding (txt "&#x1f;b") = Ok (T_CHAR_REF, Some 6%nat) /\
  contentTok latin1_encoding (txt "&#1f;b") = Ok (T_INVALID, Some 3%nat) /\
  etag_ok true false (txt "a") (txt " ").
Proof.
  split; [|split; [|split; [|split]]]; try (vm_compute; reflexivity).
  split; [eexists _, _; (split; [reflexivity|split; [reflexivity|constructor]])|repeat constructor].
Qed.

(* C55: a text is cut into the same content tokens whichever encoding it is stored in *)
Theorem C55_content : forall e enc dom lat e' enc' dom' lat' ns cs t,
  text_encoding e enc dom lat ns -> text_encoding e' enc' dom' lat' ns -> all_in dom cs -> all_in dom' cs ->
  (forall c, In c cs -> latin_extra c = false) -> t <> T_INVALID ->
  forall m, contentTok e (flat_map enc cs) = Ok (t, Some m) ->
  exists n, m = List.length (flat_map enc (firstn n cs)) /\
    contentTok e' (flat_map enc' cs) = Ok (t, Some (List.length (flat_map enc' (firstn n cs)))).
Proof. exact content_agree. Qed.
Print Assumptions C55_content.
Theorem C55_cdata : forall e enc dom lat ns e' enc' dom' lat' ns' cs t,
  text_encoding e enc dom lat ns -> text_encoding e' enc' dom' lat' ns' -> all_in dom cs -> all_in dom' cs -> t <> T_INVALID ->
  forall m, cdataSectionTok e (flat_map enc cs) = Ok (t, Some m) ->
  exists n, m = List.length (flat_map enc (firstn n cs)) /\
    cdataSectionTok e' (flat_map enc' cs) = Ok (t, Some (List.length (flat_map enc' (firstn n cs)))).
Proof. exact cdata_agree. Qed.
Print Assumptions C55_cdata.
(* without the exclusion of U+00AA, U+00B5 and U+00BA it is false of the code *)
Theorem C55_without_exclusion_refuted : exists cs,
  all_in is_scalar cs /\
  contentTok little2_encoding (flat_map utf16le_encode cs) = Ok (T_START_TAG_NO_ATTS, Some 6%nat) /\
  contentTok utf8_encoding (flat_map utf8_encode cs) = Ok (T_INVALID, Some 1%nat).
Proof.
  exists [60; 0xAA; 62]. split; [repeat (apply Forall_cons; [reflexivity|]); apply Forall_nil|]. split; vm_compute; reflexivity.
Qed.
Print Assumptions C55_without_exclusion_refuted.
Example C55_example :
  contentTok utf8_encoding (flat_map utf8_encode [60; 0x4E00; 62; 0xE9]) = Ok (T_START_TAG_NO_ATTS, Some 5%nat) /\
  contentTok little2_encoding (flat_map utf16le_encode [60; 0x4E00; 62; 0xE9]) = Ok (T_START_TAG_NO_ATTS, Some 6%nat).
Proof. split; vm_compute; reflexivity. Qed.

(* C58: text that is not UTF-8 is not accepted.  False of the code for names: continuation bytes of
   name characters are not checked. *)
Theorem C58_malformed_name_refuted : exists b,
  bytes_ok b /\ contentTok utf8_encoding b = Ok (T_START_TAG_NO_ATTS, Some (List.length b)) /\
  ~ exists cs, all_in is_scalar cs /\ b = flat_map utf8_encode cs.
Proof.
  exists [60; 0xC3; 0x29; 62]. split; [repeat (apply Forall_cons; [reflexivity|]); apply Forall_nil|]. split; [vm_compute; reflexivity|].
  exact not_utf8_c329.
Qed.
Print Assumptions C58_malformed_name_refuted.
