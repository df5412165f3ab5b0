(* Lexical vocabulary of XML 1.0 over code points, and the encodings documents are written in.
   Nothing here refers to the scanners. *)
From Coq Require Import List NArith ZArith Bool String.
From Verif Require Import Base Encoding SpecText SpecUnicode SpecNames.
Import ListNotations.
Local Open Scope N_scope.

(* [text_encoding e enc dom lat ns]: [e] is the library's object for an encoding form [enc] of the
   characters in [dom].  [ns]: namespace processing is on.  [lat]: the form is one of those for which
   the library classifies U+0080..U+00FF by its Latin-1 table. *)
Definition byte_encode (c : N) : list N := [c].
(* [written table convert w c]: under an application-supplied map of 256 entries and converter the
   bytes [w] stand for the code point [c]: a single byte by its entry, or a lead byte whose entry is
   minus the length of the sequence and what the converter says about the sequence. *)
Definition written (table : list Z) (convert : option (list N -> Z)) (w : list N) (c : N) : Prop :=
  (exists b, w = [b] /\ b < 256 /\ nth_error table (N.to_nat b) = Some (Z.of_N c)) \/
  (exists b r f, w = b :: r /\ b < 256 /\ (2 <= List.length w <= 4)%nat /\
     nth_error table (N.to_nat b) = Some (- Z.of_nat (List.length w))%Z /\ convert = Some f /\ f w = Z.of_N c).
(* UTF-16BE is described without U+0080..U+00FF, on which the library panics (C08) *)
Definition is_scalar_be (c : N) : bool := is_scalar c && ((c <? 128) || (255 <? c)).
Inductive text_encoding : EncImpl -> (N -> list N) -> (N -> bool) -> bool -> bool -> Prop :=
| te_utf8 : text_encoding utf8_encoding utf8_encode is_scalar false false
| te_utf8_ns : text_encoding utf8_encoding_ns utf8_encode is_scalar false true
| te_latin1 : text_encoding latin1_encoding byte_encode (fun c => c <? 256) true false
| te_latin1_ns : text_encoding latin1_encoding_ns byte_encode (fun c => c <? 256) true true
| te_ascii : text_encoding ascii_encoding byte_encode (fun c => c <? 128) false false
| te_ascii_ns : text_encoding ascii_encoding_ns byte_encode (fun c => c <? 128) false true
| te_utf16le : text_encoding little2_encoding utf16le_encode is_scalar true false
| te_utf16le_ns : text_encoding little2_encoding_ns utf16le_encode is_scalar true true
| te_utf16be : text_encoding big2_encoding utf16be_encode is_scalar_be true false
| te_utf16be_ns : text_encoding big2_encoding_ns utf16be_encode is_scalar_be true true
(* an application-supplied encoding in which ASCII is written as itself; [dom] may be any set of
   characters of the basic plane that can be written, and [enc] any way of writing them *)
| te_unknown : forall table convert ns u enc dom,
    List.length table = 256%nat -> unknown_initialize table convert ns = Ok (Some u) ->
    (forall c, c < 128 -> nth_error table (N.to_nat c) = Some (Z.of_N c) /\ enc c = [c] /\ dom c = true) ->
    (forall c, 128 <= c -> dom c = true -> c < 65536 /\ is_xml_char c = true /\ written table convert (enc c) c) ->
    text_encoding (unknown_enc u) enc dom false ns.

(* the characters of a text are in a repertoire *)
Definition all_in (dom : N -> bool) (cs : list N) : Prop := Forall (fun c => dom c = true) cs.
Definition xml_text : list N -> Prop := all_in is_xml_char.

(* Name start and name characters.  With namespaces the colon is treated apart.  [lat]: U+00AA,
   U+00B5 and U+00BA, which XML 1.0 does not have, are accepted as well. *)
Definition latin_extra (c : N) : bool := (c =? 0xAA) || (c =? 0xB5) || (c =? 0xBA).
Definition start_char (lat ns : bool) (c : N) : bool :=
  (is_name_start c && negb (ns && (c =? 0x3A))) || (lat && latin_extra c).
Definition name_char (lat ns : bool) (c : N) : bool :=
  (is_NameChar c && negb (ns && (c =? 0x3A))) || (lat && latin_extra c).
(* a name without (with [ns]) colons *)
Definition is_name (lat ns : bool) (cs : list N) : Prop :=
  exists c r, cs = c :: r /\ start_char lat ns c = true /\ all_in (name_char lat ns) r.
(* [3] S *)
Definition is_space (c : N) : bool := (c =? 32) || (c =? 9) || (c =? 13) || (c =? 10).
Definition spaces : list N -> Prop := all_in is_space.

(* [w] occurs in [cs] *)
Definition occurs (w cs : list N) : Prop := exists a b, cs = a ++ w ++ b.

(* [15] Comment: no "--" in the body, and the body does not end in "-" *)
Definition comment_body (body : list N) : Prop :=
  xml_text body /\ ~ occurs (txt "--") (body ++ txt "-").

(* [17] PITarget: any name but "xml" in some mixture of cases *)
Definition lower (c : N) : N := if (65 <=? c) && (c <=? 90) then c + 32 else c.
Definition is_xml_name (n : list N) : Prop := map lower n = txt "xml".
(* [16] PI, what follows the target: nothing, or white space and text up to the first "?>" *)
Definition pi_data (d : list N) : Prop :=
  d = [] \/ exists s d', d = s :: d' /\ is_space s = true /\ xml_text d' /\ ~ occurs (txt "?>") (d' ++ txt "?").

(* a possibly prefixed name *)
Definition is_qname (lat ns : bool) (n : list N) : Prop :=
  is_name lat ns n \/ ns = true /\ exists p l, n = p ++ txt ":" ++ l /\ is_name lat ns p /\ is_name lat ns l.

Definition is_digit (c : N) : bool := (48 <=? c) && (c <=? 57).
Definition is_hex (c : N) : bool := is_digit c || ((65 <=? c) && (c <=? 70)) || ((97 <=? c) && (c <=? 102)).
(* [68] EntityRef, [66] CharRef *)
Definition entity_ref (lat ns : bool) (r : list N) : Prop :=
  exists n, is_name lat ns n /\ r = txt "&" ++ n ++ txt ";".
Definition char_ref (r : list N) : Prop :=
  (exists d, d <> [] /\ all_in is_digit d /\ r = txt "&#" ++ d ++ txt ";") \/
  (exists d, d <> [] /\ all_in is_hex d /\ r = txt "&#x" ++ d ++ txt ";").

(* [10] AttValue delimited by the quote [q] *)
Inductive att_value (lat ns : bool) (q : N) : list N -> Prop :=
| av_nil : att_value lat ns q []
| av_char : forall c v, is_xml_char c = true -> c <> q -> c <> 0x3C -> c <> 0x26 ->
    att_value lat ns q v -> att_value lat ns q (c :: v)
| av_ref : forall r v, entity_ref lat ns r \/ char_ref r ->
    att_value lat ns q v -> att_value lat ns q (r ++ v).

(* [41] Attribute with the white space before it, [25] Eq *)
Record att_src := { as_space : list N; as_name : list N; as_eq1 : list N; as_eq2 : list N; as_quote : N; as_value : list N }.
Definition att_text (a : att_src) : list N :=
  as_space a ++ as_name a ++ as_eq1 a ++ txt "=" ++ as_eq2 a ++ [as_quote a] ++ as_value a ++ [as_quote a].
Definition att_ok (lat ns : bool) (a : att_src) : Prop :=
  spaces (as_space a) /\ as_space a <> [] /\ is_qname lat ns (as_name a) /\ spaces (as_eq1 a) /\ spaces (as_eq2 a) /\
  (as_quote a = 0x22 \/ as_quote a = 0x27) /\ att_value lat ns (as_quote a) (as_value a).
(* [40] STag, [44] EmptyElemTag *)
Definition tag_text (name : list N) (atts : list att_src) (sp : list N) (empty : bool) : list N :=
  txt "<" ++ name ++ flat_map att_text atts ++ sp ++ (if empty then txt "/>" else txt ">").
Definition tag_ok (lat ns : bool) (name : list N) (atts : list att_src) (sp : list N) : Prop :=
  is_qname lat ns name /\ Forall (att_ok lat ns) atts /\ spaces sp.
Definition tag_token (atts : list att_src) (empty : bool) : XML_TOK :=
  match atts, empty with
  | [], false => T_START_TAG_NO_ATTS
  | [], true => T_EMPTY_ELEMENT_NO_ATTS
  | _, false => T_START_TAG_WITH_ATTS
  | _, true => T_EMPTY_ELEMENT_WITH_ATTS
  end.
(* [42] ETag; colons anywhere after the first character *)
Definition etag_text (name sp : list N) : list N := txt "</" ++ name ++ sp ++ txt ">".

(* the name starts like any name; colons anywhere after that *)
Definition etag_ok (lat ns : bool) (name sp : list N) : Prop :=
  (exists c r, name = c :: r /\ start_char lat ns c = true /\ all_in (name_char lat false) r) /\ spaces sp.

(* Character data: the characters of one run, and "]]>" beginning, or possibly beginning, here. *)
Definition data_char (c : N) : bool :=
  is_xml_char c && negb ((c =? 0x3C) || (c =? 0x26) || (c =? 13) || (c =? 10)).
Definition may_close (s : list N) : Prop := (exists r, s = txt "]]>" ++ r) \/ s = txt "]" \/ s = txt "]]".
(* "]]>" does not begin in [a], a run followed by [rest], and cannot once more text arrives *)
Definition no_close (a rest : list N) : Prop :=
  forall a1 a2, a = a1 ++ a2 -> a2 <> [] -> ~ may_close (a2 ++ rest).
(* where a run of characters of a class ends *)
Definition stops (f : N -> bool) (rest : list N) : Prop := match rest with [] => True | c :: _ => f c = false end.

(* The tokens of content: [content_token t lexeme rest] says that a text [lexeme ++ rest] begins with
   the token [t], spelt [lexeme]. *)
Inductive content_token (lat ns : bool) : XML_TOK -> list N -> list N -> Prop :=
| ct_comment body rest : comment_body body ->
    content_token lat ns T_COMMENT (txt "<!--" ++ body ++ txt "-->") rest
| ct_pi name d rest : is_name lat ns name -> ~ is_xml_name name -> pi_data d ->
    content_token lat ns T_PI (txt "<?" ++ name ++ d ++ txt "?>") rest
| ct_decl d rest : pi_data d ->
    content_token lat ns T_XML_DECL (txt "<?xml" ++ d ++ txt "?>") rest
| ct_cdata rest : content_token lat ns T_CDATA_SECT_OPEN (txt "<![CDATA[") rest
| ct_tag name atts sp empty rest : tag_ok lat ns name atts sp ->
    content_token lat ns (tag_token atts empty) (tag_text name atts sp empty) rest
| ct_etag name sp rest : etag_ok lat ns name sp ->
    content_token lat ns T_END_TAG (etag_text name sp) rest
| ct_entity r rest : entity_ref lat ns r -> content_token lat ns T_ENTITY_REF r rest
| ct_charref r rest : char_ref r -> content_token lat ns T_CHAR_REF r rest
| ct_lf rest : content_token lat ns T_DATA_NEWLINE [10] rest
| ct_crlf rest : content_token lat ns T_DATA_NEWLINE [13; 10] rest
| ct_cr c rest : c <> 10 -> content_token lat ns T_DATA_NEWLINE [13] (c :: rest)
| ct_data a rest : a <> [] -> all_in data_char a -> no_close a rest ->
    (stops data_char rest \/ rest = txt "]" \/ rest = txt "]]") ->
    content_token lat ns T_DATA_CHARS a rest.

(* Inside a CDATA section.  A token of character data is a maximal run without "]", preceded by at
   most one "]" that does not begin "]]>". *)
Definition cdata_char (c : N) : bool :=
  is_xml_char c && negb ((c =? 0x5D) || (c =? 13) || (c =? 10)).
Inductive cdata_token : XML_TOK -> list N -> list N -> Prop :=
| cd_close rest : cdata_token T_CDATA_SECT_CLOSE (txt "]]>") rest
| cd_lf rest : cdata_token T_DATA_NEWLINE [10] rest
| cd_crlf rest : cdata_token T_DATA_NEWLINE [13; 10] rest
| cd_cr c rest : c <> 10 -> cdata_token T_DATA_NEWLINE [13] (c :: rest)
| cd_data a rest : a <> [] -> all_in cdata_char a -> stops cdata_char rest -> cdata_token T_DATA_CHARS a rest
| cd_rsqb a rest : all_in cdata_char a -> stops cdata_char rest -> ~ may_close (txt "]" ++ a ++ rest) ->
    cdata_token T_DATA_CHARS (txt "]" ++ a) rest.

(* A tokeniser applied again and again: from [b] it produces the tokens [l], each with its bytes, and
   leaves [r]. *)
Inductive lexes (tok : bytes -> res (XML_TOK * option nat)) : bytes -> list (XML_TOK * bytes) -> bytes -> Prop :=
| lx_nil b : lexes tok b [] b
| lx_cons a b t l r : tok (a ++ b) = Ok (t, Some (List.length a)) -> lexes tok b l r -> lexes tok (a ++ b) ((t, a) :: l) r.
Definition is_data (t : XML_TOK) : bool := match t with T_DATA_CHARS | T_DATA_NEWLINE => true | _ => false end.
