(* Attribute values, XML 1.0 section 3.3.3, over code points. *)
From Coq Require Import String List NArith Bool.
From Verif Require Import Base SpecText SpecUnicode SpecNames SpecLex SpecMisc Status State.
Import ListNotations.
Local Open Scope N_scope.

Definition entities := list (bytes * entity).
Inductive outcome :=
| Value (v : list N)
| Error (x : XML_Error).
Definition prepend (p : list N) (o : outcome) : outcome :=
  match o with Value v => Value (p ++ v) | Error x => Error x end.

(* a character that stands for itself *)
Definition literal (c : N) : Prop := ~ In c (txt "&<") /\ is_space c = false.
(* no reference is written at the beginning of the text *)
Definition no_reference (lat ns : bool) (cs : list N) : Prop :=
  forall r p, cs = r ++ p -> ~ entity_ref lat ns r /\ ~ char_ref r.
Definition not_predefined (n : list N) : Prop := forall x, ~ In (n, x) predefined.

(* [attval ns strict lat inner g cs o]: the text [cs] of an attribute value has the value [o] before the
   collapsing of spaces.  [inner]: the text is that of an internal entity, where line ends have already been
   normalised.  [g]: the general entities, under the UTF-8 form of their names; [e_open] marks those being
   expanded.  [strict]: references to entities that are not declared, or not declared in the document
   itself, are errors. *)
Inductive attval (ns strict : bool) : bool -> bool -> entities -> list N -> outcome -> Prop :=
| av_end lat inner g : attval ns strict lat inner g [] (Value [])
| av_literal lat inner g c cs o : literal c -> attval ns strict lat inner g cs o ->
    attval ns strict lat inner g (c :: cs) (prepend [c] o)
| av_space lat inner g c cs o : is_space c = true -> (c = 13 -> inner = true) -> attval ns strict lat inner g cs o ->
    attval ns strict lat inner g (c :: cs) (prepend [32] o)
| av_crlf lat g cs o : attval ns strict lat false g cs o ->
    attval ns strict lat false g (13 :: 10 :: cs) (prepend [32] o)
| av_cr lat g cs o : ~ (exists r, cs = 10 :: r) -> attval ns strict lat false g cs o ->
    attval ns strict lat false g (13 :: cs) (prepend [32] o)
| av_decimal lat inner g ds cs o : ds <> [] -> all_in is_digit ds -> is_xml_char (dec_value ds) = true ->
    attval ns strict lat inner g cs o ->
    attval ns strict lat inner g (txt "&#" ++ ds ++ txt ";" ++ cs) (prepend [dec_value ds] o)
| av_hexadecimal lat inner g ds cs o : ds <> [] -> all_in is_hex ds -> is_xml_char (hex_value ds) = true ->
    attval ns strict lat inner g cs o ->
    attval ns strict lat inner g (txt "&#x" ++ ds ++ txt ";" ++ cs) (prepend [hex_value ds] o)
| av_predefined lat inner g n x cs o : In (n, x) predefined -> attval ns strict lat inner g cs o ->
    attval ns strict lat inner g (txt "&" ++ n ++ txt ";" ++ cs) (prepend [x] o)
| av_entity lat inner g n e text v cs o : is_name lat ns n -> not_predefined n ->
    look (utf8 n) g = Some e -> (strict = true -> e_is_internal e = true) -> e_open e = false ->
    e_notation e = None -> e_text e = Some (utf8 text) -> all_in is_scalar text ->
    attval ns strict false true (put (utf8 n) (set_e_open true e) g) text (Value v) ->
    attval ns strict lat inner g cs o ->
    attval ns strict lat inner g (txt "&" ++ n ++ txt ";" ++ cs) (prepend v o)
| av_skipped lat inner g n cs o : is_name lat ns n -> not_predefined n ->
    look (utf8 n) g = None -> strict = false -> attval ns strict lat inner g cs o ->
    attval ns strict lat inner g (txt "&" ++ n ++ txt ";" ++ cs) o
(* errors *)
| av_less lat inner g cs : attval ns strict lat inner g (txt "<" ++ cs) (Error XE_INVALID_TOKEN)
| av_stray lat inner g cs : no_reference lat ns (txt "&" ++ cs) ->
    attval ns strict lat inner g (txt "&" ++ cs) (Error XE_INVALID_TOKEN)
| av_bad_decimal lat inner g ds cs : ds <> [] -> all_in is_digit ds -> is_xml_char (dec_value ds) = false ->
    attval ns strict lat inner g (txt "&#" ++ ds ++ txt ";" ++ cs) (Error XE_BAD_CHAR_REF)
| av_bad_hexadecimal lat inner g ds cs : ds <> [] -> all_in is_hex ds -> is_xml_char (hex_value ds) = false ->
    attval ns strict lat inner g (txt "&#x" ++ ds ++ txt ";" ++ cs) (Error XE_BAD_CHAR_REF)
| av_undeclared lat inner g n cs : is_name lat ns n -> not_predefined n ->
    look (utf8 n) g = None -> strict = true ->
    attval ns strict lat inner g (txt "&" ++ n ++ txt ";" ++ cs) (Error XE_UNDEFINED_ENTITY)
| av_declared_elsewhere lat inner g n e cs : is_name lat ns n -> not_predefined n ->
    look (utf8 n) g = Some e -> strict = true -> e_is_internal e = false ->
    attval ns strict lat inner g (txt "&" ++ n ++ txt ";" ++ cs) (Error XE_ENTITY_DECLARED_IN_PE)
| av_recursive lat inner g n e cs : is_name lat ns n -> not_predefined n ->
    look (utf8 n) g = Some e -> (strict = true -> e_is_internal e = true) -> e_open e = true ->
    attval ns strict lat inner g (txt "&" ++ n ++ txt ";" ++ cs) (Error XE_RECURSIVE_ENTITY_REF)
| av_unparsed lat inner g n e cs : is_name lat ns n -> not_predefined n ->
    look (utf8 n) g = Some e -> (strict = true -> e_is_internal e = true) -> e_open e = false -> e_notation e <> None ->
    attval ns strict lat inner g (txt "&" ++ n ++ txt ";" ++ cs) (Error XE_BINARY_ENTITY_REF)
| av_external lat inner g n e cs : is_name lat ns n -> not_predefined n ->
    look (utf8 n) g = Some e -> (strict = true -> e_is_internal e = true) -> e_open e = false -> e_notation e = None ->
    e_text e = None ->
    attval ns strict lat inner g (txt "&" ++ n ++ txt ";" ++ cs) (Error XE_ATTRIBUTE_EXTERNAL_ENTITY_REF)
| av_inside lat inner g n e text x cs : is_name lat ns n -> not_predefined n ->
    look (utf8 n) g = Some e -> (strict = true -> e_is_internal e = true) -> e_open e = false ->
    e_notation e = None -> e_text e = Some (utf8 text) -> all_in is_scalar text ->
    attval ns strict false true (put (utf8 n) (set_e_open true e) g) text (Error x) ->
    attval ns strict lat inner g (txt "&" ++ n ++ txt ";" ++ cs) (Error x).

(* XML 1.0 section 4.1, WFC Entity Declared, for a value in a start tag and for a default value *)
Definition must_be_declared (default : bool) (s : st) : bool :=
  let d := s_dtd s in
  if default
  then Role.doc (s_role s) && (if d_standalone d then match s_open s with [] => true | _ => false end else negb (d_hasPE d))
  else negb (d_hasPE d) || d_standalone d.

(* the words of a text, separated by spaces, joined by single spaces *)
Fixpoint words_after (w : list N) (s : list N) : list (list N) :=
  match s with
  | [] => match w with [] => [] | _ => [w] end
  | c :: r =>
      if c =? 32 then match w with [] => words_after [] r | _ => w :: words_after [] r end
      else words_after (w ++ [c]) r
  end.
Definition collapse (v : list N) : list N := SpecMisc.join (words_after [] v).
Definition normalised (cdata : bool) (v : list N) : list N := if cdata then v else collapse v.

(* the texts of the entities are texts *)
Definition entity_texts (g : entities) : Prop :=
  forall n e b, look n g = Some e -> e_text e = Some b -> exists cs, all_in is_scalar cs /\ b = utf8 cs.
