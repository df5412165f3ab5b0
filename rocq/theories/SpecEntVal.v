(* Entity values, XML 1.0 sections 4.4.5, 4.5 and 2.11, over code points. *)
From Coq Require Import String List NArith Bool.
From Verif Require Import Base SpecText SpecUnicode SpecNames SpecLex SpecMisc Status State SpecAttVal.
From Coq Require Import List.
Import ListNotations.
Local Open Scope N_scope.

Inductive entity_text :=
| Text (v : list N) (all_read : bool)   (* [all_read]: no reference to a parameter entity has been passed over *)
| Wrong (x : XML_Error).
Definition onto (p : list N) (o : entity_text) : entity_text :=
  match o with Text v b => Text (p ++ v) b | Wrong x => Wrong x end.
Definition unread (o : entity_text) : entity_text := match o with Text v _ => Text v false | Wrong x => Wrong x end.
Definition after_read (b : bool) (o : entity_text) : entity_text := if b then o else unread o.
(* no reference to a parameter entity is written at the beginning of the text *)
Definition no_parameter (lat ns : bool) (cs : list N) : Prop := forall n p, cs = txt "%" ++ n ++ txt ";" ++ p -> ~ is_name lat ns n.

(* [entval ns handled lat inner allowed g cs o]: the literal [cs] declares the replacement text [o]. [inner]: [cs] is
   the text of a parameter entity, where line ends have already been normalised. [allowed]: references to parameter
   entities may be written here: not in the internal subset. [g]: the parameter entities, under the UTF-8 form of
   their names; [e_open] marks those being expanded. [handled]: there is a handler that reads external entities; what
   it does is not described here. *)
Inductive entval (ns handled : bool) : bool -> bool -> bool -> entities -> list N -> entity_text -> Prop :=
| ev_end lat inner allowed g : entval ns handled lat inner allowed g [] (Text [] true)
(* characters stand for themselves, and so do references to general entities *)
| ev_char lat inner allowed g c cs o : ~ In c (txt "&%") -> (c = 13 -> inner = true) -> entval ns handled lat inner allowed g cs o ->
    entval ns handled lat inner allowed g (c :: cs) (onto [c] o)
| ev_general lat inner allowed g n cs o : is_name lat ns n -> entval ns handled lat inner allowed g cs o ->
    entval ns handled lat inner allowed g (txt "&" ++ n ++ txt ";" ++ cs) (onto (txt "&" ++ n ++ txt ";") o)
(* line ends *)
| ev_crlf lat allowed g cs o : entval ns handled lat false allowed g cs o ->
    entval ns handled lat false allowed g (13 :: 10 :: cs) (onto [10] o)
| ev_cr lat allowed g cs o : ~ (exists r, cs = 10 :: r) -> entval ns handled lat false allowed g cs o ->
    entval ns handled lat false allowed g (13 :: cs) (onto [10] o)
(* character references *)
| ev_decimal lat inner allowed g ds cs o : ds <> [] -> all_in is_digit ds -> is_xml_char (dec_value ds) = true ->
    entval ns handled lat inner allowed g cs o ->
    entval ns handled lat inner allowed g (txt "&#" ++ ds ++ txt ";" ++ cs) (onto [dec_value ds] o)
| ev_hexadecimal lat inner allowed g ds cs o : ds <> [] -> all_in is_hex ds -> is_xml_char (hex_value ds) = true ->
    entval ns handled lat inner allowed g cs o ->
    entval ns handled lat inner allowed g (txt "&#x" ++ ds ++ txt ";" ++ cs) (onto [hex_value ds] o)
(* parameter entities: internal, *)
| ev_parameter lat inner g n e text v b cs o : is_name lat ns n -> look (utf8 n) g = Some e -> e_open e = false -> e_sys e = None ->
    e_text e = Some (utf8 text) -> all_in is_scalar text ->
    entval ns handled false true true (put (utf8 n) (set_e_open true e) g) text (Text v b) ->
    entval ns handled lat inner true g cs o ->
    entval ns handled lat inner true g (txt "%" ++ n ++ txt ";" ++ cs) (onto v (after_read b o))
(* the one being declared, which has no text yet, *)
| ev_no_text lat inner g n e cs o : is_name lat ns n -> look (utf8 n) g = Some e -> e_open e = false -> e_sys e = None -> e_text e = None ->
    entval ns handled lat inner true g cs o ->
    entval ns handled lat inner true g (txt "%" ++ n ++ txt ";" ++ cs) o
(* external, *)
| ev_external lat inner g n e cs o : is_name lat ns n -> look (utf8 n) g = Some e -> e_open e = false -> e_sys e <> None -> handled = false ->
    entval ns handled lat inner true g cs o ->
    entval ns handled lat inner true g (txt "%" ++ n ++ txt ";" ++ cs) (unread o)
(* or not declared: the rest of this text is passed over *)
| ev_undeclared lat inner g n cs : is_name lat ns n -> look (utf8 n) g = None ->
    entval ns handled lat inner true g (txt "%" ++ n ++ txt ";" ++ cs) (Text [] false)
(* errors *)
| ev_stray lat inner allowed g cs : no_reference lat ns (txt "&" ++ cs) ->
    entval ns handled lat inner allowed g (txt "&" ++ cs) (Wrong XE_INVALID_TOKEN)
| ev_percent lat inner allowed g cs : no_parameter lat ns (txt "%" ++ cs) ->
    entval ns handled lat inner allowed g (txt "%" ++ cs) (Wrong XE_INVALID_TOKEN)
| ev_bad_decimal lat inner allowed g ds cs : ds <> [] -> all_in is_digit ds -> is_xml_char (dec_value ds) = false ->
    entval ns handled lat inner allowed g (txt "&#" ++ ds ++ txt ";" ++ cs) (Wrong XE_BAD_CHAR_REF)
| ev_bad_hexadecimal lat inner allowed g ds cs : ds <> [] -> all_in is_hex ds -> is_xml_char (hex_value ds) = false ->
    entval ns handled lat inner allowed g (txt "&#x" ++ ds ++ txt ";" ++ cs) (Wrong XE_BAD_CHAR_REF)
| ev_forbidden lat inner g n cs : is_name lat ns n ->
    entval ns handled lat inner false g (txt "%" ++ n ++ txt ";" ++ cs) (Wrong XE_PARAM_ENTITY_REF)
| ev_recursive lat inner g n e cs : is_name lat ns n -> look (utf8 n) g = Some e -> e_open e = true ->
    entval ns handled lat inner true g (txt "%" ++ n ++ txt ";" ++ cs) (Wrong XE_RECURSIVE_ENTITY_REF)
| ev_inside lat inner g n e text x cs : is_name lat ns n -> look (utf8 n) g = Some e -> e_open e = false -> e_sys e = None ->
    e_text e = Some (utf8 text) -> all_in is_scalar text ->
    entval ns handled false true true (put (utf8 n) (set_e_open true e) g) text (Wrong x) ->
    entval ns handled lat inner true g (txt "%" ++ n ++ txt ";" ++ cs) (Wrong x).

(* the parser has this text, and nothing else is different: but when a parameter entity has been passed over,
   declarations no longer count unless the document is standalone *)
Definition with_text (v : list N) (all_read : bool) (s : st) : st :=
  let d := s_dtd s in
  set_dtd (set_d_ev (d_ev d ++ utf8 v) (if all_read then d else set_d_keep (d_standalone d) d)) s.
