(* C65: the handler for attribute declarations is told the declared type, default value and requirement. *)
From Coq Require Import String List NArith ZArith Bool.
From Verif Require Import Base Encoding SpecText SpecUnicode SpecLex Role SpecRole SpecMisc Tok Status State Bind AttVal SpecAttVal Content Prolog SpecAttDecl AttDeclLaws Core Demo.
From Verif Require Api.
From Coq Require Import List.
Import ListNotations.
Local Open Scope N_scope.

(* The roles of the tokens of a declaration are those of the grammar (C26_prolog_grammar, C26_subset_grammar): [ps] are
   the tokens of the type [t], with any separators between them. *)
Theorem C65_name : forall e enc dom lat ns, text_encoding e enc dom lat ns -> forall r k n s el,
  known (c_ns (s_cfg s)) (s_enc s) = e -> all_in dom n -> s_declElement s = Some el -> d_keep (s_dtd s) = true -> h_attlist (c_h (s_cfg s)) = true ->
  exists s', acts r e [(k, flat_map enc n, R_ATTRIBUTE_NAME)] s = Ret tt s' /\ declaring s' el (utf8 n) /\ s_log s' = s_log s.
Proof. exact named. Qed.
Print Assumptions C65_name.
(* #IMPLIED or #REQUIRED: one call, with no value *)
Theorem C65_no_value : forall e enc dom lat ns, text_encoding e enc dom lat ns -> forall t ps s el id k tok (req : bool),
  Forall (all_in dom) (type_names t) -> filter tells ps = pieces_of enc t -> declaring s el id ->
  exists s', (forall r, acts r e (ps ++ [(k, tok, if req then R_REQUIRED_ATTRIBUTE_VALUE else R_IMPLIED_ATTRIBUTE_VALUE)]) s = Ret tt s') /\
    s_log s' = (s_pid s, EvAttlistDecl el id (utf8 (type_shown t)) None req) :: s_log s.
Proof. exact told_plain. Qed.
Print Assumptions C65_no_value.
(* a default value, fixed or not: one call, with the value after normalisation *)
Theorem C65_value : forall e enc dom lat ns, text_encoding e enc dom lat ns -> forall t ps s el id k (fixed : bool) q cs v,
  Forall (all_in dom) (type_names t) -> filter tells ps = pieces_of enc t -> declaring s el id ->
  known (c_ns (s_cfg s)) (s_enc s) = e -> c_ns (s_cfg s) = ns -> all_in dom cs -> q = 34 \/ q = 39 ->
  attval ns (must_be_declared true s) lat false (d_gents (s_dtd s)) cs (Value v) ->
  exists n0, forall r, (n0 <= rc_fuel r)%nat ->
    exists s', acts r e (ps ++ [(k, flat_map enc (q :: cs ++ [q]), if fixed then R_FIXED_ATTRIBUTE_VALUE else R_DEFAULT_ATTRIBUTE_VALUE)]) s = Ret tt s' /\
      s_log s' = (s_pid s, EvAttlistDecl el id (utf8 (type_shown t)) (Some (utf8 (normalised (is_cdata t) v))) fixed) :: s_log s.
Proof. exact told_value. Qed.
Print Assumptions C65_value.

(* whole declarations, from the text *)
Definition attlist_events (s : string) : option (list (bytes * bytes * bytes * option bytes * bool)) :=
  match history 300 (parser_of false all_handlers (fun _ => idle)) [parse_op s false] with
  | Ok (_, _, log) => Some (flat_map (fun x => match snd x with EvAttlistDecl a b c d e => [(a, b, c, d, e)] | _ => [] end) log)
  | Err _ => None
  end.
Example C65_case :
  attlist_events "<!DOCTYPE d [<!ATTLIST d a ( x |y ) #IMPLIED b NOTATION (n | m) #REQUIRED c NMTOKENS #FIXED ' p  q ' i ID #IMPLIED e CDATA ' p  q '>]><d/>" =
  Some [(ascii "d", ascii "a", ascii "(x|y)", None, false); (ascii "d", ascii "b", ascii "NOTATION(n|m)", None, true);
        (ascii "d", ascii "c", ascii "NMTOKENS", Some (ascii "p q"), true); (ascii "d", ascii "i", ascii "ID", None, false);
        (ascii "d", ascii "e", ascii "CDATA", Some (ascii " p  q "), false)].
Proof. vm_compute. reflexivity. Qed.
(* the state after the name, and a type with separators, meet the hypotheses *)
Example C65_case_hypotheses :
  declaring (set_declElement (Some (ascii "d")) (set_declAttId (Some (ascii "a")) (parser_of false all_handlers (fun _ => idle)))) (ascii "d") (ascii "a") /\
  filter tells [(T_PROLOG_S, [32], R_ATTLIST_NONE); (T_OPEN_PAREN, [40], R_ATTLIST_NONE); (T_PROLOG_S, [32], R_ATTLIST_NONE); (T_NAME, txt "x", R_ATTRIBUTE_ENUM_VALUE);
    (T_OR, [124], R_ATTLIST_NONE); (T_NMTOKEN, txt "1", R_ATTRIBUTE_ENUM_VALUE); (T_CLOSE_PAREN, [41], R_ATTLIST_NONE)] =
    pieces_of utf8_encode (Enum (T_NAME, txt "x") [(T_NMTOKEN, txt "1")]).
Proof. split; [constructor; reflexivity|reflexivity]. Qed.
