(* C68: a reference in the content of an element does what the declaration of the entity says. *)
From Coq Require Import String List NArith ZArith Bool.
From Verif Require Import Base Encoding SpecText SpecUnicode SpecNames SpecLex SpecMisc Tok Status State Bind AttVal SpecAttVal Content SpecEnt SpecSend SpecRef RefLaws RefText Core Demo.
From Verif Require Api.
From Coq Require Import List.
Import ListNotations.
Local Open Scope N_scope.

(* A reference is refused, stands for a character, is skipped, or is passed over, as its entity says. The handler is told
   in the state before the reference, and then the rest of the text follows. *)
Theorem C68_reference : forall e enc dom lat ns, text_encoding e enc dom lat ns -> forall r level more s n rest m,
  s_enc s = EKnown e -> c_ns (s_cfg s) = ns -> is_name lat ns n -> all_in dom (ref_to n ++ rest) ->
  means s n m -> exists s0, positions_only s s0 /\
  let run := doContent r level ENormal (flat_map enc (ref_to n ++ rest)) more s in
  match m with
  | Refused x => run = Fail x s0
  | Stands c => h_charData (c_h (s_cfg s)) = true ->
      exists re s1, call (EvCharData [c]) s0 = Ret re s1 /\ run = goes_on r level more (flat_map enc rest) s1
  | Skipped => h_skipped (c_h (s_cfg s)) = true ->
      exists re s1, call (EvSkippedEntity (utf8 n) false) s0 = Ret re s1 /\ run = goes_on r level more (flat_map enc rest) s1
  | Unread => h_default (c_h (s_cfg s)) = false -> run = goes_on r level more (flat_map enc rest) s0
  | Asked _ | Replaced _ => True
  end.
Proof. exact reference_short. Qed.
Print Assumptions C68_reference.
(* The application is asked to read an external entity: it gets the context, which names the entity itself among the open
   ones, and the base and the identifiers of the declaration. If it does not parse the entity, its answer decides. *)
Theorem C68_external : forall e enc dom lat ns, text_encoding e enc dom lat ns -> forall k level more s n rest y,
  s_enc s = EKnown e -> c_ns (s_cfg s) = ns -> is_name lat ns n -> all_in dom (ref_to n ++ rest) -> means s n (Asked y) ->
  exists s0 re s1, positions_only s s0 /\
    call (EvExternalEntityRef (Some (getContext (while_open n y s0))) (e_base y) (e_sys y) (e_pub y)) s0 = Ret re s1 /\
    (child_plan re = None ->
     doContent (knot (S k)) level ENormal (flat_map enc (ref_to n ++ rest)) more s =
     if answer re [] then goes_on (knot (S k)) level more (flat_map enc rest) s1 else Fail XE_EXTERNAL_ENTITY_HANDLING s1).
Proof. exact reference_asked. Qed.
Print Assumptions C68_external.
(* A replacement text without markup is delivered in place of the reference, as text and completely, and everything else
   is as before. *)
Theorem C68_text : forall e enc dom lat ns, text_encoding e enc dom lat ns -> forall level more s n rest p k,
  s_enc s = EKnown e -> c_ns (s_cfg s) = ns -> is_name lat ns n -> all_in dom (ref_to n ++ rest) ->
  means s n (Replaced (utf8 p)) -> all_in plain_char p ->
  never_stops s -> s_parsing s = PARSING -> h_charData (c_h (s_cfg s)) = true -> (0 < s_tagLevel s)%nat -> (length p < k)%nat ->
  exists s', doContent (knot (S k)) level ENormal (flat_map enc (ref_to n ++ rest)) more s = doContent (knot k) level ENormal (flat_map enc rest) more s' /\
    delivered EvCharData (utf8 p) s s' /\ as_before s s'.
Proof. exact reference_text. Qed.
Print Assumptions C68_text.
(* every reference has a meaning *)
Theorem C68_total : forall s n, exists m, means s n m.
Proof. exact meaning_exists. Qed.
Print Assumptions C68_total.

(* whole documents *)
Definition heard_of (h : handlers) (s : string) : option (XML_Error * list event) :=
  match history 300 (parser_of false h (fun _ => idle)) [parse_op s true] with
  | Ok (_, x, log) => Some (x, filter (fun x => match x with EvCharData _ | EvSkippedEntity _ _ | EvExternalEntityRef _ _ _ _ => true | _ => false end) (map snd log))
  | Err _ => None
  end.
Example C68_case :
  heard_of all_handlers "<!DOCTYPE d [<!ENTITY e 'x&#13;&#10;y'><!ENTITY f SYSTEM 's'>]><d>&lt;&e;&f;</d>" =
    Some (XE_NONE, [EvCharData (ascii "<"); EvCharData (ascii "x" ++ [13]); EvCharData [10]; EvCharData (ascii "y");
                    EvExternalEntityRef (Some (ascii "f")) None (Some (ascii "s")) None]) /\
  heard_of all_handlers "<d>&e;</d>" = Some (XE_UNDEFINED_ENTITY, []) /\
  heard_of all_handlers "<!DOCTYPE d [<!ENTITY e 'x&e;'>]><d>&e;</d>" = Some (XE_RECURSIVE_ENTITY_REF, [EvCharData (ascii "x")]) /\
  heard_of all_handlers "<!DOCTYPE d [<!NOTATION n SYSTEM 'v'><!ENTITY e SYSTEM 's' NDATA n>]><d>&e;</d>" = Some (XE_BINARY_ENTITY_REF, []).
Proof. repeat split; vm_compute; reflexivity. Qed.
(* a state inside an element, with the entity e, meets the hypotheses *)
Definition e_entity : entity :=
  {| e_text := Some (ascii "a" ++ [13; 10] ++ ascii "b"); e_processed := 0; e_sys := None; e_base := None; e_pub := None; e_notation := None;
     e_open := false; e_is_param := false; e_is_internal := true |}.
Definition inside_d : st :=
  let s := parser_of false all_handlers (fun _ => idle) in
  set_tagLevel 1 (set_parsing PARSING (set_enc (EKnown utf8_encoding) (set_dtd (set_d_gents [(ascii "e", e_entity)] (s_dtd s)) s))).
Example C68_case_hypotheses :
  s_enc inside_d = EKnown utf8_encoding /\ text_encoding utf8_encoding utf8_encode is_scalar false false /\ is_name false false (txt "e") /\
  all_in is_scalar (ref_to (txt "e") ++ txt "z</d>") /\ means inside_d (txt "e") (Replaced (utf8 (txt "a" ++ [13; 10] ++ txt "b"))) /\
  all_in plain_char (txt "a" ++ [13; 10] ++ txt "b") /\ never_stops inside_d /\ s_parsing inside_d = PARSING /\ h_charData (c_h (s_cfg inside_d)) = true /\ (0 < s_tagLevel inside_d)%nat /\
  means inside_d (txt "amp") (Stands 38) /\ means inside_d (txt "x") (Refused XE_UNDEFINED_ENTITY).
Proof.
  assert (Un : forall w : list N, In w [txt "e"; txt "x"] -> not_predefined w) by (intros w [<-|[<-|[]]] x; vm_compute; intuition discriminate).
  repeat match goal with |- _ /\ _ => split end; try reflexivity; try (repeat constructor; fail).
  - eexists _, _; split; [reflexivity|split; [vm_compute; reflexivity|constructor]].
  - apply (mn_internal _ _ e_entity); [split; [apply Un; cbn; auto|reflexivity]|split; reflexivity|reflexivity|reflexivity|reflexivity].
  - apply mn_undefined; [apply Un; cbn; auto|reflexivity|left; reflexivity].
Qed.
