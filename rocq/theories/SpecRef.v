(* References to general entities in the content of elements, XML 1.0 section 4.4. *)
From Coq Require Import String List NArith Bool.
From Verif Require Import Base SpecText SpecUnicode SpecMisc Status State AttVal SpecAttVal Bind Content SpecEnt.
From Coq Require Import List.
Import ListNotations.
Local Open Scope N_scope.

(* "&n;" *)
Definition ref_to (n : list N) : list N := txt "&" ++ n ++ txt ";".
Inductive meaning :=
| Stands (c : N)                (* for one character *)
| Replaced (text : bytes)       (* by the replacement text of the entity *)
| Asked (e : entity)            (* the application is asked to read the external entity *)
| Skipped                       (* the application is told that the reference is not expanded *)
| Unread                        (* an external entity that nobody reads *)
| Refused (x : XML_Error).
(* all declarations have been read, or those that have not do not matter *)
Definition all_known (s : st) : Prop := d_hasPE (s_dtd s) = false \/ d_standalone (s_dtd s) = true.
Definition declared_as (s : st) (n : list N) (e : entity) : Prop := not_predefined n /\ look (utf8 n) (d_gents (s_dtd s)) = Some e.
(* may be referred to: declared in the document itself, if that is required, and not being expanded *)
Definition usable (s : st) (e : entity) : Prop := (all_known s -> e_is_internal e = true) /\ e_open e = false.
Inductive means (s : st) (n : list N) : meaning -> Prop :=
| mn_predefined c : In (n, c) predefined -> means s n (Stands c)
| mn_undefined : not_predefined n -> look (utf8 n) (d_gents (s_dtd s)) = None -> all_known s -> means s n (Refused XE_UNDEFINED_ENTITY)
| mn_unknown : not_predefined n -> look (utf8 n) (d_gents (s_dtd s)) = None -> ~ all_known s -> means s n Skipped
| mn_elsewhere e : declared_as s n e -> all_known s -> e_is_internal e = false -> means s n (Refused XE_ENTITY_DECLARED_IN_PE)
| mn_recursive e : declared_as s n e -> (all_known s -> e_is_internal e = true) -> e_open e = true -> means s n (Refused XE_RECURSIVE_ENTITY_REF)
| mn_unparsed e : declared_as s n e -> usable s e -> e_notation e <> None -> means s n (Refused XE_BINARY_ENTITY_REF)
| mn_internal e text : declared_as s n e -> usable s e -> e_notation e = None -> e_text e = Some text -> c_expand (s_cfg s) = true -> means s n (Replaced text)
| mn_unexpanded e text : declared_as s n e -> usable s e -> e_notation e = None -> e_text e = Some text -> c_expand (s_cfg s) = false -> means s n Skipped
| mn_external e : declared_as s n e -> usable s e -> e_notation e = None -> e_text e = None -> h_external (c_h (s_cfg s)) = true -> means s n (Asked e)
| mn_unread e : declared_as s n e -> usable s e -> e_notation e = None -> e_text e = None -> h_external (c_h (s_cfg s)) = false -> means s n Unread.

(* nothing but the reported positions is different *)
Definition positions_only (s s' : st) : Prop := set_evEnd None (set_ev None s') = set_evEnd None (set_ev None s).
(* after the reference: the rest of the text, unless the application has stopped the parser *)
Definition goes_on (r : recs) (level : nat) (more : bool) (rest : bytes) : P bytes :=
  do stopped <- after_token ENormal rest; if stopped then pret rest else rc_content r level ENormal rest more.
(* the names of the open entities are part of the context that the application gets *)
Definition while_open (n : list N) (e : entity) (s : st) : st := set_dtd (set_d_gents (put (utf8 n) (set_e_open true e) (d_gents (s_dtd s))) (s_dtd s)) s.

(* text without markup; a carriage return in it came from a character reference *)
Definition plain_char (c : N) : bool := is_xml_char c && negb (existsb (N.eqb c) (txt "<&]")).
(* the application never stops the parser *)
Definition never_stops (s : st) : Prop := forall log, State.stop (c_app (s_cfg s) log) = None.
(* elements, entities and status are as before *)
Record as_before (s s' : st) : Prop := {
  ab_cfg : s_cfg s' = s_cfg s; ab_tags : s_tags s' = s_tags s; ab_level : s_tagLevel s' = s_tagLevel s; ab_open : s_open s' = s_open s;
  ab_parsing : s_parsing s' = s_parsing s; ab_enc : s_enc s' = s_enc s; ab_processor : s_processor s' = s_processor s;
  ab_entities : forall ref, option_map (fun y => (definition y, e_open y)) (entity_of s' ref) = option_map (fun y => (definition y, e_open y)) (entity_of s ref)
}.
