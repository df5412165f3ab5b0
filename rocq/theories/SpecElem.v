(* Inside an element, when no declarations were made. *)
From Coq Require Import List NArith Bool.
From Verif Require Import Base Encoding SpecAtts SpecDoc Status State.
Import ListNotations.

(* the parser reads the content of an element in the encoding e, for an application that hears all reports, without
   namespaces, and never stops it; no entities and no attributes have been declared; the text began at this level *)
Record inside (e : EncImpl) (level : nat) (s : st) : Prop := {
  in_application : attentive (s_cfg s);
  in_encoding : s_enc s = EKnown e;
  in_parsing : s_parsing s = PARSING;
  in_element : 1 <= s_tagLevel s;
  in_level : level <= s_tagLevel s;
  in_no_entities : d_gents (s_dtd s) = [];
  in_no_parameters : d_hasPE (s_dtd s) = false;
  in_no_attributes : forall el, declarations el s = [];
  in_tables : tables s
}.
(* what the application has been told since the state s, character data in one piece, and nothing else has changed: the
   same elements are open, and the same encoding, processor and settings are in use *)
Definition reported (rs : list report) (s s' : st) : Prop :=
  exists rs', flat_map (fun x => heard (snd x)) (rev (s_log s')) = flat_map (fun x => heard (snd x)) (rev (s_log s)) ++ rs' /\ merged rs' = merged rs /\
    s_cfg s' = s_cfg s /\ s_enc s' = s_enc s /\ s_parsing s' = s_parsing s /\ s_processor s' = s_processor s /\ s_open s' = s_open s /\ s_tags s' = s_tags s /\ s_tagLevel s' = s_tagLevel s.
