(* What is said about entities: which ones there are, what their declarations say, and which are being expanded. *)
From Coq Require Import List NArith ZArith Bool.
From Verif Require Import Base State.
Import ListNotations.

(* an entity: is it a parameter entity, and its name *)
Definition entity_of (s : st) (ref : entref) : option entity := look_entity ref (s_dtd s).
Definition all_entities (s : st) : list entref :=
  map (fun p => (false, fst p)) (d_gents (s_dtd s)) ++ map (fun p => (true, fst p)) (d_pents (s_dtd s)).
(* the internal entities whose text is being parsed, innermost first *)
Definition expanding (s : st) : list entref := map oe_ent (s_open s).
(* an entity that is being expanded, anywhere: its text is being parsed or its external parser is running *)
Definition open_in (s : st) (ref : entref) : Prop := exists e, entity_of s ref = Some e /\ e_open e = true.
(* what a declaration says: the replacement text, or the identifiers, the base and the notation *)
Definition definition (e : entity) := (e_text e, e_sys e, e_base e, e_pub e, e_notation e, e_is_param e, e_is_internal e).
(* the entry for the external subset itself, which is no entity of the document *)
Definition external_subset_entry : entref := (true, [35%N]).
