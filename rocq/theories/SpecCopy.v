(* What a parser for an external general entity knows of the declarations its parent has read. *)
From Coq Require Import List NArith ZArith Bool.
From Verif Require Import Base State SpecEnt.
Import ListNotations.

(* a declaration that has been read to its end: an external entity has identifiers and no text, an internal one
   has a text and no identifiers *)
Definition whole (e : entity) : Prop :=
  match e_sys e with
  | Some _ => e_text e = None
  | None => e_text e <> None /\ e_base e = None /\ e_pub e = None
  end.
Definition same_entities (s c : st) : Prop :=
  forall ref, match entity_of s ref with
              | Some e => exists e', entity_of c ref = Some e' /\ (whole e -> definition e' = definition e)
              | None => entity_of c ref = None
              end.
(* element types with the attributes declared for them and their default values *)
Definition same_elements (s c : st) : Prop := d_elems (s_dtd c) = d_elems (s_dtd s).
(* attribute names: which there are, which may need normalisation, and in which namespace prefix they are (the
   default prefix, of the attribute xmlns itself, apart: see C59) *)
Definition same_attributes (s c : st) : Prop :=
  forall n, match look n (d_attids (s_dtd s)), look n (d_attids (s_dtd c)) with
            | Some a, Some a' => ai_maybe a' = ai_maybe a /\ (ai_prefix a <> Some PDefault -> ai_prefix a' = ai_prefix a /\ (ai_prefix a <> None -> ai_xmlns a' = ai_xmlns a))
            | None, None => True
            | _, _ => False
            end.
(* what decides whether references to undeclared entities are errors and declarations still count *)
Definition same_flags (s c : st) : Prop :=
  d_standalone (s_dtd c) = d_standalone (s_dtd s) /\ d_hasPE (s_dtd c) = d_hasPE (s_dtd s) /\ d_keep (s_dtd c) = d_keep (s_dtd s).
