(* C64: the parser for an external entity knows the declarations its parent has read. *)
From Coq Require Import String List NArith ZArith Bool.
From Verif Require Import Base Status State Bind Core SpecEnt SpecCopy CopyLaws Demo.
From Verif Require Api.
From Coq Require Import List.
Import ListNotations.

(* XML_ExternalEntityParserCreate for a general entity, whatever the context is: the new parser has a copy. *)
Theorem C64_general : forall ctx enc s c, child_parser (Some ctx) enc s = Ok (Some c) ->
  same_entities s c /\ same_elements s c /\ same_attributes s c /\ same_flags s c.
Proof. exact taken_over. Qed.
Print Assumptions C64_general.
(* For a parameter entity: it works on the declarations of its parent. *)
Theorem C64_parameter : forall enc s, exists c, child_parser None enc s = Ok (Some c) /\ s_dtd c = s_dtd s.
Proof. exact shared. Qed.
Print Assumptions C64_parameter.

(* An internal, an external and an unparsed entity, a parameter entity and an attribute, as the child knows them. *)
Definition parent_and_child : option (list (bytes * entity) * list (bytes * entity) * list (bytes * entity) * list bytes) :=
  match Api.steps (run (knot 300)) start position
          [parse_op "<!DOCTYPE d [<!ENTITY i 'text'><!ENTITY x PUBLIC 'p' 'f'><!ENTITY u SYSTEM 'g' NDATA n><!ENTITY % q 'r'><!ATTLIST d a NMTOKEN 'v'>]><d>" false]
          (new_parser (parser_of false all_handlers (fun _ => idle))) with
  | Ok (a, _) =>
      match child_parser (Some (ascii "x")) None (Api.core a) with
      | Ok (Some c) => Some (d_gents (s_dtd (Api.core a)), d_gents (s_dtd c), d_pents (s_dtd c), map fst (d_elems (s_dtd c)))
      | _ => None
      end
  | Err _ => None
  end.
Example C64_case :
  match parent_and_child with
  | Some (g, g', p', el) =>
      Forall (fun x => whole (snd x)) g /\ map (fun x => e_text (snd x)) g = [Some (ascii "text"); None; None] /\
      map (fun x => (fst x, definition (snd x))) g' = map (fun x => (fst x, definition (snd x))) g /\
      map (fun x => e_open (snd x)) g' = [false; true; false] /\
      map (fun x => (fst x, e_text (snd x))) p' = [(ascii "q", Some (ascii "r"))] /\ el = [ascii "d"]
  | None => False
  end.
Proof.
  vm_compute. split; [|repeat split]. repeat (apply Forall_cons; [vm_compute; repeat split; discriminate|]). apply Forall_nil.
Qed.
