(* Properties of the whole parser that are false of the code. *)
From Coq Require Import String List NArith ZArith Bool.
From Verif Require Import Base Encoding Status Role State Bind Core SpecFind Demo Hang.
From Verif Require Api.
From Coq Require Import List.
Import ListNotations.

Definition at_start_of (name : bytes) (log : list (nat * event)) : bool :=
  match log with (_, EvStartElement m _ _ _) :: _ => beqb m name | _ => false end.

(* C29.  After a resume what was consumed is not recorded, so the next chunk is appended to text that is parsed again:
   with the chunks <a><b/><c/> and </a> and a pause at the start of b the element c is delivered twice. *)
Theorem C29_resume_refuted : ~ resume_is_transparent.
Proof.
  intros H.
  pose proof (H 100 5 (config_of false only_elements (fun _ => idle)) (at_start_of (ascii "b")) [ascii "<a><b/><c/>"; ascii "</a>"]) as X.
  vm_compute in X. specialize (X _ _ eq_refl eq_refl). discriminate X.
Qed.
Print Assumptions C29_resume_refuted.

(* C41.  A pause inside an entity that is referenced in another entity, with text left in both: the rest of the outer
   entity (the element c) is lost. *)
Theorem C41_nested_entity_refuted : ~ resume_is_transparent_in_one_piece.
Proof.
  intros H.
  pose proof (H 200 5 (config_of false only_elements (fun _ => idle)) (at_start_of (ascii "b"))
                (ascii "<!DOCTYPE a [<!ENTITY e '<b/><d/>'><!ENTITY f '&e;<c/>'>]><a>&f;</a>")) as X.
  vm_compute in X. specialize (X _ _ eq_refl eq_refl). discriminate X.
Qed.
Print Assumptions C41_nested_entity_refuted.

(* C42.  The version argument is the version with the closing quote, or the encoding name if there is one. *)
Theorem C42_version_refuted : ~ version_argument_is_right.
Proof.
  intros H.
  pose proof (H 100 5 (config_of false all_handlers (fun _ => idle)) (ascii "1.0") None (ascii "<a/>")) as X.
  vm_compute in X. specialize (X _ _ _ _ eq_refl (or_introl eq_refl)). discriminate X.
Qed.
Print Assumptions C42_version_refuted.

(* C52.  The text after the text declaration is lost and the parse fails. *)
Definition texts52 (sys : bytes) : option bytes :=
  if beqb sys (ascii "s") then Some (ascii "<!ENTITY % p SYSTEM 'p'><!ENTITY e 'x%p;y'>") else Some (ascii "pp").
Theorem C52_text_declaration_refuted : ~ text_declaration_is_removed.
Proof.
  intros H.
  pose proof (H 200 5 (config_of false all_handlers (fun _ => idle)) texts52 (ascii "p") (ascii "pp") (ascii "<!DOCTYPE a SYSTEM 's'><a>&e;</a>")) as X.
  vm_compute in X. specialize (X _ eq_refl eq_refl). discriminate X.
Qed.
Print Assumptions C52_text_declaration_refuted.

(* C53.  The handler is called although no entity was read. *)
Theorem C53_notstandalone_refuted : ~ notstandalone_only_if_read.
Proof.
  intros H.
  pose proof (H 200 5 (config_of false all_handlers (fun _ => idle)) (ascii "<!DOCTYPE a [<!ENTITY % p SYSTEM 'p'>%p;]><a/>")) as X.
  assert (Hc : forall log, child_plan (c_app (config_of false all_handlers (fun _ => idle)) log) = None) by reflexivity.
  specialize (fun l => X l Hc). clear Hc. vm_compute in X. specialize (X _ eq_refl).
  apply X.
  - intros name sys pub internal Hi. repeat (destruct Hi as [Hi|Hi]; [try discriminate Hi; inversion Hi; reflexivity|]). destruct Hi.
  - do 3 right. left. reflexivity.
Qed.
Print Assumptions C53_notstandalone_refuted.

(* C54.  The unknown-encoding handler is cleared like all others. *)
Theorem C54_unknown_encoding_handler_refuted : ~ reset_keeps_unknown_encoding_handler.
Proof.
  intros H. specialize (H (new (config_of false all_handlers (fun _ => idle))) None _ eq_refl). discriminate H.
Qed.
Print Assumptions C54_unknown_encoding_handler_refuted.

(* C36, last clause.  With triplets the check compares the names with their prefixes. *)
Definition triplets : config :=
  {| c_ns := true; c_sep := 124; c_triplets := true; c_expand := true; c_h := only_elements; c_app := fun _ => idle |}.
Theorem C36_triplets_refuted : ~ distinct_expanded_names.
Proof.
  intros H. pose proof (H 100 5 triplets (ascii "<a xmlns:p='u' xmlns:q='u' p:x='1' q:x='2'/>")) as X.
  vm_compute in X. specialize (X _ _ _ _ _ eq_refl eq_refl (or_introl eq_refl)).
  inversion X as [|? ? Hn _]. apply Hn. left. reflexivity.
Qed.
Print Assumptions C36_triplets_refuted.

(* C59.  A default-namespace declaration in an external general entity: the attribute "xmlns" of the parser for the entity
   has a pointer to a local variable of the function that copied it. *)
Theorem C59_dangling_prefix_refuted : ~ external_entities_are_memory_safe.
Proof.
  intros H.
  pose proof (H 200 5 (config_of true only_elements (fun _ => idle)) (fun _ => Some (ascii "<b xmlns='v'/>"))
                (ascii "<!DOCTYPE a [<!ENTITY e SYSTEM 'e'>]><a xmlns='u'>&e;</a>")) as X.
  vm_compute in X. apply X. reflexivity.
Qed.
Print Assumptions C59_dangling_prefix_refuted.

(* C61.  After a pause in a parameter entity the entity may close the document type declaration and begin the document
   element; the next start tag is then met by the processor of the prolog, which reads it without end. *)
Theorem C61_returns_refuted : ~ every_call_returns.
Proof.
  intros H. destruct hang as (a & l & A & B). destruct (H 100 (config_of false comments at_comment) hang_start a l hang_end A) as [n Hn].
  exact (Hn (B n)).
Qed.
Print Assumptions C61_returns_refuted.
