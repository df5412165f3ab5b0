(* C38: the scope of namespace declarations. *)
From Coq Require Import String List NArith ZArith Bool.
From Verif Require Import Base Encoding Status Role State Bind Core.
From Verif Require Import SpecScope SpecCtx ScopeUse Demo.
From Verif Require Api ApiInv.
From Coq Require Import List.
Import ListNotations.

(* C38.  For every configuration with the four handlers set, application, document, chunking and history of parse,
   buffer, stop, resume and position calls: the events each parser has delivered are the beginning of a sequence in which
   the declarations of an element are announced before its start and withdrawn after its end, in reverse order.  This
   goes for the parsers made in the external entity handler, too: [p] ranges over all parsers ([or_nested]). *)
Theorem C38_balanced : forall cfg enc pep foreign base n os a l,
  listening (c_h cfg) -> Forall ApiInv.plain os ->
  Api.steps (run (knot n)) start position os (new_parser (root cfg enc pep foreign base)) = Ok (a, l) ->
  forall p, begun (marks p (s_log (Api.core a))).
Proof. exact (fun cfg enc pep foreign base n os a l H1 H2 H3 => or_nested _ _ (ordered_after n os _ a l (unused_root cfg enc pep foreign base H1) H2 H3)). Qed.
Print Assumptions C38_balanced.

(* A prefix is bound to what the innermost of the declarations in scope says, or, in a parser for an external entity,
   to what it was bound to when the parser was made.  The prefix xml is bound in every document. *)
Theorem C38_innermost : forall c n os a l,
  unused c -> Forall ApiInv.plain os ->
  Api.steps (run (knot n)) start position os (new_parser c) = Ok (a, l) -> Api.failed a = false ->
  forall p u, p <> Some xml_prefix ->
  (in_force (Api.core a) (prefix p) u <->
   match declared p (marks (s_pid c) (s_log (Api.core a))) with Some d => d = Some u | None => in_force c (prefix p) u end).
Proof. exact (fun c n os a l => resolved n os c a l). Qed.
Print Assumptions C38_innermost.
(* Once an element has ended, every prefix is bound as it was before its start. *)
Theorem C38_restored : forall c n os1 os2 a1 a2 l1 l2 m,
  unused c -> Forall ApiInv.plain os1 -> Forall ApiInv.plain os2 ->
  Api.steps (run (knot n)) start position os1 (new_parser c) = Ok (a1, l1) -> Api.failed a1 = false ->
  Api.steps (run (knot n)) start position os2 (new_parser c) = Ok (a2, l2) -> Api.failed a2 = false ->
  marks (s_pid c) (s_log (Api.core a2)) = marks (s_pid c) (s_log (Api.core a1)) ++ m -> nested m ->
  forall p u, p <> Some xml_prefix -> (in_force (Api.core a2) (prefix p) u <-> in_force (Api.core a1) (prefix p) u).
Proof. exact (fun c n os1 os2 a1 a2 l1 l2 m => restored n os1 os2 c a1 a2 l1 l2 m). Qed.
Print Assumptions C38_restored.
(* The parsers that are meant: those the application creates, and those it creates in the handler for an external
   general entity. *)
Theorem C38_created : forall cfg enc pep foreign base, listening (c_h cfg) -> unused (root cfg enc pep foreign base).
Proof. exact unused_root. Qed.
Print Assumptions C38_created.
Theorem C38_external : forall context enc s c, listening (c_h (s_cfg s)) -> ordered (s_pid s) (s_log s) ->
  child_parser (Some context) enc s = Ok (Some c) -> unused c.
Proof. exact unused_child. Qed.
Print Assumptions C38_external.

Definition scoped : st := parser_of true all_handlers (fun log => match log with (_, EvExternalEntityRef _ _ _ _) :: _ => entity_text (ascii "<p:x xmlns:p='u3'/>") | _ => idle end).
Definition marks_of (q : nat) (os : list (Api.op (C := st))) : res (list mark) :=
  let* (a, l) := Api.steps (run (knot 300)) start position os (new_parser scoped) in Ok (marks q (s_log (Api.core a))).
Definition nsd (p u : string) : mark := OpenNs (Some (ascii p), Some (ascii u)).
Example C38_example :
  marks_of 0 [parse_op "<a xmlns='u' xmlns:p='u1'><p:b xmlns:p='u2' xmlns=''>" false; parse_op "</p:b><c/>" false] =
   Ok [OpenNs (None, Some (ascii "u")); nsd "p" "u1"; OpenEl (ascii "u|a");
       nsd "p" "u2"; OpenNs (None, None); OpenEl (ascii "u2|b"); CloseEl (ascii "u2|b"); CloseNs None; CloseNs (Some (ascii "p"));
       OpenEl (ascii "u|c"); CloseEl (ascii "u|c")].
Proof. vm_compute. reflexivity. Qed.
Example C38_innermost_example :
  match Api.steps (run (knot 300)) start position [parse_op "<a xmlns='u' xmlns:p='u1'><p:b xmlns:p='u2' xmlns=''>" false] (new_parser scoped) with
  | Err _ => False
  | Ok (a, l) => Api.failed a = false /\
      declared (Some (ascii "p")) (marks 0 (s_log (Api.core a))) = Some (Some (ascii "u2")) /\ declared None (marks 0 (s_log (Api.core a))) = Some None /\
      declared (Some (ascii "q")) (marks 0 (s_log (Api.core a))) = None
  end.
Proof. vm_compute. auto. Qed.
Example C38_restored_example :
  match Api.steps (run (knot 300)) start position [parse_op "<a xmlns='u' xmlns:p='u1'>" false] (new_parser scoped),
        Api.steps (run (knot 300)) start position [parse_op "<a xmlns='u' xmlns:p='u1'>" false; parse_op "<p:b xmlns:p='u2' xmlns=''>x</p:b>" false] (new_parser scoped) with
  | Ok (a1, _), Ok (a2, _) => Api.failed a1 = false /\ Api.failed a2 = false /\
      marks 0 (s_log (Api.core a2)) = marks 0 (s_log (Api.core a1)) ++
        opens [(Some (ascii "p"), Some (ascii "u2")); (None, None)] ++ (OpenEl (ascii "u2|b") :: [] ++ [CloseEl (ascii "u2|b")]) ++ closes [(Some (ascii "p"), Some (ascii "u2")); (None, None)] /\
      declared (Some (ascii "p")) (marks 0 (s_log (Api.core a2))) = Some (Some (ascii "u1"))
  | _, _ => False
  end.
Proof. vm_compute. auto. Qed.
Example C38_listening : listening all_handlers.
Proof. repeat split. Qed.
(* the parser for the external entity &e; is number 6 *)
Example C38_external_example :
  match Api.steps (run (knot 300)) start position [parse_op "<!DOCTYPE a [<!ENTITY e SYSTEM 'f'>]><a xmlns:p='u1'>&e;<p:c/></a>" true] (new_parser scoped) with
  | Err _ => False
  | Ok (a, l) => marks 0 (s_log (Api.core a)) = [nsd "p" "u1"; OpenEl (ascii "a"); OpenEl (ascii "u1|c"); CloseEl (ascii "u1|c"); CloseEl (ascii "a"); CloseNs (Some (ascii "p"))] /\
      marks 6 (s_log (Api.core a)) = [nsd "p" "u3"; OpenEl (ascii "u3|x"); CloseEl (ascii "u3|x"); CloseNs (Some (ascii "p"))]
  end.
Proof. vm_compute. auto. Qed.
