(* What it means that namespace declarations are announced and withdrawn with the elements that make them, and which
   declaration of a prefix is in scope.  Nothing here refers to the code but the names of four events and the log of
   handler calls: pairs of the parser that made the call and the event, latest first. *)
From Coq Require Import List NArith ZArith Bool String.
From Verif Require Import Base State Bind.
From Coq Require Import List.
Import ListNotations.

(* a declaration: the prefix ([None]: the default namespace) and the namespace name ([None]: none) *)
Definition decl : Type := (option bytes * option bytes)%type.
Inductive mark := OpenNs (d : decl) | OpenEl (n : bytes) | CloseEl (n : bytes) | CloseNs (p : option bytes).

(* the declarations of an element are announced before its start, and withdrawn after its end in reverse order.
   [nt_none]: an empty-element tag that is rejected has announced its declarations and withdraws them. *)
Definition opens (ds : list decl) : list mark := map OpenNs ds.
Definition closes (ds : list decl) : list mark := map (fun d => CloseNs (fst d)) (rev ds).
Inductive nested : list mark -> Prop :=
| nt_nil : nested []
| nt_app a b : nested a -> nested b -> nested (a ++ b)
| nt_elem ds n b : nested b -> nested (opens ds ++ (OpenEl n :: b ++ [CloseEl n]) ++ closes ds)
| nt_none ds : nested (opens ds ++ closes ds).
(* the beginning of such a sequence *)
Definition begun (l : list mark) : Prop := exists rest, nested (l ++ rest).

(* the declarations that have been announced and not withdrawn, the innermost first *)
Fixpoint in_scope (k : list decl) (l : list mark) : list decl :=
  match l with
  | [] => k
  | OpenNs d :: l => in_scope (d :: k) l
  | CloseNs _ :: l => in_scope (tl k) l
  | _ :: l => in_scope k l
  end.
(* the innermost declaration of prefix [p]: [None] if there is none, [Some None] if it is <a xmlns=''> *)
Definition same (p q : option bytes) : bool :=
  match p, q with None, None => true | Some a, Some b => beqb a b | _, _ => false end.
Definition declared (p : option bytes) (l : list mark) : option (option bytes) :=
  match find (fun d => same p (fst d)) (in_scope [] l) with Some d => Some (snd d) | None => None end.

(* the events of parser [q], first one first *)
Definition mark_of (e : event) : list mark :=
  match e with
  | EvStartNs p u => [OpenNs (p, u)]
  | EvStartElement n _ _ _ => [OpenEl n]
  | EvEndElement n => [CloseEl n]
  | EvEndNs p => [CloseNs p]
  | _ => []
  end.
Fixpoint marks (q : nat) (log : list (nat * event)) : list mark :=
  match log with
  | [] => []
  | (p, e) :: log => marks q log ++ (if Nat.eqb p q then mark_of e else [])
  end.

(* the reference to a prefix that the tables of the parser use *)
Definition prefix (p : option bytes) : prefref := match p with Some n => PNamed n | None => PDefault end.
(* the prefix that is bound in every document and cannot be bound to anything else *)
Definition xml_prefix : bytes := ascii "xml".
(* the application asks for the four events *)
Record listening (h : handlers) : Prop := {
  li_start : h_startElement h = true;
  li_end : h_endElement h = true;
  li_startNs : h_startNs h = true;
  li_endNs : h_endNs h = true
}.

(* a log of handler calls as applications see it, for parser number [q]: parsers are numbered by the length of the log
   when they are made, and the events of each of them nest *)
Record ordered (q : nat) (log : list (nat * event)) : Prop := {
  or_number : q <= length log;
  or_low : forall p e, In (p, e) log -> p < length log;
  or_nested : forall p, begun (marks p log)
}.
(* a parser that has not begun *)
Record unused (c : st) : Prop := {
  un_listening : listening (c_h (s_cfg c));
  un_log : ordered (s_pid c) (s_log c);
  un_marks : marks (s_pid c) (s_log c) = [];
  un_tags : s_tags c = []
}.
