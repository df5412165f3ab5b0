(* What it means that start and end element events form a properly nested sequence.  Nothing here refers to the
   code but the names of the two events and the log of handler calls: pairs of the parser that made the call and the
   event, latest first. *)
From Coq Require Import List NArith ZArith Bool.
From Verif Require Import Base State.
Import ListNotations.

Inductive tagev := Open (n : bytes) | Close (n : bytes).

(* properly nested: every start is matched by an end with the same name *)
Inductive balanced : list tagev -> Prop :=
| bal_nil : balanced []
| bal_app a b : balanced a -> balanced b -> balanced (a ++ b)
| bal_elem n b : balanced b -> balanced (Open n :: b ++ [Close n]).

(* the beginning of a properly nested sequence *)
Definition nested_so_far (l : list tagev) : Prop := exists rest, balanced (l ++ rest).

(* one element with properly nested content *)
Definition one_element (l : list tagev) : Prop := exists n b, l = Open n :: b ++ [Close n] /\ balanced b.

(* the element events of parser [q], first one first *)
Definition tagev_of (e : event) : list tagev :=
  match e with EvStartElement n _ _ _ => [Open n] | EvEndElement n => [Close n] | _ => [] end.
Fixpoint elements (q : nat) (log : list (nat * event)) : list tagev :=
  match log with
  | [] => []
  | (p, e) :: log => elements q log ++ (if Nat.eqb p q then tagev_of e else [])
  end.
