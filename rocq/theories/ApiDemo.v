(* A small processor behind the calling interface, used only in the examples of PropsApi.v *)
From Coq Require Import List NArith ZArith Bool Arith.
From Verif Require Import Base Status TokMisc Api SpecApi.
Import ListNotations.
Local Open Scope nat_scope.

(* a processor for the examples: it remembers what it was shown, consumes whole lines, fails on a zero byte
   and suspends at an exclamation mark *)
Fixpoint lines_len (b : bytes) : nat :=
  match b with
  | [] => 0
  | c :: t => match lines_len t with 0 => if (c =? 10)%N then 1 else 0 | n => S n end
  end.
Definition demo_run (c : list bytes) (p : XML_Parsing) (f : bool) (b : bytes) : res (prun (list bytes)) :=
  Ok {| r_core := c ++ [b]; r_err := if existsb (N.eqb 0) b then XE_INVALID_TOKEN else XE_NONE;
        r_next := lines_len b; r_event := Some 0; r_event_end := Some (lines_len b);
        r_parsing := if existsb (N.eqb 33) b then SUSPENDED else p |}.
Definition demo_start (c : list bytes) : res (option (list bytes)) := Ok (Some c).
Definition demo_upd (c : list bytes) (b : bytes) (p : Position) : res Position :=
  Ok {| pos_line := pos_line p + N.of_nat (length (filter (N.eqb 10) b)); pos_col := pos_col p |}.
Lemma lines_len_le b : lines_len b <= length b.
Proof. induction b as [|c t IH]; cbn; [apply Nat.le_refl|]. destruct (lines_len t); [destruct (c =? 10)%N; apply le_n_S, Nat.le_0_l || apply Nat.le_0_l|apply le_n_S, IH]. Qed.
Lemma demo_bounds : in_bounds demo_run.
Proof.
  intros c p f b r H. injection H as <-. split; [apply lines_len_le|]. cbn. intros n H. injection H as <-. apply Nat.le_0_l.
Qed.
Lemma demo_stays : forall c p f b r, demo_run c p f b = Ok r -> p <> INITIALIZED -> r_parsing r <> INITIALIZED.
Proof. intros c p f b r H N. injection H as <-. cbn. destruct (existsb _ _); [discriminate|exact N]. Qed.
Definition demo os := steps demo_run demo_start demo_upd os (fresh false false []).
