(* What may follow the root element. *)
From Coq Require Import List NArith Bool.
From Verif Require Import Base SpecText SpecUnicode SpecNames SpecLex SpecMisc State SpecNote.
Import ListNotations.
Local Open Scope N_scope.

(* [27] Misc*: comments, processing instructions and white space *)
Inductive misc (lat ns : bool) : list N -> Prop :=
| misc_none : misc lat ns []
| misc_space c rest : is_space c = true -> misc lat ns rest -> misc lat ns (c :: rest)
| misc_note cs ev rest : note lat ns cs ev -> misc lat ns rest -> misc lat ns (cs ++ rest).
(* the events for them: comments and processing instructions, and the text of what has no handler of its own *)
Inductive misc_event : event -> Prop :=
| me_comment c : misc_event (EvComment c)
| me_pi p d : misc_event (EvPI p d)
| me_default t : misc_event (EvDefault t).
