(* What a string pool means: the string being built and the strings finished since the pool was last cleared *)
From Coq Require Import List NArith Bool Arith.
From Verif Require Import Base Encoding SpecUnicode SpecConv Pool.
Import ListNotations.
Local Open Scope nat_scope.

(* [conv] turns the source text [buf] into [out]: [buf] encodes some characters and [out] is their UTF-8 form *)
Definition converts (conv : bytes -> nat -> res convT) (buf out : bytes) : Prop :=
  exists enc dom cs, transfers conv enc dom /\ (forall c, dom c -> enc c <> []) /\ Forall dom cs /\ buf = flat_map enc cs /\ out = utf8 cs.

Inductive strings_step : pool_op -> bytes * list bytes -> bytes * list bytes -> Prop :=
| ss_append conv buf out t l : converts conv buf out -> strings_step (PAppend conv buf) (t, l) (t ++ out, l)
| ss_store conv buf out t l : converts conv buf out -> strings_step (PStore conv buf) (t, l) (t ++ out ++ [0%N], l)
| ss_char c t l : strings_step (PChar c) (t, l) (t ++ [c], l)
| ss_chars s t l : strings_step (PChars s) (t, l) (t ++ s, l)
| ss_finish t l : strings_step PFinish (t, l) ([], l ++ [t])
| ss_copy s t l : strings_step (PCopy s) (t, l) ([], l ++ [t ++ s ++ [0%N]])
| ss_copy_n s t l : strings_step (PCopyN s) (t, l) ([], l ++ [t ++ s])
| ss_clear_current t l : strings_step PClearCurrent (t, l) ([], l)
| ss_replace c d t l : strings_step (PReplaceLast c) (t ++ [d], l) (t ++ [c], l)
| ss_backtrack d t l : strings_step PBacktrack (t ++ [d], l) (t, l)
| ss_poke k i v t l1 a b c l2 : k = length l1 -> i = length a ->
    strings_step (PPoke k i v) (t, l1 ++ (a ++ b :: c) :: l2) (t, l1 ++ (a ++ v :: c) :: l2)
| ss_clear t l : strings_step PClear (t, l) ([], []).
Inductive strings_run : list pool_op -> bytes * list bytes -> bytes * list bytes -> Prop :=
| sr_nil a : strings_run [] a a
| sr_cons o os a b c : strings_step o a b -> strings_run os b c -> strings_run (o :: os) a c.

(* source texts handed to the pool are texts of an encoding *)
Definition sound_op (o : pool_op) : Prop :=
  match o with
  | PAppend conv buf | PStore conv buf => exists out, converts conv buf out
  | _ => True
  end.
