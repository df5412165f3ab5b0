(* What it means to convert a text into bounded output buffers. *)
From Coq Require Import List NArith Bool.
From Verif Require Import Base Encoding SpecUnicode.
Import ListNotations.
Local Open Scope N_scope.

(* [conv] is a conversion from the encoding form [enc] (defined on the code points in [dom]) to
   UTF-8: given a text and room for [cap] bytes it writes the UTF-8 form of the longest beginning of
   the text that fits, hands back the untouched rest, and says whether it finished. *)
Definition transfers (conv : bytes -> nat -> res convT) (enc : N -> bytes) (dom : N -> Prop) : Prop :=
  forall cs cap, Forall dom cs ->
  exists done left,
    cs = done ++ left /\
    (length (utf8 done) <= cap)%nat /\
    match left with
    | [] => conv (flat_map enc cs) cap = Ok (COMPLETED, utf8 done, [])
    | c :: _ => conv (flat_map enc cs) cap = Ok (OUTPUT_EXHAUSTED, utf8 done, flat_map enc left)
                /\ (cap < length (utf8 (done ++ [c])))%nat
    end.

(* A caller that converts with one fresh buffer after the other, of the given sizes, until the input
   is used up; the result is everything written and the input that is left. *)
Fixpoint drive (conv : bytes -> nat -> res convT) (sizes : list nat) (from : bytes)
  : res (list N * bytes) :=
  match from, sizes with
  | [], _ | _, [] => Ok ([], from)
  | _, cap :: sizes' =>
      let* (_, out, rest) := conv from cap in
      let* (out', rest') := drive conv sizes' rest in
      Ok (out ++ out', rest')
  end.
