(* When an application-supplied encoding map is acceptable, and what its bytes then are. *)
From Coq Require Import String List NArith ZArith Bool.
From Verif Require Import SpecText SpecUnicode SpecNames SpecLex.
Import ListNotations.
Local Open Scope N_scope.

(* ASCII characters with a meaning in markup: white space, name characters and delimiters *)
Definition significant (c : N) : bool :=
  is_space c || (c <? 128) && is_NameChar c || existsb (N.eqb c) (txt "!#%&()*+,/;<=>?[]|" ++ [34; 39]).
Definition map_ok (table : list Z) (convert : option (list N -> Z)) : Prop :=
  (forall i, significant i = true -> nth_error table (N.to_nat i) = Some (Z.of_N i)) /\
  (forall i c, nth_error table (N.to_nat i) = Some c ->
     c = (-1)%Z \/ (-4 <= c <= -2)%Z /\ convert <> None \/
     exists u, c = Z.of_N u /\ u <= 0xFFFF /\ (significant u = true -> u = i)).
