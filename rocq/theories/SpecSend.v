(* What a handler that takes text has been given. *)
From Coq Require Import List NArith Bool.
From Verif Require Import Base State.
Import ListNotations.

(* between the states [s] and [s'] the handler of [mk] has been called, some number of times, and no other; the texts
   are together [text] *)
Definition delivered (mk : bytes -> event) (text : bytes) (s s' : st) : Prop :=
  exists parts, map snd (rev (s_log s')) = map snd (rev (s_log s)) ++ map mk parts /\ concat parts = text.
(* the handler that gets character data *)
Definition text_handler (s : st) : bytes -> event := if h_charData (c_h (s_cfg s)) then EvCharData else EvDefault.
