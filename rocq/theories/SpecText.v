(* Writing ASCII text as bytes, for examples and specifications. *)
From Coq Require Import List NArith Ascii String.
Import ListNotations.

Definition txt (s : string) : list N := map N_of_ascii (list_ascii_of_string s).
(* the same in UTF-16LE *)
Definition txt16 (s : string) : list N := flat_map (fun c => [c; 0%N]) (txt s).
