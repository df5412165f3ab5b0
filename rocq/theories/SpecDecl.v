(* XML declarations and text declarations over code points (XML 1.0 productions [23]-[32], [77], [80],
   with the version and encoding values as loosely checked as the implementation documents), and the
   names of encodings.  Nothing here refers to the model. *)
From Coq Require Import String List NArith ZArith Bool.
From Verif Require Import SpecText SpecUnicode SpecLex.
Import ListNotations.
Local Open Scope N_scope.

(* characters of a quoted value *)
Definition value_char (c : N) : bool :=
  ((97 <=? c) && (c <=? 122)) || ((65 <=? c) && (c <=? 90)) || ((48 <=? c) && (c <=? 57))
  || (c =? 46) || (c =? 45) || (c =? 95).
Definition letter (c : N) : bool := ((97 <=? c) && (c <=? 122)) || ((65 <=? c) && (c <=? 90)).

(* S name Eq quote value quote *)
Definition pseudo (name : string) (a : att_src) : Prop :=
  as_space a <> [] /\ spaces (as_space a) /\ as_name a = txt name /\ spaces (as_eq1 a) /\ spaces (as_eq2 a) /\
  (as_quote a = 0x22 \/ as_quote a = 0x27) /\ all_in value_char (as_value a).
Definition enc_value (v : list N) : Prop := exists c r, v = c :: r /\ letter c = true.

(* a declaration taken apart: version, encoding, standalone, trailing white space *)
Record decl_src := { ds_version : option att_src; ds_encoding : option att_src; ds_standalone : option att_src; ds_space : list N }.
Definition opt_text (a : option att_src) : list N := match a with Some a => att_text a | None => [] end.
Definition decl_text (d : decl_src) : list N :=
  txt "<?xml" ++ opt_text (ds_version d) ++ opt_text (ds_encoding d) ++ opt_text (ds_standalone d) ++ ds_space d ++ txt "?>".
Definition opt_ok (P : att_src -> Prop) (a : option att_src) : Prop := match a with Some a => P a | None => True end.
(* [text]: a text declaration (encoding required, no standalone) rather than an XML declaration
   (version required) *)
Definition decl_ok (text : bool) (d : decl_src) : Prop :=
  opt_ok (pseudo "version") (ds_version d) /\
  opt_ok (fun a => pseudo "encoding" a /\ enc_value (as_value a)) (ds_encoding d) /\
  opt_ok (fun a => pseudo "standalone" a /\ (as_value a = txt "yes" \/ as_value a = txt "no")) (ds_standalone d) /\
  spaces (ds_space d) /\
  (if text then ds_encoding d <> None /\ ds_standalone d = None else ds_version d <> None).
Definition standalone_value (d : decl_src) : Z :=
  match ds_standalone d with
  | None => -1
  | Some a => if list_eq_dec N.eq_dec (as_value a) (txt "yes") then 1 else 0
  end.

(* Encoding names are compared without regard to (ASCII) case. *)
Definition upper (c : N) : N := if (97 <=? c) && (c <=? 122) then c - 32 else c.
Definition same_name (a b : list N) : Prop := map upper a = map upper b.
