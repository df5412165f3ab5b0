(* Specifications for references, names, positions and normalised strings. *)
From Coq Require Import String List NArith ZArith Bool.
From Verif Require Import Base SpecText SpecLex.
Import ListNotations.
Local Open Scope N_scope.

(* the C string at the beginning of an array *)
Fixpoint cstr (a : list N) : list N :=
  match a with [] => [] | c :: r => if c =? 0 then [] else c :: cstr r end.

(* XML 1.0 section 2.11: every CR LF and every other CR becomes LF *)
Fixpoint norm_eol (s : list N) : list N :=
  match s with
  | [] => []
  | c :: r =>
      if c =? 13 then 10 :: match r with
                            | [] => []
                            | d :: r' => if d =? 10 then norm_eol r' else norm_eol r
                            end
      else c :: norm_eol r
  end.

(* Public identifiers, XML 1.0 [13] *)
Definition pubid_char (c : N) : bool :=
  (c =? 32) || (c =? 13) || (c =? 10) ||
  ((97 <=? c) && (c <=? 122)) || ((65 <=? c) && (c <=? 90)) || ((48 <=? c) && (c <=? 57)) ||
  existsb (N.eqb c) (txt "-'()+,./:=?;!*#@$_%").
Definition pubid_space (c : N) : bool := (c =? 32) || (c =? 13) || (c =? 10).
(* the words of a text, and the words joined by single spaces *)
Fixpoint words_from (w : list N) (s : list N) : list (list N) :=
  match s with
  | [] => match w with [] => [] | _ => [w] end
  | c :: r =>
      if pubid_space c then match w with [] => words_from [] r | _ => w :: words_from [] r end
      else words_from (w ++ [c]) r
  end.
Definition words : list N -> list (list N) := words_from [].
Fixpoint join (ws : list (list N)) : list N :=
  match ws with [] => [] | [w] => w | w :: ws' => w ++ 32 :: join ws' end.

(* the number a digit string denotes *)
Definition dec_value (ds : list N) : N := fold_left (fun v d => v * 10 + (d - 48)) ds 0.
Definition hex_digit (d : N) : N := if d <=? 57 then d - 48 else if d <=? 70 then d - 55 else d - 87.
Definition hex_value (ds : list N) : N := fold_left (fun v d => v * 16 + hex_digit d) ds 0.

(* XML 1.0 section 4.6 *)
Definition predefined : list (list N * N) :=
  [(txt "lt", 60); (txt "gt", 62); (txt "amp", 38); (txt "quot", 34); (txt "apos", 39)].

(* Positions: line ends in a text, and the characters after the last of them *)
Fixpoint line_ends (s : list N) : N :=
  match s with
  | [] => 0
  | c :: r =>
      if c =? 10 then 1 + line_ends r
      else if c =? 13 then match r with
                           | [] => 1
                           | d :: r' => if d =? 10 then 1 + line_ends r' else 1 + line_ends r
                           end
      else line_ends r
  end.
Definition is_eol (c : N) : bool := (c =? 10) || (c =? 13).
Fixpoint last_line (s : list N) : list N :=
  match s with
  | [] => []
  | c :: r => if existsb is_eol r then last_line r else if is_eol c then r else s
  end.

(* XML 1.0 section 3.3.3: the value an attribute has when it is written [v], without any
   normalisation or expansion being needed, whatever the declared type *)
Definition already_normal (v : list N) : Prop :=
  ~ In 0x26 v /\ ~ In 9 v /\ ~ In 13 v /\ ~ In 10 v /\
  ~ (exists r, v = 32 :: r) /\ ~ (exists r, v = r ++ [32]) /\ ~ occurs [32; 32] v.

(* XML 1.0 [65] Ignore, [64] ignoreSectContents *)
Definition ignore_text (s : list N) : Prop := xml_text s /\ ~ occurs (txt "<![") s /\ ~ occurs (txt "]]>") s.
Inductive ignore_contents : list N -> Prop :=
| ic_text s : ignore_text s -> ignore_contents s
| ic_nest s a b : ignore_text s -> ignore_contents a -> ignore_contents b ->
    ignore_contents (s ++ txt "<![" ++ a ++ txt "]]>" ++ b).
