(* Comments, processing instructions and character references, wherever they may stand. *)
From Coq Require Import List NArith Bool String.
From Verif Require Import Base SpecText SpecUnicode SpecNames SpecLex SpecMisc SpecDoc Role Status State Content.
From Coq Require Import List.
Import ListNotations.
Local Open Scope N_scope.

(* [note lat ns cs ev]: the text cs is a comment or a processing instruction, and ev is what the application is told:
   the text of the comment, or the target and the data after the white space, in UTF-8, every line end as one LF *)
Inductive note (lat ns : bool) : list N -> event -> Prop :=
| note_comment body : comment_body body -> note lat ns (comment_text body) (EvComment (utf8 (norm_eol body)))
| note_pi target data : is_name lat ns target -> ~ is_xml_name target -> pi_data data ->
    note lat ns (pi_text target data) (EvPI (utf8 target) (utf8 (norm_eol (drop_spaces data)))).
(* the handler for it is set *)
Definition heard (h : handlers) (ev : event) : bool := match ev with EvComment _ => h_comment h | EvPI _ _ => h_pi h | _ => false end.
(* a character reference and the number in it *)
Inductive number : list N -> N -> Prop :=
| num_dec ds : ds <> [] -> all_in is_digit ds -> number (txt "&#" ++ ds ++ txt ";") (dec_value ds)
| num_hex ds : ds <> [] -> all_in is_hex ds -> number (txt "&#x" ++ ds ++ txt ";") (hex_value ds).
(* after the note that follows the root element: the rest, unless the application has stopped the parser *)
Definition ends_with (fuel : nat) (rest : bytes) : P bytes :=
  do stopped <- after_token ENormal rest; if stopped then pret rest else epilog_loop fuel rest.
(* between the declarations of the prolog and of the DTD *)
Definition between (p : Role.pstate) : Prop := In (Role.hd p) [Role.H_prolog0; Role.H_prolog1; Role.H_prolog2; Role.H_internalSubset; Role.H_externalSubset0; Role.H_externalSubset1].
(* the only change that a note makes: an XML or text declaration may no longer follow *)
Definition no_longer_first (p : Role.pstate) : Role.pstate :=
  match Role.hd p with Role.H_prolog0 => Role.to Role.H_prolog1 p | Role.H_externalSubset0 => Role.to Role.H_externalSubset1 p | _ => p end.
(* the prolog from here on *)
Definition prolog_from (r : recs) (more closing : bool) (text : bytes) : P bytes :=
  do (k, n) <- scan_as ENormal false text; rc_prolog r ENormal text k n more closing.
(* after the note: the rest of the prolog, unless the application has stopped the parser *)
Definition prolog_on (r : recs) (more closing : bool) (rest : bytes) : P bytes :=
  do p <- get s_parsing;
  match p with SUSPENDED => pret rest | FINISHED => fail XE_ABORTED | _ => prolog_from r more closing rest end.
