(* Character data and CDATA sections. *)
From Coq Require Import List NArith Bool String.
From Verif Require Import Base SpecText SpecUnicode SpecNames SpecLex SpecMisc Status State.
From Coq Require Import List.
Import ListNotations.
Local Open Scope N_scope.

(* character data: XML characters without "<" and "&", and "]]>" does not occur *)
Definition chars (text : list N) : Prop :=
  all_in (fun c => is_xml_char c && negb ((c =? 0x3C) || (c =? 0x26))) text /\ ~ occurs (txt "]]>") text.
(* it ends in front of a tag or a reference *)
Definition at_markup (rest : list N) : Prop := exists c r, rest = c :: r /\ (c = 0x3C \/ c = 0x26).
(* what may stand in a CDATA section *)
Definition section_body (body : list N) : Prop := xml_text body /\ ~ occurs (txt "]]>") (body ++ txt "]]").
(* between the states s and s' the application has been told the events, in this order, and nothing else has changed but
   the positions of the current event *)
Definition told (evs : list event) (s s' : st) : Prop :=
  exists x y, s' = set_evEnd x (set_ev y (set_log (rev (map (fun ev => (s_pid s, ev)) evs) ++ s_log s) s)).
