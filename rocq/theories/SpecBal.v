(* What it means that a piece of text leaves the open elements alone. *)
From Coq Require Import List.
From Verif Require Import Base Encoding State SpecFind SpecNest.
Import ListNotations.

(* every element that was open in s is open in s', and the number of open elements is counted correctly *)
Definition still_open (s s' : st) : Prop :=
  exists opened, s_tags s' = opened ++ s_tags s /\ s_tagLevel s' = s_tagLevel s + length opened.
(* exactly the elements that were open in s are open in s' *)
Definition same_elements (s s' : st) : Prop := s_tags s' = s_tags s /\ s_tagLevel s' = s_tagLevel s.
(* the encoding in which a text is read: that of the entity, or the internal one for replacement text *)
Definition read_in (t : enctype) (s : st) (e : EncImpl) : Prop :=
  match t with
  | ENormal => s_enc s = EKnown e
  | EInternal => e = if c_ns (s_cfg s) then internal_utf8_encoding_ns else internal_utf8_encoding
  end.
(* a document that is accepted from an application that pauses and resumes is not refused without the pauses *)
Definition pauses_hide_no_error : Prop := forall n k c pause text l,
  feed n k [text] (new (with_app (pausing pause) c)) = Ok (Some l) ->
  feed n k [text] (new (with_app (fun _ => reaction0) c)) <> Ok None.
(* a parser whose application hears where elements begin and end, and has heard of those now open; parsers made for
   external entities have their own numbers in the log of handler calls *)
Record follows (s : st) : Prop := {
  fo_start : h_startElement (c_h (s_cfg s)) = true;
  fo_end : h_endElement (c_h (s_cfg s)) = true;
  fo_number : s_pid s <= length (s_log s) /\ forall q e, In (q, e) (s_log s) -> q < length (s_log s);
  fo_nested : forall q, nested_so_far (elements q (s_log s));
  fo_open : balanced (elements (s_pid s) (s_log s) ++ map (fun t => Close (t_name t)) (s_tags s))
}.
(* the element events between s and s' are nested by themselves, without ends of elements that began before s *)
Definition heard_between (s s' : st) (complete : Prop) : Prop :=
  exists evs, elements (s_pid s) (s_log s') = elements (s_pid s) (s_log s) ++ evs /\ nested_so_far evs /\ (complete -> balanced evs) /\ follows s'.
