(* An application that has set the default handler and no other. *)
From Coq Require Import List NArith Bool.
From Verif Require Import Base Status State Core.
From Verif Require Api.
Import ListNotations.

Definition only_default : handlers :=
  {| h_startElement := false; h_endElement := false; h_charData := false; h_pi := false; h_comment := false;
     h_startCdata := false; h_endCdata := false; h_default := true; h_startDoctype := false; h_endDoctype := false;
     h_unparsed := false; h_notation := false; h_startNs := false; h_endNs := false; h_notStandalone := false;
     h_external := false; h_skipped := false; h_unknown := false; h_elementDecl := false; h_attlist := false;
     h_entityDecl := false; h_xmlDecl := false |}.
(* XML_SetDefaultHandler, not XML_SetDefaultHandlerExpand *)
Definition defaults_only (c : config) : Prop := c_h c = only_default /\ c_expand c = false.
(* the text that the default handler has got *)
Definition passed (log : list (nat * event)) : bytes :=
  flat_map (fun x => match snd x with EvDefault b => b | _ => [] end) (rev log).
(* a byte order mark is no part of the text *)
Definition without_bom (b : bytes) : bytes :=
  match b with
  | b0 :: b1 :: b2 :: r => if ((b0 =? 239) && (b1 =? 187) && (b2 =? 191))%N then r else b
  | _ => b
  end.
(* the first two bytes do not say that this is UTF-16 *)
Definition not_utf16 (b : bytes) : Prop :=
  match b with
  | b0 :: b1 :: _ => b0 <> 0%N /\ b1 <> 0%N /\ ~ (b0 = 254%N /\ b1 = 255%N) /\ ~ (b0 = 255%N /\ b1 = 254%N)
  | _ => True
  end.
