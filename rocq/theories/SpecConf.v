(* The encoding that a declaration names, against the one that the declaration is written in. *)
From Coq Require Import String List NArith ZArith Bool.
From Verif Require Import Base Encoding SpecText SpecUnicode SpecLex SpecDecl Tok SpecEnc Status State.
Import ListNotations.

Inductive coding := Latin1 | Ascii | Utf8 | Utf16be | Utf16le.
Definition wide (c : coding) : bool := match c with Utf16be | Utf16le => true | _ => false end.
(* how text is written in it, and the object that stands for it *)
Definition write (c : coding) : N -> list N :=
  match c with Latin1 | Ascii => byte_encode | Utf8 => utf8_encode | Utf16be => utf16be_encode | Utf16le => utf16le_encode end.
Definition object (ns : bool) (c : coding) : EncImpl :=
  match c with
  | Latin1 => latin1_for ns | Ascii => ascii_for ns | Utf8 => utf8_for ns | Utf16be => utf16be_for ns | Utf16le => utf16le_for ns
  end.
(* the names, in a declaration that is itself written in [d] *)
Definition names (d : coding) : list (string * coding) :=
  [("ISO-8859-1", Latin1); ("US-ASCII", Ascii); ("UTF-8", Utf8); ("UTF-16", if wide d then d else Utf16be);
   ("UTF-16BE", Utf16be); ("UTF-16LE", Utf16le)]%string.
Definition says (d : coding) (v : list N) (x : coding) : Prop := exists w, In (w, x) (names d) /\ same_name v (txt w).
Definition unknown (d : coding) (v : list N) : Prop := forall x, ~ says d v x.
(* text in [d] can be read on in [x]: characters have the same size and, if they are two bytes, the same order *)
Definition agrees (d x : coding) : Prop := wide d = wide x /\ (wide d = true -> d = x).
(* What comes of a declaration [src] in text written in [d], in a parser that was in state [s]. *)
Definition settled (ns : bool) (d : coding) (src : decl_src) (s : st) (o : out unit) : Prop :=
  match s_protocol s, ds_encoding src with
  | None, Some a =>
      match o with
      | Ret _ s' => (exists x, says d (as_value a) x /\ agrees d x /\ s_enc s' = EKnown (object ns x)) \/
                    unknown d (as_value a) /\ h_unknown (c_h (s_cfg s)) = true
      | Fail e _ => (exists x, says d (as_value a) x /\ ~ agrees d x /\ e = XE_INCORRECT_ENCODING) \/
                    unknown d (as_value a) /\ e = XE_UNKNOWN_ENCODING
      | Die _ => True
      end
  | _, _ => match o with Ret _ s' => s_enc s' = s_enc s | Fail _ _ => False | Die _ => True end
  end.
