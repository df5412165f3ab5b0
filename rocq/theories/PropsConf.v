(* C63: a declared encoding that contradicts the one the text is written in is refused. *)
From Coq Require Import String List NArith ZArith Bool Lia.
From Verif Require Import Base Encoding SpecText SpecUnicode SpecLex SpecDecl Tok SpecEnc Status State Content Prolog SpecConf ConfLaws Demo Core.
From Coq Require Import List.
Import ListNotations.
Local Open Scope N_scope.

(* A well-formed XML or text declaration in text that the parser reads as [d].  If the application named an encoding, or
   the declaration names none, the encoding stays.  Otherwise the declared one, if it is supported, is used from here on
   exactly if it agrees with [d], and is an error otherwise; an unsupported one is an error unless a handler supplies it.
   Missing: names of length 127, on which the code panics (C43_never_panics_refuted). *)
Theorem C63_conflict_partial : forall general d src after s, s_enc s = EKnown (object (c_ns (s_cfg s)) d) -> decl_ok general src ->
  (forall a, ds_encoding src = Some a -> length (as_value a) <> 127%nat) ->
  settled (c_ns (s_cfg s)) d src s (processXmlDecl general (flat_map (write d) (decl_text src)) after s).
Proof. exact declared. Qed.
Print Assumptions C63_conflict_partial.

Definition att (n : string) (v : list N) : att_src := {| as_space := [32]; as_name := txt n; as_eq1 := []; as_eq2 := []; as_quote := 34; as_value := v |}.
Definition text_decl (n : string) : decl_src :=
  {| ds_version := None; ds_encoding := Some (att "encoding" (txt n)); ds_standalone := None; ds_space := [] |}.
(* what comes of it: the size of a character afterwards, or the error *)
Definition comes (d : coding) (n : string) : option (nat + XML_Error) :=
  match processXmlDecl true (flat_map (write d) (decl_text (text_decl n))) 0 (set_enc (EKnown (object false d)) (parser_of false all_handlers (fun _ => idle))) with
  | Ret _ s => match s_enc s with EKnown e => Some (inl (minbpc e)) | _ => None end
  | Fail e _ => Some (inr e)
  | Die _ => None
  end.
Example C63_case : decl_ok true (text_decl "UTF-16") /\
  comes Utf8 "UTF-16" = Some (inr XE_INCORRECT_ENCODING) /\ comes Utf16le "utf-16" = Some (inl 2%nat) /\
  comes Utf16le "UTF-16BE" = Some (inr XE_INCORRECT_ENCODING) /\ comes Utf16le "UTF-8" = Some (inr XE_INCORRECT_ENCODING) /\
  comes Utf16be "UTF-16" = Some (inl 2%nat) /\ comes Utf16be "UTF-16LE" = Some (inr XE_INCORRECT_ENCODING) /\
  comes Utf8 "ISO-8859-1" = Some (inl 1%nat).
Proof.
  split.
  - repeat split; cbn [opt_ok text_decl ds_version ds_encoding ds_standalone ds_space as_value att]; auto; try discriminate; try apply Forall_nil;
      try (repeat (apply Forall_cons; [reflexivity|]); apply Forall_nil).
    exists 85, (txt "TF-16"). split; reflexivity.
  - repeat split; vm_compute; reflexivity.
Qed.
