(* C06, C07: text reaches the handlers as UTF-8, in any number of calls, all of it. *)
From Coq Require Import String List NArith ZArith Bool Lia.
From Verif Require Import Base Encoding SpecUnicode SpecConv UniLaws UniConv Tok Status State Content SpecSend SendLaws Demo Core.
From Coq Require Import List.
Import ListNotations.
Local Open Scope N_scope.

(* Character data in the encodings that are converted: the character data handler, if it is set, is given the characters
   in UTF-8, however much text the parser has found in one piece; otherwise the default handler is. *)
Theorem C06_delivered : forall (ns : bool) cs after s, s_enc s = EKnown (if ns then latin1_encoding_ns else latin1_encoding) ->
  (h_charData (c_h (s_cfg s)) = true \/ h_default (c_h (s_cfg s)) = true) -> Forall (fun c => c < 256) cs ->
  exists s', char_data_text ENormal (flat_map (fun c => [c]) cs) after s = Ret tt s' /\ delivered (text_handler s) (utf8 cs) s s'.
Proof.
  intros ns cs after s E H D. apply (reaches (if ns then latin1_encoding_ns else latin1_encoding) _ (fun c => c < 256)); auto.
  - destruct ns; exact latin1_transfers.
  - discriminate.
  - destruct ns; reflexivity.
Qed.
Print Assumptions C06_delivered.
Theorem C07_delivered : forall (ns be : bool) cs after s,
  s_enc s = EKnown (if be then if ns then big2_encoding_ns else big2_encoding else if ns then little2_encoding_ns else little2_encoding) ->
  (h_charData (c_h (s_cfg s)) = true \/ h_default (c_h (s_cfg s)) = true) -> scalars cs ->
  exists s', char_data_text ENormal (if be then utf16be cs else utf16le cs) after s = Ret tt s' /\ delivered (text_handler s) (utf8 cs) s s'.
Proof.
  intros ns be cs after s E H D.
  assert (NE : forall c, is_scalar c = true -> utf16_encode be c <> []) by (intros c _ X; unfold utf16_encode, utf16be_encode, utf16le_encode, utf16_units in X; destruct be, (c <? 0x10000); discriminate X).
  destruct be.
  - apply (reaches (if ns then big2_encoding_ns else big2_encoding) utf16be_encode (fun c => is_scalar c = true)); auto; destruct ns; try reflexivity; exact (utf16_transfers true).
  - apply (reaches (if ns then little2_encoding_ns else little2_encoding) utf16le_encode (fun c => is_scalar c = true)); auto; destruct ns; try reflexivity; exact (utf16_transfers false).
Qed.
Print Assumptions C07_delivered.
(* 600 letters e with acute accent, or letters outside the basic plane, are delivered in several calls *)
Definition heard_text (e : EncImpl) (b : bytes) : list bytes :=
  match char_data_text ENormal b 0 (set_enc (EKnown e) (parser_of false all_handlers (fun _ => idle))) with
  | Ret _ s => map (fun x => match snd x with EvCharData t => t | _ => [] end) (rev (s_log s))
  | _ => []
  end.
Example C06_delivered_case : h_charData all_handlers = true /\ Forall (fun c => c < 256) (repeat 0xE9 600) /\
  map (@List.length N) (heard_text latin1_encoding (repeat 0xE9 600)) = [1024; 176]%nat.
Proof. split; [reflexivity|]. split; [apply Forall_forall; intros c H; apply repeat_spec in H; subst; reflexivity|vm_compute; reflexivity]. Qed.
Example C07_delivered_case : scalars (repeat 0x1F600 300) /\
  map (@List.length N) (heard_text little2_encoding (utf16le (repeat 0x1F600 300))) = [1024; 176]%nat /\
  map (@List.length N) (heard_text big2_encoding (utf16be (repeat 0x1F600 300))) = [1024; 176]%nat.
Proof. split; [apply Forall_forall; intros c H; apply repeat_spec in H; subst; reflexivity|split; vm_compute; reflexivity]. Qed.
