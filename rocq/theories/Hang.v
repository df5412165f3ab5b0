(* A parser that never returns: the start of the document element is seen where the grammar of the prolog has ended. *)
From Coq Require Import String List NArith ZArith Bool.
From Verif Require Import Base Encoding Tok TokMisc Status Role State Bind Content Prolog Core Demo.
From Verif Require Api.
From Coq Require Import List.
Import ListNotations.
Local Open Scope nat_scope.

Record stuck (buf : bytes) (s : st) : Prop := {
  k_role : Role.hd (s_role s) = H_error;
  k_enc : match s_enc s with EKnown e => prologTok e buf = Ok (T_INSTANCE_START, Some 0) | EInit _ => False end;
  k_parsing : s_parsing s = PARSING;
  k_default : h_default (c_h (s_cfg s)) = false
}.
Lemma stuck_same buf s s' : s_role s' = s_role s -> s_enc s' = s_enc s -> s_parsing s' = s_parsing s -> s_cfg s' = s_cfg s -> stuck buf s -> stuck buf s'.
Proof. intros E1 E2 E3 E4 [A B C D]. split; [rewrite E1|rewrite E2|rewrite E3|rewrite E4]; assumption. Qed.
Lemma stuck_scan buf s : stuck buf s -> scan false buf s = Ret (T_INSTANCE_START, Some 0) s.
Proof. intros [_ B _ _]. unfold scan, lift. destruct (s_enc s); [contradiction|]. rewrite B. reflexivity. Qed.
Lemma stuck_default buf s t tok k : stuck buf s -> reportDefault t tok k s = Ret tt s.
Proof. intros [_ _ _ D]. unfold reportDefault, pbind, handler, get, pret. cbv beta. rewrite D. reflexivity. Qed.
Lemma stuck_prolog n buf h a : forall s, stuck buf s -> rc_prolog (knot n) ENormal buf T_INSTANCE_START (Some 0) h a s = Die EFuel.
Proof.
  induction n as [|n IH]; intros s Hs; [reflexivity|]. cbn [knot rc_prolog]. unfold doProlog.
  unfold pbind at 1, set_event at 1. cbn [is_internal]. unfold upd at 1. set (s1 := set_ev _ s).
  assert (H1 : stuck buf s1) by (revert Hs; apply stuck_same; reflexivity). clearbody s1. clear s Hs.
  unfold pbind at 1, set_event_end_tok at 1. cbn [is_internal]. unfold upd at 1. set (s2 := set_evEnd _ s1).
  assert (H2 : stuck buf s2) by (revert H1; apply stuck_same; reflexivity). clearbody s2. clear s1 H1.
  unfold pbind at 1, encoding at 1. cbv zeta. change (tok_is_error T_INSTANCE_START) with false. cbv iota.
  unfold pbind at 1, rest_after at 1, inc at 1, lift at 1. cbn [inc_start].
  unfold pbind at 1, role_of at 1. unfold pbind at 1, get at 1. unfold pbind at 1, lift at 1.
  generalize (known (c_ns (s_cfg s2)) (s_enc s2)). intros e. unfold token_role. rewrite (k_role _ _ H2). unfold pbind at 1, upd at 1, pret at 1. set (s3 := set_role _ s2).
  assert (H3 : stuck buf s3) by (revert H2; apply stuck_same; reflexivity). clearbody s3. clear s2 H2.
  unfold pbind at 1, role_step at 1, role_action at 1. unfold pbind at 1, pret at 1, pret at 1.
  change (negb (tok_eqb T_INSTANCE_START T_BOM)) with true. cbn [when].
  unfold pbind at 1. rewrite (stuck_default buf s3 _ _ _ H3). unfold pbind at 1, get at 1. rewrite (k_parsing _ _ H3).
  unfold pbind at 1, scan_as at 1. rewrite (stuck_scan buf s3 H3). apply IH, H3.
Qed.
Lemma stuck_run n buf c f : stuck buf c -> s_processor c = PrProlog -> run (knot n) c PARSING f buf = Err EFuel.
Proof.
  intros Hc Hp. unfold run. set (c1 := set_evEnd None _).
  assert (H1 : stuck buf c1) by (destruct Hc as [A B C D]; split; [exact A|exact B|reflexivity|exact D]).
  assert (P1 : s_processor c1 = PrProlog) by exact Hp. clearbody c1.
  unfold process, pbind at 1, get at 1. rewrite P1. unfold prologProcessor, pbind at 1. rewrite (stuck_scan buf c1 H1).
  unfold pbind at 1, get at 1. rewrite (stuck_prolog n buf _ _ c1 H1). reflexivity.
Qed.

(* the application pauses at a comment and goes on; the comment is in a parameter entity *)
Definition at_comment (log : list (nat * event)) : reaction := match log with (_, EvComment _) :: _ => halt true | _ => idle end.
Definition comments : handlers :=
  {| h_startElement := true; h_endElement := true; h_charData := false; h_pi := false; h_comment := true;
     h_startCdata := false; h_endCdata := false; h_default := false; h_startDoctype := false; h_endDoctype := false;
     h_unparsed := false; h_notation := false; h_startNs := false; h_endNs := false; h_notStandalone := false;
     h_external := false; h_skipped := false; h_unknown := false; h_elementDecl := false; h_attlist := false;
     h_entityDecl := false; h_xmlDecl := false |}.
Definition hang_start : list (Api.op (C := st)) :=
  [parse_op "<!DOCTYPE a [<!ENTITY % p '<!--x-->]><a'> %p;" false; Api.OpResume].
Definition hang_end : Api.op (C := st) := parse_op "<b/>" true.
(* the part of a parser outside its core *)
Definition fill {C D} (a : Api.api C) (c : D) : Api.api D :=
  {| Api.buffer := Api.buffer a; Api.bufferStart := Api.bufferStart a; Api.bufferEnd := Api.bufferEnd a;
     Api.parseEndByteIndex := Api.parseEndByteIndex a; Api.parseEndIdx := Api.parseEndIdx a; Api.eventPtr := Api.eventPtr a;
     Api.eventEndPtr := Api.eventEndPtr a; Api.positionIdx := Api.positionIdx a; Api.position := Api.position a;
     Api.errorCode := Api.errorCode a; Api.parsing := Api.parsing a; Api.finalBuffer := Api.finalBuffer a;
     Api.child := Api.child a; Api.param_entity := Api.param_entity a; Api.failed := Api.failed a; Api.core := c |}.
Definition hang_config : st := parser_of false comments at_comment.
Definition hang_frame : Api.api unit := Eval vm_compute in
  match Api.steps (run (knot 100)) start position hang_start (new_parser hang_config) with
  | Ok (a, _) => fill a tt | Err _ => fill (new_parser hang_config) tt end.
Lemma hang_reached :
  match Api.steps (run (knot 100)) start position hang_start (new_parser hang_config) with
  | Ok (a, _) => fill a tt = hang_frame /\ s_processor (Api.core a) = PrProlog /\ stuck (ascii "<b/>") (Api.core a)
  | Err _ => False
  end.
Proof.
  assert (H : match Api.steps (run (knot 100)) start position hang_start (new_parser hang_config) with
    | Ok (a, _) => fill a tt = hang_frame /\ s_processor (Api.core a) = PrProlog /\ Role.hd (s_role (Api.core a)) = H_error /\
        match s_enc (Api.core a) with EKnown e => prologTok e (ascii "<b/>") = Ok (T_INSTANCE_START, Some 0) | EInit _ => False end /\
        s_parsing (Api.core a) = PARSING /\ h_default (c_h (s_cfg (Api.core a))) = false
    | Err _ => False end).
  { vm_compute. repeat split. }
  destruct (Api.steps _ _ _ _ _) as [[a l]|e]; [|exact H]. destruct H as (A & B & C & D & E & F).
  split; [exact A|]. split; [exact B|]. split; [exact C|exact D|exact E|exact F].
Qed.
Lemma hang_step (R : st -> XML_Parsing -> bool -> bytes -> res (Api.prun st)) (begin : st -> res (option st)) (upd : st -> bytes -> Position -> res Position) (c : st) :
  R c PARSING true (ascii "<b/>") = Err EFuel -> Api.step R begin upd hang_end (fill hang_frame c) = Err EFuel.
Proof. intros HR. vm_compute in HR. vm_compute. rewrite HR. reflexivity. Qed.
Lemma hang : exists a l, Api.steps (run (knot 100)) start position hang_start (new_parser hang_config) = Ok (a, l) /\
  forall n, Api.step (run (knot n)) start position hang_end a = Err EFuel.
Proof.
  pose proof hang_reached as H. destruct (Api.steps _ _ _ _ _) as [[a l]|e]; [|contradiction]. destruct H as (A & B & C).
  exists a, l. split; [reflexivity|]. intros n.
  assert (Ea : a = fill hang_frame (Api.core a)) by (rewrite <- A; destruct a; reflexivity).
  rewrite Ea. apply hang_step, stuck_run; assumption.
Qed.
