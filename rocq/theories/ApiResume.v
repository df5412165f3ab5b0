(* XML_ResumeParser. *)
From Coq Require Import List NArith ZArith Bool Arith Lia.
From Verif Require Import Base Status TokMisc Api SpecApi ApiLaws.
Import ListNotations.
Local Open Scope nat_scope.

(* ---- XML_ResumeParser ---- *)
Lemma resumed {C} (run : C -> XML_Parsing -> bool -> bytes -> res (prun C)) start upd s s' a : parsing s = SUSPENDED -> failed s = false -> step run start upd OpResume s = Ok (s', a) ->
  exists r, run (core s) PARSING (finalBuffer s) (firstn (parseEndIdx s - bufferStart s) (skipn (bufferStart s) (buffer s))) = Ok r /\
    core s' = r_core r /\ errorCode s' = r_err r /\ finalBuffer s' = finalBuffer s /\
    match r_err r with
    | XE_NONE => failed s' = false /\ parsing s' = match r_parsing r with INITIALIZED | PARSING => if finalBuffer s then FINISHED else r_parsing r | p => p end /\
                 a = A_status (if parsing_eqb (r_parsing r) SUSPENDED then ST_SUSPENDED else ST_OK)
    | _ => failed s' = true /\ a = A_status ST_ERROR
    end.
Proof.
  intros P F. cbn [step]. unfold resumeParser. rewrite P. cbn [parsing_eqb negb set_parsing buffer bufferStart].
  destruct (length (buffer s) <=? bufferStart s); [discriminate|]. unfold call_processor. cbn [buffer bufferStart parseEndIdx core parsing finalBuffer].
  destruct (slice _ _ _) as [b|] eqn:Eb; cbn [bind]; [|discriminate]. apply slice_ok in Eb as (_ & _ & ->). change (failed (set_parsing PARSING s)) with (failed s). change (core (set_parsing PARSING s)) with (core s). change (parsing (set_parsing PARSING s)) with PARSING. change (finalBuffer (set_parsing PARSING s)) with (finalBuffer s). change (parseEndIdx (set_parsing PARSING s)) with (parseEndIdx s). change (buffer (set_parsing PARSING s)) with (buffer s). rewrite F.
  destruct (run _ _ _ _) as [r|]; cbn [bind]; [|discriminate].
  set (x := set_event _ _ _). assert (X : core x = r_core r /\ errorCode x = r_err r /\ finalBuffer x = finalBuffer s /\ failed x = false /\ parsing x = r_parsing r) by (repeat split; exact F).
  clearbody x. destruct X as (X1 & X2 & X3 & X4 & X5). rewrite X2, X5, X3.
  intros H. exists r. split; [reflexivity|].
  assert (Y : forall y : api C, sync_position upd x = Ok y -> core y = core x /\ errorCode y = errorCode x /\ finalBuffer y = finalBuffer x /\ failed y = failed x /\ parsing y = parsing x).
  { intros y. unfold sync_position. destruct (positionIdx x); [|discriminate]. destruct (slice _ _ _); cbn [bind]; [|discriminate]. destruct (upd _ _ _); cbn [bind]; [|discriminate].
    intros E. injection E as <-. repeat split. }
  destruct (r_err r) eqn:Ee; cbn [is_none negb] in H; try (cbn [bind] in H; injection H as <- <-; cbn; repeat split; auto; fail).
  destruct (r_parsing r) eqn:Ep; [destruct (finalBuffer s) eqn:Ef|destruct (finalBuffer s) eqn:Ef| |].
  all: try (cbn [bind] in H; injection H as <- <-; cbn; repeat split; auto; fail).
  all: cbn [bind] in H; destruct (sync_position _ _) as [y|] eqn:Es; cbn [bind] in H; [|discriminate]; injection H as <- <-;
    destruct (Y _ eq_refl) as (-> & -> & -> & -> & ->); cbn; repeat split; congruence.
Qed.
