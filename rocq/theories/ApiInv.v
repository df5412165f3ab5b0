(* Invariants of what is behind the calling interface: [I] while the parser has not failed, [W] afterwards. *)
From Coq Require Import List NArith ZArith Bool Arith.
From Verif Require Import Base Status TokMisc Api.
Import ListNotations.
Local Open Scope nat_scope.

(* a call that does not change a setting *)
Definition plain {C} (o : op (C := C)) : Prop := match o with OpSetting _ => False | _ => True end.

Section Inv.
Context {C : Type}.
Variable run : C -> XML_Parsing -> bool -> bytes -> res (prun C).
Variable start : C -> res (option C).
Variable upd : C -> bytes -> Position -> res Position.
Variables I W : C -> Prop.
Hypothesis IW : forall c, I c -> W c.
Hypothesis Hrun : forall c p f b r, I c -> run c p f b = Ok r -> if is_none (r_err r) then I (r_core r) else W (r_core r).
Hypothesis Hstart : forall c c', I c -> start c = Ok (Some c') -> I c'.
Hypothesis HstartW : forall c c', W c -> start c = Ok (Some c') -> W c'.

Definition holds (a : api C) : Prop := if failed a then W (core a) else I (core a).
(* after the processor: it may be about to be marked as failed *)
Definition holds' (a : api C) : Prop :=
  if failed a then W (core a) else if is_none (errorCode a) then I (core a) else W (core a).

Lemma call_inv from to a a' n : holds a -> call_processor run from to a = Ok (a', n) -> holds' a'.
Proof.
  unfold holds, holds', call_processor. intros H E. destruct (slice _ _ _); [|discriminate]. cbn [bind] in E.
  destruct (failed a) eqn:Ef.
  - injection E as <- <-. rewrite Ef. assumption.
  - destruct (run _ _ _ _) as [r|] eqn:Er; [|discriminate]. cbn [bind] in E. injection E as <- <-. cbn.
    rewrite Ef. exact (Hrun _ _ _ _ _ H Er).
Qed.
Lemma enter_inv a x : holds a -> enter start a = Ok x ->
  match x with inl (a', _) => holds a' | inr a' => holds a' /\ failed a' = failed a /\ errorCode a' = errorCode a end.
Proof.
  unfold enter, holds. intros H E. destruct (parsing a); try (injection E as <-; cbn; auto).
  destruct (child a); [injection E as <-; cbn; auto|].
  destruct (start (core a)) as [[c|]|] eqn:Es; [| |discriminate]; cbn [bind] in E; injection E as <-; cbn; [|assumption].
  destruct (failed a); repeat split; eauto.
Qed.
Lemma sync_inv (a a' : api C) : sync_position upd a = Ok a' -> core a' = core a /\ failed a' = failed a /\ errorCode a' = errorCode a.
Proof.
  unfold sync_position. intros E. destruct (positionIdx a); [|discriminate].
  destruct (slice _ _ _); [|discriminate]. cbn [bind] in E. destruct (upd _ _ _); [|discriminate]. cbn [bind] in E.
  injection E as <-. repeat split.
Qed.
Lemma holds_sync a a' : holds a -> sync_position upd a = Ok a' -> holds a'.
Proof. intros H E. apply sync_inv in E as (E1 & E2 & _). unfold holds. rewrite E1, E2. exact H. Qed.
Lemma holds_fail a : holds' a -> holds (fail a).
Proof. unfold holds, holds'. cbn. destruct (failed a), (is_none (errorCode a)); auto. Qed.
Lemma holds_ok a : holds' a -> is_none (errorCode a) = true -> holds a.
Proof. unfold holds, holds'. intros H E. rewrite E in H. exact H. Qed.
Ltac sy := match goal with
  | E : bind (sync_position upd ?x) _ = Ok _ |- _ =>
      let Es := fresh in destruct (sync_position upd x) eqn:Es; [|discriminate]; cbn [bind] in E; injection E as <- <-;
      eapply holds_sync; [|exact Es]
  | E : Ok _ = Ok _ |- _ => injection E as <- <-
  end.
Lemma parseBuffer_inv len f a a' s : holds a -> parseBuffer run start upd len f a = Ok (a', s) -> holds a'.
Proof.
  unfold parseBuffer. intros H E. destruct (enter start a) as [x|] eqn:Ee; [|discriminate]. cbn [bind] in E.
  apply (enter_inv a x H) in Ee. destruct x as [[a1 s1]|a1]; [injection E as <- <-; exact Ee|].
  destruct (call_processor run _ _ _) as [[a2 n]|] eqn:Ec; [|discriminate]. cbn [bind] in E.
  apply call_inv in Ec; [|exact (proj1 Ee)].
  set (a3 := set_buffer _ _ _ _) in E. change (holds' a3) in Ec. clearbody a3.
  destruct (is_none (errorCode a3)) eqn:En; cbn [negb] in E; [|sy; apply holds_fail; exact Ec].
  pose proof (holds_ok _ Ec En) as H3. destruct (parsing a3), f; sy; exact H3.
Qed.
Lemma getBuffer_inv len m (a a' : api C) k : getBuffer len m a = Ok (a', k) -> core a' = core a /\ failed a' = failed a.
Proof.
  unfold getBuffer. intros E. 
  repeat (match type of E with
          | (if ?b then _ else _) = _ => destruct b
          | (match ?b with _ => _ end) = _ => destruct b
          | bind ?m _ = _ => let x := fresh in destruct m as [x|] eqn:?; [|discriminate]; cbn [bind] in E
          end; try discriminate; try (injection E as <- <-; split; reflexivity); cbv zeta in E).
  all: injection E as <- <-; cbn; revert Heqr; intros E; destruct (_ <=? _)%Z in E;
    [ destruct (_ <? _) in E; [|injection E as <-; auto];
      destruct (copy_within _ _ _) in E; [|discriminate]; injection E as <-; auto
    | destruct (if (_ =? 0)%Z then _ else _) in E; [|discriminate]; cbn [bind] in E;
      destruct (grow _ _ _) as [[z|]|] in E; try discriminate; cbn [bind] in E; destruct m in E; cbn [negb] in E; [|discriminate];
      destruct (_ <? _) in E; [|injection E as <-; auto];
      destruct (copy_within _ _ _) in E; [|discriminate]; injection E as <-; auto ].
Qed.
Lemma parse_inv d f m a a' s : holds a -> parse run start upd d f m a = Ok (a', s) -> holds a'.
Proof.
  unfold parse. intros H E. destruct (enter start a) as [x|] eqn:Ee; [|discriminate]. cbn [bind] in E.
  apply (enter_inv a x H) in Ee. destruct x as [[a1 s1]|a1]; [injection E as <- <-; exact Ee|].
  destruct Ee as (H1 & _). destruct d as [|c d].
  - cbv zeta in E. destruct f; cbn [negb] in E; [|sy; exact H1].
    destruct (call_processor run _ _ _) as [[a2 n]|] eqn:Ec; [|discriminate]. cbn [bind] in E.
    apply call_inv in Ec; [|exact H1].
    set (a3 := set_buffer _ _ _ _) in E. change (holds' a3) in Ec. clearbody a3.
    destruct (is_none (errorCode a3)) eqn:En; cbn [negb] in E; [|sy; apply holds_fail; exact Ec].
    pose proof (holds_ok _ Ec En) as H3. destruct (parsing a3); sy; exact H3.
  - destruct (getBuffer _ _ _) as [[a2 k]|] eqn:Eg; [|discriminate]. cbn [bind] in E.
    apply getBuffer_inv in Eg as (G1 & G2).
    assert (H2 : holds a2) by (unfold holds; rewrite G1, G2; exact H1).
    destruct k as [k|]; [|sy; exact H2]. destruct (k <? _); [discriminate|].
    eapply parseBuffer_inv; [|exact E]. exact H2.
Qed.
Lemma resume_inv a a' s : holds a -> resumeParser run upd a = Ok (a', s) -> holds a'.
Proof.
  unfold resumeParser. intros H E. destruct (negb _); [sy; exact H|]. cbv zeta in E. destruct (_ <=? _); [discriminate|].
  destruct (call_processor run _ _ _) as [[a3 n]|] eqn:Ec; [|discriminate]. cbn [bind] in E.
  apply call_inv in Ec; [|exact H].
  destruct (is_none (errorCode a3)) eqn:En; cbn [negb] in E; [|sy; apply holds_fail; exact Ec].
  pose proof (holds_ok _ Ec En) as H3. destruct (parsing a3), (finalBuffer a3); sy; exact H3.
Qed.
Lemma stop_inv b (a : api C) : holds a -> holds (fst (stopParser b a)).
Proof. unfold stopParser, holds. destruct (parsing a), b, (param_entity a); cbn; auto. Qed.
Lemma locate_inv (a a' : api C) : locate upd a = Ok a' -> core a' = core a /\ failed a' = failed a.
Proof.
  unfold locate. intros E. destruct (positionIdx a); [|discriminate]. destruct (eventPtr a); [|injection E as <-; auto].
  destruct (_ <=? _); [|injection E as <-; auto].
  destruct (slice _ _ _); [|discriminate]. cbn [bind] in E. destruct (upd _ _ _); [|discriminate]. cbn [bind] in E.
  injection E as <-. auto.
Qed.
Lemma step_inv o a a' x : plain o -> holds a -> step run start upd o a = Ok (a', x) -> holds a'.
Proof.
  intros Ho H E. destruct o; cbn [step] in E; try contradiction.
  - destruct (parse _ _ _ _ _ _ _) as [[b s]|] eqn:Ep; [|discriminate]. injection E as <- _. eapply parse_inv; eassumption.
  - destruct (getBuffer _ _ _) as [[b s]|] eqn:Ep; [|discriminate]. injection E as <- _.
    apply getBuffer_inv in Ep as (G1 & G2). unfold holds. rewrite G1, G2. exact H.
  - injection E as <- _. exact H.
  - destruct (parseBuffer _ _ _ _ _ _) as [[b s]|] eqn:Ep; [|discriminate]. injection E as <- _. eapply parseBuffer_inv; eassumption.
  - pose proof (stop_inv resumable a H). destruct (stopParser resumable a). injection E as <- _. assumption.
  - destruct (resumeParser _ _ _) as [[b s]|] eqn:Ep; [|discriminate]. injection E as <- _. eapply resume_inv; eassumption.
  - unfold getCurrentLineNumber in E. destruct (locate upd a) eqn:El; [|discriminate]. injection E as <- _.
    apply locate_inv in El as (G1 & G2). unfold holds. rewrite G1, G2. exact H.
  - unfold getCurrentColumnNumber in E. destruct (locate upd a) eqn:El; [|discriminate]. injection E as <- _.
    apply locate_inv in El as (G1 & G2). unfold holds. rewrite G1, G2. exact H.
Qed.
Lemma steps_inv os : forall a a' l, Forall plain os -> holds a -> steps run start upd os a = Ok (a', l) -> holds a'.
Proof.
  induction os as [|o os IH]; intros a a' l Ho H E; cbn [steps] in E; [injection E as <- _; exact H|].
  inversion Ho; subst. destruct (step _ _ _ _ _) as [[b s]|] eqn:Es; [|discriminate]. cbn [bind] in E.
  destruct (steps _ _ _ _ _) as [[b' l']|] eqn:Et; [|discriminate]. injection E as <- _.
  eapply IH; [eassumption| |exact Et]. eapply step_inv; eassumption.
Qed.
End Inv.
