(* From the simulation to the properties of the calling interface *)
From Coq Require Import List NArith ZArith Bool Arith Lia ZifyBool ZifyNat ZifyN.
From Verif Require Import Base Status TokMisc Api SpecApi ApiLaws.
Import ListNotations.
Local Open Scope nat_scope.

Section S.
Context {C : Type}.
Variable run : C -> XML_Parsing -> bool -> bytes -> res (prun C).
Variable start : C -> res (option C).
Variable upd : C -> bytes -> Position -> res Position.
Variables is_child is_pe : bool.
Hypothesis bounds : in_bounds run.

Notation reach c os s l := (steps run start upd os (fresh is_child is_pe c) = Ok (s, l)).

Lemma reach_view c os s l : Forall small os -> reach c os s l -> disciplined 0 0 os l ->
  exists m, calls run start is_child is_pe (machine0 c) os m l /\ view is_child is_pe s m.
Proof.
  intros S R D. exact (steps_sim run start upd is_child is_pe bounds os _ (machine0 c) s l 0 0 (view_fresh _ _ _) (Nat.le_refl _) (Nat.le_refl _) S R D).
Qed.

Lemma stream c os s l : Forall small os -> reach c os s l -> disciplined 0 0 os l ->
  exists m, calls run start is_child is_pe (machine0 c) os m l /\
    core s = m_core m /\ parsing s = m_status m /\ errorCode s = m_error m /\
    firstn (bufferEnd s - bufferStart s) (skipn (bufferStart s) (buffer s)) = skipn (m_used m) (m_doc m).
Proof.
  intros S R D. destruct (reach_view _ _ _ _ S R D) as (m & CL & V). exists m. split; [exact CL|].
  split; [apply V|]. split; [apply V|]. split; [apply V|]. exact (view_unread _ _ _ _ V).
Qed.

Lemma context c os s l n mem s' k : Forall small os -> reach c os s l -> disciplined 0 0 os l -> (n <= i32_max)%Z ->
  getBuffer n mem s = Ok (s', Some k) -> bufferStart s < bufferEnd s ->
  Nat.min 1024 (bufferStart s) <= bufferStart s' /\
  exists m, calls run start is_child is_pe (machine0 c) os m l /\
    firstn (bufferStart s') (buffer s') = skipn (m_used m - bufferStart s') (firstn (m_used m) (m_doc m)).
Proof.
  intros S R D L G U. destruct (reach_view _ _ _ _ S R D) as (m & CL & V).
  destruct (view_getBuffer _ _ _ _ _ _ _ _ V L G) as (V' & _ & _ & _ & _ & K). split; [exact (K U)|].
  exists m. split; [exact CL|]. assert (T := v_text _ _ _ _ V'). assert (A := v_arith _ _ _ _ V'). cbn [m_doc m_used with_area] in *.
  replace (firstn (bufferStart s') (buffer s')) with (firstn (bufferStart s') (firstn (bufferEnd s') (buffer s')))
    by (rewrite firstn_firstn; f_equal; clear - A; lia).
  rewrite T, skipn_firstn_comm. f_equal; [clear - A; lia|]. f_equal. clear - A; lia.
Qed.

Lemma last_disc (os : list (op (C := C))) : forall l room written o a, length l = length os -> disciplined room written (os ++ [o]) (l ++ [a]) ->
  disciplined room written os l.
Proof.
  induction os as [|o os IH]; intros l room written o' a H D; [destruct l; [exact I|discriminate]|].
  destruct l as [|x l]; [discriminate|]. injection H as H. cbn [app disciplined] in *.
  destruct o; cbn in *; try (eapply IH; eassumption); try contradiction.
  - destruct x; [eapply IH; eassumption|destruct n; eapply IH; eassumption|eapply IH; eassumption..].
  - destruct D as (D1 & D2). split; [exact D1|eapply IH; eassumption].
  - destruct D as (D1 & D2). split; [exact D1|eapply IH; eassumption].
Qed.
Lemma steps_length os : forall s s' l, steps run start upd os s = Ok (s', l) -> length l = length os.
Proof.
  induction os as [|o os IH]; intros s s' l H; cbn [steps] in H; [injection H as <- <-; reflexivity|].
  destruct (step _ _ _ _ _) as [(s1, a)|]; cbn [bind] in H; [|discriminate].
  destruct (steps _ _ _ _ s1) as [(s2, l2)|] eqn:E2; cbn [bind] in H; [|discriminate]. injection H as <- <-. cbn. f_equal. eauto.
Qed.
Lemma disc_permitted os : forall s (m : machine C) s' l room written o a, view is_child is_pe s m -> room <= m_room m -> written <= length (m_pending m) ->
  Forall small os -> steps run start upd os s = Ok (s', l) -> disciplined room written (os ++ [o]) (l ++ [a]) ->
  exists m', view is_child is_pe s' m' /\ permitted m' o.
Proof.
  induction os as [|o os IH]; intros s m s' l room written o' a V R W SM H D; cbn [steps] in H.
  - injection H as <- <-. exists m. split; [exact V|]. destruct o'; cbn in *; try exact I; try contradiction.
    + destruct D as (D & _). clear - D R. lia.
    + destruct D as (D & _). clear - D W. lia.
  - destruct (step _ _ _ _ _) as [(s1, b)|] eqn:E; cbn [bind] in H; [|discriminate].
    destruct (steps _ _ _ _ s1) as [(s2, l2)|] eqn:E2; cbn [bind] in H; [|discriminate]. injection H as <- <-.
    apply Forall_cons_iff in SM. destruct SM as (SM1 & SM2). cbn [app] in D.
    assert (P : permitted m o).
    { destruct o; cbn [permitted disciplined] in *; try exact I; try contradiction.
      - destruct D as (D & _). clear - D R. lia.
      - destruct D as (D & _). clear - D W. lia. }
    destruct (step_sim run start upd is_child is_pe bounds _ _ _ _ _ V SM1 P E) as (m1 & CL & V1).
    assert (DD : exists r w, disciplined r w (os ++ [o']) (l2 ++ [a]) /\ r <= m_room m1 /\ w <= length (m_pending m1)).
    { destruct o; cbn [disciplined] in D.
      - exists 0, 0. split; [exact D|]. split; apply Nat.le_0_l.
      - inversion CL; subst; eexists _, _; (split; [exact D|]); cbn; split; first [apply Nat.le_refl | apply Nat.le_0_l].
      - destruct D as (D1 & D2). exists room, (length data). split; [exact D2|].
        inversion CL; subst; cbn. split; [exact R|apply Nat.le_refl].
      - destruct D as (D1 & D2). exists 0, 0. split; [exact D2|]. split; apply Nat.le_0_l.
      - exists room, written. split; [exact D|]. inversion CL; subst; cbn; auto.
      - destruct D.
      - exists room, written. split; [exact D|]. inversion CL; subst; cbn; auto.
      - exists room, written. split; [exact D|]. inversion CL; subst; cbn; auto.
      - exists room, written. split; [exact D|]. inversion CL; subst; cbn; auto. }
    destruct DD as (r & w & D1 & R1 & W1). eapply IH; eauto.
Qed.

Lemma no_panic : (forall c p f b, exists r, run c p f b = Ok r) -> (forall c, exists r, start c = Ok r) ->
  (forall c b p, exists r, upd c b p = Ok r) ->
  forall c os s l o a, Forall small (os ++ [o]) -> reach c os s l -> disciplined 0 0 (os ++ [o]) (l ++ [a]) ->
  o <> OpLine -> o <> OpColumn -> exists r, step run start upd o s = Ok r.
Proof.
  intros H1 H2 H3 c os s l o a S R D N1 N2. apply Forall_app in S. destruct S as (S1 & S2). apply Forall_inv in S2.
  destruct (disc_permitted os _ (machine0 c) _ _ 0 0 o a (view_fresh _ _ _) (Nat.le_refl _) (Nat.le_refl _) S1 R D) as (m & V & P).
  apply (step_total run start upd is_child is_pe bounds H1 H2 H3 o s m V S2 P (conj N1 N2)).
Qed.

(* --- byte index --- *)
Lemma byte_index c os s l z : Forall small os -> reach c os s l -> disciplined 0 0 os l -> getCurrentByteIndex s = Ok z ->
  exists m, calls run start is_child is_pe (machine0 c) os m l /\
    (eventPtr s = None /\ z = (-1)%Z \/ exists e, m_event m = Some e /\ z = Z.of_nat e /\ e <= length (m_doc m)).
Proof.
  intros S R D G. destruct (reach_view _ _ _ _ S R D) as (m & CL & V). exists m. split; [exact CL|].
  unfold getCurrentByteIndex in G. destruct (eventPtr s) as [p|] eqn:E; [|injection G as <-; auto].
  right. destruct (v_event _ _ _ _ V p E) as (A1 & A2 & A3). assert (A := v_arith _ _ _ _ V). assert (B := v_bytes _ _ _ _ V).
  unfold buffer_index in G. destruct (p <? _) eqn:Ep; [|discriminate].
  destruct (_ <? _) eqn:E1 in G; [discriminate|]. destruct (_ <? _) eqn:E2 in G; [discriminate|]. injection G as <-.
  eexists. split; [exact A3|]. rewrite B, A2. split; [f_equal; clear - A A1; lia|clear - A A1; lia].
Qed.
Lemma byte_index_ok c os s l p : Forall small os -> reach c os s l -> disciplined 0 0 os l ->
  eventPtr s = Some p -> p < length (buffer s) -> exists z, getCurrentByteIndex s = Ok z.
Proof.
  intros S R D E L. destruct (reach_view _ _ _ _ S R D) as (m & CL & V).
  destruct (v_event _ _ _ _ V p E) as (A1 & A2 & A3). assert (A := v_arith _ _ _ _ V). assert (B := v_bytes _ _ _ _ V).
  unfold getCurrentByteIndex. rewrite E. unfold buffer_index. replace (p <? length (buffer s)) with true by (clear - L; lia).
  rewrite A2, B. replace (bufferEnd s <? p) with false by (clear - A1; lia).
  replace (length (m_doc m) <? bufferEnd s - p) with false by (clear - A; lia). eauto.
Qed.
Lemma input_context c os s l t p : Forall small os -> reach c os s l -> disciplined 0 0 os l -> getInputContext s = Some (t, p) ->
  exists m e pre, calls run start is_child is_pe (machine0 c) os m l /\
    m_event m = Some e /\ m_doc m = pre ++ t /\ e = length pre + p /\ p <= length t.
Proof.
  intros S R D G. destruct (reach_view _ _ _ _ S R D) as (m & CL & V). unfold getInputContext in G.
  destruct (eventPtr s) as [q|] eqn:E; [|discriminate]. injection G as <- <-.
  destruct (v_event _ _ _ _ V q E) as (A1 & A2 & A3). assert (A := v_arith _ _ _ _ V).
  exists m, (length (m_doc m) - bufferEnd s + q), (firstn (length (m_doc m) - bufferEnd s) (m_doc m)).
  split; [exact CL|]. split; [exact A3|]. split; [rewrite (v_text _ _ _ _ V); symmetry; apply firstn_skipn|].
  rewrite !firstn_length. split; clear - A A1; lia.
Qed.

(* --- positions --- *)
Definition positioned (s : api C) : Prop :=
  exists i, positionIdx s = Some i.
Lemma call_processor_pos i j s s' n : call_processor run i j s = Ok (s', n) -> positionIdx s' = positionIdx s.
Proof.
  unfold call_processor. destruct (slice _ _ _); cbn [bind]; [|discriminate]. destruct (failed s); [intros H; injection H as <- <-; reflexivity|].
  destruct (run _ _ _ _); cbn [bind]; [|discriminate]. intros H. injection H as <- <-. reflexivity.
Qed.
Lemma sync_positioned (s s' : api C) : sync_position upd s = Ok s' -> positioned s'.
Proof.
  unfold sync_position. destruct (positionIdx s); [|discriminate]. destruct (slice _ _ _); cbn [bind]; [|discriminate].
  destruct (upd _ _ _); cbn [bind]; [|discriminate]. intros H. injection H as <-. eexists. reflexivity.
Qed.
Lemma tail_positioned f sync s n s' st : positioned s -> tail upd f sync s n = Ok (s', st) -> positioned s'.
Proof.
  intros (i & P). unfold tail. destruct (negb _); [intros H; injection H as <- <-; exists i; exact P|].
  destruct (parsing _).
  - destruct f; [intros H; injection H as <- <-; exists i; exact P|].
    destruct (sync_position _ _) eqn:E; cbn [bind]; [|discriminate]. intros H. injection H as <- <-. eapply sync_positioned; eauto.
  - destruct f; [intros H; injection H as <- <-; exists i; exact P|].
    destruct (sync_position _ _) eqn:E; cbn [bind]; [|discriminate]. intros H. injection H as <- <-. eapply sync_positioned; eauto.
  - destruct sync; [|intros H; injection H as <- <-; exists i; exact P].
    destruct (sync_position _ _) eqn:E; cbn [bind]; [|discriminate]. intros H. injection H as <- <-. eapply sync_positioned; eauto.
  - destruct (sync_position _ _) eqn:E; cbn [bind]; [|discriminate]. intros H. injection H as <- <-. eapply sync_positioned; eauto.
Qed.
Lemma enter_positioned s r : positioned s -> enter start s = Ok r -> match r with inl (s', _) => positioned s' | inr s' => positioned s' end.
Proof.
  intros (i & P). unfold enter. destruct (parsing s).
  - destruct (child s); [intros H; injection H as <-; exists i; exact P|]. destruct (start _) as [[c|]|]; cbn [bind]; [| |discriminate];
      intros H; injection H as <-; exists i; exact P.
  - intros H; injection H as <-; exists i; exact P.
  - intros H; injection H as <-; exists i; exact P.
  - intros H; injection H as <-; exists i; exact P.
Qed.
Lemma parseBuffer_positioned len f s s' st : parseBuffer run start upd len f s = Ok (s', st) ->
  (exists s1, enter start s = Ok (inr s1)) \/ positioned s -> positioned s'.
Proof.
  intros H Q. destruct (enter start s) as [[(s1, st1)|s1]|] eqn:E; [| |unfold parseBuffer in H; rewrite E in H; discriminate].
  - destruct Q as [(s2 & Q)|Q]; [discriminate|]. unfold parseBuffer in H. rewrite E in H. injection H as <- <-.
    exact (enter_positioned _ _ Q E).
  - rewrite (parseBuffer_tail _ _ _ _ _ _ _ E) in H. destruct (call_processor _ _ _ _) as [(s2, n)|] eqn:EC; cbn [bind] in H; [|discriminate].
    eapply tail_positioned; [|exact H]. exists (bufferStart s1). rewrite (call_processor_pos _ _ _ _ _ EC). reflexivity.
Qed.
Lemma getBuffer_none_pos n mem (s s' : api C) : getBuffer n mem s = Ok (s', None) -> positionIdx s' = positionIdx s.
Proof.
  unfold getBuffer. destruct (n <? 0)%Z; [intros H; injection H as <-; reflexivity|].
  destruct (parsing s); try (intros H; injection H as <-; reflexivity);
  (destruct (_ <? _); [discriminate|]; destruct (_ <? _)%Z; [|discriminate]; destruct (_ <? _); [discriminate|];
   destruct (i32_max <? _)%Z; [discriminate|]; destruct (i32_max <? _)%Z; [intros H; injection H as <-; reflexivity|]; cbv zeta;
   match goal with |- context [bind ?x] => destruct x as [[s1|]|] end; cbn [bind]; [discriminate| |discriminate];
   intros H; injection H as <-; reflexivity).
Qed.
Lemma getBuffer_parsing n mem (s s' : api C) k : getBuffer n mem s = Ok (s', Some k) -> parsing s = INITIALIZED \/ parsing s = PARSING.
Proof. unfold getBuffer. destruct (n <? 0)%Z; [discriminate|]. destruct (parsing s); auto; discriminate. Qed.

Lemma parse_positioned d f mem s m s' st : view is_child is_pe s m -> (Z.of_nat (length d) <= i32_max)%Z -> positioned s ->
  parse run start upd d f mem s = Ok (s', st) -> positioned s'.
Proof.
  intros V L Q H. unfold parse in H. destruct (enter start s) as [[(s1, st1)|s1]|] eqn:E; cbn [bind] in H; [| |discriminate].
  - injection H as <- <-. exact (enter_positioned _ _ Q E).
  - assert (Q1 := enter_positioned _ _ Q E). cbn in Q1.
    destruct (enter_sim start is_child is_pe _ _ _ V E) as (m1 & B & V1 & P1 & _).
    destruct d as [|x d].
    + destruct f; cbn [negb] in H; [|injection H as <- <-; exact Q1].
      match type of H with context [call_processor ?a ?b ?c ?y] => destruct (call_processor a b c y) as [(s2, n)|] eqn:EC end; cbn [bind] in H; [|discriminate].
      eapply (tail_positioned true false s2 n); [|exact H]. exists (bufferStart s1). rewrite (call_processor_pos _ _ _ _ _ EC). reflexivity.
    + destruct (getBuffer _ _ _) as [(s2, room)|] eqn:EG; cbn [bind] in H; [|discriminate]. destruct room as [room|].
      * destruct (_ <? _); [discriminate|].
        destruct (view_getBuffer _ _ _ _ _ _ _ _ V1 L EG) as (V2 & _).
        eapply parseBuffer_positioned; [exact H|]. left. exists (fill (x :: d) s2). apply enter_again.
        destruct (getBuffer_spec (Z.of_nat (length (x :: d))) mem s1 (v_order _ _ _ _ V1) (v_end _ _ _ _ V1) (v_size _ _ _ _ V1) L) as (s3 & r & E3 & R).
        rewrite EG in E3. injection E3 as <- <-. destruct R as (_ & _ & _ & b & i & j & [-> |(-> & _)] & _); exact P1.
      * injection H as <- <-. destruct Q1 as (i & Q1). exists i. rewrite (getBuffer_none_pos _ _ _ _ EG). exact Q1.
Qed.

Lemma step_positioned o s m s' a : view is_child is_pe s m -> small o -> no_buffer_calls o -> positioned s ->
  step run start upd o s = Ok (s', a) -> positioned s'.
Proof.
  intros V S B Q H. destruct o; cbn [step no_buffer_calls] in *; try contradiction.
  - destruct (parse _ _ _ _ _ _ _) as [(s1, r)|] eqn:E; cbn [bind] in H; [|discriminate]. injection H as <- <-.
    eapply parse_positioned; eauto.
  - destruct Q as (i & Q). exists i. unfold stopParser in H.
    destruct (parsing s); destruct resumable; try destruct (param_entity s); injection H as <- <-; exact Q.
  - unfold getCurrentLineNumber in H. destruct (locate _ _) as [s1|] eqn:E; cbn [bind] in H; [|discriminate]. injection H as <- <-.
    destruct Q as (i & Q). unfold locate in E. rewrite Q in E. destruct (eventPtr s); [|injection E as <-; exists i; exact Q].
    destruct (_ <=? _); [|injection E as <-; exists i; exact Q].
    destruct (slice _ _ _); cbn [bind] in E; [|discriminate]. destruct (upd _ _ _); cbn [bind] in E; [|discriminate]. injection E as <-.
    eexists; reflexivity.
  - unfold getCurrentColumnNumber in H. destruct (locate _ _) as [s1|] eqn:E; cbn [bind] in H; [|discriminate]. injection H as <- <-.
    destruct Q as (i & Q). unfold locate in E. rewrite Q in E. destruct (eventPtr s); [|injection E as <-; exists i; exact Q].
    destruct (_ <=? _); [|injection E as <-; exists i; exact Q].
    destruct (slice _ _ _); cbn [bind] in E; [|discriminate]. destruct (upd _ _ _); cbn [bind] in E; [|discriminate]. injection E as <-.
    eexists; reflexivity.
  - destruct Q as (i & Q). exists i. unfold change_setting in H. destruct (setting_refused _); injection H as <- <-; exact Q.
Qed.
Lemma no_buffer_permitted m o : no_buffer_calls o -> permitted (C := C) m o.
Proof. destruct o; cbn; tauto. Qed.
Lemma reach_positioned os : forall s m s' l, view is_child is_pe s m -> positioned s -> Forall small os -> Forall no_buffer_calls os ->
  steps run start upd os s = Ok (s', l) -> positioned s' /\ exists m', view is_child is_pe s' m'.
Proof.
  induction os as [|o os IH]; intros s m s' l V Q S B H; cbn [steps] in H.
  - injection H as <- <-. split; [exact Q|exists m; exact V].
  - destruct (step _ _ _ _ _) as [(s1, b)|] eqn:E; cbn [bind] in H; [|discriminate].
    destruct (steps _ _ _ _ s1) as [(s2, l2)|] eqn:E2; cbn [bind] in H; [|discriminate]. injection H as <- <-.
    apply Forall_cons_iff in S, B. destruct S as (S1 & S2), B as (B1 & B2).
    destruct (step_sim run start upd is_child is_pe bounds _ _ _ _ _ V S1 (no_buffer_permitted m _ B1) E) as (m1 & CL & V1).
    exact (IH _ _ _ _ V1 (step_positioned _ _ _ _ _ V S1 B1 Q E) S2 B2 E2).
Qed.
Lemma line_ok : (forall c b p, exists r, upd c b p = Ok r) ->
  forall c os s l, Forall small os -> Forall no_buffer_calls os -> reach c os s l ->
  (exists r, getCurrentLineNumber upd s = Ok r) /\ (exists r, getCurrentColumnNumber upd s = Ok r).
Proof.
  intros U c os s l S B R.
  destruct (reach_positioned os _ _ _ _ (view_fresh is_child is_pe c) (ex_intro _ 0 eq_refl) S B R) as ((i & Q) & m & V).
  assert (L : exists s', locate upd s = Ok s').
  { unfold locate. rewrite Q. destruct (eventPtr s) as [p|] eqn:E; [|eauto]. destruct (i <=? p) eqn:Ei; [|eauto].
    destruct (v_event _ _ _ _ V p E) as (A1 & _). assert (A := v_arith _ _ _ _ V).
    rewrite slice_eq by (clear - Ei A1 A; lia). cbn [bind].
    match goal with |- context [upd ?a ?b ?c] => destruct (U a b c) as [q ->] end. cbn [bind]. eauto. }
  destruct L as (s' & L). unfold getCurrentLineNumber, getCurrentColumnNumber. rewrite L. cbn [bind]. eauto.
Qed.
End S.

(* --- errors are sticky --- *)
Section Sticky.
Context {C : Type}.
Variable run : C -> XML_Parsing -> bool -> bytes -> res (prun C).
Variable start : C -> res (option C).
Variable upd : C -> bytes -> Position -> res Position.

Definition broken (s : api C) : Prop := failed s = true /\ errorCode s <> XE_NONE /\ parsing s <> INITIALIZED.
Lemma call_failed i j s s' n : failed s = true -> call_processor run i j s = Ok (s', n) -> s' = s /\ n = 0.
Proof.
  intros F. unfold call_processor. destruct (slice _ _ _); cbn [bind]; [|discriminate]. rewrite F. intros H. injection H as <- <-. auto.
Qed.
Lemma enter_broken s r : broken s -> enter start s = Ok r ->
  match r with inl (s', st) => st = ST_ERROR /\ broken s' /\ core s' = core s | inr s' => broken s' /\ core s' = core s end.
Proof.
  intros (F & E & P). unfold enter. destruct (parsing s) eqn:Ep; try congruence; intros H; injection H as <-.
  - repeat split; auto; cbn; discriminate.
  - repeat split; auto; cbn; try discriminate. rewrite Ep. discriminate.
  - repeat split; auto; cbn; try discriminate. rewrite Ep. discriminate.
Qed.
Lemma not_none e : e <> XE_NONE -> is_none e = false.
Proof. destruct e; intros H; try reflexivity. destruct (H eq_refl). Qed.
Lemma parseBuffer_broken n f s s' st : broken s -> parseBuffer run start upd n f s = Ok (s', st) ->
  st = ST_ERROR /\ broken s' /\ core s' = core s.
Proof.
  intros B H. destruct (enter start s) as [[(s1, st1)|s1]|] eqn:E; [| |unfold parseBuffer in H; rewrite E in H; discriminate].
  - assert (X := enter_broken _ _ B E). unfold parseBuffer in H. rewrite E in H. injection H as <- <-. exact X.
  - destruct (enter_broken _ _ B E) as ((F & EE & P) & CC).
    rewrite (parseBuffer_tail _ _ _ _ _ _ _ E) in H. destruct (call_processor _ _ _ _) as [(s2, k)|] eqn:EC; cbn [bind] in H; [|discriminate].
    apply call_failed in EC; [|exact F]. destruct EC as (-> & ->).
    unfold tail in H. cbn [set_buffer errorCode prepare set_final set_parse_end set_pos] in H. rewrite (not_none _ EE) in H. cbn in H.
    injection H as <- <-. split; [reflexivity|]. split; [split; [reflexivity|split; [exact EE|exact P]]|exact CC].
Qed.
Lemma getBuffer_broken n mem s s' r : broken s -> getBuffer n mem s = Ok (s', r) -> broken s' /\ core s' = core s /\ parsing s' = parsing s.
Proof.
  intros (F & E & P). unfold getBuffer. destruct (n <? 0)%Z; [intros H; injection H as <- <-; cbn; repeat split; auto; discriminate|].
  assert (X : parsing s = SUSPENDED \/ parsing s = FINISHED \/ parsing s = PARSING) by (destruct (parsing s); auto; congruence).
  destruct X as [X|[X|X]]; rewrite X.
  - intros H; injection H as <- <-. cbn; repeat split; auto; discriminate.
  - intros H; injection H as <- <-. cbn; repeat split; auto; discriminate.
  - destruct (_ <? _); [discriminate|]. destruct (_ <? _)%Z; [|intros H; injection H as <- <-; repeat split; auto].
    destruct (_ <? _); [discriminate|]. destruct (i32_max <? _)%Z; [discriminate|].
    destruct (i32_max <? _)%Z; [intros H; injection H as <- <-; cbn; repeat split; auto; discriminate|]. cbv zeta.
    match goal with |- context [bind ?x _] => destruct x as [[s1|]|] eqn:E1 end; cbn [bind]; [| |discriminate].
    + assert (Y : exists b i j, s1 = set_buffer b i j s).
      { clear - E1. destruct (_ <=? _)%Z in E1.
        - destruct (_ <? _) in E1.
          + destruct (copy_within _ _ _) in E1; cbn [bind] in E1; [|discriminate]. injection E1 as <-. eauto.
          + injection E1 as <-. exists (buffer s), (bufferStart s), (bufferEnd s). destruct s; reflexivity.
        - destruct (_ =? _)%Z in E1; [|destruct (_ <? _)%Z in E1; [discriminate|]]; cbn [bind] in E1;
            (destruct (grow _ _ _) as [[g|]|] in E1; cbn [bind] in E1; [|discriminate..]; destruct mem; cbn [negb] in E1; [|discriminate];
             destruct (_ <? _) in E1; [destruct (copy_within _ _ _) in E1; cbn [bind] in E1; [|discriminate]|]; injection E1 as <-; eauto). }
      destruct Y as (b & i & j & ->). intros H; injection H as <- <-. cbn. repeat split; auto.
    + intros H; injection H as <- <-; cbn; repeat split; auto; discriminate.
Qed.
Lemma step_broken o s s' a : broken s -> no_setting o -> step run start upd o s = Ok (s', a) ->
  broken s' /\ core s' = core s /\ stuck_answer o a.
Proof.
  intros B N H. destruct o; cbn [step no_setting] in *; try contradiction.
  - destruct (parse _ _ _ _ _ _ _) as [(s1, r)|] eqn:E; cbn [bind] in H; [|discriminate]. injection H as <- <-.
    unfold parse in E. destruct (enter start s) as [[(s2, st2)|s2]|] eqn:EE; cbn [bind] in E; [| |discriminate].
    + injection E as <- <-. destruct (enter_broken _ _ B EE) as (-> & B1 & CC). split; [exact B1|]. split; [exact CC|].
      destruct data; [destruct isFinal|]; cbn; auto.
    + destruct (enter_broken _ _ B EE) as (B1 & CC). destruct data as [|x d].
      * destruct isFinal; cbn [negb] in E.
        -- match type of E with context [call_processor ?a ?b ?c ?y] => destruct (call_processor a b c y) as [(s3, n)|] eqn:EC end; cbn [bind] in E; [|discriminate].
           destruct B1 as (F & E1 & P). apply call_failed in EC; [|exact F]. destruct EC as (-> & ->).
           cbn [set_buffer errorCode set_final set_parse_end set_pos] in E. rewrite (not_none _ E1) in E. cbn in E. injection E as <- <-.
           split; [repeat split; auto|]. split; [exact CC|]. reflexivity.
        -- injection E as <- <-. split; [exact B1|]. split; [exact CC|]. exact I.
      * destruct (getBuffer _ _ _) as [(s3, room)|] eqn:EG; cbn [bind] in E; [|discriminate].
        destruct (getBuffer_broken _ _ _ _ _ B1 EG) as (B2 & C2 & P2).
        destruct room as [room|].
        -- destruct (_ <? _); [discriminate|].
           destruct (parseBuffer_broken _ _ (fill (x :: d) s3) _ _ B2 E) as (-> & B3 & C3). split; [exact B3|].
           split; [rewrite C3; cbn; rewrite C2; exact CC|]. reflexivity.
        -- injection E as <- <-. split; [exact B2|]. split; [rewrite C2; exact CC|]. reflexivity.
  - destruct (getBuffer _ _ _) as [(s1, r)|] eqn:E; cbn [bind] in H; [|discriminate]. injection H as <- <-.
    destruct (getBuffer_broken _ _ _ _ _ B E) as (B2 & C2 & _). split; [exact B2|]. split; [exact C2|]. exact I.
  - injection H as <- <-. split; [exact B|]. split; [reflexivity|exact I].
  - destruct (parseBuffer _ _ _ _ _ _) as [(s1, r)|] eqn:E; cbn [bind] in H; [|discriminate]. injection H as <- <-.
    destruct (parseBuffer_broken _ _ _ _ _ B E) as (-> & B3 & C3). split; [exact B3|]. split; [exact C3|]. reflexivity.
  - destruct B as (F & E & P). unfold stopParser in H. destruct (parsing s) eqn:Ep; try congruence; destruct resumable;
      try destruct (param_entity s); injection H as <- <-; (split; [|split; [reflexivity|exact I]]);
      (split; [exact F|split; cbn; rewrite ?Ep; congruence]).
  - destruct (resumeParser _ _ _) as [(s1, r)|] eqn:E; cbn [bind] in H; [|discriminate]. injection H as <- <-.
    destruct B as (F & E1 & P). unfold resumeParser in E. destruct (negb _).
    + injection E as <- <-. split; [split; [exact F|split; [discriminate|exact P]]|]. split; reflexivity.
    + destruct (_ <=? _); [discriminate|].
      match type of E with context [call_processor ?a ?b ?c ?y] => destruct (call_processor a b c y) as [(s3, n)|] eqn:EC end; cbn [bind] in E; [|discriminate].
      apply call_failed in EC; [|exact F]. destruct EC as (-> & ->). cbn [set_parsing errorCode] in E. rewrite (not_none _ E1) in E. cbn in E.
      injection E as <- <-. split; [split; [reflexivity|split; [exact E1|discriminate]]|]. split; reflexivity.
  - unfold getCurrentLineNumber in H. destruct (locate _ _) as [s1|] eqn:E; cbn [bind] in H; [|discriminate]. injection H as <- <-.
    unfold locate in E. destruct (positionIdx s); [|discriminate]. destruct (eventPtr s); [|injection E as <-; split; [exact B|split; [reflexivity|exact I]]].
    destruct (_ <=? _); [|injection E as <-; split; [exact B|split; [reflexivity|exact I]]].
    destruct (slice _ _ _); cbn [bind] in E; [|discriminate]. destruct (upd _ _ _); cbn [bind] in E; [|discriminate]. injection E as <-.
    split; [exact B|split; [reflexivity|exact I]].
  - unfold getCurrentColumnNumber in H. destruct (locate _ _) as [s1|] eqn:E; cbn [bind] in H; [|discriminate]. injection H as <- <-.
    unfold locate in E. destruct (positionIdx s); [|discriminate]. destruct (eventPtr s); [|injection E as <-; split; [exact B|split; [reflexivity|exact I]]].
    destruct (_ <=? _); [|injection E as <-; split; [exact B|split; [reflexivity|exact I]]].
    destruct (slice _ _ _); cbn [bind] in E; [|discriminate]. destruct (upd _ _ _); cbn [bind] in E; [|discriminate]. injection E as <-.
    split; [exact B|split; [reflexivity|exact I]].
Qed.
Lemma steps_broken os : forall s s' l, broken s -> Forall no_setting os -> steps run start upd os s = Ok (s', l) ->
  broken s' /\ core s' = core s /\ Forall2 stuck_answer os l.
Proof.
  induction os as [|o os IH]; intros s s' l B N H; cbn [steps] in H.
  - injection H as <- <-. split; [exact B|]. split; [reflexivity|constructor].
  - destruct (step _ _ _ _ _) as [(s1, b)|] eqn:E; cbn [bind] in H; [|discriminate].
    destruct (steps _ _ _ _ s1) as [(s2, l2)|] eqn:E2; cbn [bind] in H; [|discriminate]. injection H as <- <-.
    apply Forall_cons_iff in N. destruct N as (N1 & N2). destruct (step_broken _ _ _ _ B N1 E) as (B1 & C1 & A1).
    destruct (IH _ _ _ B1 N2 E2) as (B2 & C2 & A2). split; [exact B2|]. split; [congruence|constructor; assumption].
Qed.

Hypothesis stays : forall c p f b r, run c p f b = Ok r -> p <> INITIALIZED -> r_parsing r <> INITIALIZED.

Lemma call_stays i j s s' n : parsing s <> INITIALIZED -> call_processor run i j s = Ok (s', n) -> parsing s' <> INITIALIZED.
Proof.
  intros P. unfold call_processor. destruct (slice _ _ _); cbn [bind]; [|discriminate]. destruct (failed s); [intros H; injection H as <- <-; exact P|].
  destruct (run _ _ _ _) eqn:E; cbn [bind]; [|discriminate]. intros H. injection H as <- <-. cbn. eapply stays; eauto.
Qed.
Lemma enter_inr s s' : enter start s = Ok (inr s') -> parsing s' = PARSING.
Proof.
  unfold enter. destruct (parsing s); try discriminate.
  - destruct (child s); [intros H; injection H as <-; reflexivity|]. destruct (start _) as [[c|]|]; cbn [bind]; [|discriminate..].
    intros H; injection H as <-; reflexivity.
  - intros H; injection H as <-; reflexivity.
Qed.
Lemma enter_inl s s' st : enter start s = Ok (inl (s', st)) -> refusal (errorCode s').
Proof.
  unfold enter, refusal. destruct (parsing s); try discriminate.
  - destruct (child s); [discriminate|]. destruct (start _) as [[c|]|]; cbn [bind]; [discriminate| |discriminate]. intros H; injection H as <- <-. cbn; auto.
  - intros H; injection H as <- <-. cbn; auto.
  - intros H; injection H as <- <-. cbn; auto.
Qed.
Lemma tail_error f sync s n s' : parsing s <> INITIALIZED -> tail upd f sync s n = Ok (s', ST_ERROR) -> broken s'.
Proof.
  intros P. unfold tail. destruct (negb _) eqn:E.
  - intros H; injection H as <-. split; [reflexivity|]. split; [|exact P]. cbn in *. intros X. rewrite X in E. discriminate.
  - destruct (parsing _); [destruct f|destruct f|destruct sync|]; try discriminate;
      destruct (sync_position _ _); cbn [bind]; discriminate.
Qed.
Lemma parseBuffer_error n f s s' : parseBuffer run start upd n f s = Ok (s', ST_ERROR) -> ~ refusal (errorCode s') -> broken s'.
Proof.
  intros H NR. destruct (enter start s) as [[(s1, st1)|s1]|] eqn:E; [| |unfold parseBuffer in H; rewrite E in H; discriminate].
  - unfold parseBuffer in H. rewrite E in H. injection H as <- ->. destruct NR. exact (enter_inl _ _ _ E).
  - rewrite (parseBuffer_tail _ _ _ _ _ _ _ E) in H. destruct (call_processor _ _ _ _) as [(s2, k)|] eqn:EC; cbn [bind] in H; [|discriminate].
    eapply tail_error; [|exact H]. eapply call_stays; [|exact EC]. cbn. rewrite (enter_inr _ _ E). discriminate.
Qed.
Lemma getBuffer_error n mem (s s' : api C) : getBuffer n mem s = Ok (s', None) -> refusal (errorCode s').
Proof.
  unfold getBuffer, refusal. destruct (n <? 0)%Z; [intros H; injection H as <-; cbn; auto|].
  destruct (parsing s); try (intros H; injection H as <-; cbn; auto; fail);
  (destruct (_ <? _); [discriminate|]; destruct (_ <? _)%Z; [|discriminate]; destruct (_ <? _); [discriminate|];
   destruct (i32_max <? _)%Z; [discriminate|]; destruct (i32_max <? _)%Z; [intros H; injection H as <-; cbn; auto|]; cbv zeta;
   match goal with |- context [bind ?x] => destruct x as [[s1|]|] end; cbn [bind]; [discriminate| |discriminate];
   intros H; injection H as <-; cbn; auto).
Qed.
Lemma error_broken o s s' : is_parse_call o -> step run start upd o s = Ok (s', A_status ST_ERROR) -> ~ refusal (errorCode s') -> broken s'.
Proof.
  intros I H NR. destruct o; cbn [step is_parse_call] in *; try contradiction.
  - destruct (parse _ _ _ _ _ _ _) as [(s1, r)|] eqn:E; cbn [bind] in H; [|discriminate]. injection H as -> ->.
    unfold parse in E. destruct (enter start s) as [[(s2, st2)|s2]|] eqn:EE; cbn [bind] in E; [| |discriminate].
    + injection E as -> ->. destruct NR. exact (enter_inl _ _ _ EE).
    + destruct data as [|x d].
      * destruct isFinal; cbn [negb] in E; [|discriminate].
        match type of E with context [call_processor ?a ?b ?c ?y] => destruct (call_processor a b c y) as [(s3, n)|] eqn:EC end; cbn [bind] in E; [|discriminate].
        eapply (tail_error true false s3 n); [|exact E]. eapply call_stays; [|exact EC]. cbn. rewrite (enter_inr _ _ EE). discriminate.
      * destruct (getBuffer _ _ _) as [(s3, room)|] eqn:EG; cbn [bind] in E; [|discriminate]. destruct room as [room|].
        -- destruct (_ <? _); [discriminate|]. eapply parseBuffer_error; eauto.
        -- injection E as ->. destruct NR. exact (getBuffer_error _ _ _ _ EG).
  - destruct (parseBuffer _ _ _ _ _ _) as [(s1, r)|] eqn:E; cbn [bind] in H; [|discriminate]. injection H as -> ->.
    eapply parseBuffer_error; eauto.
  - destruct (resumeParser _ _ _) as [(s1, r)|] eqn:E; cbn [bind] in H; [|discriminate]. injection H as -> ->.
    unfold resumeParser in E. destruct (negb (parsing_eqb _ _)).
    + injection E as <-. destruct NR. unfold refusal. cbn. auto.
    + destruct (_ <=? _); [discriminate|].
      match type of E with context [call_processor ?a ?b ?c ?y] => destruct (call_processor a b c y) as [(s3, n)|] eqn:EC end; cbn [bind] in E; [|discriminate].
      assert (P : parsing s3 <> INITIALIZED) by (eapply call_stays; [|exact EC]; discriminate).
      destruct (is_none _) eqn:En; cbn [negb] in E.
      * destruct (parsing s3); [destruct (finalBuffer s3)|destruct (finalBuffer s3)| |]; try discriminate;
          destruct (sync_position _ _); cbn [bind] in E; discriminate.
      * injection E as <-. split; [reflexivity|]. split; [|exact P]. cbn. intros X. rewrite X in En. discriminate.
Qed.

Lemma sticky o s s1 os s2 l : is_parse_call o -> step run start upd o s = Ok (s1, A_status ST_ERROR) -> ~ refusal (errorCode s1) ->
  Forall no_setting os -> steps run start upd os s1 = Ok (s2, l) ->
  core s2 = core s1 /\ Forall2 stuck_answer os l.
Proof.
  intros I H NR N S. assert (B := error_broken _ _ _ I H NR). destruct (steps_broken _ _ _ _ B N S) as (_ & X). exact X.
Qed.
Lemma sticky_empty s mem : parsing s = PARSING -> exists s', step run start upd (OpParse [] false mem) s = Ok (s', A_status ST_OK).
Proof. intros P. cbn [step]. unfold parse. rewrite (enter_again _ _ P). eexists. reflexivity. Qed.

(* --- finished parsers --- *)
Lemma finished_stays os : forall s s' l, parsing s = FINISHED -> Forall no_setting os -> steps run start upd os s = Ok (s', l) ->
  parsing s' = FINISHED /\ core s' = core s /\ bufferStart s' = bufferStart s.
Proof.
  induction os as [|o os IH]; intros s s' l P N H; cbn [steps] in H.
  - injection H as <- <-. auto.
  - destruct (step _ _ _ _ _) as [(s1, b)|] eqn:E; cbn [bind] in H; [|discriminate].
    destruct (steps _ _ _ _ s1) as [(s2, l2)|] eqn:E2; cbn [bind] in H; [|discriminate]. injection H as <- <-.
    apply Forall_cons_iff in N. destruct N as (N1 & N2).
    assert (X : parsing s1 = FINISHED /\ core s1 = core s /\ bufferStart s1 = bufferStart s).
    { destruct o; cbn [step no_setting] in *; try contradiction.
      - unfold parse, enter in E. rewrite P in E. cbn in E. injection E as <- <-. cbn. auto.
      - unfold getBuffer in E. rewrite P in E. destruct (_ <? _)%Z; cbn in E; injection E as <- <-; cbn; auto.
      - injection E as <- <-. cbn. auto.
      - unfold parseBuffer, enter in E. rewrite P in E. cbn in E. injection E as <- <-. cbn. auto.
      - unfold stopParser in E. rewrite P in E. injection E as <- <-. cbn. auto.
      - unfold resumeParser in E. rewrite P in E. cbn in E. injection E as <- <-. cbn. auto.
      - unfold getCurrentLineNumber, locate in E. destruct (positionIdx s); [|discriminate]. destruct (eventPtr s); cbn [bind] in E; [|injection E as <- <-; auto].
        destruct (_ <=? _); cbn [bind] in E; [|injection E as <- <-; auto]. destruct (slice _ _ _); cbn [bind] in E; [|discriminate].
        destruct (upd _ _ _); cbn [bind] in E; [|discriminate]. injection E as <- <-. auto.
      - unfold getCurrentColumnNumber, locate in E. destruct (positionIdx s); [|discriminate]. destruct (eventPtr s); cbn [bind] in E; [|injection E as <- <-; auto].
        destruct (_ <=? _); cbn [bind] in E; [|injection E as <- <-; auto]. destruct (slice _ _ _); cbn [bind] in E; [|discriminate].
        destruct (upd _ _ _); cbn [bind] in E; [|discriminate]. injection E as <- <-. auto. }
    destruct X as (X1 & X2 & X3). destruct (IH _ _ _ X1 N2 E2) as (Y1 & Y2 & Y3). split; [exact Y1|]. split; congruence.
Qed.
End Sticky.
