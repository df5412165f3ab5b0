(* One call of XML_Parse that the processor takes without error. *)
From Coq Require Import List NArith ZArith Bool Lia Arith.
From Coq Require Import ZifyBool ZifyNat ZifyN.
From Verif Require Import Base Status TokMisc Api SpecApi ApiLaws.
From Coq Require Import List.
Import ListNotations.
Local Open Scope nat_scope.

Section S.
Context {C : Type}.
Variable run : C -> XML_Parsing -> bool -> bytes -> res (prun C).
Variable start : C -> res (option C).
Variable upd : C -> bytes -> Position -> res Position.
Variable is_pe : bool.
Hypothesis bounds : in_bounds run.
Notation view := (view false is_pe).
Variables (r : prun C) (b : bytes).
Hypothesis clean : r_err r = XE_NONE.
Hypothesis goes : r_parsing r = PARSING.
Hypothesis upd_ok : forall p, exists q, upd (r_core r) (firstn (r_next r) b) p = Ok q.

Lemma call_runs (s : api C) m : view s m -> failed s = false -> run (m_core m) (m_status m) (m_final m) (skipn (m_used m) (m_doc m)) = Ok r ->
  exists s' n, call_processor run (bufferStart s) (bufferEnd s) s = Ok (s', n).
Proof.
  intros V F E. unfold call_processor. rewrite slice_eq by apply V. cbn [bind]. rewrite F. fold (unread s). rewrite (view_unread _ _ _ _ V), (v_core _ _ _ _ V), (v_status _ _ _ _ V), (v_final _ _ _ _ V), E. cbn [bind]. eauto.
Qed.
Lemma tail_runs f sync s m s1 n : view s m -> failed s = false -> parseEndIdx s = bufferEnd s -> positionIdx s = Some (bufferStart s) -> b = skipn (m_used m) (m_doc m) ->
  run (m_core m) (m_status m) (m_final m) b = Ok r ->
  call_processor run (bufferStart s) (bufferEnd s) s = Ok (s1, n) -> exists s', ApiLaws.tail upd f sync s1 n = Ok (s', ST_OK).
Proof.
  intros V F PE PI Eb Er HC. assert (A := v_arith _ _ _ _ V). pose proof (view_unread _ _ _ _ V) as Un. unfold unread in Un.
  destruct (call_sim run _ _ bounds _ _ _ _ V PE HC) as [(F' & _) | (r' & _ & Er' & -> & E1 & E2 & E3 & N & B & B1 & B2 & B3 & B4 & _)]; [congruence|].
  rewrite <- Eb, Er in Er'. injection Er' as <-.
  unfold ApiLaws.tail. cbn [errorCode set_buffer parsing]. rewrite E1, E2, clean, goes. cbn [is_none negb].
  destruct f; [eauto|].
  unfold sync_position. cbn [positionIdx set_buffer]. rewrite B3, PI. cbn [buffer bufferStart core position set_buffer]. rewrite B, B1, B4.
  unfold unread in N. rewrite firstn_length, skipn_length in N.
  rewrite slice_eq by (clear -N A; lia). cbn [bind]. rewrite <- Eb in Un.
  replace (bufferStart s + r_next r - bufferStart s) with (r_next r) by (clear; lia).
  replace (firstn (r_next r) (skipn (bufferStart s) (buffer s))) with (firstn (r_next r) b).
  - destruct (upd_ok (position s1)) as (q & ->). cbn [bind]. eauto.
  - rewrite <- Un, firstn_firstn. f_equal. clear -N A. lia.
Qed.

Lemma parse_runs d f s m c : view s m -> (Z.of_nat (length d) <= i32_max)%Z -> m_failed m = false ->
  (m_status m = PARSING /\ c = m_core m \/ m_status m = INITIALIZED /\ start (m_core m) = Ok (Some c)) -> (d <> [] \/ f = true) ->
  b = skipn (m_used m) (m_doc m) ++ d -> run c PARSING f b = Ok r -> (Z.of_nat (length b) + 1024 <= 1073741824)%Z ->
  exists s' m', parse run start upd d f true s = Ok (s', ST_OK) /\ view s' m' /\ m_doc m' = m_doc m ++ d /\ m_used m' = m_used m + r_next r /\
    m_core m' = r_core r /\ m_failed m' = false /\ m_status m' = if f then FINISHED else PARSING.
Proof.
  intros V L F St Hd Eb Er Lb.
  assert (X : exists s1 m1, enter start s = Ok (inr s1) /\ view s1 m1 /\ m_doc m1 = m_doc m /\ m_used m1 = m_used m /\ m_core m1 = c /\ m_status m1 = PARSING /\ m_failed m1 = false).
  { assert (Y : exists s1, enter start s = Ok (inr s1)).
    { unfold enter. rewrite (v_status _ _ _ _ V), (v_child _ _ _ _ V), (v_core _ _ _ _ V). destruct St as [(-> & _)|(-> & ->)]; cbn [bind]; eauto. }
    destruct Y as (s1 & E). destruct (enter_sim start false is_pe _ _ _ V E) as (m1 & B & V1 & P1 & D1 & U1 & _). exists s1, m1.
    split; [exact E|]. split; [exact V1|]. split; [exact D1|]. split; [exact U1|].
    inversion B as [? S|? S ?|? ? S ? Z]; subst; destruct St as [(S' & ->)|(S' & Z')]; rewrite S' in S; try discriminate; cbn; auto.
    rewrite Z' in Z. injection Z as <-. auto. }
  destruct X as (s1 & m1 & E & V1 & D1 & U1 & C1 & P1 & F1).
  assert (Bl : m_used m1 <= length (m_doc m1)) by (pose proof (v_arith _ _ _ _ V1) as A; clear -A; lia).
  assert (Tot : exists s', parse run start upd d f true s = Ok (s', ST_OK)).
  { unfold parse. rewrite E. cbn [bind]. destruct d as [|x d].
    - destruct Hd as [Hd| ->]; [congruence|]. cbn [negb].
      assert (V2 := view_prepare0 _ _ _ _ (view_pos _ _ _ _ (Some (bufferStart s1)) (position s1) (view_final _ _ _ _ true V1))).
      cbn [set_final set_pos set_parse_end bufferStart bufferEnd position parseEndByteIndex] in *.
      assert (Eb' : b = skipn (m_used m1) (m_doc m1)) by (rewrite Eb, app_nil_r, D1, U1; reflexivity).
      assert (Er2 : run c PARSING true (skipn (m_used m1) (m_doc m1)) = Ok r) by (rewrite <- Eb'; exact Er).
      destruct (call_runs _ _ V2) as (s2 & n & EC); [cbn; rewrite (v_failed _ _ _ _ V1); exact F1|cbn; rewrite C1, P1; exact Er2|].
      match goal with |- context [call_processor ?a ?b ?c ?x] => assert (EC' : call_processor a b c x = Ok (s2, n)) by exact EC end. rewrite EC'. cbn [bind].
      destruct (tail_runs true false _ _ s2 n V2) as (s' & T); [cbn; rewrite (v_failed _ _ _ _ V1); exact F1|reflexivity|reflexivity|exact Eb'|cbn; rewrite C1, P1; exact Er|exact EC|].
      exists s'. exact T.
    - destruct (getBuffer_spec (Z.of_nat (length (x :: d))) true s1 (v_order _ _ _ _ V1) (v_end _ _ _ _ V1) (v_size _ _ _ _ V1) L) as (s2 & o & E2 & _).
      rewrite E2. cbn [bind]. destruct o as [room|].
      + destruct (view_getBuffer _ _ _ _ _ _ _ _ V1 L E2) as (V2 & G1 & G2 & G3 & G4 & _).
        replace (room <? length (x :: d)) with false by (clear - G2; lia).
        assert (V3 : view (fill (x :: d) s2) (with_area room (x :: d) m1)) by (apply (view_fill _ _ _ (with_area room [] m1)); [exact V2|cbn [m_room with_area]; clear - G2; lia]).
        set (s3 := fill (x :: d) s2) in *.
        assert (P3 : parsing s3 = PARSING) by (rewrite (v_status _ _ _ _ V3); exact P1).
        rewrite (parseBuffer_tail run start upd _ _ _ _ (enter_again start s3 P3)).
        assert (RR := v_room _ _ _ _ V3). assert (PP := v_pend _ _ _ _ V3). cbn [m_pending with_area] in PP, RR.
        assert (LL : length (x :: d) <= length (buffer s3) - bufferEnd s3) by (clear -RR PP; cbn [m_room with_area] in *; lia).
        assert (VP := view_prepare _ _ s3 _ (length (x :: d)) f V3 LL). pose proof (v_pending _ _ _ _ V3) as VQ. cbn [m_pending with_area] in VQ. rewrite VQ in VP.
        assert (Eb' : b = skipn (m_used m1) (m_doc m1 ++ x :: d)).
        { rewrite Eb, D1, U1, skipn_app. f_equal. replace (m_used m - length (m_doc m)) with 0 by (clear -Bl D1 U1; rewrite <- D1, <- U1; lia). reflexivity. }
        assert (Er2 : run c PARSING f (skipn (m_used m1) (m_doc m1 ++ x :: d)) = Ok r) by (rewrite <- Eb'; exact Er).
        destruct (call_runs _ _ VP) as (s4 & n & EC); [change (failed s3 = false); rewrite (v_failed _ _ _ _ V3); exact F1|cbn; rewrite C1, P1; exact Er2|].
        change (call_processor run (bufferStart s3) (bufferEnd s3 + length (x :: d)) (prepare (length (x :: d)) f s3) = Ok (s4, n)) in EC. rewrite EC. cbn [bind].
        apply (tail_runs f true _ _ s4 n VP); [change (failed s3 = false); rewrite (v_failed _ _ _ _ V3); exact F1|reflexivity|reflexivity|exact Eb'|cbn; rewrite C1, P1; exact Er|exact EC].
      + exfalso. destruct (view_getBuffer_none _ _ _ _ _ _ _ V1 L E2) as (e & _ & _ & R). rewrite P1 in R.
        destruct R as [(R & _)|[(_ & R & _)|[(_ & R & _)|(_ & _ & _ & [R|R])]]]; try discriminate.
        rewrite Eb, app_length, skipn_length in Lb. rewrite D1, U1 in R. clear -R Lb. lia. }
  destruct Tot as (s' & T). exists s'. destruct (parse_sim run start upd false is_pe bounds _ _ _ _ _ _ _ V L T) as (m' & CL & V').
  exists m'. split; [exact T|]. split; [exact V'|].
  assert (BE : forall q, begins start false m q -> m_doc q = m_doc m /\ m_used q = m_used m /\ m_core q = c /\ m_status q = PARSING /\ m_failed q = false).
  { intros q B. inversion B as [? S|? S ?|? ? S ? Z]; subst; destruct St as [(S' & ->)|(S' & Z')]; rewrite S' in S; try discriminate; cbn; auto.
    rewrite Z' in Z. injection Z as <-. auto. }
  inversion CL as [? m2 ? ? ? ? ? B Hd2 AD|? m2 ? B|? ? ? ? ? R| | | | | | | | | | | | | | | | |]; subst.
  - destruct (BE _ B) as (Q1 & Q2 & Q3 & Q4 & Q5). inversion AD as [? FF|? r' FF RR]; subst.
    rewrite Q3, Q4, Q1, Q2 in RR. rewrite skipn_app in RR.
    replace (m_used m - length (m_doc m)) with 0 in RR by (clear -Bl D1 U1; rewrite <- D1, <- U1; lia). cbn [skipn] in RR. rewrite Er in RR. injection RR as <-.
    cbn. rewrite Q1, Q2, clean, goes. auto.
  - destruct Hd as [Hd|Hd]; [congruence|discriminate].
Qed.
Lemma parse_nothing s m c : view s m ->
  (m_status m = PARSING /\ c = m_core m \/ m_status m = INITIALIZED /\ start (m_core m) = Ok (Some c)) ->
  exists s' m', parse run start upd [] false true s = Ok (s', ST_OK) /\ view s' m' /\ m_doc m' = m_doc m /\ m_used m' = m_used m /\
    m_core m' = c /\ m_failed m' = m_failed m /\ m_status m' = PARSING.
Proof.
  intros V St.
  assert (Y : exists s1, enter start s = Ok (inr s1)).
  { unfold enter. rewrite (v_status _ _ _ _ V), (v_child _ _ _ _ V), (v_core _ _ _ _ V). destruct St as [(-> & _)|(-> & ->)]; cbn [bind]; eauto. }
  destruct Y as (s1 & E). destruct (enter_sim start false is_pe _ _ _ V E) as (m1 & B & V1 & P1 & D1 & U1 & _). exists (set_final false s1), (with_final false m1).
  split; [unfold parse; rewrite E; reflexivity|]. split; [apply view_final; exact V1|]. split; [exact D1|]. split; [exact U1|].
  inversion B as [? S|? S ?|? ? S ? Z]; subst; destruct St as [(S' & ->)|(S' & Z')]; rewrite S' in S; try discriminate; cbn; auto.
  rewrite Z' in Z. injection Z as <-. auto.
Qed.
End S.
