(* Proofs about the calling interface *)
From Coq Require Import List NArith ZArith Bool Arith Lia ZifyBool ZifyNat ZifyN.
From Verif Require Import Base Status TokMisc Api SpecApi.
Import ListNotations.
Local Open Scope nat_scope.

Lemma slice_ok b i j r : slice b i j = Ok r -> i <= j /\ j <= length b /\ r = firstn (j - i) (skipn i b).
Proof. unfold slice. destruct (_ && _) eqn:E; [|discriminate]. intros H. injection H as <-. split; [lia|]. split; [lia|reflexivity]. Qed.
Lemma slice_eq b i j : i <= j -> j <= length b -> slice b i j = Ok (firstn (j - i) (skipn i b)).
Proof. intros H1 H2. unfold slice. replace (_ && _) with true by lia. reflexivity. Qed.

Lemma skipn_skipn {A} a b (l : list A) : skipn a (skipn b l) = skipn (b + a) l.
Proof. revert l. induction b as [|b IH]; intros l; [reflexivity|]. destruct l; cbn; [destruct a; reflexivity|apply IH]. Qed.

Lemma is_none_iff e : is_none e = true <-> e = XE_NONE.
Proof. destruct e; cbn; split; congruence. Qed.

Lemma grow_sound fuel size needed r : (1 <= size)%Z -> (size <= i32_max)%Z -> grow fuel size needed = Ok (Some r) ->
  (needed <= r <= i32_max)%Z /\ (size <= r)%Z.
Proof.
  revert size. induction fuel as [|f IH]; intros size H1 H2; [discriminate|].
  cbn [grow]. destruct (size <? needed)%Z eqn:E.
  - destruct (i32_max <? 2 * size)%Z eqn:E2; [discriminate|]. intros H.
    assert (P := IH (2 * size)%Z ltac:(lia) ltac:(lia) H). lia.
  - intros H. injection H as <-. lia.
Qed.
Lemma grow_fail fuel size needed : (1 <= size)%Z -> grow fuel size needed = Ok None -> (1073741824 < needed)%Z.
Proof.
  revert size. induction fuel as [|f IH]; intros size H1; [discriminate|].
  cbn [grow]. destruct (size <? needed)%Z eqn:E; [|discriminate].
  destruct (i32_max <? 2 * size)%Z eqn:E2.
  - intros _. unfold i32_max in E2. lia.
  - intros H. apply (IH (2 * size)%Z ltac:(lia) H).
Qed.
Lemma grow_fuel fuel : forall size needed, (1 <= size)%Z -> (i32_max < size * 2 ^ Z.of_nat fuel)%Z ->
  exists r, grow (S fuel) size needed = Ok r.
Proof.
  induction fuel as [|f IH]; intros size needed H1 H2.
  - cbn [grow]. destruct (size <? needed)%Z; [|eauto]. destruct (i32_max <? 2 * size)%Z eqn:E; [eauto|]. cbn in H2. lia.
  - cbn [grow]. destruct (size <? needed)%Z; [|eauto]. destruct (i32_max <? 2 * size)%Z eqn:E; [eauto|].
    destruct (IH (2 * size)%Z needed ltac:(lia)) as [r Hr].
    + replace (Z.of_nat (S f)) with (Z.of_nat f + 1)%Z in H2 by lia. rewrite Z.pow_add_r in H2 by lia. lia.
    + exists r. exact Hr.
Qed.
Lemma grow_total size needed : (1 <= size)%Z -> exists r, grow 64 size needed = Ok r.
Proof. intros H. apply grow_fuel; [exact H|]. unfold i32_max. change (Z.of_nat 63) with 63%Z. lia. Qed.

Section S.
Context {C : Type}.
Variable run : C -> XML_Parsing -> bool -> bytes -> res (prun C).
Variable start : C -> res (option C).
Variable upd : C -> bytes -> Position -> res Position.
Variables is_child is_pe : bool.
Hypothesis bounds : in_bounds run.

Notation api := (api C).
Notation machine := (machine C).

(* the buffer holds the end of the document *)
Record view (s : api) (m : machine) : Prop := {
  v_order : bufferStart s <= bufferEnd s;
  v_end : bufferEnd s <= length (buffer s);
  v_size : (Z.of_nat (length (buffer s)) <= i32_max)%Z;
  v_bytes : parseEndByteIndex s = length (m_doc m);
  v_le : bufferEnd s <= length (m_doc m);
  v_text : firstn (bufferEnd s) (buffer s) = skipn (length (m_doc m) - bufferEnd s) (m_doc m);
  v_used : m_used m + (bufferEnd s - bufferStart s) = length (m_doc m);
  v_status : parsing s = m_status m;
  v_failed : failed s = m_failed m;
  v_error : errorCode s = m_error m;
  v_final : finalBuffer s = m_final m;
  v_core : core s = m_core m;
  v_child : child s = is_child;
  v_pe : param_entity s = is_pe;
  v_event : forall p, eventPtr s = Some p ->
    p <= bufferEnd s /\ parseEndIdx s = bufferEnd s /\ m_event m = Some (length (m_doc m) - bufferEnd s + p);
  v_room : m_room m <= length (buffer s) - bufferEnd s;
  v_pend : length (m_pending m) <= m_room m;
  v_pending : firstn (length (m_pending m)) (skipn (bufferEnd s) (buffer s)) = m_pending m;
  v_sticky : m_failed m = true -> m_error m <> XE_NONE
}.

Lemma v_arith s m : view s m -> bufferStart s <= bufferEnd s /\ bufferEnd s <= length (buffer s) /\ bufferEnd s <= length (m_doc m) /\
  m_used m + (bufferEnd s - bufferStart s) = length (m_doc m).
Proof. intros V. exact (conj (v_order _ _ V) (conj (v_end _ _ V) (conj (v_le _ _ V) (v_used _ _ V)))). Qed.

Definition unread (s : api) : bytes := firstn (bufferEnd s - bufferStart s) (skipn (bufferStart s) (buffer s)).
Lemma view_unread s m : view s m -> unread s = skipn (m_used m) (m_doc m).
Proof.
  intros V. destruct V. unfold unread. rewrite <- skipn_firstn_comm, v_text0, skipn_skipn. f_equal. lia.
Qed.

Lemma view_fresh c : view (fresh is_child is_pe c) (machine0 c).
Proof.
  clear. constructor; cbn; try reflexivity; try lia; try discriminate; try (intros; discriminate).
Qed.

Ltac vsplit V := destruct V; constructor; cbn in *; auto.

Lemma view_error s m e : e <> XE_NONE -> view s m -> view (set_error e s) (with_error e m).
Proof. intros H V. vsplit V. Qed.
Lemma view_status s m p : view s m -> view (set_parsing p s) (with_status p m).
Proof. intros V. vsplit V. Qed.
Lemma view_core s m c : view s m -> view (set_core c s) (with_core c m).
Proof. intros V. vsplit V. Qed.
Lemma view_final s m c : view s m -> view (set_final c s) (with_final c m).
Proof. intros V. vsplit V. Qed.
Lemma view_area0 s m : view s m -> view s (with_area 0 [] m).
Proof. intros V. vsplit V; try lia. Qed.
Lemma view_pos s m i q : view s m -> view (set_pos i q s) m.
Proof. intros V. vsplit V. Qed.

(* --- enter --- *)
Lemma enter_sim s m r : view s m -> enter start s = Ok r ->
  match r with
  | inl (s', st) => st = ST_ERROR /\ exists e, refused start is_child m e /\ view s' (with_error e m)
  | inr s' => exists m', begins start is_child m m' /\ view s' m' /\ parsing s' = PARSING /\
                m_doc m' = m_doc m /\ m_used m' = m_used m /\ m_pending m' = m_pending m /\ m_room m' = m_room m
  end.
Proof.
  intros V. unfold enter. rewrite (v_status _ _ V). destruct (m_status m) eqn:E; intros H.
  - assert (Vc := v_child _ _ V). destruct (child s).
    + injection H as <-. exists (with_status PARSING m). split; [constructor; auto|].
      split; [apply view_status; exact V|]. cbn; auto.
    + rewrite (v_core _ _ V) in H. destruct (start (m_core m)) as [[c|]|] eqn:Es; cbn [bind] in H; [| |discriminate].
      * injection H as <-. eexists. split; [eapply begins_first; eauto|]. split; [apply view_status, view_core; exact V|].
        cbn. auto.
      * injection H as <-. split; [reflexivity|]. exists XE_NO_MEMORY. split; [constructor; auto|]. apply view_error; [discriminate|exact V].
  - injection H as <-. exists m. split; [constructor; auto|]. split.
    + vsplit V.
    + cbn. auto.
  - injection H as <-. split; [reflexivity|]. exists XE_FINISHED. split; [constructor; auto|]. apply view_error; [discriminate|exact V].
  - injection H as <-. split; [reflexivity|]. exists XE_SUSPENDED. split; [constructor; auto|]. apply view_error; [discriminate|exact V].
Qed.

(* --- the processor call after [prepare] --- *)
Definition with_data (d : bytes) (f : bool) (m : machine) : machine :=
  {| m_doc := m_doc m ++ d; m_used := m_used m; m_event := m_event m; m_status := m_status m; m_failed := m_failed m;
     m_error := m_error m; m_final := f; m_core := m_core m; m_room := 0; m_pending := [] |}.

Lemma firstn_plus {A} n k (l : list A) : firstn (n + k) l = firstn n l ++ firstn k (skipn n l).
Proof. revert l. induction n; intros l; [reflexivity|]. destruct l; cbn; [destruct k; reflexivity|]. f_equal. apply IHn. Qed.

Lemma view_prepare s m len f : view s m -> len <= length (buffer s) - bufferEnd s ->
  view (prepare len f s) (with_data (firstn len (skipn (bufferEnd s) (buffer s))) f m).
Proof.
  intros V H. assert (L : length (firstn len (skipn (bufferEnd s) (buffer s))) = len) by (rewrite firstn_length, skipn_length; lia).
  destruct V. constructor; cbn; auto; rewrite ?app_length, ?L; try lia.
  - rewrite firstn_plus, v_text0, skipn_app.
    replace (length (m_doc m) + len - (bufferEnd s + len)) with (length (m_doc m) - bufferEnd s) by lia.
    replace (length (m_doc m) - bufferEnd s - length (m_doc m)) with 0 by lia. reflexivity.
  - intros p Hp. destruct (v_event0 p Hp) as (A & B & D). split; [lia|]. split; [reflexivity|]. rewrite D. f_equal. lia.
Qed.
Lemma view_prepare0 s m : view s m ->
  view (set_parse_end (parseEndByteIndex s) (bufferEnd s) s) m.
Proof. intros V. destruct V. constructor; cbn; auto. intros p Hp. destruct (v_event0 p Hp) as (A & B & D). auto. Qed.

(* what call_processor leaves *)
Definition after (m : machine) (r : prun C) : machine :=
  {| m_doc := m_doc m; m_used := m_used m + r_next r;
     m_event := match r_event r with Some n => Some (m_used m + n) | None => m_event m end;
     m_status := r_parsing r; m_failed := negb (is_none (r_err r)); m_error := r_err r; m_final := m_final m; m_core := r_core r;
     m_room := m_room m; m_pending := m_pending m |}.

Lemma call_sim s m s' n : view s m -> parseEndIdx s = bufferEnd s -> call_processor run (bufferStart s) (bufferEnd s) s = Ok (s', n) ->
  (failed s = true /\ s' = s /\ n = 0) \/
  (exists r, failed s = false /\ run (m_core m) (m_status m) (m_final m) (skipn (m_used m) (m_doc m)) = Ok r /\ n = r_next r /\
     errorCode s' = r_err r /\ parsing s' = r_parsing r /\ finalBuffer s' = finalBuffer s /\ r_next r <= length (unread s) /\
     buffer s' = buffer s /\ bufferStart s' = bufferStart s /\ bufferEnd s' = bufferEnd s /\ positionIdx s' = positionIdx s /\
     core s' = r_core r /\
     (is_none (r_err r) = false -> view (fail (set_buffer (buffer s') (bufferStart s' + n) (bufferEnd s') s')) (after m r)) /\
     (is_none (r_err r) = true -> view (set_buffer (buffer s') (bufferStart s' + n) (bufferEnd s') s') (after m r))).
Proof.
  intros V PE H. unfold call_processor in H.
  destruct (slice _ _ _) as [b|] eqn:Eb; cbn [bind] in H; [|discriminate].
  apply slice_ok in Eb. destruct Eb as (B1 & B2 & Eb). fold (unread s) in Eb. rewrite (view_unread _ _ V) in Eb. subst b.
  destruct (failed s) eqn:Ef.
  { injection H as <- <-. left. auto. }
  right. rewrite (v_core _ _ V), (v_status _ _ V), (v_final _ _ V) in H.
  destruct (run _ _ _ _) as [r|] eqn:Er; cbn [bind] in H; [|discriminate].
  destruct (bounds _ _ _ _ _ Er) as (Nx & Ev).
  injection H as <- <-. exists r. split; [reflexivity|]. split; [reflexivity|]. split; [reflexivity|]. cbn.
  assert (A := v_arith _ _ V).
  assert (U : length (skipn (m_used m) (m_doc m)) = bufferEnd s - bufferStart s) by (rewrite skipn_length; clear - A; lia).
  rewrite (view_unread _ _ V). do 9 (split; [reflexivity || exact Nx|]).
  assert (EV : forall p, match r_event r with Some n => Some (bufferStart s + n) | None => eventPtr s end = Some p ->
     p <= bufferEnd s /\ parseEndIdx s = bufferEnd s /\
     match r_event r with Some n => Some (m_used m + n) | None => m_event m end = Some (length (m_doc m) - bufferEnd s + p)).
  { intros p. destruct (r_event r) as [k|].
    - intros H. injection H as <-. specialize (Ev k eq_refl). rewrite U in Ev.
      split; [clear - A Ev; lia|]. split; [assumption|]. f_equal. clear - A Ev; lia.
    - intros H. destruct (v_event _ _ V p H) as (X & Y & Z). auto. }
  rewrite U in Nx.
  assert (B : bufferStart s + r_next r <= bufferEnd s /\ m_used m + r_next r + (bufferEnd s - (bufferStart s + r_next r)) = length (m_doc m))
    by (clear - A Nx; lia).
  destruct B as (B3 & B4).
  split; intros Hn; destruct V; constructor; cbn; auto.
  - rewrite Hn. reflexivity.
  - intros _ X. rewrite X in Hn. discriminate.
  - rewrite Hn. exact Ef.
  - rewrite Hn. discriminate.
Qed.

Lemma sync_sim s m s' : view s m -> sync_position upd s = Ok s' -> view s' m /\ parsing s' = parsing s /\ errorCode s' = errorCode s.
Proof.
  intros V. unfold sync_position. destruct (positionIdx s); [|discriminate].
  destruct (slice _ _ _); cbn [bind]; [|discriminate]. destruct (upd _ _ _); cbn [bind]; [|discriminate].
  intros H. injection H as <-. split; [apply view_pos; exact V|]. split; reflexivity.
Qed.

Lemma view_finish s m : view s m -> view (set_parsing FINISHED s) (with_status FINISHED m).
Proof. apply view_status. Qed.

(* the common end of parse(len = 0) and parseBuffer *)
Definition tail (isFinal sync : bool) (s : api) (n : nat) : res (api * XML_Status) :=
  let s := set_buffer (buffer s) (bufferStart s + n) (bufferEnd s) s in
  if negb (is_none (errorCode s)) then Ok (fail s, ST_ERROR)
  else
    match parsing s with
    | SUSPENDED => let* s := sync_position upd s in Ok (s, ST_SUSPENDED)
    | INITIALIZED | PARSING =>
        if isFinal then Ok (set_parsing FINISHED s, ST_OK)
        else let* s := sync_position upd s in Ok (s, ST_OK)
    | FINISHED => if sync then let* s := sync_position upd s in Ok (s, ST_OK) else Ok (s, ST_OK)
    end.

Lemma view_fail s m : view s m -> m_failed m = true -> view (fail s) m.
Proof. intros V F. vsplit V. Qed.
Lemma view_nobuf s m : view s m -> view (set_buffer (buffer s) (bufferStart s + 0) (bufferEnd s) s) m.
Proof. intros V. vsplit V; rewrite ?Nat.add_0_r; auto. Qed.

Lemma tail_sim d f sync s m m0 s1 n s' st : view s m -> parseEndIdx s = bufferEnd s -> finalBuffer s = f ->
  m = with_data d f m0 -> m_status m0 = PARSING ->
  call_processor run (bufferStart s) (bufferEnd s) s = Ok (s1, n) -> tail f sync s1 n = Ok (s', st) ->
  exists m', advances run d f m0 m' st /\ view s' m'.
Proof.
  intros V PE Ef Em Hp HC HT. destruct (call_sim _ _ _ _ V PE HC) as [(F & -> & ->) | (r & F & Er & -> & E1 & E2 & E3 & _ & _ & _ & _ & _ & _ & VF & VN)].
  - unfold tail in HT. cbn [errorCode set_buffer] in HT.
    assert (NN : is_none (errorCode s) = false).
    { rewrite (v_error _ _ V). destruct (is_none (m_error m)) eqn:E; [|reflexivity]. apply is_none_iff in E.
      exfalso. apply (v_sticky _ _ V); [rewrite <- (v_failed _ _ V); exact F|exact E]. }
    rewrite NN in HT. cbn in HT. injection HT as <- <-.
    assert (F' : m_failed m = true) by (rewrite <- (v_failed _ _ V); exact F).
    exists m. split.
    + subst m. unfold with_data. cbn in F'. rewrite F'. apply advances_failed. exact F'.
    + apply view_fail; [|exact F']. apply view_nobuf. exact V.
  - unfold tail in HT. cbn [errorCode set_buffer parsing] in HT. rewrite E1, E2 in HT.
    assert (F' : m_failed m = false) by (rewrite <- (v_failed _ _ V); exact F).
    assert (RR : run (m_core m0) (m_status m0) f (skipn (m_used m0) (m_doc m0 ++ d)) = Ok r).
    { subst m. cbn in Er. exact Er. }
    assert (F0 : m_failed m0 = false) by (subst m; exact F').
    assert (A := advances_runs run d f m0 r F0 RR).
    destruct (is_none (r_err r)) eqn:En; cbn [negb] in HT.
    + specialize (VN eq_refl). clear VF. assert (Ee := proj1 (is_none_iff _) En). rewrite Ee in A.
      assert (K : forall s2, view s2 (after m r) -> view s2
         {| m_doc := m_doc m0 ++ d; m_used := m_used m0 + r_next r;
            m_event := match r_event r with Some n => Some (m_used m0 + n) | None => m_event m0 end;
            m_status := r_parsing r; m_failed := negb (is_none XE_NONE); m_error := XE_NONE; m_final := f; m_core := r_core r;
            m_room := 0; m_pending := [] |}).
      { intros s2 X. unfold after in X. rewrite Ee in X. subst m. exact X. }
      destruct (r_parsing r) eqn:Ep.
      * destruct f.
        -- injection HT as <- <-. eexists. split; [exact A|]. exact (view_status _ _ FINISHED (K _ VN)).
        -- destruct (sync_position _ _) as [s2|] eqn:Es; cbn [bind] in HT; [|discriminate]. injection HT as <- <-.
           eexists. split; [exact A|]. apply K. apply (proj1 (sync_sim _ _ _ VN Es)).
      * destruct f.
        -- injection HT as <- <-. eexists. split; [exact A|]. exact (view_status _ _ FINISHED (K _ VN)).
        -- destruct (sync_position _ _) as [s2|] eqn:Es; cbn [bind] in HT; [|discriminate]. injection HT as <- <-.
           eexists. split; [exact A|]. apply K. apply (proj1 (sync_sim _ _ _ VN Es)).
      * eexists. split; [|apply K; destruct sync; [destruct (sync_position _ _) as [s2|] eqn:Es; cbn [bind] in HT; [|discriminate];
                                           injection HT as <- <-; apply (proj1 (sync_sim _ _ _ VN Es))
                                         |injection HT as <- <-; exact VN]].
        destruct sync; [destruct (sync_position _ _) as [s2|] eqn:Es; cbn [bind] in HT; [|discriminate]|]; injection HT as <- <-; exact A.
      * destruct (sync_position _ _) as [s2|] eqn:Es; cbn [bind] in HT; [|discriminate]. injection HT as <- <-.
        eexists. split; [exact A|]. apply K. apply (proj1 (sync_sim _ _ _ VN Es)).
    + injection HT as <- <-. specialize (VF eq_refl). clear VN.
      eexists. split.
      * assert (X : match r_err r, r_parsing r with XE_NONE, SUSPENDED => ST_SUSPENDED | XE_NONE, _ => ST_OK | _, _ => ST_ERROR end = ST_ERROR)
          by (destruct (r_err r); [discriminate|reflexivity..]).
        rewrite X in A. exact A.
      * unfold after in VF. subst m. cbn in VF. rewrite En in *.
        replace (match r_err r with XE_NONE => _ | _ => _ end) with (r_parsing r) by (destruct (r_err r); [discriminate|reflexivity..]).
        exact VF.
Qed.

(* --- XML_GetBuffer --- *)
Lemma copy_within_ok b i j : i <= j -> j <= length b ->
  copy_within b i j = Ok (firstn (j - i) (skipn i b) ++ skipn (j - i) b).
Proof. intros H1 H2. unfold copy_within. rewrite slice_eq by assumption. reflexivity. Qed.

Lemma getBuffer_spec len mem (s : api) : bufferStart s <= bufferEnd s -> bufferEnd s <= length (buffer s) ->
  (Z.of_nat (length (buffer s)) <= i32_max)%Z -> (len <= i32_max)%Z ->
  exists s' r, getBuffer len mem s = Ok (s', r) /\
  match r with
  | Some k =>
      (0 <= len)%Z /\ (len <= Z.of_nat k)%Z /\ (parsing s = INITIALIZED \/ parsing s = PARSING) /\
      exists b st en, (s' = s \/ s' = set_pos None (position s) (set_event None None (set_buffer b st en s)) /\
      en - st = bufferEnd s - bufferStart s /\ st <= en /\ en <= length b /\ (Z.of_nat (length b) <= i32_max)%Z /\
      en <= bufferEnd s /\ firstn en b = skipn (bufferEnd s - en) (firstn (bufferEnd s) (buffer s)) /\
      (bufferStart s < bufferEnd s -> Nat.min CONTEXT_BYTES (bufferStart s) <= st)) /\
      k = length (buffer s') - bufferEnd s'
  | None => exists e, s' = set_error e s /\
      ((len < 0)%Z /\ e = XE_NO_MEMORY \/
       (0 <= len)%Z /\ parsing s = SUSPENDED /\ e = XE_SUSPENDED \/
       (0 <= len)%Z /\ parsing s = FINISHED /\ e = XE_FINISHED \/
       (0 <= len)%Z /\ (parsing s = INITIALIZED \/ parsing s = PARSING) /\ e = XE_NO_MEMORY /\
       (mem = false \/ (1073741824 < len + Z.of_nat (bufferEnd s - bufferStart s + 1024))%Z))
  end.
Proof.
  intros H1 H2 H3 H4. unfold getBuffer. destruct (len <? 0)%Z eqn:El.
  { eexists _, None. split; [reflexivity|]. exists XE_NO_MEMORY. split; [reflexivity|]. left. split; [clear - El; lia|reflexivity]. }
  assert (L0 : (0 <= len)%Z) by (clear - El; lia).
  assert (P : parsing s = SUSPENDED \/ parsing s = FINISHED \/ (parsing s = INITIALIZED \/ parsing s = PARSING))
    by (destruct (parsing s); auto).
  destruct P as [P|[P|P]].
  { rewrite P. eexists _, None. split; [reflexivity|]. eexists. split; [reflexivity|]. right; left. auto. }
  { rewrite P. eexists _, None. split; [reflexivity|]. eexists. split; [reflexivity|]. right; right; left. auto. }
  set (body := if length (buffer s) <? bufferEnd s then _ else _).
  assert (X : match parsing s with SUSPENDED => Ok (set_error XE_SUSPENDED s, None)
              | FINISHED => Ok (set_error XE_FINISHED s, None) | _ => body end = body) by (destruct P as [-> | ->]; reflexivity).
  rewrite X. clear X. unfold body. clear body.
  replace (length (buffer s) <? bufferEnd s) with false by (clear - H2; lia).
  destruct (Z.of_nat (length (buffer s) - bufferEnd s) <? len)%Z eqn:Ef.
  2:{ eexists _, (Some _). split; [reflexivity|]. split; [exact L0|]. split; [clear - Ef; lia|]. split; [exact P|].
      exists [], 0, 0. split; [left; reflexivity|]. reflexivity. }
  replace (bufferEnd s <? bufferStart s) with false by (clear - H1; lia).
  replace (i32_max <? Z.of_nat (bufferEnd s - bufferStart s))%Z with false by (clear - H1 H2 H3; lia).
  destruct (i32_max <? len + Z.of_nat (bufferEnd s - bufferStart s))%Z eqn:Eo.
  { eexists _, None. split; [reflexivity|]. eexists. split; [reflexivity|]. right; right; right.
    split; [exact L0|]. split; [exact P|]. split; [reflexivity|]. right. unfold i32_max in Eo. clear - Eo. lia. }
  set (keep := Nat.min CONTEXT_BYTES (bufferStart s)). cbv zeta.
  assert (K : keep <= bufferStart s /\ keep <= 1024) by (unfold keep, CONTEXT_BYTES; clear; lia). destruct K as (K & K').
  assert (KC : Nat.min CONTEXT_BYTES (bufferStart s) = keep) by reflexivity. clearbody keep.
  destruct (len + Z.of_nat (bufferEnd s - bufferStart s) + Z.of_nat keep <=? Z.of_nat (length (buffer s)))%Z eqn:En.
  - destruct (keep <? bufferStart s) eqn:Ek.
    + rewrite copy_within_ok by (clear - H1 H2 K; lia). cbn [bind].
      eexists _, (Some _). split; [reflexivity|].
      assert (Lb : length (firstn (bufferEnd s - (bufferStart s - keep)) (skipn (bufferStart s - keep) (buffer s)) ++
                           skipn (bufferEnd s - (bufferStart s - keep)) (buffer s)) = length (buffer s))
        by (rewrite app_length, firstn_length, !skipn_length; clear - H1 H2 K; lia).
      cbn [set_pos set_event set_buffer buffer bufferEnd]. rewrite Lb.
      split; [exact L0|]. split; [clear - Ef En H1 H2 K; lia|]. split; [exact P|].
      eexists _, _, _. split; [right; split; [reflexivity|]|reflexivity].
      split; [clear - H1 K; lia|]. split; [clear - H1 K; lia|]. split; [rewrite Lb; clear - H2; lia|].
      split; [rewrite Lb; exact H3|]. split; [clear; lia|]. split; [|clear - KC K; lia].
      rewrite firstn_app, firstn_firstn, firstn_length, skipn_length.
      replace (bufferEnd s - (bufferStart s - keep) - Nat.min (bufferEnd s - (bufferStart s - keep)) (length (buffer s) - (bufferStart s - keep)))
        with 0 by (clear - H1 H2 K; lia).
      rewrite firstn_O, app_nil_r, Nat.min_id, skipn_firstn_comm. f_equal; [clear - H1 K; lia|]. f_equal. clear - H1 K; lia.
    + cbn [bind]. eexists _, (Some _). split; [reflexivity|]. split; [exact L0|]. split; [cbn; clear - Ef En Ek H1 H2 K; lia|].
      split; [exact P|].
      exists (buffer s), (bufferStart s), (bufferEnd s). split; [right; split; [destruct s; reflexivity|]|reflexivity].
      split; [reflexivity|]. split; [exact H1|]. split; [exact H2|]. split; [exact H3|]. split; [clear; lia|].
      rewrite Nat.sub_diag. split; [reflexivity|]. intros _. exact K.
  - set (room := Z.of_nat (length (buffer s) - bufferStart s)).
    assert (RM : exists size, (if (room =? 0)%Z then Ok INIT_BUFFER_SIZE else if (i32_max <? room)%Z then Err EPanic else Ok room) = Ok size /\
              (1 <= size <= i32_max)%Z).
    { destruct (room =? 0)%Z eqn:E0; [exists INIT_BUFFER_SIZE; split; [reflexivity|unfold INIT_BUFFER_SIZE, i32_max; lia]|].
      replace (i32_max <? room)%Z with false by (unfold room; clear - H3; lia).
      exists room. split; [reflexivity|]. unfold room in *. clear - E0 H3. lia. }
    destruct RM as (size & -> & S1 & S2). cbn [bind].
    destruct (grow_total size (len + Z.of_nat (bufferEnd s - bufferStart s) + Z.of_nat keep) S1) as [g Eg]. rewrite Eg. cbn [bind].
    destruct g as [g|].
    2:{ cbn [bind]. eexists _, None. split; [reflexivity|]. eexists. split; [reflexivity|]. right; right; right.
        split; [exact L0|]. split; [exact P|]. split; [reflexivity|]. right. apply grow_fail in Eg; [|exact S1]. clear - Eg K'. lia. }
    apply grow_sound in Eg; [|exact S1|exact S2]. destruct Eg as ((G1 & G2) & _).
    destruct mem; cbn [negb].
    2:{ cbn [bind]. eexists _, None. split; [reflexivity|]. eexists. split; [reflexivity|]. right; right; right.
        split; [exact L0|]. split; [exact P|]. split; [reflexivity|]. left. reflexivity. }
    set (b := buffer s ++ repeat 0%N (Z.to_nat g - length (buffer s))).
    assert (Lb : length b = Z.to_nat g) by (unfold b; rewrite app_length, repeat_length; clear - En G1; lia).
    assert (Bt : length (buffer s) <= Z.to_nat g) by (clear - En G1; lia).
    assert (Lbs : (Z.of_nat (length b) <= i32_max)%Z) by (rewrite Lb; clear - G1 G2 L0; lia).
    destruct (bufferStart s <? bufferEnd s) eqn:Es.
    + rewrite copy_within_ok by (rewrite ?Lb; clear - H1 H2 K Bt; lia). cbn [bind].
      eexists _, (Some _). split; [reflexivity|].
      assert (Lc : length (firstn (bufferEnd s - (bufferStart s - keep)) (skipn (bufferStart s - keep) b) ++
                           skipn (bufferEnd s - (bufferStart s - keep)) b) = length b)
        by (rewrite app_length, firstn_length, !skipn_length, Lb; clear - H1 H2 K Bt; lia).
      cbn [set_pos set_event set_buffer buffer bufferEnd]. rewrite Lc.
      split; [exact L0|]. split; [rewrite Lb; clear - G1 H1 H2 K; lia|]. split; [exact P|].
      eexists _, _, _. split; [right; split; [reflexivity|]|reflexivity].
      split; [clear - H1 K; lia|]. split; [clear - H1 K; lia|]. split; [rewrite Lc, Lb; clear - H1 H2 K Bt; lia|].
      split; [rewrite Lc; exact Lbs|]. split; [clear - H1 K; lia|]. split; [|intros _; apply Nat.le_refl].
      rewrite firstn_app, firstn_firstn, firstn_length, skipn_length, Lb.
      replace (bufferEnd s - bufferStart s + keep - Nat.min (bufferEnd s - (bufferStart s - keep)) (Z.to_nat g - (bufferStart s - keep)))
        with 0 by (clear - H1 H2 K Bt; lia).
      rewrite firstn_O, app_nil_r, skipn_firstn_comm.
      replace (bufferEnd s - (bufferEnd s - bufferStart s + keep)) with (bufferStart s - keep) by (clear - H1 K; lia).
      replace (Nat.min (bufferEnd s - bufferStart s + keep) (bufferEnd s - (bufferStart s - keep))) with (bufferEnd s - (bufferStart s - keep))
        by (clear - H1 K; lia).
      unfold b. rewrite skipn_app, firstn_app, skipn_length.
      replace (bufferEnd s - (bufferStart s - keep) - (length (buffer s) - (bufferStart s - keep))) with 0 by (clear - H1 H2 K; lia).
      rewrite firstn_O, app_nil_r. reflexivity.
    + cbn [bind]. eexists _, (Some _). split; [reflexivity|]. cbn [set_pos set_event set_buffer buffer bufferEnd].
      split; [exact L0|]. split; [rewrite Lb; clear - G1; lia|]. split; [exact P|].
      eexists _, 0, 0. split; [right; split; [reflexivity|]|reflexivity].
      split; [clear - Es; lia|]. split; [apply Nat.le_refl|]. split; [apply Nat.le_0_l|]. split; [exact Lbs|].
      split; [apply Nat.le_0_l|]. split; [|clear - Es; lia].
      rewrite Nat.sub_0_r, skipn_firstn_comm, Nat.sub_diag. reflexivity.
Qed.

Lemma view_getBuffer len mem s m s' k : view s m -> (len <= i32_max)%Z -> getBuffer len mem s = Ok (s', Some k) ->
  view s' (with_area k [] m) /\ (0 <= len)%Z /\ (len <= Z.of_nat k)%Z /\ (m_status m = INITIALIZED \/ m_status m = PARSING) /\
  k = length (buffer s') - bufferEnd s' /\ (bufferStart s < bufferEnd s -> Nat.min CONTEXT_BYTES (bufferStart s) <= bufferStart s').
Proof.
  intros V L H. destruct (getBuffer_spec len mem s (v_order _ _ V) (v_end _ _ V) (v_size _ _ V) L) as (s1 & r & E & R).
  rewrite H in E. injection E as <- <-. destruct R as (R1 & R2 & R3 & b & st & en & R4 & R5).
  rewrite (v_status _ _ V) in R3.
  destruct R4 as [-> |(-> & B1 & B2 & B3 & B4 & B5 & B6 & B7)].
  - split; [|split; [exact R1|split; [exact R2|split; [exact R3|split; [exact R5|]]]]].
    + destruct V. constructor; cbn; auto. rewrite R5. apply Nat.le_refl. apply Nat.le_0_l.
    + intros _. apply Nat.le_min_r.
  - split; [|split; [exact R1|split; [exact R2|split; [exact R3|split; [exact R5|exact B7]]]]].
    assert (A := v_arith _ _ V). assert (T := v_text _ _ V).
    destruct V. constructor; cbn in *; auto; try (rewrite R5; apply Nat.le_refl); try apply Nat.le_0_l; try discriminate; try (clear - A B1 B2 B5; lia).
    rewrite B6, T, skipn_skipn. f_equal. clear - A B5. lia.
Qed.

Lemma view_getBuffer_none len mem s m s' : view s m -> (len <= i32_max)%Z -> getBuffer len mem s = Ok (s', None) ->
  exists e, view s' (with_area 0 [] (with_error e m)) /\ view s' (with_error e m) /\
      ((len < 0)%Z /\ e = XE_NO_MEMORY \/
       (0 <= len)%Z /\ m_status m = SUSPENDED /\ e = XE_SUSPENDED \/
       (0 <= len)%Z /\ m_status m = FINISHED /\ e = XE_FINISHED \/
       (0 <= len)%Z /\ (m_status m = INITIALIZED \/ m_status m = PARSING) /\ e = XE_NO_MEMORY /\
       (mem = false \/ (1073741824 < len + Z.of_nat (length (m_doc m) - m_used m + 1024))%Z)).
Proof.
  intros V L H. destruct (getBuffer_spec len mem s (v_order _ _ V) (v_end _ _ V) (v_size _ _ V) L) as (s1 & r & E & R).
  rewrite H in E. injection E as <- <-. destruct R as (e & -> & R). rewrite (v_status _ _ V) in R.
  assert (Ne : e <> XE_NONE).
  { destruct R as [(_ & ->)|[(_ & _ & ->)|[(_ & _ & ->)|(_ & _ & -> & _)]]]; discriminate. }
  exists e. split; [apply view_area0, view_error; assumption|]. split; [apply view_error; assumption|].
  assert (A := v_arith _ _ V). replace (bufferEnd s - bufferStart s) with (length (m_doc m) - m_used m) in R by (clear - A; lia). exact R.
Qed.

(* --- writing into the buffer --- *)
Lemma write_at_spec b i d : i + length d <= length b ->
  length (write_at b i d) = length b /\ firstn i (write_at b i d) = firstn i b /\ skipn i (write_at b i d) = d ++ skipn (i + length d) b.
Proof.
  clear. intros H. unfold write_at. rewrite !app_length, firstn_length, skipn_length. split; [lia|].
  rewrite firstn_app, skipn_app, firstn_length, firstn_firstn. replace (i - Nat.min i (length b)) with 0 by lia.
  rewrite firstn_O, app_nil_r, Nat.min_id. split; [reflexivity|]. cbn [skipn].
  rewrite skipn_all2 by (rewrite firstn_length; lia). reflexivity.
Qed.
Lemma view_fill s m d : view s m -> length d <= m_room m -> view (fill d s) (with_area (m_room m) d m).
Proof using.
  intros V H. assert (A := v_arith _ _ V). assert (R := v_room _ _ V).
  destruct (write_at_spec (buffer s) (bufferEnd s) d) as (W1 & W2 & W3); [clear - A R H; lia|].
  destruct V. constructor; cbn; auto; rewrite ?W1; auto.
  - rewrite W2. exact v_text0.
  - rewrite W3, firstn_app, firstn_all, Nat.sub_diag. cbn. apply app_nil_r.
Qed.

(* --- XML_ParseBuffer --- *)
Lemma parseBuffer_tail len f s s1 : enter start s = Ok (inr s1) ->
  parseBuffer run start upd len f s =
  let* (s2, n) := call_processor run (bufferStart s1) (bufferEnd s1 + len) (prepare len f s1) in tail f true s2 n.
Proof. intros E. unfold parseBuffer. rewrite E. reflexivity. Qed.

Lemma parseBuffer_sim len f s m s' st : view s m -> len <= length (m_pending m) -> parseBuffer run start upd len f s = Ok (s', st) ->
  exists m', call run start is_child is_pe m (OpParseBuffer len f) m' (A_status st) /\ view s' m' /\
    (m_room m' = 0 /\ m_pending m' = [] \/ m_room m' = m_room m /\ m_pending m' = m_pending m).
Proof.
  intros V L H. destruct (enter start s) as [r|] eqn:E; [|unfold parseBuffer in H; rewrite E in H; discriminate].
  assert (EN := enter_sim _ _ _ V E). destruct r as [(s1, st1)|s1].
  - unfold parseBuffer in H. rewrite E in H. cbn [bind] in H. injection H as <- <-. destruct EN as (-> & e & R & V1).
    exists (with_error e m). split; [apply call_parse_buffer_refused; exact R|]. split; [exact V1|]. right. auto.
  - rewrite (parseBuffer_tail _ _ _ _ E) in H. destruct EN as (m1 & B & V1 & P1 & D1 & U1 & Pe1 & R1).
    destruct (call_processor _ _ _ _) as [(s2, n)|] eqn:EC; cbn [bind] in H; [|discriminate].
    assert (A := v_arith _ _ V1). assert (RR := v_room _ _ V1). assert (PP := v_pend _ _ V1). rewrite <- Pe1 in L.
    assert (LL : len <= length (buffer s1) - bufferEnd s1) by (clear - RR PP L; lia).
    assert (VP := view_prepare s1 m1 len f V1 LL).
    assert (DD : firstn len (skipn (bufferEnd s1) (buffer s1)) = firstn len (m_pending m1)).
    { rewrite <- (v_pending _ _ V1), firstn_firstn. f_equal. clear - L. lia. }
    rewrite DD in VP.
    destruct (tail_sim (firstn len (m_pending m1)) f true (prepare len f s1) _ m1 s2 n s' st VP eq_refl eq_refl eq_refl) as (m2 & AD & V2).
    + rewrite <- (v_status _ _ V1). exact P1.
    + exact EC.
    + exact H.
    + exists m2. split; [eapply call_parse_buffer; [exact B|rewrite <- Pe1; exact AD]|]. split; [exact V2|].
      left. inversion AD; subst; cbn; auto.
Qed.

(* --- XML_Parse --- *)
Lemma enter_again s : parsing s = PARSING -> enter start s = Ok (inr s).
Proof. intros H. unfold enter. rewrite H. unfold set_parsing. rewrite <- H. destruct s; reflexivity. Qed.

Lemma parse_sim d f mem s m s' st : view s m -> (Z.of_nat (length d) <= i32_max)%Z -> parse run start upd d f mem s = Ok (s', st) ->
  exists m', call run start is_child is_pe m (OpParse d f mem) m' (A_status st) /\ view s' m'.
Proof.
  intros V L H. unfold parse in H. destruct (enter start s) as [r|] eqn:E; cbn [bind] in H; [|discriminate].
  assert (EN := enter_sim _ _ _ V E). destruct r as [(s1, st1)|s1].
  { injection H as <- <-. destruct EN as (-> & e & R & V1). exists (with_error e m). split; [apply call_parse_refused; exact R|exact V1]. }
  destruct EN as (m1 & B & V1 & P1 & D1 & U1 & _ & _).
  assert (PM : m_status m1 = PARSING) by (rewrite <- (v_status _ _ V1); exact P1).
  destruct d as [|x d].
  - destruct f; cbn [negb] in H.
    + assert (V2 : view (set_parse_end (parseEndByteIndex s1) (bufferEnd s1) (set_pos (Some (bufferStart s1)) (position s1) (set_final true s1)))
                     (with_data [] true m1)).
      { assert (X := view_area0 _ _ (view_prepare0 _ _ (view_pos _ _ (Some (bufferStart s1)) (position s1) (view_final _ _ true V1)))).
        cbn in X. unfold with_data. rewrite app_nil_r. exact X. }
      cbn [set_final set_pos set_parse_end bufferStart bufferEnd position parseEndByteIndex] in H.
      match type of H with context [call_processor _ _ _ ?x] => set (sx := x) in * end.
      destruct (call_processor _ _ _ _) as [(s2, n)|] eqn:EC; cbn [bind] in H; [|discriminate].
      destruct (tail_sim [] true false sx _ m1 s2 n s' st V2 eq_refl eq_refl eq_refl PM EC) as (m2 & AD & V3).
      * unfold tail. cbn [set_buffer bufferStart bufferEnd buffer errorCode parsing] in *. exact H.
      * exists m2. split; [eapply call_parse; [exact B|right; reflexivity|exact AD]|exact V3].
    + injection H as <- <-. exists (with_final false m1). split; [apply call_parse_nothing; exact B|]. apply view_final. exact V1.
  - destruct (getBuffer _ _ _) as [(s2, room)|] eqn:EG; cbn [bind] in H; [|discriminate]. destruct room as [room|].
    + destruct (view_getBuffer _ _ _ _ _ _ V1 L EG) as (V2 & G1 & G2 & G3 & G4 & _).
      destruct (room <? length (x :: d)) eqn:Er; [discriminate|].
      assert (LD : length (x :: d) <= room) by (clear - Er; lia).
      assert (V3 := view_fill _ _ (x :: d) V2 LD).
      destruct (parseBuffer_sim (length (x :: d)) f _ _ s' st V3 ltac:(apply Nat.le_refl) H) as (m' & CL & V4 & _).
      clear G4. inversion CL as [| | | | | | | | | ? mm m2 ? ? ? BB AD| ? ? ? ? RF| | | | | | | | |]; subst.
      * exists m'. split; [|exact V4]. eapply call_parse; [exact B|left; discriminate|].
        assert (mm = with_area room (x :: d) m1).
        { inversion BB as [? S|? S|? ? S]; subst; [reflexivity|cbn in S; rewrite PM in S; discriminate..]. }
        subst mm. cbn [m_pending with_area] in AD. change (S (length d)) with (length (x :: d)) in AD. rewrite firstn_all in AD.
        inversion AD as [? FF|? r FF RR]; subst; [exact (advances_failed run (x :: d) f m1 FF)|exact (advances_runs run (x :: d) f m1 r FF RR)].
      * exfalso. inversion RF as [? S|? S|? S]; subst; cbn in S; rewrite PM in S; discriminate.
    + injection H as <- <-. destruct (view_getBuffer_none _ _ _ _ _ V1 L EG) as (e & V2 & V3 & R).
      rewrite PM, D1, U1 in R.
      destruct R as [(R & _)|[(_ & R & _)|[(_ & R & _)|(_ & _ & -> & R)]]]; [clear - R; lia|discriminate..|].
      exists (with_error XE_NO_MEMORY m1). split; [|exact V3]. apply call_parse_memory; [exact B|discriminate|].
      destruct R as [R|R]; [left; exact R|right; clear - R; cbn [length] in *; lia].
Qed.

(* --- all calls --- *)
Lemma locate_view s m s' : view s m -> locate upd s = Ok s' -> view s' m.
Proof.
  intros V. unfold locate. destruct (positionIdx s); [|discriminate]. destruct (eventPtr s); [|intros H; injection H as <-; exact V].
  destruct (_ <=? _); [|intros H; injection H as <-; exact V].
  destruct (slice _ _ _); cbn [bind]; [|discriminate]. destruct (upd _ _ _); cbn [bind]; [|discriminate].
  intros H. injection H as <-. apply view_pos. exact V.
Qed.

Definition permitted (m : machine) (o : op (C := C)) : Prop :=
  match o with
  | OpFill d => length d <= m_room m
  | OpParseBuffer n _ => n <= length (m_pending m)
  | OpResume => False
  | _ => True
  end.

Lemma step_sim o s m s' a : view s m -> small o -> permitted m o -> step run start upd o s = Ok (s', a) ->
  exists m', call run start is_child is_pe m o m' a /\ view s' m'.
Proof.
  intros V S P H. destruct o; cbn [step] in H.
  - destruct (parse _ _ _ _ _ _ _) as [(s1, r)|] eqn:E; cbn [bind] in H; [|discriminate]. injection H as <- <-.
    eapply parse_sim; eauto.
  - destruct (getBuffer _ _ _) as [(s1, r)|] eqn:E; cbn [bind] in H; [|discriminate]. injection H as <- <-. destruct r as [k|].
    + destruct (view_getBuffer _ _ _ _ _ _ V S E) as (V1 & G1 & G2 & G3 & _ & _). eexists. split; [|exact V1].
      apply call_buffer; assumption.
    + destruct (view_getBuffer_none _ _ _ _ _ V S E) as (e & V2 & _ & R). exists (with_area 0 [] (with_error e m)). split; [|exact V2].
      destruct R as [(R & ->)|[(R1 & R & ->)|[(R1 & R & ->)|(R1 & R2 & -> & R)]]].
      * apply call_buffer_negative. exact R.
      * apply call_buffer_refused; [constructor; exact R|discriminate|exact R1].
      * apply call_buffer_refused; [constructor; exact R|discriminate|exact R1].
      * apply call_buffer_memory; assumption.
  - injection H as <- <-. eexists. split; [apply call_fill|]. apply view_fill; assumption.
  - destruct (parseBuffer _ _ _ _ _ _) as [(s1, r)|] eqn:E; cbn [bind] in H; [|discriminate]. injection H as <- <-.
    destruct (parseBuffer_sim _ _ _ _ _ _ V P E) as (m' & CL & V1 & _). exists m'. split; assumption.
  - unfold stopParser in H. rewrite (v_status _ _ V) in H.
    destruct (m_status m) eqn:E; destruct resumable; try rewrite (v_pe _ _ V) in H; try destruct is_pe eqn:Ep;
      try (injection H as <- <-); eexists; split;
      match goal with
      | |- call _ _ _ _ _ _ _ _ => idtac
      | |- view (set_error _ _) _ => apply view_error; [|exact V]; discriminate
      | |- view (set_parsing _ _) _ => apply view_status; exact V
      end;
      first [apply call_stop; rewrite E; discriminate | apply call_suspend; [rewrite E; auto|reflexivity] | apply call_suspend_pe; [rewrite E; auto|reflexivity]
            | apply call_suspend_again; exact E | apply call_stop_finished; exact E].
  - destruct P.
  - unfold getCurrentLineNumber in H. destruct (locate _ _) as [s1|] eqn:E; cbn [bind] in H; [|discriminate]. injection H as <- <-.
    exists m. split; [constructor|]. eapply locate_view; eauto.
  - unfold getCurrentColumnNumber in H. destruct (locate _ _) as [s1|] eqn:E; cbn [bind] in H; [|discriminate]. injection H as <- <-.
    exists m. split; [constructor|]. eapply locate_view; eauto.
  - unfold change_setting, setting_refused in H. rewrite (v_status _ _ V), (v_core _ _ V) in H.
    destruct (m_status m) eqn:E; cbn in H; injection H as <- <-; eexists; (split; [|solve [exact V | apply view_core; exact V]]);
      solve [apply call_setting; auto | apply call_setting_refused; auto].
Qed.


Lemma steps_sim os : forall s m s' l room written, view s m -> room <= m_room m -> written <= length (m_pending m) ->
  Forall small os -> steps run start upd os s = Ok (s', l) -> disciplined room written os l ->
  exists m', calls run start is_child is_pe m os m' l /\ view s' m'.
Proof.
  induction os as [|o os IH]; intros s m s' l room written V R W SM H D; cbn [steps] in H.
  - injection H as <- <-. exists m. split; [constructor|exact V].
  - destruct (step _ _ _ _ _) as [(s1, a)|] eqn:E; cbn [bind] in H; [|discriminate].
    destruct (steps _ _ _ _ s1) as [(s2, l2)|] eqn:E2; cbn [bind] in H; [|discriminate]. injection H as <- <-.
    apply Forall_cons_iff in SM. destruct SM as (SM1 & SM2).
    assert (P : permitted m o).
    { destruct o; cbn [permitted disciplined] in *; try exact I; try contradiction.
      - destruct D as (D & _). clear - D R. lia.
      - destruct D as (D & _). clear - D W. lia. }
    destruct (step_sim _ _ _ _ _ V SM1 P E) as (m1 & CL & V1).
    assert (DD : exists r w, disciplined r w os l2 /\ r <= m_room m1 /\ w <= length (m_pending m1)).
    { destruct o; cbn [disciplined] in D.
      - exists 0, 0. split; [exact D|]. split; apply Nat.le_0_l.
      - inversion CL; subst; eexists _, _; (split; [exact D|]); cbn; split; first [apply Nat.le_refl | apply Nat.le_0_l].
      - destruct D as (D1 & D2). exists room, (length data). split; [exact D2|].
        inversion CL; subst; cbn. split; [exact R|apply Nat.le_refl].
      - destruct D as (D1 & D2). exists 0, 0. split; [exact D2|]. split; apply Nat.le_0_l.
      - exists room, written. split; [exact D|]. inversion CL; subst; cbn; auto.
      - destruct D.
      - exists room, written. split; [exact D|]. inversion CL; subst; cbn; auto.
      - exists room, written. split; [exact D|]. inversion CL; subst; cbn; auto.
      - exists room, written. split; [exact D|]. inversion CL; subst; cbn; auto. }
    destruct DD as (r & w & D1 & R1 & W1).
    destruct (IH _ _ _ _ _ _ V1 R1 W1 SM2 E2 D1) as (m' & CS & V2).
    exists m'. split; [econstructor; eauto|exact V2].
Qed.

(* --- no panic --- *)
Hypothesis run_ok : forall c p f b, exists r, run c p f b = Ok r.
Hypothesis start_ok : forall c, exists r, start c = Ok r.
Hypothesis upd_ok : forall c b p, exists r, upd c b p = Ok r.

Lemma sync_total (s : api) i : positionIdx s = Some i -> i <= bufferStart s -> bufferStart s <= length (buffer s) ->
  exists s', sync_position upd s = Ok s'.
Proof.
  intros H1 H2 H3. unfold sync_position. rewrite H1, slice_eq by assumption. cbn [bind].
  match goal with |- context [upd ?a ?b ?c] => destruct (upd_ok a b c) as [p ->] end. cbn [bind]. eauto.
Qed.
Lemma call_total (s : api) m : view s m -> exists s' n, call_processor run (bufferStart s) (bufferEnd s) s = Ok (s', n).
Proof.
  intros V. unfold call_processor. rewrite slice_eq by apply V. cbn [bind]. destruct (failed s); [eauto|].
  match goal with |- context [run ?a ?b ?c ?d] => destruct (run_ok a b c d) as [p ->] end. cbn [bind]. eauto.
Qed.
Lemma tail_total f sync s m s1 n : view s m -> parseEndIdx s = bufferEnd s -> positionIdx s = Some (bufferStart s) ->
  call_processor run (bufferStart s) (bufferEnd s) s = Ok (s1, n) -> exists r, tail f sync s1 n = Ok r.
Proof.
  intros V PE PI HC. assert (A := v_arith _ _ V).
  destruct (call_sim _ _ _ _ V PE HC) as [(F & -> & ->) | (r & F & Er & -> & E1 & E2 & E3 & N & B & B1 & B2 & B3 & _)].
  - unfold tail. cbn [errorCode set_buffer].
    assert (NN : is_none (errorCode s) = false).
    { rewrite (v_error _ _ V). destruct (is_none (m_error m)) eqn:E; [|reflexivity]. apply is_none_iff in E.
      exfalso. apply (v_sticky _ _ V); [rewrite <- (v_failed _ _ V); exact F|exact E]. }
    rewrite NN. eexists; reflexivity.
  - unfold tail. cbn [errorCode set_buffer parsing]. destruct (negb _); [eauto|].
    assert (S : exists s', sync_position upd (set_buffer (buffer s1) (bufferStart s1 + r_next r) (bufferEnd s1) s1) = Ok s').
    { apply sync_total with (bufferStart s).
      - cbn. rewrite B3. exact PI.
      - cbn. rewrite B1. apply Nat.le_add_r.
      - cbn. rewrite B, B1. unfold unread in N. rewrite firstn_length, skipn_length in N. clear - N A. lia. }
    destruct S as (s' & ->). cbn [bind]. destruct (parsing s1); eauto; [destruct f|destruct f|destruct sync]; eauto.
Qed.
Lemma enter_total (s : api) : exists r, enter start s = Ok r.
Proof.
  unfold enter. destruct (parsing s); eauto. destruct (child s); eauto. destruct (start_ok (core s)) as [[c|] ->]; cbn [bind]; eauto.
Qed.
Lemma parseBuffer_total len f s m : view s m -> len <= length (m_pending m) -> exists r, parseBuffer run start upd len f s = Ok r.
Proof.
  intros V L. destruct (enter_total s) as [r E]. assert (EN := enter_sim _ _ _ V E). destruct r as [(s1, st1)|s1].
  - unfold parseBuffer. rewrite E. cbn [bind]. eauto.
  - rewrite (parseBuffer_tail _ _ _ _ E). destruct EN as (m1 & B & V1 & P1 & D1 & U1 & Pe1 & R1).
    assert (RR := v_room _ _ V1). assert (PP := v_pend _ _ V1). rewrite <- Pe1 in L.
    assert (LL : len <= length (buffer s1) - bufferEnd s1) by (clear - RR PP L; lia).
    assert (VP := view_prepare s1 m1 len f V1 LL).
    destruct (call_total _ _ VP) as (s2 & n & EC).
    change (call_processor run (bufferStart s1) (bufferEnd s1 + len) (prepare len f s1) = Ok (s2, n)) in EC. rewrite EC. cbn [bind].
    exact (tail_total f true _ _ s2 n VP eq_refl eq_refl EC).
Qed.
Lemma parse_total d f mem s m : view s m -> (Z.of_nat (length d) <= i32_max)%Z -> exists r, parse run start upd d f mem s = Ok r.
Proof.
  intros V L. unfold parse. destruct (enter_total s) as [r E]. assert (EN := enter_sim _ _ _ V E). rewrite E. cbn [bind].
  destruct r as [r|s1]; [eauto|]. destruct EN as (m1 & B & V1 & P1 & _).
  destruct d as [|x d].
  - destruct f; cbn [negb]; [|eauto].
    assert (V2 := view_prepare0 _ _ (view_pos _ _ (Some (bufferStart s1)) (position s1) (view_final _ _ true V1))).
    cbn [set_final set_pos set_parse_end bufferStart bufferEnd position parseEndByteIndex] in *.
    destruct (call_total _ _ V2) as (s2 & n & EC).
    match goal with |- context [call_processor ?a ?b ?c ?x] => assert (EC' : call_processor a b c x = Ok (s2, n)) by exact EC end.
    rewrite EC'. cbn [bind].
    destruct (tail_total true false _ _ s2 n V2 eq_refl eq_refl EC) as (r & T). exists r. exact T.
  - destruct (getBuffer_spec (Z.of_nat (length (x :: d))) mem s1 (v_order _ _ V1) (v_end _ _ V1) (v_size _ _ V1) L) as (s2 & r & E2 & _).
    rewrite E2. cbn [bind]. destruct r as [room|]; [|eauto].
    destruct (view_getBuffer _ _ _ _ _ _ V1 L E2) as (V2 & G1 & G2 & G3 & G4 & _).
    replace (room <? length (x :: d)) with false by (clear - G2; lia).
    apply (parseBuffer_total _ f _ (with_area room (x :: d) m1)); [|apply Nat.le_refl].
    apply (view_fill _ (with_area room [] m1)); [exact V2|]. cbn [m_room with_area]. clear - G2. lia.
Qed.
Lemma step_total o s m : view s m -> small o -> permitted m o -> (o <> OpLine /\ o <> OpColumn) -> exists r, step run start upd o s = Ok r.
Proof.
  intros V S P (N1 & N2). destruct o; cbn [step]; try contradiction; try congruence; try (eexists; reflexivity).
  - destruct (parse_total data isFinal mem _ _ V S) as ((s1, r) & ->). eexists; reflexivity.
  - destruct (getBuffer_spec len mem s (v_order _ _ V) (v_end _ _ V) (v_size _ _ V) S) as (s2 & r & -> & _). eexists; reflexivity.
  - destruct (parseBuffer_total _ isFinal _ _ V P) as ((s1, r) & ->). eexists; reflexivity.
  - destruct (stopParser _ _). eexists; reflexivity.
  - destruct (change_setting _ _). eexists; reflexivity.
Qed.
End S.
