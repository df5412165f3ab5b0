(* Proofs about string pools *)
From Coq Require Import List NArith Bool Arith Lia ZifyBool ZifyNat ZifyN.
From Verif Require Import Base Encoding SpecUnicode SpecConv UniLaws UniConv Charset CharsetLaws SpecLex TextEnc DeclFinal Pool SpecPool.
Import ListNotations.
Local Open Scope nat_scope.

Lemma set_nth_length {A} (l : list A) : forall i v, length (set_nth i v l) = length l.
Proof. induction l as [|x l IH]; intros [|i] v; cbn; auto. Qed.
Lemma nth_set_same {A} (l : list A) d : forall i v, i < length l -> nth i (set_nth i v l) d = v.
Proof. induction l as [|x l IH]; intros [|i] v H; cbn in *; try lia; auto. apply IH. lia. Qed.
Lemma nth_set_other {A} (l : list A) d : forall i j v, i <> j -> nth j (set_nth i v l) d = nth j l d.
Proof. induction l as [|x l IH]; intros [|i] [|j] v H; cbn; auto; try congruence. Qed.
Lemma set_nth_app {A} (a : list A) x b v : set_nth (length a) v (a ++ x :: b) = a ++ v :: b.
Proof. induction a; cbn; f_equal; auto. Qed.
Lemma firstn_set_nth {A} (l : list A) : forall n i v, i < n -> firstn n (set_nth i v l) = set_nth i v (firstn n l).
Proof.
  induction l as [|x l IH]; intros n i v H.
  - rewrite firstn_nil. destruct i, n; reflexivity.
  - destruct n; [lia|]. destruct i; cbn; [reflexivity|]. f_equal. apply IH. lia.
Qed.

(* what an operation on the current string leaves alone *)
Record frame (p p' : pool) : Prop := {
  f_gen : gen p' = gen p;
  f_len : length (arena p) <= length (arena p');
  f_same : forall j, j < length (arena p) -> cur p <> Some j -> nth j (arena p') [] = nth j (arena p) [];
  f_cur : cur p' = cur p \/ cur p' = None \/ exists k, cur p' = Some k /\ length (arena p) <= k
}.
Lemma frame_refl p : frame p p.
Proof. constructor; auto. Qed.
Lemma frame_trans a b c : frame a b -> frame b c -> frame a c.
Proof.
  intros [A1 A2 A3 A4] [B1 B2 B3 B4]. constructor.
  - congruence.
  - lia.
  - intros j Hj Hc. rewrite B3; [apply A3; auto|lia|].
    destruct A4 as [-> |[-> |(k & -> & K)]]; [exact Hc|discriminate|]. intros X. injection X as ->. lia.
  - destruct B4 as [-> |[-> |(k & -> & K)]]; [exact A4|auto|]. right; right. exists k. split; [reflexivity|lia].
Qed.

(* the current string lies in its block *)
Definition sane (p : pool) : Prop :=
  match cur p with Some i => i < length (arena p) /\ cur_len p <= length (nth i (arena p) []) | None => cur_len p = 0 end.

Lemma text_length p : sane p -> length (text p) = cur_len p.
Proof. unfold sane, text, block. destruct (cur p); intros H; rewrite firstn_length; cbn; lia. Qed.

Lemma F2_length {A B} (R : A -> B -> Prop) l m : Forall2 R l m -> length l = length m.
Proof. induction 1; cbn; auto. Qed.
Ltac ub := unfold bytes in *.
Section S.
Variable oracle : nat -> alloc.

Lemma reserve_spec n p p' ok : sane p -> reserve oracle n p = (p', ok) ->
  sane p' /\ frame p p' /\ text p' = text p /\ cur_len p' = cur_len p /\
  (ok = true -> cur_len p' + n <= length (block p' (cur p')) /\ (0 < n -> exists i, cur p' = Some i)) /\
  (ok = false -> exists t, oracle t = AllocFails).
Proof.
  intros S. unfold reserve. destruct (_ <=? _) eqn:E.
  { intros H. injection H as <- <-. split; [exact S|]. split; [apply frame_refl|]. split; [reflexivity|]. split; [reflexivity|].
    split; [|discriminate]. intros _. split; [lia|]. intros Hn. unfold sane in S. destruct (cur p) as [i|] eqn:Ec; [eauto|]. cbn in E. lia. }
  assert (Lt : length (firstn (cur_len p) (block p (cur p))) = cur_len p) by (exact (text_length p S)).
  assert (MV : forall extra, let q := {| arena := arena p ++ [firstn (cur_len p) (block p (cur p)) ++ repeat 0%N (n + extra)]; gen := gen p; cur := Some (length (arena p));
          cur_len := cur_len p; tick := Datatypes.S (tick p) |} in sane q /\ frame p q /\ text q = text p /\ cur_len q = cur_len p /\
          (cur_len q + n <= length (block q (cur q)) /\ (0 < n -> exists i, cur q = Some i))).
  { intros extra q.
    assert (NB : nth (length (arena p)) (arena q) [] = firstn (cur_len p) (block p (cur p)) ++ repeat 0%N (n + extra)).
    { unfold q. cbn [arena]. rewrite app_nth2 by lia. rewrite Nat.sub_diag. reflexivity. }
    assert (LB : length (nth (length (arena p)) (arena q) []) = cur_len p + (n + extra)) by (rewrite NB, app_length, repeat_length, Lt; reflexivity).
    split; [|split; [|split; [|split]]].
    - unfold sane. cbn [cur q]. rewrite LB. unfold q. cbn [arena cur_len]. rewrite app_length. cbn. lia.
    - constructor; cbn [gen arena cur q]; [reflexivity|rewrite app_length; lia| |].
      + intros j Hj _. apply app_nth1. exact Hj.
      + right; right. eexists. split; [reflexivity|]. apply Nat.le_refl.
    - unfold text, block at 1. cbn [cur q]. rewrite NB. cbn [cur_len q].
      rewrite firstn_app, Lt, Nat.sub_diag, firstn_O, app_nil_r. rewrite firstn_firstn, Nat.min_id. reflexivity.
    - reflexivity.
    - unfold block. cbn [cur q]. rewrite LB. cbn [cur_len q]. split; [lia|eauto]. }
  destruct (oracle (tick p)) as [|extra|extra] eqn:Eo.
  - intros H. injection H as <- <-. split; [exact S|]. split; [constructor; auto|]. split; [reflexivity|]. split; [reflexivity|].
    split; [discriminate|eauto].
  - destruct (cur p) as [i|] eqn:Ec.
    + intros H. injection H as <- <-. unfold sane in S. rewrite Ec in S. destruct S as (S1 & S2).
      cbn [block] in Lt.
      assert (NB : nth i (set_nth i (firstn (cur_len p) (nth i (arena p) []) ++ repeat 0%N (n + extra)) (arena p)) [] =
                   firstn (cur_len p) (nth i (arena p) []) ++ repeat 0%N (n + extra)) by (apply nth_set_same; exact S1).
      assert (LB := f_equal (@length N) NB). rewrite app_length, repeat_length, Lt in LB.
      split; [|split; [|split; [|split; [|split; [|discriminate]]]]].
      * unfold sane. cbn [cur arena cur_len]. ub. rewrite set_nth_length, LB. lia.
      * constructor; cbn; [reflexivity|rewrite set_nth_length; lia| |auto].
        intros j Hj Hne. apply nth_set_other. congruence.
      * unfold text. rewrite Ec. cbn [cur_len cur block arena]. ub. rewrite NB, firstn_app, Lt, Nat.sub_diag, firstn_O, app_nil_r.
        rewrite firstn_firstn, Nat.min_id. reflexivity.
      * reflexivity.
      * intros _. cbn [block cur arena cur_len]. ub. rewrite LB. split; [lia|eauto].
    + intros H. injection H as <- <-. destruct (MV extra) as (M1 & M2 & M3 & M4 & M5).
      split; [exact M1|]. split; [exact M2|]. split; [exact M3|]. split; [exact M4|]. split; [intros _; exact M5|discriminate].
  - intros H. injection H as <- <-. destruct (MV extra) as (M1 & M2 & M3 & M4 & M5).
    split; [exact M1|]. split; [exact M2|]. split; [exact M3|]. split; [exact M4|]. split; [intros _; exact M5|discriminate].
Qed.

Lemma push_spec out p : sane p -> cur_len p + length out <= length (block p (cur p)) -> (out = [] \/ exists i, cur p = Some i) ->
  exists p', push out p = Ok p' /\ sane p' /\ frame p p' /\ text p' = text p ++ out.
Proof.
  intros S H C. unfold push. assert (Lt := text_length p S). unfold sane in S. destruct (cur p) as [i|] eqn:Ec.
  - destruct S as (S1 & S2). replace (_ <=? _) with true by lia. eexists. split; [reflexivity|]. ub.
    set (nb := firstn (cur_len p) (block p (Some i)) ++ out ++ repeat 0%N (length (block p (Some i)) - cur_len p - length out)).
    assert (NB : nth i (set_nth i nb (arena p)) [] = nb) by (apply nth_set_same; exact S1).
    unfold text in Lt. rewrite Ec in Lt.
    assert (LB : length nb = length (block p (Some i))) by (unfold nb; rewrite !app_length, repeat_length, Lt; lia).
    split; [|split].
    + unfold sane. cbn [cur arena cur_len]. ub. rewrite set_nth_length. rewrite NB, LB. cbn [block] in *. lia.
    + constructor; cbn; [reflexivity|rewrite set_nth_length; lia| |auto]. intros j Hj Hne. apply nth_set_other. congruence.
    + unfold text. cbn [cur_len cur]. unfold block at 1. cbn [arena]. ub. rewrite NB, Ec. unfold nb.
      rewrite app_assoc, firstn_app. replace (cur_len p + length out - length _) with 0 by (rewrite app_length, Lt; lia).
      rewrite firstn_O, app_nil_r. apply firstn_all2. rewrite app_length, Lt. lia.
  - destruct C as [-> |(i & C)]; [|discriminate]. exists p. split; [reflexivity|]. split; [unfold sane; rewrite Ec; exact S|].
    split; [apply frame_refl|]. rewrite app_nil_r. reflexivity.
Qed.

Lemma append_char_spec c p : sane p -> exists p' ok, append_char oracle c p = Ok (p', ok) /\ sane p' /\ frame p p' /\
  (ok = true -> text p' = text p ++ [c]) /\ (ok = false -> exists t, oracle t = AllocFails).
Proof.
  intros S. unfold append_char. destruct (reserve oracle 1 p) as [p1 ok] eqn:E.
  destruct (reserve_spec _ _ _ _ S E) as (S1 & F1 & T1 & _ & R1 & R2). destruct ok.
  - destruct (R1 eq_refl) as (R3 & R4). destruct (push_spec [c] p1 S1) as (p2 & P1 & P2 & P3 & P4).
    + cbn. lia.
    + right. apply R4. lia.
    + rewrite P1. cbn [bind]. exists p2, true. split; [reflexivity|]. split; [exact P2|]. split; [eapply frame_trans; eauto|].
      split; [intros _; rewrite P4, T1; reflexivity|discriminate].
  - exists p1, false. split; [reflexivity|]. split; [exact S1|]. split; [exact F1|]. split; [discriminate|exact R2].
Qed.
Lemma append_chars_spec s : forall p, sane p -> exists p' ok, append_chars oracle s p = Ok (p', ok) /\ sane p' /\ frame p p' /\
  (ok = true -> text p' = text p ++ s) /\ (ok = false -> exists t, oracle t = AllocFails).
Proof.
  induction s as [|c s IH]; intros p S; cbn [append_chars].
  - exists p, true. split; [reflexivity|]. split; [exact S|]. split; [apply frame_refl|]. split; [intros _; rewrite app_nil_r; reflexivity|discriminate].
  - destruct (append_char_spec c p S) as (p1 & ok & E & S1 & F1 & T1 & N1). rewrite E. cbn [bind]. destruct ok.
    + destruct (IH p1 S1) as (p2 & ok2 & E2 & S2 & F2 & T2 & N2). exists p2, ok2. split; [exact E2|]. split; [exact S2|].
      split; [eapply frame_trans; eauto|]. split; [|exact N2]. intros H. rewrite (T2 H), (T1 eq_refl), <- app_assoc. reflexivity.
    + exists p1, false. split; [reflexivity|]. split; [exact S1|]. split; [exact F1|]. split; [discriminate|exact N1].
Qed.

Lemma append_loop_spec conv enc dom : transfers conv enc dom -> (forall c, dom c -> enc c <> []) ->
  forall cs p fuel, Forall dom cs -> sane p -> length cs < fuel ->
  exists p' ok, append_loop oracle fuel conv (flat_map enc cs) p = Ok (p', ok) /\ sane p' /\ frame p p' /\
    (ok = true -> text p' = text p ++ utf8 cs) /\ (ok = false -> exists t, oracle t = AllocFails).
Proof.
  intros T Hne cs. remember (length cs) as n eqn:En. revert cs En. induction n as [n IH] using lt_wf_ind. intros cs En p fuel Hd S Hf.
  destruct fuel as [|fuel]; [lia|]. cbn [append_loop].
  destruct (reserve oracle _ p) as [p1 ok] eqn:E.
  destruct (reserve_spec _ _ _ _ S E) as (S1 & F1 & T1 & _ & R1 & R2). destruct ok; cbn [negb].
  2:{ exists p1, false. split; [reflexivity|]. split; [exact S1|]. split; [exact F1|]. split; [discriminate|exact R2]. }
  destruct (R1 eq_refl) as (R3 & R4).
  set (room := length (block p1 (cur p1)) - cur_len p1).
  destruct (T cs room Hd) as (done & left & Ecs & L & M).
  assert (HL : Forall dom left) by (rewrite Ecs in Hd; apply Forall_app in Hd; tauto).
  assert (PS : exists p2, push (utf8 done) p1 = Ok p2 /\ sane p2 /\ frame p1 p2 /\ text p2 = text p1 ++ utf8 done).
  { apply push_spec; [exact S1|unfold room in L; lia|]. right. apply R4. lia. }
  destruct PS as (p2 & P1 & P2 & P3 & P4).
  destruct left as [|d left].
  - rewrite M. cbn [bind]. rewrite P1. cbn [bind]. exists p2, true. split; [reflexivity|]. split; [exact P2|].
    split; [eapply frame_trans; eauto|]. split; [|discriminate]. intros _. rewrite P4, T1, Ecs, app_nil_r. reflexivity.
  - destruct M as (M & X). rewrite M. cbn [bind]. rewrite P1. cbn [bind].
    assert (ND : done <> []).
    { intros ->. cbn in X. rewrite app_nil_r in X. pose proof (utf8_encode_len d). unfold room in X. lia. }
    assert (LL : length (d :: left) < n).
    { rewrite En, Ecs, app_length. destruct done; [congruence|]. cbn [length]. lia. }
    destruct (IH (length (d :: left)) LL (d :: left) eq_refl p2 fuel HL P2 ltac:(lia)) as (p3 & ok & E3 & S3 & F3 & T3 & N3).
    exists p3, ok. split; [exact E3|]. split; [exact S3|]. split; [eapply frame_trans; [exact F1|eapply frame_trans; eauto]|].
    split; [|exact N3]. intros H. rewrite (T3 H), P4, T1, Ecs, <- app_assoc. f_equal. rewrite utf8_app. reflexivity.
Qed.
Lemma flat_len {A} (enc : A -> bytes) (dom : A -> Prop) cs : (forall c, dom c -> enc c <> []) -> Forall dom cs -> length cs <= length (flat_map enc cs).
Proof.
  intros Hne H. induction H as [|c cs Hc H IH]; cbn; [lia|]. rewrite app_length.
  assert (X := Hne c Hc). destruct (enc c); [congruence|]. cbn. lia.
Qed.
Lemma append_spec conv buf out p : converts conv buf out -> sane p ->
  exists p' ok, append oracle conv buf p = Ok (p', ok) /\ sane p' /\ frame p p' /\
    (ok = true -> text p' = text p ++ out) /\ (ok = false -> exists t, oracle t = AllocFails).
Proof.
  intros (enc & dom & cs & T & Hne & Hd & -> & ->) S. unfold append. apply (append_loop_spec conv enc dom); auto.
  assert (X := flat_len enc dom cs Hne Hd). lia.
Qed.

(* --- finished strings --- *)
Record owned (p : pool) (h : handle) : Prop := {
  o_gen : h_gen h = gen p;
  o_block : match h_block h with Some j => j < length (arena p) /\ cur p <> Some j /\ h_len h <= length (nth j (arena p) []) | None => h_len h = 0 end
}.
Lemma owned_frame p p' h : frame p p' -> owned p h -> owned p' h /\ read p' h = read p h.
Proof.
  intros [F1 F2 F3 F4] [O1 O2]. assert (B : block p' (h_block h) = block p (h_block h)).
  { unfold block. destruct (h_block h) as [j|]; [|reflexivity]. destruct O2 as (A & B & _). apply F3; auto. }
  split.
  - constructor; [congruence|]. destruct (h_block h) as [j|]; [|exact O2]. destruct O2 as (X & Y & Z). split; [lia|].
    split; [|rewrite F3; auto]. destruct F4 as [-> |[-> |(k & -> & K)]]; [exact Y|discriminate|]. intros W. injection W as ->. lia.
  - unfold read. rewrite F1, B. reflexivity.
Qed.
Lemma read_owned p h : owned p h -> read p h = Ok (firstn (h_len h) (block p (h_block h))).
Proof. intros [O1 O2]. unfold read. rewrite O1, Nat.eqb_refl. reflexivity. Qed.

Fixpoint apart (hs : list handle) : Prop :=
  match hs with
  | [] => True
  | h :: t => (forall h', In h' t -> match h_block h with Some j => h_block h' <> Some j | None => True end) /\ apart t
  end.
Lemma apart_snoc hs h : apart hs -> (forall h', In h' hs -> match h_block h' with Some j => h_block h <> Some j | None => True end) -> apart (hs ++ [h]).
Proof.
  induction hs as [|x hs IH]; cbn; intros A H; [split; [contradiction|exact I]|]. destruct A as (A1 & A2). split.
  - intros h' Hi. apply in_app_or in Hi. destruct Hi as [Hi|[<-|[]]]; [apply A1; exact Hi|]. exact (H x (or_introl eq_refl)).
  - apply IH; [exact A2|]. intros h' Hi. exact (H h' (or_intror Hi)).
Qed.

Definition holds (p : pool) (kept : list handle) (a : bytes * list bytes) : Prop :=
  sane p /\ Forall (owned p) kept /\ apart kept /\ text p = fst a /\ Forall2 (fun h s => read p h = Ok s) kept (snd a).

Lemma holds_frame p p' kept t t' l : holds p kept (t, l) -> frame p p' -> sane p' -> text p' = t' -> holds p' kept (t', l).
Proof.
  intros (H1 & H2 & H3 & H4 & H5) F S T. split; [exact S|]. split; [|split; [exact H3|split; [exact T|]]].
  - eapply Forall_impl; [|exact H2]. intros h O. apply (owned_frame _ _ _ F O).
  - cbn in *. clear H3. induction H5 as [|h s hs ss R H5 IH]; [constructor|]. apply Forall_cons_iff in H2. destruct H2 as (O & H2).
    constructor; [rewrite (proj2 (owned_frame _ _ _ F O)); exact R|apply IH; exact H2].
Qed.
Lemma finish_holds p kept t l : holds p kept (t, l) -> let '(p', h) := finish_string p in holds p' (kept ++ [h]) ([], l ++ [t]).
Proof.
  intros (H1 & H2 & H3 & H4 & H5). unfold finish_string.
  set (p' := {| arena := arena p; gen := gen p; cur := None; cur_len := 0; tick := tick p |}).
  assert (F : frame p p') by (constructor; cbn; auto).
  assert (O : owned p' {| h_gen := gen p; h_block := cur p; h_len := cur_len p |}).
  { constructor; [reflexivity|]. cbn. unfold sane in H1. destruct (cur p); [|exact H1]. destruct H1. split; [assumption|]. split; [discriminate|assumption]. }
  assert (HF : holds p' kept ([], l)).
  { eapply holds_frame; [split; [exact H1|]; split; [exact H2|]; split; [exact H3|]; split; [exact H4|exact H5]|exact F|reflexivity|reflexivity]. }
  destruct HF as (G1 & G2 & G3 & G4 & G5). split; [exact G1|]. split; [apply Forall_app; split; [exact G2|apply Forall_cons; [exact O|apply Forall_nil]]|].
  split; [|split; [exact G4|]].
  - apply apart_snoc; [exact H3|]. intros h Hi. rewrite Forall_forall in H2. destruct (H2 h Hi) as [_ O2]. destruct (h_block h); [|exact I]. cbn. apply O2.
  - cbn in *. apply Forall2_app; [exact G5|]. constructor; [|constructor]. rewrite (read_owned _ _ O). cbn. f_equal. exact H4.
Qed.

Lemma poke_holds p kept k i v t l p' h : holds p kept (t, l) -> nth_error kept k = Some h -> poke h i v p = Ok p' ->
  exists l1 a b c l2, l = l1 ++ (a ++ b :: c) :: l2 /\ k = length l1 /\ i = length a /\ holds p' kept (t, l1 ++ (a ++ v :: c) :: l2).
Proof.
  intros (H1 & H2 & H3 & H4 & H5) Hk HP. unfold poke in HP. destruct (h_block h) as [b|] eqn:Eb; [|discriminate].
  destruct (_ && _) eqn:E; [|discriminate]. injection HP as <-.
  apply nth_error_split in Hk. destruct Hk as (k1 & k2 & -> & Lk).
  apply Forall2_app_inv_l in H5. destruct H5 as (l1 & l2 & F1 & F2 & El). cbn [snd] in El.
  inversion F2 as [|? s ? l3 Rs F3]; subst.
  assert (O : owned p h) by (apply Forall_app in H2; destruct H2 as (_ & H2); apply Forall_inv in H2; exact H2).
  rewrite (read_owned _ _ O), Eb in Rs. injection Rs as Rs. destruct O as [O1 O2]. rewrite Eb in O2. destruct O2 as (O2 & O3 & O4).
  assert (Ls : length s = h_len h) by (rewrite <- Rs, firstn_length; cbn [block]; lia).
  assert (Hi : i < length s) by lia.
  destruct (nth_error s i) as [x|] eqn:Ex; [|apply nth_error_None in Ex; lia].
  apply nth_error_split in Ex. destruct Ex as (a & c & -> & La).
  exists l1, a, x, c, l3. split; [reflexivity|]. split; [apply (F2_length _ _ _ F1)|]. split; [auto|].
  set (p' := {| arena := _; gen := _; cur := _; cur_len := _; tick := _ |}).
  assert (Bo : forall o, o <> Some b -> block p' o = block p o).
  { intros [j|] Hj; [|reflexivity]. unfold block, p'. cbn [arena]. apply nth_set_other. congruence. }
  assert (Bs : block p' (Some b) = set_nth i v (block p (Some b))).
  { unfold block at 1, p'. cbn [arena]. apply nth_set_same. exact O2. }
  split; [|split; [|split; [exact H3|split]]].
  - unfold sane in *. unfold p'. cbn. destruct (cur p) as [j|]; [|exact H1]. rewrite set_nth_length, nth_set_other by congruence. exact H1.
  - eapply Forall_impl; [|exact H2]. intros g [G1 G2]. constructor; [exact G1|]. destruct (h_block g) as [j|]; [|exact G2].
    unfold p'. cbn. rewrite set_nth_length. destruct G2 as (G2 & G3 & G4). split; [exact G2|]. split; [exact G3|].
    destruct (Nat.eq_dec j b) as [-> |Hj]; [rewrite nth_set_same by exact O2; rewrite set_nth_length; exact G4|].
    rewrite nth_set_other by congruence. exact G4.
  - unfold text. cbn [p' cur cur_len]. rewrite Bo by exact O3. exact H4.
  - cbn [snd]. assert (AP : forall g, In g (k1 ++ k2) -> h_block g <> Some b).
    { clear - H3 Eb. induction k1 as [|y k1 IH]; cbn in H3; destruct H3 as (A & B).
      - intros g Hg X. specialize (A g Hg). rewrite Eb in A. congruence.
      - intros g [<-|Hg]; [|apply IH; assumption]. specialize (A h (in_or_app k1 (h :: k2) h (or_intror (or_introl eq_refl)))).
        destruct (h_block y); [|discriminate]. intros X. injection X as ->. congruence. }
    assert (RR : forall g s, In g (k1 ++ k2) -> read p g = Ok s -> read p' g = Ok s).
    { intros g s Hg. unfold read. rewrite (Bo _ (AP g Hg)). exact (fun X => X). }
    apply Forall2_app.
    + clear - F1 RR. assert (RR' : forall g s, In g k1 -> read p g = Ok s -> read p' g = Ok s) by (intros; apply RR; auto using in_or_app).
      clear RR. induction F1; constructor; [apply RR'; auto; left; reflexivity|]. apply IHF1. intros; apply RR'; auto; right; auto.
    + constructor.
      * unfold read. unfold p' at 1. cbn [gen]. rewrite O1, Nat.eqb_refl, Eb, Bs. f_equal. rewrite firstn_set_nth by lia. cbn [block]. ub. rewrite Rs.
        rewrite <- La. apply set_nth_app.
      * clear - F3 RR. assert (RR' : forall g s, In g k2 -> read p g = Ok s -> read p' g = Ok s) by (intros; apply RR; auto using in_or_app).
        clear RR. induction F3; constructor; [apply RR'; auto; left; reflexivity|]. apply IHF3. intros; apply RR'; auto; right; auto.
Qed.

Lemma firstn_S_last {A} n (l : list A) : n < length l -> exists d, firstn (S n) l = firstn n l ++ [d].
Proof.
  revert l. induction n as [|n IH]; intros [|x l] H; cbn in H; try lia.
  - exists x. reflexivity.
  - destruct (IH l ltac:(lia)) as (d & E). exists d. cbn [firstn app]. f_equal. exact E.
Qed.

Lemma step_holds o p kept a p' kept' : holds p kept a -> sound_op o -> pool_step oracle o p kept = Ok (p', kept', true) ->
  exists a', strings_step o a a' /\ holds p' kept' a'.
Proof.
  intros H SO E. destruct a as [t l]. assert (H0 := H). destruct H0 as (S & _ & _ & T & _). cbn [fst] in T.
  destruct o; cbn [pool_step sound_op] in *.
  - destruct SO as (out & CV). destruct (append_spec conv buf out p CV S) as (p1 & ok & E1 & S1 & F1 & T1 & _). rewrite E1 in E. cbn [bind] in E.
    injection E as <- <- ->. exists (t ++ out, l). split; [constructor; exact CV|]. eapply holds_frame; eauto. rewrite (T1 eq_refl), T. reflexivity.
  - destruct SO as (out & CV). unfold store_c_string in E. destruct (append_spec conv buf out p CV S) as (p1 & ok & E1 & S1 & F1 & T1 & _). rewrite E1 in E. cbn [bind] in E.
    destruct ok; [|discriminate]. destruct (append_char_spec 0%N p1 S1) as (p2 & ok & E2 & S2 & F2 & T2 & _). rewrite E2 in E. cbn [bind] in E.
    injection E as <- <- ->. exists (t ++ out ++ [0%N], l). split; [constructor; exact CV|]. eapply holds_frame; [exact H|eapply frame_trans; eauto|exact S2|].
    rewrite (T2 eq_refl), (T1 eq_refl), T, <- app_assoc. reflexivity.
  - destruct (append_char_spec c p S) as (p2 & ok & E2 & S2 & F2 & T2 & _). rewrite E2 in E. cbn [bind] in E. injection E as <- <- ->.
    exists (t ++ [c], l). split; [constructor|]. eapply holds_frame; eauto. rewrite (T2 eq_refl), T. reflexivity.
  - destruct (append_chars_spec s p S) as (p2 & ok & E2 & S2 & F2 & T2 & _). rewrite E2 in E. cbn [bind] in E. injection E as <- <- ->.
    exists (t ++ s, l). split; [constructor|]. eapply holds_frame; eauto. rewrite (T2 eq_refl), T. reflexivity.
  - assert (X := finish_holds _ _ _ _ H). destruct (finish_string p) as [p1 h]. injection E as <- <-. exists ([], l ++ [t]). split; [constructor|exact X].
  - unfold copy_c_string in E. destruct (append_chars_spec (s ++ [0%N]) p S) as (p2 & ok & E2 & S2 & F2 & T2 & _). rewrite E2 in E. cbn [bind] in E.
    destruct ok; [|discriminate]. assert (H2 : holds p2 kept (t ++ s ++ [0%N], l)) by (eapply holds_frame; eauto; rewrite (T2 eq_refl), T; reflexivity).
    assert (X := finish_holds _ _ _ _ H2). destruct (finish_string p2) as [p1 h]. cbn [bind] in E. injection E as <- <-.
    eexists. split; [constructor|exact X].
  - unfold copy_c_string_n in E. destruct (reserve oracle (length s) p) as [p1 ok1] eqn:E1.
    destruct (reserve_spec _ _ _ _ S E1) as (S1 & F1 & T1 & _). destruct ok1; cbn [negb bind] in E; [|discriminate].
    destruct (append_chars_spec s p1 S1) as (p2 & ok & E2 & S2 & F2 & T2 & _). rewrite E2 in E. cbn [bind] in E.
    destruct ok; [|discriminate].
    assert (H2 : holds p2 kept (t ++ s, l)) by (eapply holds_frame; [exact H|eapply frame_trans; eauto|exact S2|]; rewrite (T2 eq_refl), T1, T; reflexivity).
    assert (X := finish_holds _ _ _ _ H2). destruct (finish_string p2) as [p3 h]. cbn [bind] in E. injection E as <- <-.
    eexists. split; [constructor|exact X].
  - injection E as <- <-. exists ([], l). split; [constructor|]. eapply holds_frame; [exact H|constructor; cbn; auto| |reflexivity].
    unfold sane in *. cbn. destruct (cur p); [|reflexivity]. destruct S. split; [assumption|lia].
  - unfold replace_last_char in E. unfold sane in S. destruct (cur p) as [i|] eqn:Ec; [|discriminate]. destruct (cur_len p) as [|n] eqn:En; [discriminate|].
    cbn [bind] in E. injection E as <- <-. destruct S as (S1 & S2). destruct (firstn_S_last n (block p (Some i)) ltac:(cbn [block]; lia)) as (d & Ed).
    unfold text in T. rewrite Ec, En, Ed in T. subst t. exists (firstn n (block p (Some i)) ++ [c], l). split; [constructor|].
    eapply holds_frame; [exact H| | |].
    + constructor; cbn; [reflexivity|rewrite set_nth_length; lia| |rewrite Ec; auto]. intros j Hj Hne. apply nth_set_other. congruence.
    + unfold sane. cbn. rewrite set_nth_length, nth_set_same, set_nth_length by exact S1. split; assumption.
    + unfold text. cbn [cur cur_len]. unfold block at 1. cbn [arena]. rewrite nth_set_same by exact S1. rewrite firstn_set_nth by lia. cbn [block] in *. ub. rewrite Ed.
      assert (Lf : length (firstn n (nth i (arena p) [])) = n) by (rewrite firstn_length; ub; cbn [block] in *; lia).
      rewrite <- Lf at 1. apply set_nth_app.
  - unfold backtrack in E. destruct (cur_len p) as [|n] eqn:En; [discriminate|]. cbn [bind] in E. injection E as <- <-.
    unfold sane in S. destruct (cur p) as [i|] eqn:Ec; [|lia]. destruct S as (S1 & S2).
    destruct (firstn_S_last n (block p (Some i)) ltac:(cbn [block]; lia)) as (d & Ed).
    unfold text in T. rewrite Ec, En, Ed in T. subst t. exists (firstn n (block p (Some i)), l). split; [constructor|].
    eapply holds_frame; [exact H| | |reflexivity].
    + constructor; cbn; rewrite ?Ec; auto.
    + unfold sane. cbn. split; [exact S1|lia].
  - destruct (nth_error kept k) as [h|] eqn:Ek; [|discriminate]. destruct (poke h i v p) as [p1|] eqn:Ep; cbn [bind] in E; [|discriminate]. injection E as <- <-.
    destruct (poke_holds _ _ _ _ _ _ _ _ _ H Ek Ep) as (l1 & a & b & c & l2 & -> & Lk & Li & H2). eexists. split; [|exact H2]. constructor; assumption.
  - injection E as <- <-. exists ([], []). split; [constructor|]. split; [reflexivity|]. split; [constructor|]. split; [exact I|]. split; [reflexivity|constructor].
Qed.

Lemma run_holds os : forall p kept a p' kept', holds p kept a -> Forall sound_op os -> pool_run oracle os p kept = Ok (p', kept', true) ->
  exists a', strings_run os a a' /\ holds p' kept' a'.
Proof.
  induction os as [|o os IH]; intros p kept a p' kept' H SO E; cbn [pool_run] in E.
  - injection E as <- <-. exists a. split; [constructor|exact H].
  - destruct (pool_step _ _ _ _) as [((p1, k1), ok)|] eqn:E1; cbn [bind] in E; [|discriminate]. destruct ok; [|discriminate].
    apply Forall_cons_iff in SO. destruct SO as (SO1 & SO2).
    destruct (step_holds _ _ _ _ _ _ H SO1 E1) as (a1 & ST & H1). destruct (IH _ _ _ _ _ H1 SO2 E) as (a2 & SR & H2).
    exists a2. split; [econstructor; eauto|exact H2].
Qed.

Lemma pool_strings os p kept : Forall sound_op os -> pool_run oracle os pool0 [] = Ok (p, kept, true) ->
  exists t l, strings_run os ([], []) (t, l) /\ text p = t /\ Forall2 (fun h s => read p h = Ok s) kept l.
Proof.
  intros SO E. assert (H0 : holds pool0 [] ([], [])).
  { split; [reflexivity|]. split; [constructor|]. split; [exact I|]. split; [reflexivity|constructor]. }
  destruct (run_holds _ _ _ _ _ _ H0 SO E) as ((t, l) & SR & (_ & _ & _ & T & R)). exists t, l. auto.
Qed.

(* no operation fails unless the allocator does *)
Lemma step_no_error o p kept a : holds p kept a -> sound_op o ->
  match o with
  | PReplaceLast _ | PBacktrack => fst a <> []
  | PPoke k i _ => exists s, nth_error (snd a) k = Some s /\ i < length s
  | _ => True
  end -> exists p' kept' ok, pool_step oracle o p kept = Ok (p', kept', ok) /\ (ok = false -> exists t, oracle t = AllocFails).
Proof.
  intros H SO PR. destruct a as [t l]. assert (H0 := H). destruct H0 as (S & OW & _ & T & RD). cbn [fst snd] in *.
  destruct o; cbn [pool_step sound_op] in *.
  - destruct SO as (out & CV). destruct (append_spec conv buf out p CV S) as (p1 & ok & E1 & S1 & F1 & T1 & N1). rewrite E1. cbn [bind]. eauto 6.
  - destruct SO as (out & CV). unfold store_c_string. destruct (append_spec conv buf out p CV S) as (p1 & ok & E1 & S1 & F1 & T1 & N1). rewrite E1. cbn [bind].
    destruct ok; [|cbn [bind]; eauto 6]. destruct (append_char_spec 0%N p1 S1) as (p2 & ok & E2 & S2 & F2 & T2 & N2). rewrite E2. cbn [bind]. eauto 6.
  - destruct (append_char_spec c p S) as (p2 & ok & E2 & S2 & F2 & T2 & N2). rewrite E2. cbn [bind]. eauto 6.
  - destruct (append_chars_spec s p S) as (p2 & ok & E2 & S2 & F2 & T2 & N2). rewrite E2. cbn [bind]. eauto 6.
  - unfold finish_string. eexists _, _, true. split; [reflexivity|discriminate].
  - unfold copy_c_string. destruct (append_chars_spec (s ++ [0%N]) p S) as (p2 & ok & E2 & S2 & F2 & T2 & N2). rewrite E2. cbn [bind].
    destruct ok; cbn; eexists _, _, _; (split; [reflexivity|first [discriminate|exact N2]]).
  - unfold copy_c_string_n. destruct (reserve oracle (length s) p) as [p1 ok1] eqn:E1.
    destruct (reserve_spec _ _ _ _ S E1) as (S1 & F1 & T1 & _ & _ & N1). destruct ok1; cbn [negb bind]; [|eexists _, _, false; split; [reflexivity|exact N1]].
    destruct (append_chars_spec s p1 S1) as (p2 & ok & E2 & S2 & F2 & T2 & N2). rewrite E2. cbn [bind].
    destruct ok; cbn; eexists _, _, _; (split; [reflexivity|first [discriminate|exact N2]]).
  - eexists _, _, true. split; [reflexivity|discriminate].
  - unfold replace_last_char. assert (LT := text_length p S). rewrite T in LT. unfold sane in S. destruct (cur p) as [i|].
    + destruct (cur_len p); [destruct t; [congruence|discriminate]|]. eexists _, _, true. split; [reflexivity|discriminate].
    + rewrite S in LT. destruct t; [congruence|discriminate].
  - unfold backtrack. assert (LT := text_length p S). rewrite T in LT.
    destruct (cur_len p); [destruct t; [congruence|discriminate]|]. eexists _, _, true. split; [reflexivity|discriminate].
  - destruct PR as (s & Es & Hi). assert (LE := F2_length _ _ _ RD).
    destruct (nth_error kept k) as [h|] eqn:Ek.
    2:{ apply nth_error_None in Ek. assert (X : nth_error l k = None) by (apply nth_error_None; lia). congruence. }
    assert (R : read p h = Ok s).
    { clear - RD Ek Es. revert k Ek Es. induction RD; intros [|k] Ek Es; cbn in *; try discriminate; [congruence|eauto]. }
    assert (O : owned p h) by (rewrite Forall_forall in OW; apply OW; eapply nth_error_In; eauto).
    rewrite (read_owned _ _ O) in R. injection R as R. destruct O as [O1 O2]. unfold poke.
    destruct (h_block h) as [b|]; [|cbn in R; destruct (h_len h); subst s; cbn in Hi; lia].
    assert (i < h_len h) by (subst s; rewrite firstn_length in Hi; lia).
    replace (_ && _) with true by lia. cbn [bind]. eexists _, _, true. split; [reflexivity|discriminate].
  - eexists _, _, true. split; [reflexivity|discriminate].
Qed.
End S.

Lemma te_converts e enc dom lat ns cs : text_encoding e enc dom lat ns -> Forall (fun c => dom c = true) cs ->
  converts (utf8Convert e) (flat_map enc cs) (utf8 cs).
Proof.
  intros TE H. exists enc, (fun c => dom c = true), cs. split; [exact (te_transfers _ _ _ _ _ TE)|]. split; [|auto].
  intros c Hc X. destruct (text_encoding_std _ _ _ _ _ TE) as (k & CS & _). destruct (ch_whole _ _ _ _ CS c Hc) as (j & L).
  rewrite X in L. destruct (ch_min _ _ _ _ CS) as [M|M]; rewrite M in L; cbn in L; lia.
Qed.

Definition applicable (o : pool_op) (a : bytes * list bytes) : Prop := exists a', strings_step o a a'.
Lemma pool_total oracle os p kept : Forall sound_op os -> pool_run oracle os pool0 [] = Ok (p, kept, true) ->
  forall a o, strings_run os ([], []) a -> text p = fst a -> Forall2 (fun h s => read p h = Ok s) kept (snd a) ->
  sound_op o -> applicable o a ->
  exists p' kept' ok, pool_step oracle o p kept = Ok (p', kept', ok) /\ (ok = false -> exists t, oracle t = AllocFails).
Proof.
  intros SO E (t, l) o SR T R SOo (a' & ST).
  assert (H0 : holds pool0 [] ([], [])).
  { split; [reflexivity|]. split; [constructor|]. split; [exact I|]. split; [reflexivity|constructor]. }
  destruct (run_holds _ _ _ _ _ _ _ H0 SO E) as (a1 & _ & (S1 & S2 & S3 & _ & _)).
  eapply step_no_error with (a := (t, l)); [split; [exact S1|]; split; [exact S2|]; split; [exact S3|]; split; [exact T|exact R]|exact SOo|].
  inversion ST; subst; cbn [fst snd]; try exact I.
  - destruct t0; discriminate.
  - match goal with |- ?x ++ _ <> [] => destruct x; discriminate end.
  - eexists. rewrite nth_error_app2, Nat.sub_diag by apply Nat.le_refl. cbn [nth_error]. split; [reflexivity|]. rewrite app_length. cbn. lia.
Qed.
Lemma pool_whole oracle os p kept : Forall sound_op os -> pool_run oracle os pool0 [] = Ok (p, kept, true) ->
  exists t l, strings_run os ([], []) (t, l) /\ text p = t /\ Forall2 (fun h s => read p h = Ok s) kept l /\
    forall o, sound_op o -> (exists a, strings_step o (t, l) a) ->
    exists p' kept' ok, pool_step oracle o p kept = Ok (p', kept', ok) /\ (ok = false -> exists n, oracle n = AllocFails).
Proof.
  intros SO E. destruct (pool_strings _ _ _ _ SO E) as (t & l & A & B & C). exists t, l. split; [exact A|]. split; [exact B|]. split; [exact C|].
  intros o H1 H2. eapply pool_total; eauto.
Qed.
