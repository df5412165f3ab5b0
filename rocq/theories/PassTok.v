(* What the prolog tokeniser never reports. *)
From Coq Require Import List NArith ZArith Bool Lia Arith.
From Verif Require Import Base Encoding Tok EncLaws TokEmit.
Import ListNotations.

Definition plain (t : XML_TOK) : Prop := t <> T_BOM /\ t <> T_NONE /\ t <> T_PROLOG_S_NEG.
Section S.
Variable e : EncImpl.
Ltac sx := repeat split; discriminate.
Ltac qs := repeat first
  [ apply q_bind; [|intros ?] | apply q_ret | apply q_here; sx | apply q_adv | apply q_req; sx | apply q_reqb; sx
  | apply q_bt | apply q_bt_at | apply q_m | apply q_m_at | apply q_lift | apply q_capture
  | apply q_while; [intros ?|let H := fresh in intros ? ? H; injection H as <-; sx]
  | match goal with |- qx _ (match ?x with _ => _ end) => destruct x end ].
Ltac uq := unfold stop_after, adv1, require_char, require_chars, while_partial, match_invalid, check_name, check_nmstrt, stop_none.
Lemma p_lit B o : qx plain (@scanLit e B o). Proof. unfold scanLit; uq; qs. Qed.
Lemma p_percent B : qx plain (@scanPercent e B). Proof. unfold scanPercent; uq; qs. Qed.
Lemma p_decl B : qx plain (@scanDecl e B). Proof. unfold scanDecl, scanComment; uq; qs. Qed.
Lemma p_pound B : qx plain (@scanPoundName e B). Proof. unfold scanPoundName; uq; qs. Qed.
Lemma p_loop {S B} (body : S -> M (S + B)) s : (forall s, qx plain (body s)) -> qx plain (loopb body s).
Proof.
  intros Hb b. unfold loopb. generalize (Datatypes.S (length b)). intros f. revert s b.
  induction f as [|f IH]; intros s b t n H; cbn [loop] in H; [discriminate H|].
  destruct (body s b) as [[t' n'|[s'|v] b']|] eqn:E; try discriminate H; [|exact (IH _ _ _ _ H)]. injection H as <- <-. eapply Hb; eauto.
Qed.
Lemma p_name : qx plain (pi_name e).
Proof. unfold pi_name. uq; qs. apply p_loop. intros ?. uq. qs. Qed.
Lemma p_text B tok : tok = T_PI \/ tok = T_XML_DECL -> qx plain (@pi_text e B tok).
Proof. intros H. unfold pi_text; uq; qs; apply q_here; destruct H; subst; sx. Qed.
Lemma p_pi B : qx plain (@scanPi e B).
Proof.
  unfold scanPi. apply q_bind; [apply q_capture, p_name|]. intros [r x]. cbn [fst snd].
  assert (T : forall k : XML_TOK -> M B, (forall tok, tok = T_PI \/ tok = T_XML_DECL -> qx plain (k tok)) ->
    qx plain (mbind (check_pi_target e x) (fun tok => match tok with None => stop_here T_INVALID | Some tok => k tok end))).
  { intros k Hk b t n. unfold mbind, check_pi_target. destruct (checkPiTarget e x) as [[tok|]|] eqn:E; cbn [bind]; [| |discriminate].
    - apply Hk. eapply target_tok; eauto.
    - intros H. injection H as <- <-. sx. }
  destruct r; try (apply q_here; sx); apply T; intros tok Ht;
    first [ apply q_bind; [apply q_adv|intros _; apply p_text; exact Ht] | uq; qs; apply q_here; destruct Ht; subst; sx ].
Qed.
Definition pl (m : M XML_TOK) : Prop := forall b,
  match m b with Ok (Stop t _) => plain t | Ok (Cont t _) => nm t | Err _ => True end.
Lemma pl_bind {A} (m : M A) (k : A -> M XML_TOK) : qx plain m -> (forall a, pl (k a)) -> pl (mbind m k).
Proof. intros H1 H2 b. unfold mbind. destruct (m b) as [[t' n'|a b']|] eqn:E; auto; [exact (H1 _ _ _ E)|]. apply H2. Qed.
Lemma pl_ret t : nm t -> pl (ret t). Proof. intros H b. exact H. Qed.
Lemma pl_here t : plain t -> pl (stop_here t). Proof. intros H b. exact H. Qed.
Lemma p_prolog_name B tok : nm tok -> qx plain (@prolog_name e B tok).
Proof.
  intros Hn b. unfold prolog_name, while_. generalize (Datatypes.S (length b)). intros f. revert tok Hn b.
  assert (Hb : forall s, nm s -> pl (prolog_name_body e s)).
  { intros s Hs. unfold prolog_name_body. uq.
    assert (Hh : plain s) by (destruct Hs as [-> |[-> | -> ]]; sx).
    repeat first [ apply pl_bind; [qs|intros ?] | apply pl_ret; first [exact Hs|unfold nm; tauto] | apply pl_here; first [exact Hh|sx]
      | match goal with |- pl (match ?x with _ => _ end) => destruct x end ]. }
  assert (Hf : forall s t, nm s -> tok_negate s = Ok t -> plain t).
  { intros s t [-> |[-> | -> ]] H; cbn in H; injection H as <-; sx. }
  induction f as [|f IH]; intros s Hs b t n H; cbn [while_fuel] in H; destruct (has_chars e 1 b).
  - discriminate H.
  - destruct (tok_negate s) as [x|] eqn:E; [|discriminate H]. cbn [bind] in H. injection H as <- <-. exact (Hf _ _ Hs E).
  - specialize (Hb s Hs b). destruct (prolog_name_body e s b) as [[t' n'|s' b']|] eqn:E; try discriminate H; [|exact (IH _ Hb _ _ _ H)]. injection H as <- <-. exact Hb.
  - destruct (tok_negate s) as [x|] eqn:E; [|discriminate H]. cbn [bind] in H. injection H as <- <-. exact (Hf _ _ Hs E).
Qed.
Lemma p_space B f : qx plain (@prolog_s_run e B f).
Proof.
  induction f as [|f IH]; intros b t n H; cbn [prolog_s_run] in H; [discriminate H|].
  destruct (inc_start _ b) as [x|]; cbn [bind] in H; [|discriminate H].
  assert (Hh : stop_here T_PROLOG_S x = Ok (@Stop B t n) -> plain t) by (intros X; injection X as <- <-; sx).
  destruct (negb (has_chars e 1 x)); [exact (Hh H)|]. destruct (byte_type e x) as [y|]; cbn [bind] in H; [|discriminate H].
  destruct y; try (exact (Hh H)); try (exact (IH _ _ _ H)). destruct (length x =? minbpc e)%nat; [exact (Hh H)|exact (IH _ _ _ H)].
Qed.
Lemma prolog_plain : forall b t p, @prologScan e Empty_set b = Ok (Stop t p) -> plain t \/ (t = T_PROLOG_S_NEG /\ p = Some []).
Proof.
  assert (N : forall (m : M Empty_set) b t p, qx plain m -> m b = Ok (Stop t p) -> plain t \/ (t = T_PROLOG_S_NEG /\ p = Some [])).
  { intros m b t p Hm H. left. exact (Hm _ _ _ H). }
  intros b t p. unfold prologScan, mbind at 1, bt. destruct (byte_type e b) as [bt0|]; cbn [bind]; [|discriminate].
  destruct (lead_len bt0) as [n|].
  - apply N. qs; try (apply p_prolog_name; unfold nm; tauto).
  - destruct bt0; try (apply N; apply q_bind; [apply q_adv|intros _; first [apply p_lit | apply p_percent | apply p_pound | apply p_prolog_name; unfold nm; tauto]]); try (apply N; uq; qs; first [apply p_lit | apply p_percent | apply p_decl | apply p_pi | apply p_prolog_name; unfold nm; tauto | idtac]; fail).
    all: try (apply (N (fun buf => prolog_s_run e (Datatypes.S (length buf)) buf)); intros b' t' n' H; exact (p_space _ _ _ _ _ H)).
    all: cbv beta; try (destruct (length b =? minbpc e)%nat; [intros H; injection H as <- <-; auto|]; intros H; left; exact (p_space _ _ _ _ _ H)).
    apply N. apply q_bind; [uq; qs|intros _]. apply q_bind; [apply q_bt_at|intros t2].
    destruct t2; try (apply q_bind; [apply q_adv|intros _; apply q_bind; [apply q_adv|intros _; first [apply p_pi|apply p_decl]]]); uq; qs.
Qed.
End S.
Lemma prolog_plain_tok e b t n : minbpc e = 1 -> prologTok e b = Ok (t, n) -> (t = T_NONE /\ b = []) \/ plain t \/ (t = T_PROLOG_S_NEG /\ n = Some (length b)).
Proof.
  intros Em. unfold prologTok, round_down. rewrite Em. change (1 =? 2)%nat with false. cbv iota.
  destruct b as [|x b]; cbn [is_nil]; [intros H; injection H as <- <-; auto|]. unfold run.
  destruct (prologScan e (x :: b)) as [[t' p|[]]|] eqn:E; try discriminate. intros H. injection H as <- <-. right.
  destruct (prolog_plain _ _ _ _ E) as [P|[-> ->]]; [left; exact P|right; split; [reflexivity|]]. cbn [option_map length]. try reflexivity; f_equal; lia.
Qed.
