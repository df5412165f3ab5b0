(* C73: the prolog tokeniser answers that there is no text only if there is none. *)
From Coq Require Import List NArith ZArith Bool Lia Arith.
From Verif Require Import Base Encoding Tok EncLaws TokEmit TokTop TokInst.
Import ListNotations.

Definition XN (t : XML_TOK) : Prop := t <> T_NONE.
Section E.
Variable e : EncImpl.
Lemma i_decl B : qx XN (@scanDecl e B). Proof. unfold scanDecl, scanComment; uq; qs. Qed.
Lemma i_lit B o : qx XN (@scanLit e B o). Proof. unfold scanLit; uq; qs. Qed.
Lemma i_percent B : qx XN (@scanPercent e B). Proof. unfold scanPercent; uq; qs. Qed.
Lemma i_pound B : qx XN (@scanPoundName e B). Proof. unfold scanPoundName; uq; qs. Qed.
Lemma i_name : qx XN (pi_name e). Proof. unfold pi_name. uq; qs. Qed.
Lemma i_text B tok : tok = T_PI \/ tok = T_XML_DECL -> qx XN (@pi_text e B tok).
Proof. intros H. unfold pi_text; uq; qs; apply q_here; destruct H; subst; sx. Qed.
Lemma i_pi B : qx XN (@scanPi e B).
Proof.
  unfold scanPi. apply q_bind; [apply q_capture, i_name|]. intros [r x]. cbn [fst snd].
  assert (T : forall k : XML_TOK -> M B, (forall tok, tok = T_PI \/ tok = T_XML_DECL -> qx XN (k tok)) ->
    qx XN (mbind (check_pi_target e x) (fun tok => match tok with None => stop_here T_INVALID | Some tok => k tok end))).
  { intros k Hk b t n. unfold mbind, check_pi_target. destruct (checkPiTarget e x) as [[tok|]|] eqn:E; cbn [bind]; [| |discriminate].
    - apply Hk. eapply target_tok; eauto.
    - intros H. injection H as <- <-. discriminate. }
  destruct r; try (apply q_here; sx); apply T; intros tok Ht;
    first [ apply q_bind; [apply q_adv|intros _; apply i_text; exact Ht] | uq; qs; apply q_here; destruct Ht; subst; sx ].
Qed.
Definition qin (m : M XML_TOK) : Prop := forall b,
  match m b with Ok (Stop t _) => XN t | Ok (Cont t _) => nm t | Err _ => True end.
Lemma qin_bind {A} (m : M A) (k : A -> M XML_TOK) : qx XN m -> (forall a, qin (k a)) -> qin (mbind m k).
Proof. intros H1 H2 b. unfold mbind. destruct (m b) as [[t' n'|a b']|] eqn:E; auto; [exact (H1 _ _ _ E)|]. apply H2. Qed.
Lemma qin_ret t : nm t -> qin (ret t). Proof. intros H b. exact H. Qed.
Lemma qin_here t : XN t -> qin (stop_here t). Proof. intros H b. exact H. Qed.
Lemma i_prolog_name B tok : nm tok -> qx XN (@prolog_name e B tok).
Proof.
  intros Hn b. unfold prolog_name, while_. generalize (Datatypes.S (length b)). intros f. revert tok Hn b.
  assert (Hb : forall s, nm s -> qin (prolog_name_body e s)).
  { intros s Hs. unfold prolog_name_body. uq.
    assert (Hh : XN s) by (destruct Hs as [-> |[-> | -> ]]; discriminate).
    repeat first [ apply qin_bind; [qs|intros ?] | apply qin_ret; first [exact Hs|unfold nm; tauto] | apply qin_here; first [discriminate|exact Hh]
      | match goal with |- qin (match ?x with _ => _ end) => destruct x end ]. }
  assert (Hf : forall s t, nm s -> tok_negate s = Ok t -> XN t).
  { intros s t [-> |[-> | -> ]] H; cbn in H; injection H as <-; discriminate. }
  induction f as [|f IH]; intros s Hs b t n H; cbn [while_fuel] in H; destruct (has_chars e 1 b).
  - discriminate H.
  - destruct (tok_negate s) as [x|] eqn:E; [|discriminate H]. cbn [bind] in H. injection H as <- <-. exact (Hf _ _ Hs E).
  - specialize (Hb s Hs b). destruct (prolog_name_body e s b) as [[t' n'|s' b']|] eqn:E; try discriminate H; [|exact (IH _ Hb _ _ _ H)]. injection H as <- <-. exact Hb.
  - destruct (tok_negate s) as [x|] eqn:E; [|discriminate H]. cbn [bind] in H. injection H as <- <-. exact (Hf _ _ Hs E).
Qed.
Lemma i_space B f : qx XN (@prolog_s_run e B f).
Proof.
  induction f as [|f IH]; intros b t n H; cbn [prolog_s_run] in H; [discriminate H|].
  destruct (inc_start _ b) as [x|]; cbn [bind] in H; [|discriminate H].
  assert (Hh : stop_here T_PROLOG_S x = Ok (@Stop B t n) -> XN t) by (intros X; injection X as <- <-; discriminate).
  destruct (negb (has_chars e 1 x)); [exact (Hh H)|]. destruct (byte_type e x) as [y|]; cbn [bind] in H; [|discriminate H].
  destruct y; try (exact (Hh H)); try (exact (IH _ _ _ H)). destruct (length x =? minbpc e)%nat; [exact (Hh H)|exact (IH _ _ _ H)].
Qed.
Lemma i_prolog b n : @prologScan e Empty_set b = Ok (Stop T_NONE n) -> False.
Proof.
  assert (N : forall (m : M Empty_set), qx XN m -> m b = Ok (Stop T_NONE n) -> False).
  { intros m Hm H. elim (Hm _ _ _ H). reflexivity. }
  unfold prologScan, mbind at 1, bt. destruct (byte_type e b) as [bt0|] eqn:Eb; cbn [bind]; [|discriminate].
  destruct (lead_len bt0) as [k|].
  - apply N. qs; try (apply i_prolog_name; unfold nm; tauto).
  - destruct bt0; try (apply N; apply q_bind; [apply q_adv|intros _; first [apply i_lit | apply i_percent | apply i_pound | apply i_prolog_name; unfold nm; tauto]]); try (apply N; uq; qs; first [apply i_prolog_name; unfold nm; tauto]; fail).
    all: try (apply (N (fun buf => prolog_s_run e (S (length buf)) buf)); intros b' t' n' H; exact (i_space _ _ _ _ _ H)).
    all: try (apply N; uq; qs; fail).
    + unfold mbind at 1, require_chars, require_or. destruct (has_chars e 2 b); [|discriminate].
      unfold mbind at 1, bt_at. destruct (inc_start (1 * minbpc e) b) as [x|] eqn:Ex; cbn [bind]; [|discriminate]. destruct (byte_type e x) as [t2|] eqn:Et; cbn [bind]; [|discriminate].
      rewrite Nat.mul_1_l in Ex.
      destruct t2; try (apply N; apply q_bind; [apply q_adv|intros _; apply q_bind; [apply q_adv|intros _; first [apply i_pi|apply i_decl]]]); try (apply N; uq; qs; fail).
    + apply (N (fun buf => if (length buf =? minbpc e)%nat then Ok (Stop T_PROLOG_S_NEG (Some [])) else prolog_s_run e (S (length buf)) buf)).
      intros b' t' n' H. destruct (_ =? _)%nat; [injection H as <- <-; discriminate|]. exact (i_space _ _ _ _ _ H).
Qed.

End E.
Theorem no_text e buf n : prologTok e buf = Ok (T_NONE, n) -> buf = [].
Proof.
  unfold prologTok. destruct buf as [|x b]; [reflexivity|]. cbn [is_nil]. destruct (is_nil (round_down e (x :: b))); [discriminate|].
  unfold run. destruct (prologScan e (round_down e (x :: b))) as [[t p|[]]|] eqn:E; [|discriminate]. intros H. injection H as -> _. elim (i_prolog _ _ _ E).
Qed.
