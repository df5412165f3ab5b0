(* Which tokens of the prolog tokeniser begin with "<!" and with "#". *)
From Coq Require Import List NArith ZArith Bool Lia Arith.
From Verif Require Import Base Encoding Tok EncLaws.
Import ListNotations.

(* never reports these two tokens *)
Definition qx (X : XML_TOK -> Prop) {A} (m : M A) : Prop := forall b t n, m b = Ok (Stop t n) -> X t.
Definition X1 (t : XML_TOK) : Prop := t <> T_DECL_OPEN /\ t <> T_POUND_NAME.
Definition X2 (t : XML_TOK) : Prop := t <> T_DECL_OPEN.
Notation quiet := (qx X1).
(* never moves back *)
Definition onward {A} (m : M A) : Prop := forall b,
  match m b with
  | Ok (Stop _ (Some p)) => length p <= length b
  | Ok (Cont _ b') => length b' <= length b
  | _ => True
  end.

Section S.
Variable e : EncImpl.
Section Q.
Variable X : XML_TOK -> Prop.
Lemma q_bind {A B} (m : M A) (k : A -> M B) : qx X m -> (forall a, qx X (k a)) -> qx X (mbind m k).
Proof. intros H1 H2 b t n. unfold mbind. destruct (m b) as [[t' n'|a b']|] eqn:E; intros H; try discriminate H; [|exact (H2 _ _ _ _ H)]. injection H as <- <-. eauto. Qed.
Lemma q_ret {A} (a : A) : qx X (ret a). Proof. intros b t n H. discriminate H. Qed.
Lemma q_here {A} t : X t -> qx X (@stop_here A t).
Proof. intros H1 b t' n H. injection H as <- <-. auto. Qed.
Lemma q_adv n : qx X (adv n).
Proof. intros b t m H. unfold adv in H. destruct (inc_start n b); discriminate H. Qed.
Lemma q_req k t : X t -> qx X (require_or e k t).
Proof. intros H1 b t' n H. unfold require_or in H. destruct (has_chars e k b); [discriminate H|]. injection H as <- <-. auto. Qed.
Lemma q_reqb k t : X t -> qx X (require_bytes k t).
Proof. intros H1 b t' n H. unfold require_bytes in H. destruct (has k b); [discriminate H|]. injection H as <- <-. auto. Qed.
Lemma q_bt : qx X (bt e). Proof. intros b t n H. unfold bt in H. destruct (byte_type e b); discriminate H. Qed.
Lemma q_bt_at k : qx X (bt_at e k).
Proof. intros b t n H. unfold bt_at in H. destruct (inc_start _ b) as [x|]; [|discriminate H]. cbn [bind] in H. destruct (byte_type e x); discriminate H. Qed.
Lemma q_m c : qx X (matches e c). Proof. intros b t n H. unfold matches in H. destruct (char_matches e b c); discriminate H. Qed.
Lemma q_m_at k c : qx X (matches_at e k c).
Proof. intros b t n H. unfold matches_at in H. destruct (inc_start _ b) as [x|]; [|discriminate H]. cbn [bind] in H. destruct (char_matches e x c); discriminate H. Qed.
Lemma q_lift f : qx X (lift_check f). Proof. intros b t n H. unfold lift_check in H. destruct (f b); discriminate H. Qed.
Lemma q_while {S B} (body : S -> M S) fin s : (forall s, qx X (body s)) -> (forall s t, fin s = Ok t -> X t) ->
  qx X (@while_ e S B body fin s).
Proof.
  intros Hb Hf b. unfold while_. generalize (Datatypes.S (length b)). intros f. revert s b.
  induction f as [|f IH]; intros s b t n H; cbn [while_fuel] in H; destruct (has_chars e 1 b).
  - discriminate H.
  - destruct (fin s) as [x|] eqn:E; [|discriminate H]. cbn [bind] in H. injection H as <- <-. eauto.
  - destruct (body s b) as [[t' n'|s' b']|] eqn:E; try discriminate H; [|exact (IH _ _ _ _ H)]. injection H as <- <-. eapply Hb; eauto.
  - destruct (fin s) as [x|] eqn:E; [|discriminate H]. cbn [bind] in H. injection H as <- <-. eauto.
Qed.
Lemma q_capture {A} (m : M A) : qx X m -> qx X (capture m).
Proof. intros Hm b t n H. unfold capture in H. destruct (m b) as [[t' n'|a b']|] eqn:E; try discriminate H. injection H as <- <-. eauto. Qed.

End Q.
Lemma o_bind {A B} (m : M A) (k : A -> M B) : onward m -> (forall a, onward (k a)) -> onward (mbind m k).
Proof.
  intros H1 H2 b. unfold mbind. specialize (H1 b). destruct (m b) as [[t' n'|a b']|]; auto.
  specialize (H2 a b'). destruct (k a b') as [[t [p|]|c b2]|]; auto; lia.
Qed.
Lemma o_ret {A} (a : A) : onward (ret a). Proof. intros b. cbn. lia. Qed.
Lemma o_here {A} t : onward (@stop_here A t). Proof. intros b. cbn. lia. Qed.
Lemma o_adv n : onward (adv n).
Proof. intros b. unfold adv. destruct (inc_start n b) as [x|] eqn:E; cbn [bind]; auto. rewrite inc_start_spec in E. destruct E as (pre & _ & ->). rewrite app_length. lia. Qed.
Lemma o_req k t : onward (require_or e k t). Proof. intros b. unfold require_or. destruct (has_chars e k b); auto. Qed.
Lemma o_reqb k t : onward (require_bytes k t). Proof. intros b. unfold require_bytes. destruct (has k b); auto. Qed.
Lemma o_bt : onward (bt e). Proof. intros b. unfold bt. destruct (byte_type e b); cbn [bind]; auto. Qed.
Lemma o_bt_at k : onward (bt_at e k).
Proof. intros b. unfold bt_at. destruct (inc_start _ b) as [x|]; cbn [bind]; auto. destruct (byte_type e x); cbn [bind]; auto. Qed.
Lemma o_m c : onward (matches e c). Proof. intros b. unfold matches. destruct (char_matches e b c); cbn [bind]; auto. Qed.
Lemma o_lift f : onward (lift_check f). Proof. intros b. unfold lift_check. destruct (f b); cbn [bind]; auto. Qed.
Lemma o_while {S B} (body : S -> M S) fin s : (forall s, onward (body s)) -> onward (@while_ e S B body fin s).
Proof.
  intros Hb b. unfold while_. generalize (Datatypes.S (length b)). intros f. revert s b.
  induction f as [|f IH]; intros s b; cbn [while_fuel]; destruct (has_chars e 1 b); auto; try (destruct (fin s); cbn [bind]; auto; fail).
  specialize (Hb s b). destruct (body s b) as [[t' n'|s' b']|]; auto. specialize (IH s' b'). destruct (while_fuel e f body fin s' b') as [[t [p|]|c b2]|]; auto; lia.
Qed.

Ltac sx := first [split; discriminate | discriminate].
Ltac qs := repeat first
  [ apply q_bind; [|intros ?] | apply q_ret | apply q_here; sx | apply q_adv | apply q_req; sx | apply q_reqb; sx
  | apply q_bt | apply q_bt_at | apply q_m | apply q_m_at | apply q_lift | apply q_capture
  | apply q_while; [intros ?|let H := fresh in intros ? ? H; injection H as <-; sx]
  | match goal with |- qx _ (match ?x with _ => _ end) => destruct x end ].
Ltac uq := unfold stop_after, adv1, require_char, require_chars, while_partial, match_invalid, check_name, check_nmstrt, stop_none.
Lemma q_lit B o : quiet (@scanLit e B o). Proof. unfold scanLit; uq; qs. Qed.
Lemma q_percent B : quiet (@scanPercent e B). Proof. unfold scanPercent; uq; qs. Qed.
Ltac os := repeat first
  [ apply o_bind; [|intros ?] | apply o_ret | apply o_here | apply o_adv | apply o_req | apply o_reqb
  | apply o_bt | apply o_bt_at | apply o_m | apply o_lift | apply o_while; intros ?
  | match goal with |- onward (match ?x with _ => _ end) => destruct x end ].
Lemma o_decl B : onward (@scanDecl e B). Proof. unfold scanDecl, scanComment; uq; os. Qed.
Lemma q_pound B : qx X2 (@scanPoundName e B). Proof. unfold scanPoundName; uq; qs. Qed.
Lemma o_pound B : onward (@scanPoundName e B). Proof. unfold scanPoundName; uq; os. Qed.
Lemma q_loop {S B} (body : S -> M (S + B)) s : (forall s, quiet (body s)) -> quiet (loopb body s).
Proof.
  intros Hb b. unfold loopb. generalize (Datatypes.S (length b)). intros f. revert s b.
  induction f as [|f IH]; intros s b t n H; cbn [loop] in H; [discriminate H|].
  destruct (body s b) as [[t' n'|[s'|v] b']|] eqn:E; try discriminate H; [|exact (IH _ _ _ _ H)]. injection H as <- <-. eapply Hb; eauto.
Qed.
Lemma target_tok : forall x tok, checkPiTarget e x = Ok (Some tok) -> tok = T_PI \/ tok = T_XML_DECL.
Proof.
  intros x tok. unfold checkPiTarget, bind.
  repeat (match goal with |- context [match ?x with _ => _ end] => destruct x end; try discriminate); intros H; injection H as <-; auto.
Qed.
Lemma q_name : quiet (pi_name e).
Proof. unfold pi_name. uq; qs. apply q_loop. intros ?. uq. qs. Qed.
Lemma q_text B tok : tok = T_PI \/ tok = T_XML_DECL -> quiet (@pi_text e B tok).
Proof. intros H. unfold pi_text; uq; qs; apply q_here; destruct H; subst; sx. Qed.
Lemma q_pi B : quiet (@scanPi e B).
Proof.
  unfold scanPi. apply q_bind; [apply q_capture, q_name|]. intros [r x]. cbn [fst snd].
  assert (T : forall k : XML_TOK -> M B, (forall tok, tok = T_PI \/ tok = T_XML_DECL -> quiet (k tok)) ->
    quiet (mbind (check_pi_target e x) (fun tok => match tok with None => stop_here T_INVALID | Some tok => k tok end))).
  { intros k Hk b t n. unfold mbind, check_pi_target. destruct (checkPiTarget e x) as [[tok|]|] eqn:E; cbn [bind]; [| |discriminate].
    - apply Hk. eapply target_tok; eauto.
    - intros H. injection H as <- <-. split; discriminate. }
  destruct r; try (apply q_here; sx); apply T; intros tok Ht;
    first [ apply q_bind; [apply q_adv|intros _; apply q_text; exact Ht] | uq; qs; apply q_here; destruct Ht; subst; sx ].
Qed.
Definition nm (t : XML_TOK) : Prop := t = T_NAME \/ t = T_NMTOKEN \/ t = T_PREFIXED_NAME.
Definition qi (m : M XML_TOK) : Prop := forall b,
  match m b with Ok (Stop t _) => t <> T_DECL_OPEN /\ t <> T_POUND_NAME | Ok (Cont t _) => nm t | Err _ => True end.
Lemma qi_bind {A} (m : M A) (k : A -> M XML_TOK) : quiet m -> (forall a, qi (k a)) -> qi (mbind m k).
Proof. intros H1 H2 b. unfold mbind. destruct (m b) as [[t' n'|a b']|] eqn:E; auto; [exact (H1 _ _ _ E)|]. apply H2. Qed.
Lemma qi_ret t : nm t -> qi (ret t). Proof. intros H b. exact H. Qed.
Lemma qi_quiet m : (forall b t b', m b <> Ok (Cont t b')) -> quiet m -> qi m.
Proof. intros H1 H2 b. destruct (m b) as [[t' n'|a b']|] eqn:E; auto; [exact (H2 _ _ _ E)|]. exfalso. eapply H1; eauto. Qed.
Lemma qi_here t : t <> T_DECL_OPEN -> t <> T_POUND_NAME -> qi (stop_here t). Proof. intros H1 H2 b. cbn. auto. Qed.
Lemma q_prolog_name B tok : nm tok -> quiet (@prolog_name e B tok).
Proof.
  intros Hn b. unfold prolog_name, while_. generalize (Datatypes.S (length b)). intros f. revert tok Hn b.
  assert (Hb : forall s, nm s -> qi (prolog_name_body e s)).
  { intros s Hs. unfold prolog_name_body. uq.
    assert (Hh : s <> T_DECL_OPEN /\ s <> T_POUND_NAME) by (destruct Hs as [-> |[-> | -> ]]; split; discriminate).
    repeat first [ apply qi_bind; [qs|intros ?] | apply qi_ret; first [exact Hs|unfold nm; tauto] | apply qi_here; first [discriminate|tauto]
      | match goal with |- qi (match ?x with _ => _ end) => destruct x end ]. }
  assert (Hf : forall s t, nm s -> tok_negate s = Ok t -> t <> T_DECL_OPEN /\ t <> T_POUND_NAME).
  { intros s t [-> |[-> | -> ]] H; cbn in H; injection H as <-; split; discriminate. }
  induction f as [|f IH]; intros s Hs b t n H; cbn [while_fuel] in H; destruct (has_chars e 1 b).
  - discriminate H.
  - destruct (tok_negate s) as [x|] eqn:E; [|discriminate H]. cbn [bind] in H. injection H as <- <-. exact (Hf _ _ Hs E).
  - specialize (Hb s Hs b). destruct (prolog_name_body e s b) as [[t' n'|s' b']|] eqn:E; try discriminate H; [|exact (IH _ Hb _ _ _ H)]. injection H as <- <-. exact Hb.
  - destruct (tok_negate s) as [x|] eqn:E; [|discriminate H]. cbn [bind] in H. injection H as <- <-. exact (Hf _ _ Hs E).
Qed.
Lemma q_space B f : quiet (@prolog_s_run e B f).
Proof.
  induction f as [|f IH]; intros b t n H; cbn [prolog_s_run] in H; [discriminate H|].
  destruct (inc_start _ b) as [x|]; cbn [bind] in H; [|discriminate H].
  assert (Hh : stop_here T_PROLOG_S x = Ok (@Stop B t n) -> t <> T_DECL_OPEN /\ t <> T_POUND_NAME) by (intros X; injection X as <- <-; split; discriminate).
  destruct (negb (has_chars e 1 x)); [exact (Hh H)|]. destruct (byte_type e x) as [y|]; cbn [bind] in H; [|discriminate H].
  destruct y; try (exact (Hh H)); try (exact (IH _ _ _ H)). destruct (length x =? minbpc e)%nat; [exact (Hh H)|exact (IH _ _ _ H)].
Qed.

Lemma two_adv {B} (m : M B) b t p : onward m -> mbind (adv1 e) (fun _ => mbind (adv1 e) (fun _ => m)) b = Ok (Stop t (Some p)) -> 2 * minbpc e + length p <= length b.
Proof.
  intros Hm. unfold mbind, adv1, adv. destruct (inc_start (minbpc e) b) as [b1|] eqn:E1; cbn [bind]; [|discriminate].
  destruct (inc_start (minbpc e) b1) as [b2|] eqn:E2; cbn [bind]; [|discriminate]. intros H. specialize (Hm b2). rewrite H in Hm.
  rewrite inc_start_spec in E1, E2. destruct E1 as (p1 & L1 & ->). destruct E2 as (p2 & L2 & ->). rewrite !app_length. lia.
Qed.
Lemma one_adv {B} (m : M B) b t p : onward m -> mbind (adv1 e) (fun _ => m) b = Ok (Stop t (Some p)) -> minbpc e + length p <= length b.
Proof.
  intros Hm. unfold mbind, adv1, adv. destruct (inc_start (minbpc e) b) as [b1|] eqn:E1; cbn [bind]; [|discriminate].
  intros H. specialize (Hm b1). rewrite H in Hm.
  rewrite inc_start_spec in E1. destruct E1 as (p1 & L1 & ->). rewrite !app_length. lia.
Qed.
(* scanDecl never reports a "#" name and scanPoundName never opens a declaration *)
Definition only (T : XML_TOK) {A} (m : M A) : Prop := forall b t n, m b = Ok (Stop t n) -> t <> T.
Lemma prolog_open : forall b t p, @prologScan e Empty_set b = Ok (Stop t (Some p)) ->
  (t = T_DECL_OPEN -> 2 * minbpc e + length p <= length b) /\ (t = T_POUND_NAME -> minbpc e + length p <= length b).
Proof.
  assert (N : forall (m : M Empty_set) b t p, quiet m -> m b = Ok (Stop t (Some p)) ->
    (t = T_DECL_OPEN -> 2 * minbpc e + length p <= length b) /\ (t = T_POUND_NAME -> minbpc e + length p <= length b)).
  { intros m b t p Hm H. apply Hm in H as [H1 H2]. split; intros; contradiction. }
  intros b t p. unfold prologScan, mbind at 1, bt. destruct (byte_type e b) as [bt0|]; cbn [bind]; [|discriminate].
  destruct (lead_len bt0) as [n|].
  - apply N. qs; try (apply q_prolog_name; unfold nm; tauto).
  - destruct bt0; try (apply N; apply q_bind; [apply q_adv|intros _; first [apply q_lit | apply q_percent | apply q_prolog_name; unfold nm; tauto]]); try (apply N; uq; qs; first [apply q_lit | apply q_percent | apply q_prolog_name; unfold nm; tauto | idtac]; fail).
    all: try (apply (N (fun buf => prolog_s_run e (S (length buf)) buf)); intros b' t' n' H; exact (q_space _ _ _ _ _ H)).
    + (* < *)
      unfold mbind at 1, require_chars, require_or. destruct (has_chars e 2 b); [|discriminate].
      unfold mbind at 1, bt_at. destruct (inc_start (1 * minbpc e) b) as [x|]; cbn [bind]; [|discriminate]. destruct (byte_type e x) as [t2|]; cbn [bind]; [|discriminate].
      destruct t2; try (apply N; apply q_bind; [apply q_adv|intros _; apply q_bind; [apply q_adv|intros _; apply q_pi]]); try (apply N; uq; qs; fail).
      intros H. apply two_adv in H; [|apply o_decl]. split; intros; lia.
    + (* CR *) apply (N (fun buf => if (length buf =? minbpc e)%nat then Ok (Stop T_PROLOG_S_NEG (Some [])) else prolog_s_run e (S (length buf)) buf)).
      intros b' t' n' H. destruct (_ =? _)%nat; [injection H as <- <-; split; discriminate|]. exact (q_space _ _ _ _ _ H).
    + (* # *) intros H. split.
      * intros ->. exfalso. revert H. unfold mbind, adv1, adv. destruct (inc_start _ b) as [x|]; cbn [bind]; [|discriminate]. intros H. apply q_pound in H. now apply H.
      * intros _. apply one_adv in H; [exact H|apply o_pound].
Qed.
End S.

Lemma prolog_token : forall e buf t n, prologTok e buf = Ok (t, Some n) ->
  (t = T_DECL_OPEN -> 2 * minbpc e <= n) /\ (t = T_POUND_NAME -> minbpc e <= n).
Proof.
  intros e buf t n. unfold prologTok. destruct (is_nil buf); [discriminate|]. destruct (is_nil (round_down e buf)); [discriminate|].
  unfold run. destruct (prologScan e (round_down e buf)) as [[t' [p|]|[]]|] eqn:E; try discriminate. cbn [option_map]. intros H. injection H as <- <-.
  apply prolog_open in E as [A B]. split; intros ->; [specialize (A eq_refl)|specialize (B eq_refl)]; lia.
Qed.
Lemma prolog_token_end : forall e buf t, (minbpc e = 1 \/ minbpc e = 2) -> prologTok e buf = Ok (t, None) -> t = T_NONE \/ t = T_PARTIAL \/ minbpc e <= length buf.
Proof.
  intros e buf t Hm. unfold prologTok. destruct buf as [|x buf]; cbn [is_nil]; [intros H; injection H as <-; auto|].
  destruct (is_nil (round_down e (x :: buf))) eqn:E; [intros H; injection H as <-; auto|]. intros _. right. right.
  destruct Hm as [-> | Hm]; [cbn; lia|]. unfold round_down in E. rewrite Hm in *. change (2 =? 2)%nat with true in E. cbv iota in E.
  destruct buf; [discriminate E|cbn; lia].
Qed.
