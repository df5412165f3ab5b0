(* The token that ends the prolog: the first tag.  What the prolog calls the start of the document element, the
   content tokeniser reads as a tag, however much more of it has arrived. *)
From Coq Require Import List NArith ZArith Bool Lia Arith.
From Verif Require Import Base Encoding Tok EncLaws TokEmit TokTop.
Import ListNotations.

Definition starts_name (t : ByteType) : bool :=
  match t with BT_NMSTRT | BT_HEX | BT_NONASCII | BT_LEAD2 | BT_LEAD3 | BT_LEAD4 => true | _ => false end.
(* "<" and a character that may begin a name *)
Definition tag_ahead (e : EncImpl) (b : bytes) : Prop :=
  exists b1 t, byte_type e b = Ok BT_LT /\ inc_start (minbpc e) b = Ok b1 /\ byte_type e b1 = Ok t /\ starts_name t = true.
(* a character is classified by its own bytes *)
Definition local_enc (e : EncImpl) : Prop :=
  (forall t, byte_type e [] <> Ok t) /\ (forall b x t, byte_type e b = Ok t -> byte_type e (b ++ x) = Ok t).

Lemma tag_ahead_more e b x : local_enc e -> tag_ahead e b -> tag_ahead e (b ++ x).
Proof.
  intros [_ He] (b1 & t & H1 & H2 & H3 & H4). exists (b1 ++ x), t. repeat split; auto. apply inc_start_app. assumption.
Qed.

Definition XI (t : XML_TOK) : Prop := t <> T_INSTANCE_START.
(* a tag, or one that is not there yet, or not a tag at all *)
Definition XT (t : XML_TOK) : Prop :=
  match t with
  | T_START_TAG_NO_ATTS | T_START_TAG_WITH_ATTS | T_EMPTY_ELEMENT_NO_ATTS | T_EMPTY_ELEMENT_WITH_ATTS
  | T_PARTIAL | T_PARTIAL_CHAR | T_INVALID => True
  | _ => False
  end.
Section S.
Variable e : EncImpl.
Variable X : XML_TOK -> Prop.
Lemma q_loop' {S B} (body : S -> M (S + B)) s : (forall s, qx X (body s)) -> qx X (loopb body s).
Proof.
  intros Hb b. unfold loopb. generalize (Datatypes.S (length b)). intros f. revert s b.
  induction f as [|f IH]; intros s b t n H; cbn [loop] in H; [discriminate H|].
  destruct (body s b) as [[t' n'|[s'|v] b']|] eqn:E; try discriminate H; [|exact (IH _ _ _ _ H)]. injection H as <- <-. eapply Hb; eauto.
Qed.
End S.
Ltac sx := first [exact I | discriminate | exact (fun _ => I)].
Ltac qs := repeat first
  [ apply q_bind; [|intros ?] | apply q_ret | apply q_here; sx | apply q_adv | apply q_req; sx | apply q_reqb; sx
  | apply q_bt | apply q_bt_at | apply q_m | apply q_m_at | apply q_lift | apply q_capture
  | apply q_while; [intros ?|let H := fresh in intros ? ? H; injection H as <-; sx]
  | apply q_loop'; intros ?
  | match goal with |- qx _ (match ?x with _ => _ end) => destruct x end ].
Ltac uq := unfold stop_after, adv1, require_char, require_chars, while_partial, match_invalid, check_name, check_nmstrt, stop_none.

Section E.
Variable e : EncImpl.
Lemma i_decl B : qx XI (@scanDecl e B). Proof. unfold scanDecl, scanComment; uq; qs. Qed.
Lemma i_lit B o : qx XI (@scanLit e B o). Proof. unfold scanLit; uq; qs. Qed.
Lemma i_percent B : qx XI (@scanPercent e B). Proof. unfold scanPercent; uq; qs. Qed.
Lemma i_pound B : qx XI (@scanPoundName e B). Proof. unfold scanPoundName; uq; qs. Qed.
Lemma i_name : qx XI (pi_name e). Proof. unfold pi_name. uq; qs. Qed.
Lemma i_text B tok : tok = T_PI \/ tok = T_XML_DECL -> qx XI (@pi_text e B tok).
Proof. intros H. unfold pi_text; uq; qs; apply q_here; destruct H; subst; sx. Qed.
Lemma i_pi B : qx XI (@scanPi e B).
Proof.
  unfold scanPi. apply q_bind; [apply q_capture, i_name|]. intros [r x]. cbn [fst snd].
  assert (T : forall k : XML_TOK -> M B, (forall tok, tok = T_PI \/ tok = T_XML_DECL -> qx XI (k tok)) ->
    qx XI (mbind (check_pi_target e x) (fun tok => match tok with None => stop_here T_INVALID | Some tok => k tok end))).
  { intros k Hk b t n. unfold mbind, check_pi_target. destruct (checkPiTarget e x) as [[tok|]|] eqn:E; cbn [bind]; [| |discriminate].
    - apply Hk. eapply target_tok; eauto.
    - intros H. injection H as <- <-. discriminate. }
  destruct r; try (apply q_here; sx); apply T; intros tok Ht;
    first [ apply q_bind; [apply q_adv|intros _; apply i_text; exact Ht] | uq; qs; apply q_here; destruct Ht; subst; sx ].
Qed.
Definition qin (m : M XML_TOK) : Prop := forall b,
  match m b with Ok (Stop t _) => XI t | Ok (Cont t _) => nm t | Err _ => True end.
Lemma qin_bind {A} (m : M A) (k : A -> M XML_TOK) : qx XI m -> (forall a, qin (k a)) -> qin (mbind m k).
Proof. intros H1 H2 b. unfold mbind. destruct (m b) as [[t' n'|a b']|] eqn:E; auto; [exact (H1 _ _ _ E)|]. apply H2. Qed.
Lemma qin_ret t : nm t -> qin (ret t). Proof. intros H b. exact H. Qed.
Lemma qin_here t : XI t -> qin (stop_here t). Proof. intros H b. exact H. Qed.
Lemma i_prolog_name B tok : nm tok -> qx XI (@prolog_name e B tok).
Proof.
  intros Hn b. unfold prolog_name, while_. generalize (Datatypes.S (length b)). intros f. revert tok Hn b.
  assert (Hb : forall s, nm s -> qin (prolog_name_body e s)).
  { intros s Hs. unfold prolog_name_body. uq.
    assert (Hh : XI s) by (destruct Hs as [-> |[-> | -> ]]; discriminate).
    repeat first [ apply qin_bind; [qs|intros ?] | apply qin_ret; first [exact Hs|unfold nm; tauto] | apply qin_here; first [discriminate|exact Hh]
      | match goal with |- qin (match ?x with _ => _ end) => destruct x end ]. }
  assert (Hf : forall s t, nm s -> tok_negate s = Ok t -> XI t).
  { intros s t [-> |[-> | -> ]] H; cbn in H; injection H as <-; discriminate. }
  induction f as [|f IH]; intros s Hs b t n H; cbn [while_fuel] in H; destruct (has_chars e 1 b).
  - discriminate H.
  - destruct (tok_negate s) as [x|] eqn:E; [|discriminate H]. cbn [bind] in H. injection H as <- <-. exact (Hf _ _ Hs E).
  - specialize (Hb s Hs b). destruct (prolog_name_body e s b) as [[t' n'|s' b']|] eqn:E; try discriminate H; [|exact (IH _ Hb _ _ _ H)]. injection H as <- <-. exact Hb.
  - destruct (tok_negate s) as [x|] eqn:E; [|discriminate H]. cbn [bind] in H. injection H as <- <-. exact (Hf _ _ Hs E).
Qed.
Lemma i_space B f : qx XI (@prolog_s_run e B f).
Proof.
  induction f as [|f IH]; intros b t n H; cbn [prolog_s_run] in H; [discriminate H|].
  destruct (inc_start _ b) as [x|]; cbn [bind] in H; [|discriminate H].
  assert (Hh : stop_here T_PROLOG_S x = Ok (@Stop B t n) -> XI t) by (intros X; injection X as <- <-; discriminate).
  destruct (negb (has_chars e 1 x)); [exact (Hh H)|]. destruct (byte_type e x) as [y|]; cbn [bind] in H; [|discriminate H].
  destruct y; try (exact (Hh H)); try (exact (IH _ _ _ H)). destruct (length x =? minbpc e)%nat; [exact (Hh H)|exact (IH _ _ _ H)].
Qed.
Lemma i_prolog b n : @prologScan e Empty_set b = Ok (Stop T_INSTANCE_START n) -> tag_ahead e b.
Proof.
  assert (N : forall (m : M Empty_set), qx XI m -> m b = Ok (Stop T_INSTANCE_START n) -> tag_ahead e b).
  { intros m Hm H. elim (Hm _ _ _ H). reflexivity. }
  unfold prologScan, mbind at 1, bt. destruct (byte_type e b) as [bt0|] eqn:Eb; cbn [bind]; [|discriminate].
  destruct (lead_len bt0) as [k|].
  - apply N. qs; try (apply i_prolog_name; unfold nm; tauto).
  - destruct bt0; try (apply N; apply q_bind; [apply q_adv|intros _; first [apply i_lit | apply i_percent | apply i_pound | apply i_prolog_name; unfold nm; tauto]]); try (apply N; uq; qs; first [apply i_prolog_name; unfold nm; tauto]; fail).
    all: try (apply (N (fun buf => prolog_s_run e (S (length buf)) buf)); intros b' t' n' H; exact (i_space _ _ _ _ _ H)).
    all: try (apply N; uq; qs; fail).
    + unfold mbind at 1, require_chars, require_or. destruct (has_chars e 2 b); [|discriminate].
      unfold mbind at 1, bt_at. destruct (inc_start (1 * minbpc e) b) as [x|] eqn:Ex; cbn [bind]; [|discriminate]. destruct (byte_type e x) as [t2|] eqn:Et; cbn [bind]; [|discriminate].
      rewrite Nat.mul_1_l in Ex.
      destruct t2; try (apply N; apply q_bind; [apply q_adv|intros _; apply q_bind; [apply q_adv|intros _; first [apply i_pi|apply i_decl]]]); try (apply N; uq; qs; fail).
      all: intros _; match type of Et with _ = Ok ?t => exists x, t end; repeat split; assumption.
    + apply (N (fun buf => if (length buf =? minbpc e)%nat then Ok (Stop T_PROLOG_S_NEG (Some [])) else prolog_s_run e (S (length buf)) buf)).
      intros b' t' n' H. destruct (_ =? _)%nat; [injection H as <- <-; discriminate|]. exact (i_space _ _ _ _ _ H).
Qed.

(* the rest of a tag after its first character *)
Definition XR (t : XML_TOK) : Prop := tok_is_error t = true -> XT t.
Lemma r_hex B : qx XR (@scanHexCharRef e B). Proof. unfold scanHexCharRef; uq; qs. Qed.
Lemma r_char B : qx XR (@scanCharRef e B). Proof. unfold scanCharRef; uq; qs; apply r_hex. Qed.
Lemma r_ref B : qx XR (@scanRef e B). Proof. unfold scanRef; uq; qs; apply r_char. Qed.
Lemma t_ref : qx XT (atts_ref e).
Proof.
  intros b t n. unfold atts_ref. destruct (inc_start _ b) as [b1|]; cbn [bind]; [|discriminate].
  destruct (scanRef e b1) as [[t' n'|[] ?]|] eqn:E; try discriminate.
  pose proof (r_ref _ _ _ _ E) as H. red in H. destruct (tok_is_error t') eqn:Ee; [|discriminate].
  specialize (H eq_refl). destruct (tok_eqb t' T_INVALID); intros X; injection X as <- <-; exact H.
Qed.
Lemma t_open : qx XT (atts_open e). Proof. unfold atts_open; uq; qs. Qed.
Lemma t_eq : qx XT (atts_eq e). Proof. unfold atts_eq; uq; qs. Qed.
Lemma t_after : qx XT (atts_after e). Proof. unfold atts_after; uq; qs. Qed.
Lemma t_in o : qx XT (atts_in_value e o).
Proof.
  unfold atts_in_value. apply q_loop'. intros _. apply q_bind; [uq; qs|intros _]. apply q_bind; [qs|intros t].
  destruct (bt_eqb t o); [apply q_ret|]. unfold match_invalid. destruct (lead_len t); [qs|]. destruct t; try (uq; qs; fail). uq; qs; apply t_ref.
Qed.
Lemma t_value : qx XT (scanAtts_value e).
Proof.
  unfold scanAtts_value. apply q_bind; [apply t_open|intros o]. apply q_bind; [uq; qs|intros _]. apply q_bind; [apply t_in|intros _].
  apply q_bind; [apply t_after|intros []]; uq; qs.
Qed.
Lemma t_atts B : qx XT (@scanAtts e B).
Proof.
  unfold scanAtts. apply q_while; [|intros s t H; injection H as <-; exact I]. intros s. unfold scanAtts_body.
  apply q_bind; [qs|intros t]. unfold check_name. destruct (lead_len t); [uq; qs|]. destruct t; try (uq; qs; fail); try apply t_value.
  all: apply q_bind; [apply t_eq|intros _; apply t_value].
Qed.
Lemma t_body s : qx XT (lt_name_body e s).
Proof.
  unfold lt_name_body. apply q_bind; [qs|intros t]. unfold check_name. destruct (lead_len t); [uq; qs|].
  destruct t; try (unfold scanLtHelper; uq; qs; fail).
  all: apply q_bind; [uq; qs|intros _]; apply q_bind; [unfold lt_space, scanLtHelper; uq; qs|intros _; apply t_atts].
Qed.
Lemma t_lt B b : (forall t, byte_type e b = Ok t -> starts_name t = true) -> forall x n, @scanLt e B b = Ok (Stop x n) -> XT x.
Proof.
  intros Hs x n. unfold scanLt, mbind at 1, require_char, require_chars, require_or. destruct (has_chars e 1 b); cbv beta iota; [|intros H; injection H as <- <-; exact I].
  unfold mbind at 1, bt. destruct (byte_type e b) as [t|]; cbn [bind]; [|discriminate]. specialize (Hs _ eq_refl). intros H.
  match type of H with ?m b = _ => refine ((_ : qx XT m) b x n H) end.
  apply q_bind; [|intros _; apply q_while; [intros s; apply t_body|intros ? ? X; injection X as <-; exact I]].
  destruct t; try discriminate Hs; uq; cbn [lead_len]; qs.
Qed.
Lemma lt_stops B b a b' : @scanLt e B b <> Ok (Cont a b').
Proof.
  assert (Hb : forall A (m : M A) (k : A -> M B), (forall x b, k x b <> Ok (Cont a b')) -> forall b, mbind m k b <> Ok (Cont a b')).
  { intros A m k H b0. unfold mbind. destruct (m b0) as [[? ?|? ?]|]; try discriminate. apply H. }
  unfold scanLt. do 3 (apply Hb; intros ? ?). unfold while_. generalize (S (length b2)), false. intros f. revert b2.
  induction f as [|f IH]; intros b2 s; cbn [while_fuel]; destruct (has_chars e 1 b2); try discriminate.
  destruct (lt_name_body e s b2) as [[? ?|? ?]|]; try discriminate. apply IH.
Qed.
Lemma round_down_pre b : exists y, b = round_down e b ++ y.
Proof. destruct (round_down_facts e b) as (k & -> & _). exists (skipn k b). symmetry. apply firstn_skipn. Qed.
(* the content tokeniser reads a tag there *)
Theorem content_tag b tok n : local_enc e -> tag_ahead e b -> contentTok e b = Ok (tok, n) -> XT tok.
Proof.
  intros [He0 He] (b1 & t & H1 & H2 & H3 & Hs). unfold contentTok.
  assert (Hn : is_nil b = false) by (destruct b; [elim (He0 _ H1)|reflexivity]). rewrite Hn.
  destruct (round_down_pre b) as (y & Hy). set (r := round_down e b) in *. clearbody r. subst b. clear Hn.
  destruct (is_nil r); [intros H; injection H as <- <-; exact I|].
  unfold run. destruct (contentScan e r) as [[x z|[] ?]|] eqn:E; try discriminate. intros H. injection H as <- <-. revert E.
  unfold contentScan, mbind at 1, bt. destruct (byte_type e r) as [t0|] eqn:E0; cbn [bind]; [|discriminate].
  rewrite (He _ y _ E0) in H1. injection H1 as ->. unfold match_invalid. cbn [lead_len]. unfold mbind at 1 2, adv1, adv.
  destruct (inc_start (minbpc e) r) as [r1|] eqn:E1; cbn [bind]; [|discriminate]. apply (inc_start_app _ _ _ y) in E1. rewrite E1 in H2. injection H2 as <-.
  destruct (scanLt e r1) as [[x' z'|? ?]|] eqn:E; try discriminate; [|elim (lt_stops _ _ _ _ E)]. intros X. injection X as <- <-. refine (t_lt _ _ _ _ _ E).
  intros t' Ht. rewrite (He _ y _ Ht) in H3. injection H3 as ->. exact Hs.
Qed.
Theorem prolog_start b n : local_enc e -> prologTok e b = Ok (T_INSTANCE_START, n) -> tag_ahead e b.
Proof.
  intros He. unfold prologTok. destruct (is_nil b); [discriminate|]. destruct (is_nil (round_down e b)); [discriminate|].
  unfold run. destruct (prologScan e (round_down e b)) as [[x y|[] ?]|] eqn:E; try discriminate.
  intros H. injection H as -> _. apply i_prolog in E. destruct (round_down_pre b) as (y' & Hy). rewrite Hy. apply tag_ahead_more; assumption.
Qed.
End E.
