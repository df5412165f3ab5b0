(* What storeAtts does. *)
From Coq Require Import List NArith ZArith Bool Lia Arith.
From Coq Require Import ZifyBool ZifyNat ZifyN.
From Verif Require Import Base Encoding Tok TokMisc Status Role State AttVal Bind Atts.
From Verif Require Import Keep SpecNs NsRules SpecCtx CtxLaws SpecAtts.
From Verif Require Nest.
Import ListNotations.
Local Open Scope N_scope.

(* ---- names ---- *)
Lemma split_some n p l : split_colon n = Some (p, l) <-> prefixed n p l.
Proof.
  unfold prefixed. revert p. induction n as [|c n IH]; intros p; cbn [split_colon].
  - split; [discriminate|]. intros [E _]. destruct p; discriminate.
  - destruct (c =? 58) eqn:Ec.
    + assert (c = COLON) by (unfold COLON; lia). subst c. split.
      * intros E. injection E as <- <-. split; [reflexivity|intros []].
      * intros [E H]. destruct p as [|d p]; [injection E as <-; reflexivity|]. injection E as <- E. destruct H. left. reflexivity.
    + destruct (split_colon n) as [[a b]|] eqn:Es.
      * split.
        -- intros E. injection E as <- <-. destruct (proj1 (IH a) eq_refl) as [E H]. split; [rewrite E; reflexivity|].
           intros [X|X]; [unfold COLON in X; lia|exact (H X)].
        -- intros [E H]. destruct p as [|d p]; [injection E as -> E; unfold COLON in Ec; lia|]. injection E as <- E.
           assert (K : Some (a, b) = Some (p, l)) by (apply IH; split; [exact E|intros X; apply H; right; exact X]). injection K as <- <-. reflexivity.
      * split; [discriminate|]. intros [E H]. destruct p as [|d p]; [injection E as -> E; unfold COLON in Ec; lia|]. injection E as <- E.
        assert (K : None = Some (p, l)) by (apply IH; split; [exact E|intros X; apply H; right; exact X]). discriminate K.
Qed.
Lemma split_none n : split_colon n = None <-> ~ In COLON n.
Proof.
  split.
  - intros E H. apply in_split in H as (p & l & H). revert E. clear -H. revert p H. induction n as [|c n IH]; intros p H; [destruct p; discriminate|].
    cbn [split_colon]. destruct (c =? 58) eqn:Ec; [discriminate|]. destruct p as [|d p]; [injection H as -> H; unfold COLON in Ec; lia|].
    injection H as -> H. specialize (IH p H). destruct (split_colon n) as [[a b]|]; [discriminate|]. intros _. apply IH. reflexivity.
  - intros H. destruct (split_colon n) as [[p l]|] eqn:E; [|reflexivity]. apply split_some in E as [-> _]. destruct H. apply in_or_app. right. left. reflexivity.
Qed.
Lemma prefixed_unique n p l p' l' : prefixed n p l -> prefixed n p' l' -> p = p' /\ l = l'.
Proof. intros H H'. apply split_some in H. apply split_some in H'. rewrite H in H'. injection H' as <- <-. auto. Qed.
Lemma beqb_spec a b : beqb a b = true <-> a = b. Proof. apply Nest.beqb_eq. Qed.
Lemma beqb_false a b : beqb a b = false <-> a <> b.
Proof. destruct (beqb a b) eqn:E; [apply beqb_spec in E; intuition congruence|]. intuition. subst. rewrite Nest.beqb_refl in E. discriminate. Qed.

Lemma xmlns_no_colon : ~ In COLON xmlns_prefix. Proof. vm_compute. intuition discriminate. Qed.
Lemma declares_spec n : is_declaration true n = true <-> exists p, declares n p.
Proof.
  unfold is_declaration. cbn [andb]. rewrite orb_true_iff, !beqb_spec. split.
  - intros [->|E]; [exists PDefault; constructor|]. exists (PNamed (skipn 6 n)).
    rewrite <- (firstn_skipn 6 n) at 1. rewrite E. rewrite <- app_assoc. apply de_prefix.
  - intros (p & H). inversion H; subst; [left; reflexivity|right]. reflexivity.
Qed.
Lemma declares_unique n p p' : declares n p -> declares n p' -> p = p'.
Proof.
  assert (X : forall q, xmlns_prefix <> xmlns_prefix ++ COLON :: q) by (intros q E; apply (f_equal (@length N)) in E; rewrite app_length in E; cbn in E; lia).
  intros H H'. inversion H as [E1 E2|q E1 E2]; inversion H' as [F1 F2|q' F1 F2]; subst; try congruence; try (exfalso; eapply X; eauto; fail).
  apply app_inv_head in F1. injection F1 as <-. reflexivity.
Qed.
Lemma declares_inj n n' p : declares n p -> declares n' p -> n = n'.
Proof. intros H H'. inversion H; inversion H'; subst; congruence. Qed.

Inductive new_spec (ns : bool) (n : bytes) (a : attid) : Prop :=
| ns_decl p : ns = true -> is_declaration ns n = true -> declares n p -> ai_prefix a = Some p -> ai_xmlns a = true -> new_spec ns n a
| ns_pref p l : ns = true -> is_declaration ns n = false -> prefixed n p l -> ai_prefix a = Some (PNamed p) -> ai_xmlns a = false -> new_spec ns n a
| ns_plain : is_declaration ns n = false -> (ns = false \/ ~ In COLON n) -> ai_prefix a = None -> ai_xmlns a = false -> new_spec ns n a.
Lemma new_attid_spec ns n : new_spec ns n (new_attid ns n) /\ ai_type (new_attid ns n) = Unset /\ ai_maybe (new_attid ns n) = false.
Proof.
  unfold new_attid. destruct ns; cbn [negb]; [|split; [apply ns_plain; auto|split; reflexivity]].
  change xmlns_str with xmlns_prefix.
  destruct (beqb n xmlns_prefix) eqn:E.
  { apply beqb_spec in E. subst. split; [eapply ns_decl; try reflexivity; constructor|split; reflexivity]. }
  destruct (split_colon n) as [[p l]|] eqn:S.
  - apply split_some in S. destruct (beqb p xmlns_prefix) eqn:Ep.
    + apply beqb_spec in Ep. subst p. destruct S as [-> _]. split; [|split; reflexivity].
      eapply ns_decl; try reflexivity. constructor.
    + split; [|split; reflexivity]. eapply ns_pref; try reflexivity; [|exact S]. apply not_true_is_false. intros D.
      apply declares_spec in D as (q & D). inversion D; subst; [rewrite Nest.beqb_refl in E; discriminate|].
      destruct (prefixed_unique _ _ _ _ _ S (conj eq_refl xmlns_no_colon)) as [-> _]. rewrite Nest.beqb_refl in Ep. discriminate.
  - apply split_none in S. split; [|split; reflexivity]. apply ns_plain; try reflexivity; [|right; exact S].
    apply not_true_is_false. intros D. apply declares_spec in D as (q & D). inversion D; subst; [rewrite Nest.beqb_refl in E; discriminate|].
    apply S. apply in_or_app. right. left. reflexivity.
Qed.

(* ---- the tables as they are between start tags ---- *)
Lemma id_ok_new ns n : id_ok ns n (new_attid ns n). Proof. split; auto. Qed.
Lemma id_ok_spec ns n a : id_ok ns n a -> ai_prefix a <> Some PDangling -> new_spec ns n a.
Proof.
  intros [H1 [H2|(_ & _ & H2)]] Hd; [|congruence]. destruct (new_attid_spec ns n) as ([p E D X P XM|p l E D X P XM|D X P XM] & _).
  - eapply ns_decl; eauto; congruence.
  - eapply ns_pref; eauto; congruence.
  - apply ns_plain; auto; congruence.
Qed.

(* ---- what the value of an attribute depends on ---- *)
Definition same (s s' : st) : Prop :=
  s_cfg s' = s_cfg s /\ s_enc s' = s_enc s /\ s_role s' = s_role s /\ s_open s' = s_open s /\
  d_gents (s_dtd s') = d_gents (s_dtd s) /\ d_hasPE (s_dtd s') = d_hasPE (s_dtd s) /\
  d_standalone (s_dtd s') = d_standalone (s_dtd s).
Lemma same_refl s : same s s. Proof. repeat split. Qed.
Lemma same_trans a b c : same a b -> same b c -> same a c.
Proof. unfold same. intros (A1 & A2 & A3 & A4 & A5 & A6 & A7) (B1 & B2 & B3 & B4 & B5 & B6 & B7). repeat split; congruence. Qed.

Definition agree {A} (m : P A) (s1 s2 : st) : Prop :=
  match m s1 with
  | Ret v s => s = s1 /\ m s2 = Ret v s2
  | Fail e _ => exists s', m s2 = Fail e s'
  | Die e => m s2 = Die e
  end.
Lemma agree_bind {A B} (m : P A) (k : A -> P B) s1 s2 : agree m s1 s2 -> (forall a, agree (k a) s1 s2) -> agree (pbind m k) s1 s2.
Proof.
  unfold agree, pbind. intros H K. destruct (m s1) as [v s|e s|e].
  - destruct H as [-> ->]. exact (K v).
  - destruct H as (s' & ->). eauto.
  - rewrite H. reflexivity.
Qed.
Lemma agree_ret {A} (a : A) s1 s2 : agree (pret a) s1 s2. Proof. split; reflexivity. Qed.
Lemma agree_die {A} e s1 s2 : agree (@die A e) s1 s2. Proof. reflexivity. Qed.
Lemma agree_fail {A} e s1 s2 : agree (@fail A e) s1 s2. Proof. eexists. reflexivity. Qed.
Lemma agree_lift {A} (r : res A) s1 s2 : agree (lift r) s1 s2.
Proof. unfold agree, lift. destruct r; [split; reflexivity|reflexivity]. Qed.
Lemma agree_inc n b s1 s2 : agree (inc n b) s1 s2. Proof. apply agree_lift. Qed.
Lemma agree_dec n b s1 s2 : agree (dec n b) s1 s2.
Proof. unfold dec. destruct (_ <=? _)%nat; [apply agree_ret|apply agree_die]. Qed.
Lemma agree_need n s1 s2 : agree (need n) s1 s2. Proof. destruct n; [apply agree_ret|apply agree_die]. Qed.
Lemma agree_ref_name e b n s1 s2 : agree (ref_name e b n) s1 s2.
Proof. unfold ref_name. apply agree_bind; [apply agree_inc|]. intros. apply agree_dec. Qed.
Lemma agree_encoding t s1 s2 : same s1 s2 -> agree (encoding t) s1 s2.
Proof. intros (H1 & H2 & _). unfold agree, encoding. rewrite H1, H2. split; reflexivity. Qed.
Lemma agree_event_fail {A} t b e s1 s2 : agree (set_event t b ;;; @fail A e) s1 s2.
Proof. unfold agree, pbind, set_event, pret, upd, fail. destruct (is_internal t); eauto. Qed.
Lemma agree_event_opt_fail {A} t b n e s1 s2 : agree (set_event_opt t b n ;;; @fail A e) s1 s2.
Proof.
  unfold agree, pbind, set_event_opt, pret, upd, fail, inc, lift. destruct (is_internal t); [eauto|].
  destruct n as [n|]; [|eauto]. destruct (inc_start n b); cbn; eauto.
Qed.
Lemma agree_get {A B} (f : st -> A) (k : A -> P B) s1 s2 : f s1 = f s2 -> agree (k (f s1)) s1 s2 -> agree (do x <- get f; k x) s1 s2.
Proof. intros E. unfold agree, pbind, get. rewrite <- E. auto. Qed.
Lemma agree_store t b s1 s2 : same s1 s2 -> agree (store t b) s1 s2.
Proof. intros H. unfold store. apply agree_bind; [now apply agree_encoding|]. intros. apply agree_lift. Qed.

Lemma reclose n x s : look n (d_gents (s_dtd s)) = Some x -> e_open x = false ->
  upd_entity (false, n) (set_e_open false) (opened n x s) = Ret tt s.
Proof.
  intros Hl Ho. unfold upd_entity, upd_dtd, upd, look_entity, put_entity, opened, set_gents. cbn [fst snd entity_table].
  change (s_dtd (set_dtd ?a s)) with a. change (d_gents (set_d_gents ?a ?b)) with a. rewrite look_put, Nest.beqb_refl, put_put, reopen by exact Ho.
  rewrite put_same by exact Hl. f_equal. destruct s, s_dtd. reflexivity.
Qed.
Lemma same_opened n x s1 s2 : same s1 s2 -> same (opened n x s1) (opened n x s2).
Proof.
  intros (A1 & A2 & A3 & A4 & A5 & A6 & A7). unfold opened, set_gents. rewrite A5. repeat split; assumption.
Qed.
Lemma append_same fuel : forall prolog t c b acc s1 s2, same s1 s2 -> agree (appendAttributeValue fuel prolog t c b acc) s1 s2.
Proof.
  induction fuel as [|fuel IH]; intros prolog t c b acc s1 s2 H; [apply agree_die|]. cbn [appendAttributeValue].
  apply agree_bind; [now apply agree_encoding|]. intros e. apply agree_bind; [apply agree_lift|]. intros [tok n].
  assert (Cont : forall n acc, agree (do rest <- inc n b; appendAttributeValue fuel prolog t c rest acc) s1 s2).
  { intros. apply agree_bind; [apply agree_inc|]. intros. now apply IH. }
  destruct tok; try apply agree_ret; try apply agree_event_opt_fail; try apply agree_event_fail;
    try (apply agree_bind; [first [apply agree_need|destruct (tok_eqb _ _); [apply agree_ret|apply agree_need]]|intros n']).
  all: try apply Cont.
  all: try (apply agree_bind; [apply agree_lift|intros z]).
  all: try apply Cont.
  - (* entity references *)
    apply agree_bind; [apply agree_ref_name|]. intros name. apply agree_bind; [apply agree_lift|]. intros ch.
    destruct (negb (ch =? 0)); [apply Cont|]. apply agree_bind; [apply agree_lift|]. intros nm.
    pose proof H as (A1 & A2 & A3 & A4 & A5 & A6 & A7).
    unfold agree, pbind, get. 
    (* both states give the same answers *)
    rewrite A3, A4, A5, A6, A7.
    set (check := if prolog then _ else _). clearbody check.
    destruct (look nm (d_gents (s_dtd s1))) as [x|] eqn:El.
    + destruct (check && negb (e_is_internal x)); [unfold fail; eauto|]. destruct (e_open x) eqn:Eo; [apply agree_event_fail|].
      destruct (e_notation x); [apply agree_event_fail|]. destruct (e_text x) as [text|]; [|apply agree_event_fail].
      assert (E : forall s, look nm (d_gents (s_dtd s)) = Some x -> upd_entity (false, nm) (set_e_open true) s = Ret tt (opened nm x s)).
      { intros s L. unfold upd_entity, upd_dtd, upd, look_entity, put_entity. cbn [fst snd entity_table]. rewrite L. reflexivity. }
      rewrite (E s1 El). rewrite (E s2) by (rewrite A5; exact El).
      assert (L2 : look nm (d_gents (s_dtd s2)) = Some x) by (rewrite A5; exact El).
      pose proof (IH prolog EInternal c text acc _ _ (same_opened nm x s1 s2 H)) as K. unfold agree in K. unfold try.
      destruct (appendAttributeValue fuel prolog EInternal c text acc (opened nm x s1)) as [v s|e' s|e'].
      * destruct K as [-> ->]. rewrite (reclose _ _ _ El Eo), (reclose _ _ _ L2 Eo). exact (Cont n' v).
      * destruct K as (s' & ->). unfold upd_entity at 1 3, upd_dtd, upd, fail. eauto.
      * rewrite K. reflexivity.
    + destruct check; [unfold fail; eauto|]. exact (Cont n' acc).
  - (* character references *)
    destruct (z <? 0)%Z; [apply agree_event_fail|]. apply agree_bind; [apply agree_need|]. intros n'.
    destruct (negb c && (z =? 32)%Z && at_space acc); apply Cont.
Qed.
Lemma value_same fuel prolog t c b s1 s2 : same s1 s2 -> agree (storeAttributeValue fuel prolog t c b) s1 s2.
Proof.
  intros H. unfold storeAttributeValue. apply agree_bind; [now apply append_same|]. intros acc.
  destruct (negb c && negb (is_nil acc) && at_space acc); apply agree_ret.
Qed.

(* ---- outcomes ---- *)
Definition runs {A} (bad : Prop) (m : P A) (s : st) (Qr : A -> st -> Prop) (Qf : XML_Error -> Prop) : Prop :=
  match m s with Ret a s' => Qr a s' | Fail e _ => Qf e | Die _ => bad end.
Lemma runs_bind {A B} (bad : Prop) (m : P A) (k : A -> P B) s Qr Qf : runs bad m s (fun a s' => runs bad (k a) s' Qr Qf) Qf -> runs bad (pbind m k) s Qr Qf.
Proof. unfold runs, pbind. destruct (m s); auto. Qed.
Lemma runs_bind' {A B} (bad : Prop) (m : P A) (k : A -> P B) s Qr Qf : runs bad (pbind m k) s Qr Qf -> runs bad m s (fun a s' => runs bad (k a) s' Qr Qf) Qf.
Proof. unfold runs, pbind. destruct (m s); auto. Qed.
Lemma runs_imp {A} (bad : Prop) (m : P A) s (Qr Qr' : A -> st -> Prop) (Qf Qf' : XML_Error -> Prop) :
  runs bad m s Qr' Qf' -> (forall a s', Qr' a s' -> Qr a s') -> (forall e, Qf' e -> Qf e) -> runs bad m s Qr Qf.
Proof. unfold runs. destruct (m s); auto. Qed.

(* ---- the tables while a start tag is processed ---- *)
Definition mem (n : bytes) (l : list bytes) : bool := existsb (beqb n) l.
Lemma mem_In n l : mem n l = true <-> In n l.
Proof.
  unfold mem. rewrite existsb_exists. split; [intros (x & H & E); apply beqb_spec in E; subst; exact H|].
  intros H. exists n. split; [exact H|apply Nest.beqb_refl].
Qed.
Lemma mem_false n l : mem n l = false <-> ~ In n l.
Proof. rewrite <- mem_In. destruct (mem n l); intuition congruence. Qed.
Definition is_pref (ns : bool) (n : bytes) : bool := ns && existsb (N.eqb COLON) n.
Definition flag (ns : bool) (G : list bytes) (n : bytes) : atype :=
  if mem n G then if is_declaration ns n then Normal else if is_pref ns n then Prefixed else Normal else Unset.
Definition base (s0 : st) (G : list bytes) (n : bytes) : option attid :=
  match look n (d_attids (s_dtd s0)) with
  | Some a => Some a
  | None => if mem n G then Some (new_attid (c_ns (s_cfg s0)) n) else None
  end.
Record mid (s0 : st) (G : list bytes) (T : bytes -> atype) (D : list (bytes * bytes)) (s : st) : Prop := {
  m_same : same s0 s;
  m_elems : d_elems (s_dtd s) = d_elems (s_dtd s0);
  m_ids : forall n, look n (d_attids (s_dtd s)) = option_map (set_ai_type (T n)) (base s0 G n);
  m_decl : Forall (fun '(n, _) => exists p, declares n p) D;
  m_nodup : NoDup (map fst D);
  m_atts : map b_att (s_bindings s) = map (fun '(n, _) => Some n) (rev D);
  m_bound : forall p b, binding_of p (s_dtd s) = Some b -> b_prefix b = p /\ exists u, b_uri b = u ++ separator s;
  m_force : forall p u, in_force s p u <-> bound_inside D s0 p u
}.
Lemma mid_ext s0 G T T' D s : (forall n, T n = T' n) -> mid s0 G T D s -> mid s0 G T' D s.
Proof. intros H M. destruct M. constructor; auto. intros n. rewrite <- H. auto. Qed.

Lemma look_upd_attid n m f d : look n (d_attids (upd_attid m f d)) = if beqb n m then option_map f (look n (d_attids d)) else look n (d_attids d).
Proof.
  unfold upd_attid. destruct (look m (d_attids d)) as [a|] eqn:E.
  - change (d_attids (set_d_attids ?x d)) with x. rewrite look_put. destruct (beqb n m) eqn:B; [|reflexivity].
    apply beqb_spec in B. subst. rewrite E. reflexivity.
  - destruct (beqb n m) eqn:B; [|reflexivity]. apply beqb_spec in B. subst. rewrite E. reflexivity.
Qed.
Lemma upd_attid_rest m f d : exists x, upd_attid m f d = set_d_attids x d.
Proof. unfold upd_attid. destruct (look m (d_attids d)); [eauto|]. exists (d_attids d). destruct d; reflexivity. Qed.
Definition upd_fn (T : bytes -> atype) (m : bytes) (y : atype) : bytes -> atype := fun n => if beqb n m then y else T n.
Lemma mid_ids s0 G T T' D s x : mid s0 G T D s -> (forall n, look n x = option_map (set_ai_type (T' n)) (base s0 G n)) ->
  mid s0 G T' D (set_dtd (set_d_attids x (s_dtd s)) s).
Proof. intros M H. destruct M as [M1 Me M2 M3 M4 M5 M6 M7]. constructor; auto. Qed.
Lemma mid_type s0 G T D s n y : mid s0 G T D s ->
  exists s', set_type n y s = Ret tt s' /\ mid s0 G (upd_fn T n y) D s' /\ exists x, s' = set_dtd (set_d_attids x (s_dtd s)) s.
Proof.
  intros M. unfold set_type, upd_dtd, upd. destruct (upd_attid_rest n (set_ai_type y) (s_dtd s)) as (x & E). exists (set_dtd (upd_attid n (set_ai_type y) (s_dtd s)) s).
  split; [reflexivity|]. rewrite E. split; [|eauto]. eapply mid_ids; [exact M|]. intros m.
  assert (K := look_upd_attid m n (set_ai_type y) (s_dtd s)). rewrite E in K. change (d_attids (set_d_attids x (s_dtd s))) with x in K.
  rewrite K, (m_ids _ _ _ _ _ M). unfold upd_fn. destruct (beqb m n); [|reflexivity]. destruct (base s0 G m); reflexivity.
Qed.

Lemma binding_insert_prefix p q d : binding_of q (insert_prefix p d) = binding_of q d.
Proof.
  unfold insert_prefix. destruct (look p (d_prefixes d)) eqn:E; [reflexivity|]. destruct q as [|m|]; try reflexivity.
  cbn [binding_of]. change (d_prefixes (set_d_prefixes ?x d)) with x. rewrite look_put. destruct (beqb m p) eqn:B; [|reflexivity].
  apply beqb_spec in B. subst. rewrite E. reflexivity.
Qed.
Lemma insert_prefix_rest p d : exists x, insert_prefix p d = set_d_prefixes x d.
Proof. unfold insert_prefix. destruct (look p (d_prefixes d)); [|eauto]. exists (d_prefixes d). destruct d; reflexivity. Qed.
(* getAttributeId *)
Lemma mid_insert s0 G D s n : mid s0 G (flag (c_ns (s_cfg s0)) G) D s ->
  mid s0 (G ++ [n]) (flag (c_ns (s_cfg s0)) G) D (set_dtd (insert_attid (c_ns (s_cfg s)) n (s_dtd s)) s).
Proof.
  intros M. assert (Hn : c_ns (s_cfg s) = c_ns (s_cfg s0)) by (destruct (m_same _ _ _ _ _ M) as (E & _); rewrite E; reflexivity).
  rewrite Hn. set (ns := c_ns (s_cfg s0)) in *.
  assert (Bs : forall m, base s0 (G ++ [n]) m = match base s0 G m with Some a => Some a | None => if beqb m n then Some (new_attid ns n) else None end).
  { intros m. unfold base, mem. rewrite existsb_app. cbn [existsb]. rewrite orb_false_r. destruct (look m (d_attids (s_dtd s0))); [reflexivity|].
    fold (mem m G). destruct (mem m G); cbn [orb]; [reflexivity|]. destruct (beqb m n) eqn:B; [|reflexivity]. apply beqb_spec in B. subst. reflexivity. }
  unfold insert_attid. destruct (look n (d_attids (s_dtd s))) as [a|] eqn:E.
  - replace (set_dtd (s_dtd s) s) with s by (destruct s; reflexivity).
    assert (B0 : exists b, base s0 G n = Some b) by (rewrite (m_ids _ _ _ _ _ M) in E; destruct (base s0 G n); [eauto|discriminate]).
    destruct M as [M1 Me M2 M3 M4 M5 M6 M7]. constructor; auto. intros m. rewrite M2, Bs. destruct (base s0 G m) eqn:Bm; [reflexivity|].
    destruct (beqb m n) eqn:B; [|reflexivity]. apply beqb_spec in B. subst. destruct B0; congruence.
  - cbv zeta. set (d1 := set_d_attids (put n (new_attid ns n) (d_attids (s_dtd s))) (s_dtd s)).
    assert (B0 : base s0 G n = None) by (rewrite (m_ids _ _ _ _ _ M) in E; destruct (base s0 G n); [discriminate|reflexivity]).
    assert (F0 : flag ns G n = Unset).
    { unfold flag. destruct (mem n G) eqn:X; [|reflexivity]. unfold base in B0. rewrite X in B0. destruct (look n (d_attids (s_dtd s0))); discriminate B0. }
    assert (M1 : mid s0 (G ++ [n]) (flag ns G) D (set_dtd d1 s)).
    { destruct M as [M1 Me M2 M3 M4 M5 M6 M7]. constructor; auto. intros m. change (d_attids (s_dtd (set_dtd d1 s))) with (put n (new_attid ns n) (d_attids (s_dtd s))).
      rewrite look_put, Bs, M2. destruct (beqb m n) eqn:B.
      - apply beqb_spec in B. subst m. rewrite B0, F0. cbn [option_map]. unfold new_attid. destruct (negb ns); [reflexivity|].
        destruct (beqb n xmlns_str); [reflexivity|]. destruct (split_colon n) as [[u w]|]; [|reflexivity]. destruct (beqb u xmlns_str); reflexivity.
      - destruct (base s0 G m); reflexivity. }
    destruct (ai_prefix (new_attid ns n)) as [[|p|]|]; try exact M1.
    destruct (insert_prefix_rest p d1) as (x & Ex).
    assert (Bi : forall q, binding_of q (set_d_prefixes x d1) = binding_of q d1) by (intros q; rewrite <- Ex; apply binding_insert_prefix).
    rewrite Ex. clear Ex. destruct M1 as [A1 Ae A2 A3 A4 A5 A6 A7]. constructor; auto.
    + intros q b. change (s_dtd (set_dtd ?y s)) with y. rewrite Bi. apply A6.
    + intros q u. rewrite <- A7. unfold in_force. change (s_dtd (set_dtd ?y s)) with y. rewrite Bi. reflexivity.
Qed.

Lemma NoDup_app_cons_end {A} (l : list A) x : NoDup l -> ~ In x l -> NoDup (l ++ [x]).
Proof.
  intros H Hn. induction H as [|y l Hy H IH]; [constructor; [intros []|constructor]|]. cbn. constructor.
  - intros I. apply in_app_or in I as [I|[I|[]]]; [exact (Hy I)|subst; apply Hn; left; reflexivity].
  - apply IH. intros I. apply Hn. right. exact I.
Qed.
(* a namespace declaration *)
Lemma binding_bind p b q d : p <> PDangling -> binding_of q (bind_prefix p b d) = match q with PDangling => None | _ => if is_b q (EB p []) then b else binding_of q d end.
Proof. intros H. destruct q as [|m|]; [apply bind_binding; [exact H|discriminate]|apply bind_binding; [exact H|discriminate]|]. destruct p; reflexivity. Qed.
Lemma is_b_same q p : q <> PDangling -> is_b q (EB p []) = true <-> q = p.
Proof.
  destruct q as [|m|], p as [|n|]; cbn [is_b]; intros H; try (split; congruence).
  rewrite beqb_spec. split; congruence.
Qed.
Lemma bind_prefix_rest p b d : exists x y, bind_prefix p b d = set_d_prefixes x (set_d_default y d).
Proof.
  destruct p; cbn [bind_prefix].
  - exists (d_prefixes d), b. destruct d; reflexivity.
  - exists (put n b (d_prefixes d)), (d_default d). destruct d; reflexivity.
  - exists (d_prefixes d), (d_default d). destruct d; reflexivity.
Qed.
Lemma declares_real n p : declares n p -> p <> PDangling. Proof. destruct 1; discriminate. Qed.
Lemma separator_inj s u u' : u ++ separator s = u' ++ separator s -> u = u'. Proof. apply app_inv_tail. Qed.

(* what a handler changes *)
Definition called (s s' : st) : Prop := exists l g, s' = set_parsing g (set_log l s).
Lemma called_call ev s : exists r s', call ev s = Ret r s' /\ called s s'. Proof. eexists _, _. split; [reflexivity|]. eexists _, _. reflexivity. Qed.
Lemma accept_eq p n v bs s : p <> PDangling ->
  exists b s', accept p (Some n) v bs s = Ret (b :: bs) s' /\ b = MkB p (Some n) (v ++ separator s) (binding_of p (s_dtd s)) /\
    exists s1, s1 = set_dtd (bind_prefix p (match p with PDefault => if is_nil v then None else Some b | _ => Some b end) (s_dtd s)) s /\ (s' = s1 \/ called s1 s').
Proof.
  intros Hp. set (b := MkB p (Some n) (v ++ separator s) (binding_of p (s_dtd s))). exists b.
  set (nb := match p with PDefault => if is_nil v then None else Some b | _ => Some b end). set (s1 := set_dtd (bind_prefix p nb (s_dtd s)) s).
  assert (E : accept p (Some n) v bs s = ((emit h_startNs (EvStartNs (prefix_name p) (match nb with Some _ => Some v | None => None end)) ;;; pret tt) ;;; pret (b :: bs)) s1) by reflexivity.
  rewrite E. unfold emit, pbind, handler, get. destruct (h_startNs (c_h (s_cfg s1))).
  - eexists. split; [reflexivity|]. split; [reflexivity|]. exists s1. split; [reflexivity|]. right. eexists _, _. reflexivity.
  - eexists. split; [reflexivity|]. split; [reflexivity|]. exists s1. auto.
Qed.
Lemma mid_called s0 G T D s s' : called s s' -> mid s0 G T D s -> mid s0 G T D s'.
Proof. intros (l & g & ->) M. destruct M as [M1 Me M2 M3 M4 M5 M6 M7]. constructor; auto. Qed.

Lemma force_step D s0 s s1 n p v b : declares n p -> ~ In n (map fst D) ->
  (forall q u, in_force s q u <-> bound_inside D s0 q u) ->
  (forall q, binding_of q (s_dtd s1) = match q with PDangling => None | _ => if is_b q (EB p []) then b else binding_of q (s_dtd s) end) ->
  separator s1 = separator s -> Forall (fun '(n, _) => exists p, declares n p) D ->
  (b = None /\ v = [] \/ (v <> [] /\ exists x, b = Some x /\ b_uri x = v ++ separator s)) ->
  forall q u, in_force s1 q u <-> bound_inside (D ++ [(n, v)]) s0 q u.
Proof.
  intros Hd Hn H Hb Hsep HD Hv q u. unfold in_force at 1. rewrite Hb, Hsep.
  assert (Hp := declares_real _ _ Hd).
  destruct q as [|m|] eqn:Eq; [| |split; [intros (x & E & _); discriminate|]].
  1, 2: rewrite <- Eq; assert (Hq : q <> PDangling) by (rewrite Eq; discriminate); destruct (is_b q (EB p [])) eqn:B.
  1, 3: apply (is_b_same q p Hq) in B; clear Eq; subst q; split; [
     intros (x & Ex & Ux); destruct Hv as [(-> & _)|(Hv & y & -> & Uy)]; [discriminate|]; injection Ex as <-; rewrite Uy in Ux;
       apply separator_inj in Ux; subst u; left; exists n; split; [apply in_or_app; right; left; reflexivity|auto]
   | intros [(n' & I & D' & Hu)|(Hno & _)]; [|exfalso; apply (Hno n v); [apply in_or_app; right; left; reflexivity|exact Hd]];
       apply in_app_or in I as [I|[I|[]]]; [exfalso; apply Hn; rewrite <- (declares_inj _ _ _ D' Hd); apply (in_map fst) in I; exact I|];
       injection I as <- <-; destruct Hv as [(_ & ->)|(_ & y & -> & Uy)]; [congruence|]; eauto ].
  1, 2: assert (Hpq : q <> p) by (intros E; apply (is_b_same q p Hq) in E; congruence); clear Eq;
     transitivity (in_force s q u); [reflexivity|]; rewrite H; unfold bound_inside; split;
     [ intros [(n' & I & D' & Hu)|(Hno & F)]; [left; exists n'; split; [apply in_or_app; left; exact I|auto]|right; split; [|exact F]];
         intros n' u' I; apply in_app_or in I as [I|[I|[]]]; [exact (Hno _ _ I)|injection I as <- <-; intros D'; apply Hpq; exact (declares_unique _ _ _ D' Hd)]
     | intros [(n' & I & D' & Hu)|(Hno & F)];
         [apply in_app_or in I as [I|[I|[]]]; [left; eauto|injection I as <- <-; exfalso; apply Hpq; exact (declares_unique _ _ _ D' Hd)]
         |right; split; [intros n' u' I; apply (Hno n' u'); apply in_or_app; left; exact I|exact F]] ].
  intros [(n' & I & D' & _)|(_ & x & E & _)]; [inversion D'|discriminate].
Qed.
Lemma declare_out bad s0 G T D s n p v : mid s0 G T D s -> declares n p -> ~ In n (map fst D) ->
  runs bad (declare p n v) s (fun _ s' => allowed (prefix_name p) v /\ mid s0 G T (D ++ [(n, v)]) s') (fun e => wrong (prefix_name p) v e).
Proof.
  intros M Hd Hn. assert (Hp := declares_real _ _ Hd). unfold declare, runs, pbind at 1. unfold get at 1. unfold pbind at 1.
  rewrite addBinding_eq by exact Hp. destruct (verdict (prefix_name p) v) as [e|] eqn:V.
  { unfold fail. apply verdict_wrong in V. exact V. }
  apply verdict_allowed in V. destruct (accept_eq p n v (s_bindings s) s Hp) as (b & s' & Ea & Eb & s1 & E1 & Hs). rewrite Ea. unfold upd.
  split; [exact V|].
  set (nb := match p with PDefault => if is_nil v then None else Some b | _ => Some b end) in *.
  assert (Nv : nb = None /\ v = [] \/ (v <> [] /\ exists x, nb = Some x /\ b_uri x = v ++ separator s)).
  { assert (b_uri b = v ++ separator s) by (rewrite Eb; reflexivity). subst nb. destruct V as [_ _ _ V]. destruct p; [|right; split; [apply V; discriminate|eauto]|congruence].
    destruct v; [left; auto|right; split; [discriminate|exists b; split; [reflexivity|assumption]]]. }
  assert (M1 : mid s0 G T (D ++ [(n, v)]) (set_bindings (b :: s_bindings s) s1)).
  { destruct M as [A1 Ae A2 A3 A4 A5 A6 A7].
    assert (Bi : forall q, binding_of q (s_dtd s1) = match q with PDangling => None | _ => if is_b q (EB p []) then nb else binding_of q (s_dtd s) end).
    { intros q. rewrite E1. change (s_dtd (set_dtd ?y s)) with y. apply binding_bind, Hp. }
    destruct (bind_prefix_rest p nb (s_dtd s)) as (x & y & Er). rewrite Er in E1.
    constructor.
    - rewrite E1. exact A1.
    - rewrite E1. exact Ae.
    - intros m. rewrite E1. exact (A2 m).
    - apply Forall_app. split; [exact A3|]. constructor; [eauto|constructor].
    - rewrite map_app. cbn [map fst]. apply NoDup_app_cons_end; auto.
    - change (s_bindings (set_bindings ?z s1)) with z. rewrite rev_app_distr. cbn [rev List.app map]. rewrite Eb. cbn [b_att]. rewrite A5. reflexivity.
    - intros q x'. change (s_dtd (set_bindings ?z s1)) with (s_dtd s1). rewrite Bi.
      assert (Sep : separator (set_bindings (b :: s_bindings s) s1) = separator s) by (rewrite E1; reflexivity). rewrite Sep.
      assert (Q : forall q, q <> PDangling -> (if is_b q (EB p []) then nb else binding_of q (s_dtd s)) = Some x' -> b_prefix x' = q /\ exists u, b_uri x' = u ++ separator s).
      { intros q' Hq. destruct (is_b q' (EB p [])) eqn:B; [|apply A6]. apply (is_b_same q' p Hq) in B. subst q'. intros K.
        assert (x' = b) by (subst nb; clear -K Hp; destruct p; [destruct (is_nil v)|..]; congruence). subst x'. rewrite Eb. split; [reflexivity|eexists; reflexivity]. }
      destruct q as [|m|]; [apply Q; discriminate|apply Q; discriminate|discriminate].
    - refine (force_step D s0 s (set_bindings (b :: s_bindings s) s1) n p v nb Hd Hn A7 Bi _ A3 Nv). rewrite E1. reflexivity. }
  destruct Hs as [->|(l & g & ->)]; [exact M1|]. eapply mid_called; [|exact M1]. exists l, g. reflexivity.
Qed.

(* ---- the attributes of the tag ---- *)
(* the name of an attribute and its value, read in the state [s] *)
Definition named (t : enctype) (x : Attribute) (s : st) (n : bytes) : Prop :=
  exists e nm len nmb, encoding t s = Ret e s /\ a_name x = Some nm /\ nameLength e nm = Ok len /\ with_len len nm = Ok nmb /\ store t nmb s = Ret n s.
Definition value_of (fuel : nat) (t : enctype) (el : bytes) (x : Attribute) (n : bytes) (s : st) : State.out bytes :=
  (if a_normalized x then store t (a_value x) else storeAttributeValue fuel false t (is_cdata el n s) (a_value x)) s.
Definition mk (y : bytes * bytes) : att := {| at_id := fst y; at_name := fst y; at_value := snd y |}.
Definition count (ns : bool) (l : list (bytes * bytes)) : nat := length (filter (fun y => is_pref ns (fst y)) l).
Lemma count_app ns a b : count ns (a ++ b) = (count ns a + count ns b)%nat.
Proof. unfold count. rewrite filter_app, app_length. reflexivity. Qed.
Lemma is_pref_spec n : is_pref true n = true <-> In COLON n.
Proof.
  unfold is_pref. cbn [andb]. rewrite existsb_exists. split; [intros (x & H & E); apply N.eqb_eq in E; subst; exact H|].
  intros H. exists COLON. split; [exact H|apply N.eqb_refl].
Qed.
Lemma is_pref_false ns n : ns = false \/ ~ In COLON n -> is_pref ns n = false.
Proof. intros [->|H]; [reflexivity|]. destruct ns; [|reflexivity]. apply not_true_is_false. rewrite is_pref_spec. exact H. Qed.
Lemma prefixed_in n p l : prefixed n p l -> In COLON n. Proof. intros [-> _]. apply in_or_app. right. left. reflexivity. Qed.

Lemma flag_in ns G n : is_set (flag ns G n) = mem n G.
Proof. unfold flag. destruct (mem n G); [|reflexivity]. destruct (is_declaration ns n); [reflexivity|]. destruct (is_pref ns n); reflexivity. Qed.
Lemma mem_snoc m G n : mem m (G ++ [n]) = mem m G || beqb m n.
Proof. unfold mem. rewrite existsb_app. cbn [existsb]. rewrite orb_false_r. reflexivity. Qed.

Section Tag.
Variables (s0 : st) (el : bytes) (et : elemtype) (fuel : nat) (t : enctype).
Hypothesis TA : tables s0.
Hypothesis EL : look el (d_elems (s_dtd s0)) = Some et.
Let ns := c_ns (s_cfg s0).
(* what may make the code panic *)
Variable bad : Prop.
Hypothesis HBd : forall n a, look n (d_attids (s_dtd s0)) = Some a -> ai_prefix a = Some PDangling -> bad.
Definition readable (x : Attribute) : Prop := ((~ exists n, named t x s0 n) -> bad) /\ forall n e, named t x s0 n -> value_of fuel t el x n s0 = Die e -> bad.
Notation MID G D := (mid s0 G (flag ns G) D).

Lemma base_ok G n a : base s0 G n = Some a -> id_ok ns n a.
Proof.
  unfold base. destruct (look n (d_attids (s_dtd s0))) eqn:E; [intros K; injection K as <-; exact (ta_id _ TA _ _ E)|].
  destruct (mem n G); [|discriminate]. intros K; injection K as <-. apply id_ok_new.
Qed.
Lemma base_unset G n a : base s0 G n = Some a -> ai_type a = Unset.
Proof.
  unfold base. destruct (look n (d_attids (s_dtd s0))) eqn:E; [intros K; injection K as <-; exact (ta_clear _ TA _ _ E)|].
  destruct (mem n G); [|discriminate]. intros K; injection K as <-. apply new_attid_spec.
Qed.
Lemma find_map n l : declaration_of n (map (fun da => (da_id da, da_cdata da, da_value da)) l) =
  match find (fun da => beqb n (da_id da)) l with Some da => Some (da_cdata da, da_value da) | None => None end.
Proof.
  unfold declaration_of. induction l as [|da l IH]; [reflexivity|]. cbn [map find]. destruct (beqb n (da_id da)); [reflexivity|exact IH].
Qed.
Lemma cdata_eq G n a : base s0 G n = Some a -> declared_cdata n a et = is_cdata el n s0.
Proof.
  intros B. unfold declared_cdata, is_cdata, declarations. rewrite EL, find_map. destruct (find (fun da => beqb n (da_id da)) (et_defaults et)) as [da|] eqn:F.
  - apply find_some in F as [I E]. apply beqb_spec in E. destruct (ai_maybe a) eqn:Mb; [reflexivity|].
    destruct (ta_default _ TA _ _ _ EL I) as (a' & L & C). rewrite <- E in L. unfold base in B. rewrite L in B. injection B as <-.
    destruct (da_cdata da); [reflexivity|]. rewrite C in Mb by reflexivity. discriminate.
  - destruct (ai_maybe a); reflexivity.
Qed.
Lemma same_sym a b : same a b -> same b a.
Proof. intros (A1 & A2 & A3 & A4 & A5 & A6 & A7). repeat split; congruence. Qed.
Lemma mid_cfg G T D s : mid s0 G T D s -> s_cfg s = s_cfg s0. Proof. intros M. apply (m_same _ _ _ _ _ M). Qed.

Lemma flag_snoc G n y : ~ In n G -> y = (if is_declaration ns n then Normal else if is_pref ns n then Prefixed else Normal) ->
  forall m, upd_fn (flag ns G) n y m = flag ns (G ++ [n]) m.
Proof.
  intros Hn -> m. unfold upd_fn, flag. rewrite mem_snoc. destruct (beqb m n) eqn:B.
  - apply beqb_spec in B. subst. rewrite orb_true_r. reflexivity.
  - rewrite orb_false_r. reflexivity.
Qed.

Definition spec_fail (G : list bytes) (x : Attribute) (e : XML_Error) : Prop :=
  exists n, named t x s0 n /\
    ((In n G /\ e = XE_DUPLICATE_ATTRIBUTE) \/
     (~ In n G /\ exists s', value_of fuel t el x n s0 = Fail e s') \/
     (~ In n G /\ exists v p, value_of fuel t el x n s0 = Ret v s0 /\ ns = true /\ declares n p /\ wrong (prefix_name p) v e)).
Definition spec_ret (G : list bytes) (D : list (bytes * bytes)) (x : Attribute) (atts : list (bytes * bytes)) (nP : nat) (r : list att * nat) (s' : st) : Prop :=
  exists n v, named t x s0 n /\ ~ In n G /\ value_of fuel t el x n s0 = Ret v s0 /\
    (if is_declaration ns n
     then (exists p, declares n p /\ allowed (prefix_name p) v) /\ r = (map mk atts, nP) /\ MID (G ++ [n]) (D ++ [(n, v)]) s'
     else r = (map mk (atts ++ [(n, v)]), (nP + count ns [(n, v)])%nat) /\ MID (G ++ [n]) D s').

Lemma spec_step G D s x atts nP : readable x -> MID G D s -> (forall n, In n (map fst D) -> In n G) ->
  runs bad (specified_att fuel t el x (map mk atts, nP)) s (spec_ret G D x atts nP) (spec_fail G x).
Proof.
  intros [HB1 HB2] M HD. assert (SM := m_same _ _ _ _ _ M). unfold specified_att.
  apply runs_bind. pose proof (agree_encoding t s0 s SM) as He. unfold agree, encoding in He. destruct He as [_ He].
  unfold runs at 1. unfold encoding at 1.
  set (e := match t with ENormal => known (c_ns (s_cfg s)) (s_enc s) | EInternal => if c_ns (s_cfg s) then _ else _ end).
  assert (Ee : encoding t s0 = Ret e s0) by (unfold encoding, e; destruct SM as (-> & -> & _); reflexivity).
  assert (NB : forall P : Prop, (forall n, named t x s0 n -> False) -> bad) by (intros _ H; apply HB1; intros (n & X); exact (H n X)).
  apply runs_bind. destruct (a_name x) as [nm|] eqn:En; [|apply (NB True); intros n (? & ? & ? & ? & _ & X & _); congruence]. unfold runs at 1, pret at 1.
  apply runs_bind. destruct (nameLength e nm) as [len|] eqn:El; [|apply (NB True); intros n (? & ? & ? & ? & X1 & X2 & X3 & _); congruence]. unfold runs at 1, lift at 1.
  apply runs_bind. destruct (with_len len nm) as [nmb|] eqn:Ew; [|apply (NB True); intros n (? & ? & ? & ? & X1 & X2 & X3 & X4 & _); congruence]. unfold runs at 1, lift at 1.
  unfold getAttributeId. apply runs_bind. apply runs_bind.
  pose proof (agree_store t nmb s0 s SM) as Hs. unfold agree in Hs. unfold runs at 1.
  destruct (store t nmb s0) as [n sx|ex sx|ex] eqn:Es; [|exfalso; unfold store, pbind, encoding, lift in Es; destruct (conv _ _); discriminate|rewrite Hs; apply (NB True); intros n (? & ? & ? & ? & X1 & X2 & X3 & X4 & X5); congruence].
  destruct Hs as [-> ->].
  assert (Nm : named t x s0 n) by (exists e, nm, len, nmb; auto).
  apply runs_bind. unfold runs at 1, get at 1. apply runs_bind. unfold runs at 1, upd_dtd at 1, upd at 1. unfold runs at 1, pret at 1.
  set (s1 := set_dtd (insert_attid (c_ns (s_cfg s)) n (s_dtd s)) s).
  assert (M1 : mid s0 (G ++ [n]) (flag ns G) D s1) by (apply mid_insert; exact M).
  apply runs_bind. unfold runs at 1, attid_of, pbind at 1, get at 1.
  rewrite (m_ids _ _ _ _ _ M1 n).
  assert (B : exists a, base s0 (G ++ [n]) n = Some a).
  { unfold base. destruct (look n (d_attids (s_dtd s0))); [eauto|]. rewrite mem_snoc, Nest.beqb_refl, orb_true_r. eauto. }
  destruct B as (a & B). rewrite B. cbn [option_map]. unfold pret at 1.
  change (ai_type (set_ai_type ?y ?z)) with y. rewrite flag_in. destruct (mem n G) eqn:Mm.
  { apply mem_In in Mm. unfold runs, pbind, set_event, upd, pret, fail. assert (spec_fail G x XE_DUPLICATE_ATTRIBUTE) by (exists n; split; [exact Nm|left; auto]).
    destruct (is_internal t); assumption. }
  apply mem_false in Mm.
  apply runs_bind. destruct (mid_type _ _ _ _ _ n Normal M1) as (s2 & E2 & M2 & _). unfold runs at 1. rewrite E2.
  assert (SM2 := m_same _ _ _ _ _ M2).
  apply runs_bind. unfold runs at 1, getd at 1, get at 1.
  assert (EL2 : look el (d_elems (s_dtd s2)) = Some et) by (rewrite (m_elems _ _ _ _ _ M2); exact EL).
  rewrite EL2. apply runs_bind. unfold runs at 1, pret at 1.
  change (declared_cdata n (set_ai_type ?y a) et) with (declared_cdata n a et). rewrite (cdata_eq _ _ _ B).
  apply runs_bind.
  assert (V : agree (if a_normalized x then store t (a_value x) else storeAttributeValue fuel false t (is_cdata el n s0) (a_value x)) s0 s2).
  { destruct (a_normalized x); [now apply agree_store|now apply value_same]. }
  unfold agree in V. unfold runs at 1. fold (value_of fuel t el x n s0) in V.
  destruct (value_of fuel t el x n s0) as [v sx|ex sx|ex] eqn:Ev.
  2:{ destruct V as (s' & ->). exists n. split; [exact Nm|]. right. left. split; [exact Mm|]. eauto. }
  2:{ rewrite V. exact (HB2 _ _ Nm Ev). }
  destruct V as [-> ->].
  change (ai_prefix (set_ai_type ?y ?z)) with (ai_prefix z). change (ai_xmlns (set_ai_type ?y ?z)) with (ai_xmlns z).
  assert (IDK := base_ok _ _ _ B).
  destruct (ai_prefix a) as [p|] eqn:Ep.
  - destruct p as [|q|].
    3:{ (* dangling *) destruct IDK as [X [Y|(Y1 & Y2 & _)]].
        - exfalso. rewrite Ep in Y. destruct (new_attid_spec ns n) as ([p' _ _ D' P' _|p' l' _ _ _ P' _|_ _ P' _] & _); rewrite P' in Y; try discriminate; injection Y as <-; inversion D'.
        - rewrite X, Y1, Y2. change (ai_xmlns (new_attid true xmlns_prefix)) with true. cbv iota. unfold declare, runs, pbind, get, addBinding, die.
          unfold base in B. destruct (look n (d_attids (s_dtd s0))) as [a'|] eqn:La; [injection B as ->; exact (HBd _ _ La Ep)|].
          exfalso. destruct (mem n (G ++ [n])); [|discriminate B]. injection B as <-. fold ns in Ep.
          destruct (new_attid_spec ns n) as ([p' _ _ D' P' _|p' l' _ _ _ P' _|_ _ P' _] & _); rewrite P' in Ep; try discriminate; injection Ep as ->; inversion D'. }
    all: assert (SP : new_spec ns n a) by (apply id_ok_spec; [exact IDK|congruence]).
    all: destruct SP as [p Hns Hd D' P' XM|p l Hns Hd Pf P' XM|Hd Hc P' XM]; rewrite Ep in P'; try discriminate; injection P' as <-; rewrite XM.
    + (* default declaration *)
      apply runs_bind. eapply runs_imp; [eapply declare_out; [exact M2|exact D'|intros I0; apply Mm, HD, I0]| |].
      * intros [] s' [Al M3]. unfold runs, pret. exists n, v. repeat (split; [eassumption|]). rewrite Hd. split; [eauto|]. split; [reflexivity|].
        eapply mid_ext; [|exact M3]. apply flag_snoc; [exact Mm|]. rewrite Hd. reflexivity.
      * intros e' W. exists n. split; [exact Nm|]. right. right. split; [exact Mm|]. exists v, PDefault. auto.
    + apply runs_bind. eapply runs_imp; [eapply declare_out; [exact M2|exact D'|intros I0; apply Mm, HD, I0]| |].
      * intros [] s' [Al M3]. unfold runs, pret. exists n, v. repeat (split; [eassumption|]). rewrite Hd. split; [eauto|]. split; [reflexivity|].
        eapply mid_ext; [|exact M3]. apply flag_snoc; [exact Mm|]. rewrite Hd. reflexivity.
      * intros e' W. exists n. split; [exact Nm|]. right. right. split; [exact Mm|]. exists v, (PNamed q). auto.
    + apply runs_bind. destruct (mid_type _ _ _ _ _ n Prefixed M2) as (s3 & E3 & M3 & _). unfold runs at 1. rewrite E3. unfold runs, pret.
      exists n, v. repeat (split; [eassumption|]). rewrite Hd.
      assert (IP : is_pref ns n = true) by (rewrite Hns; apply is_pref_spec; eapply prefixed_in; exact Pf).
      split.
      * unfold count. cbn [filter fst]. rewrite IP. cbn [length]. rewrite map_app, Nat.add_1_r. reflexivity.
      * eapply mid_ext; [|exact M3]. intros m. rewrite <- (flag_snoc G n Prefixed Mm); [|rewrite Hd, IP; reflexivity]. unfold upd_fn. destruct (beqb m n); reflexivity.
  - unfold runs, pret. assert (SP : new_spec ns n a) by (apply id_ok_spec; [exact IDK|congruence]).
    destruct SP as [p Hns Hd D' P' XM|p l Hns Hd Pf P' XM|Hd Hc P' XM]; rewrite Ep in P'; try discriminate.
    exists n, v. repeat (split; [eassumption|]). rewrite Hd. pose proof (is_pref_false _ _ Hc) as IP. split.
    + unfold count. cbn [filter fst]. rewrite IP. cbn [length]. rewrite map_app, Nat.add_0_r. reflexivity.
    + eapply mid_ext; [|exact M2]. apply flag_snoc; [exact Mm|]. rewrite Hd, IP. reflexivity.
Qed.

(* all attributes of the tag *)
Definition read (x : Attribute) (y : bytes * bytes) : Prop :=
  named t x s0 (fst y) /\ value_of fuel t el x (fst y) s0 = Ret (snd y) s0.
Definition good_decls (l : list (bytes * bytes)) : Prop :=
  forall n v p, In (n, v) l -> ns = true -> declares n p -> allowed (prefix_name p) v.
Definition fresh (G : list bytes) (l : list (bytes * bytes)) : Prop := NoDup (map fst l) /\ forall n, In n (map fst l) -> ~ In n G.
Lemma fresh_cons G n v l : ~ In n G -> fresh (G ++ [n]) l -> fresh G ((n, v) :: l).
Proof.
  intros Hn [H1 H2]. split; cbn [map fst].
  - constructor; [|exact H1]. intros I. apply (H2 n I). apply in_or_app. right. left. reflexivity.
  - intros m [<-|I] J; [exact (Hn J)|]. apply (H2 m I). apply in_or_app. left. exact J.
Qed.
Definition list_ret (G : list bytes) (D : list (bytes * bytes)) xs atts nP (r : list att * nat) (s' : st) : Prop :=
  exists given, Forall2 read xs given /\ fresh G given /\ good_decls given /\
    r = (map mk (atts ++ ordinary ns given), (nP + count ns (ordinary ns given))%nat) /\
    MID (G ++ map fst given) (D ++ declared ns given) s'.
Definition list_fail (G : list bytes) xs (e : XML_Error) : Prop :=
  exists xs1 x xs2 given, xs = xs1 ++ x :: xs2 /\ Forall2 read xs1 given /\ fresh G given /\ good_decls given /\
    spec_fail (G ++ map fst given) x e.
Lemma spec_list xs : Forall readable xs -> forall G D s atts nP, MID G D s -> (forall n, In n (map fst D) -> In n G) ->
  runs bad (specified_atts fuel t el xs (map mk atts, nP)) s (list_ret G D xs atts nP) (list_fail G xs).
Proof.
  induction xs as [|x xs IH]; intros HR G D s atts nP M HD; cbn [specified_atts]; [|inversion HR as [|? ? Hx HR']; subst; specialize (IH HR')].
  - unfold runs, pret. exists []. split; [constructor|]. split; [split; [constructor|intros n []]|]. split; [intros n v p []|].
    cbn [ordinary declared filter map]. rewrite !app_nil_r, Nat.add_0_r. split; [reflexivity|exact M].
  - apply runs_bind. eapply runs_imp; [apply (spec_step G D s x atts nP Hx M HD)| |].
    + intros r s' (n & v & Nm & Hn & Vl & H). destruct (is_declaration ns n) eqn:Dc.
      * destruct H as ((p & Dp & Al) & -> & M'). eapply runs_imp; [apply (IH _ _ _ atts nP M')| |].
        -- intros m I. rewrite map_app in I. apply in_app_or in I as [I|I]; apply in_or_app; [left; exact (HD m I)|right; exact I].
        -- intros r2 s2 (given & F & Fr & Gd & Er & M2). exists ((n, v) :: given).
           split; [constructor; [split; assumption|exact F]|]. split; [now apply fresh_cons|]. split.
           { intros n' v' p' [E|I] Hns D'; [injection E as <- <-; rewrite (declares_unique _ _ _ D' Dp); exact Al|exact (Gd _ _ _ I Hns D')]. }
           unfold ordinary, declared in *. cbn [filter map fst]. rewrite Dc. cbn [negb]. split; [exact Er|].
           rewrite <- !app_assoc in M2. exact M2.
        -- intros e (xs1 & x' & xs2 & given & E & F & Fr & Gd & Sf). exists (x :: xs1), x', xs2, ((n, v) :: given). rewrite E.
           split; [reflexivity|]. split; [constructor; [split; assumption|exact F]|]. split; [now apply fresh_cons|]. split.
           { intros n' v' p' [E'|I] Hns D'; [injection E' as <- <-; rewrite (declares_unique _ _ _ D' Dp); exact Al|exact (Gd _ _ _ I Hns D')]. }
           rewrite <- app_assoc in Sf. exact Sf.
      * destruct H as (-> & M').
        assert (Nd : forall p, ns = true -> ~ declares n p).
        { intros p Hns D'. assert (is_declaration ns n = true) by (rewrite Hns; apply declares_spec; eauto). congruence. }
        eapply runs_imp; [apply (IH _ _ _ (atts ++ [(n, v)]) _ M')| |].
        -- intros m I. apply in_or_app. left. exact (HD m I).
        -- intros r2 s2 (given & F & Fr & Gd & Er & M2). exists ((n, v) :: given).
           split; [constructor; [split; assumption|exact F]|]. split; [now apply fresh_cons|]. split.
           { intros n' v' p' [E|I] Hns D'; [injection E as <- <-; exfalso; exact (Nd _ Hns D')|exact (Gd _ _ _ I Hns D')]. }
           unfold ordinary, declared in *. cbn [filter map fst]. rewrite Dc. cbn [negb]. split.
           ++ rewrite Er, <- app_assoc. f_equal. rewrite <- Nat.add_assoc. f_equal. rewrite <- count_app. reflexivity.
           ++ rewrite <- !app_assoc in M2. exact M2.
        -- intros e (xs1 & x' & xs2 & given & E & F & Fr & Gd & Sf). exists (x :: xs1), x', xs2, ((n, v) :: given). rewrite E.
           split; [reflexivity|]. split; [constructor; [split; assumption|exact F]|]. split; [now apply fresh_cons|]. split.
           { intros n' v' p' [E'|I] Hns D'; [injection E' as <- <-; exfalso; exact (Nd _ Hns D')|exact (Gd _ _ _ I Hns D')]. }
           rewrite <- app_assoc in Sf. exact Sf.
    + intros e Sf. exists [], x, xs, []. split; [reflexivity|]. split; [constructor|]. split; [split; [constructor|intros n []]|].
      split; [intros n v p []|]. cbn [map]. rewrite app_nil_r. exact Sf.
Qed.

(* the defaults *)
Definition supplied (G : list bytes) (das : list defatt) : list (bytes * bytes) :=
  flat_map (fun da => match da_value da with Some v => if mem (da_id da) G then [] else [(da_id da, v)] | None => [] end) das.
Lemma mid_grow' G D s n a T : look n (d_attids (s_dtd s0)) = Some a -> mid s0 G T D s -> mid s0 (G ++ [n]) T D s.
Proof.
  intros L M. destruct M as [M1 Me M2 M3 M4 M5 M6 M7]. constructor; auto. intros m. rewrite M2. unfold base.
  destruct (look m (d_attids (s_dtd s0))) eqn:E; [reflexivity|]. rewrite mem_snoc. destruct (beqb m n) eqn:B; [|rewrite orb_false_r; reflexivity].
  apply beqb_spec in B. subst. congruence.
Qed.
Definition def_ret (G0 G : list bytes) (D : list (bytes * bytes)) das atts nP (r : list att * nat) (s' : st) : Prop :=
  exists G', good_decls (supplied G0 das) /\ r = (map mk (atts ++ ordinary ns (supplied G0 das)), (nP + count ns (ordinary ns (supplied G0 das)))%nat) /\
    MID G' (D ++ declared ns (supplied G0 das)) s' /\ (forall n, In n G' <-> In n G \/ In n (map fst (ordinary ns (supplied G0 das)))).
Definition def_fail (G0 : list bytes) das (e : XML_Error) : Prop :=
  exists n v p, In (n, v) (supplied G0 das) /\ ns = true /\ declares n p /\ wrong (prefix_name p) v e.
Lemma def_list G0 das : forall pre G D s atts nP, et_defaults et = pre ++ das -> MID G D s ->
  (forall n, In n G -> In n G0 \/ In n (map da_id pre)) -> incl G0 G ->
  (forall n, In n (map fst D) -> In n G0 \/ In n (map da_id pre)) ->
  runs bad (default_atts das (map mk atts, nP)) s (def_ret G0 G D das atts nP) (def_fail G0 das).
Proof.
  induction das as [|da das IH]; intros pre G D s atts nP E M HG HG0 HD; cbn [default_atts].
  - unfold runs, pret. exists G. split; [intros n v p []|]. unfold supplied, ordinary, declared. cbn [flat_map filter map]. rewrite !app_nil_r, Nat.add_0_r. split; [reflexivity|].
    split; [exact M|]. intros n. cbn [In]. tauto.
  - apply runs_bind. assert (Ida : In da (et_defaults et)) by (rewrite E; apply in_or_app; right; left; reflexivity).
    destruct (ta_default _ TA _ _ _ EL Ida) as (a & L & _).
    assert (E' : et_defaults et = (pre ++ [da]) ++ das) by (rewrite E, <- app_assoc; reflexivity).
    assert (HG' : forall n, In n G -> In n G0 \/ In n (map da_id (pre ++ [da]))) by (intros n I; destruct (HG n I); [auto|right; rewrite map_app; apply in_or_app; auto]).
    assert (HD' : forall n, In n (map fst D) -> In n G0 \/ In n (map da_id (pre ++ [da]))) by (intros n I; destruct (HD n I); [auto|right; rewrite map_app; apply in_or_app; auto]).
    unfold default_att. apply runs_bind. unfold runs at 1, attid_of, pbind at 1, get at 1. rewrite (m_ids _ _ _ _ _ M).
    assert (B : base s0 G (da_id da) = Some a) by (unfold base; rewrite L; reflexivity). rewrite B. cbn [option_map]. unfold pret at 1.
    change (ai_type (set_ai_type ?y ?z)) with y. change (ai_prefix (set_ai_type ?y ?z)) with (ai_prefix z). change (ai_xmlns (set_ai_type ?y ?z)) with (ai_xmlns z).
    destruct (da_value da) as [v|] eqn:Ev.
    2:{ unfold runs at 1, pret at 1. eapply runs_imp; [apply (IH _ G D s atts nP E' M HG' HG0 HD')| |]; unfold def_ret, def_fail, supplied; cbn [flat_map]; rewrite Ev; auto. }
    assert (Hpre : ~ In (da_id da) (map da_id pre)) by (eapply (ta_first _ TA); [exact EL|exact E|congruence]).
    assert (MM : mem (da_id da) G = mem (da_id da) G0).
    { destruct (mem (da_id da) G0) eqn:X; [apply mem_In, HG0, mem_In, X|]. apply mem_false. apply mem_false in X. intros I. destruct (HG _ I); contradiction. }
    rewrite flag_in, MM. destruct (mem (da_id da) G0) eqn:Mm.
    { unfold runs at 1, pret at 1. eapply runs_imp; [apply (IH _ G D s atts nP E' M HG' HG0 HD')| |]; unfold def_ret, def_fail, supplied; cbn [flat_map]; rewrite Ev, Mm; auto. }
    apply mem_false in Mm. apply mem_false in MM.
    assert (IDK := ta_id _ TA _ _ L). fold ns in IDK.
    assert (Sup : supplied G0 (da :: das) = (da_id da, v) :: supplied G0 das).
    { unfold supplied. cbn [flat_map]. rewrite Ev. apply mem_false in Mm. rewrite Mm. reflexivity. }
    assert (HDd : ~ In (da_id da) (map fst D)) by (intros I; destruct (HD _ I); contradiction).
    assert (Hdecl : forall p, declares (da_id da) p -> is_declaration ns (da_id da) = true -> ns = true -> runs bad (do st' <- (declare p (da_id da) v ;;; pret (map mk atts, nP)); default_atts das st') s (def_ret G0 G D (da :: das) atts nP) (def_fail G0 (da :: das))).
    { intros p Dp Dc Hns. apply runs_bind, runs_bind. eapply runs_imp; [apply (declare_out _ _ _ _ _ _ _ p v M Dp HDd)| |].
      - intros [] s' [Al M']. unfold runs at 1, pret at 1. eapply runs_imp; [apply (IH (pre ++ [da]) G (D ++ [(da_id da, v)]) s' atts nP E' M' HG' HG0)| |].
        + intros n I. rewrite map_app in I. apply in_app_or in I as [I|[<-|[]]]; [exact (HD' n I)|right; rewrite map_app; apply in_or_app; right; left; reflexivity].
        + intros r s2 (G' & Gd & -> & M2 & HG2). exists G'. rewrite Sup. split.
          { intros n' v' p' [E0|I] Hn' D0; [injection E0 as <- <-; rewrite (declares_unique _ _ _ D0 Dp); exact Al|exact (Gd _ _ _ I Hn' D0)]. }
          unfold ordinary, declared in *. cbn [filter fst]. rewrite Dc. cbn [negb].
          split; [reflexivity|]. split; [rewrite <- app_assoc in M2; exact M2|exact HG2].
        + intros e (n & v' & p' & I & R). exists n, v', p'. rewrite Sup. split; [right; exact I|exact R].
      - intros e W. exists (da_id da), v, p. rewrite Sup. split; [left; reflexivity|auto]. }
    assert (Hord : forall y s1, is_declaration ns (da_id da) = false -> y = (if is_pref ns (da_id da) then Prefixed else Normal) -> set_type (da_id da) y s = Ret tt s1 ->
       mid s0 G (upd_fn (flag ns G) (da_id da) y) D s1 ->
       runs bad (default_atts das (map mk (atts ++ [(da_id da, v)]), (nP + count ns [(da_id da, v)])%nat)) s1 (def_ret G0 G D (da :: das) atts nP) (def_fail G0 (da :: das))).
    { intros y s1 Dc Hy E1 M1.
      assert (M1' : MID (G ++ [da_id da]) D s1).
      { eapply mid_ext; [|apply (mid_grow' G D s1 (da_id da) a _ L M1)]. intros m. apply flag_snoc; [exact MM|]. rewrite Dc. exact Hy. }
      eapply runs_imp; [apply (IH (pre ++ [da]) (G ++ [da_id da]) D s1 _ _ E' M1')| |].
      - intros n I. apply in_app_or in I as [I|[<-|[]]]; [exact (HG' n I)|right; rewrite map_app; apply in_or_app; right; left; reflexivity].
      - intros n I. apply in_or_app. left. exact (HG0 n I).
      - exact HD'.
      - intros r s2 (G' & Gd & -> & M2 & HG2). exists G'. rewrite Sup. split.
        { intros n' v' p' [E0|I] Hn' D0; [injection E0 as <- <-|exact (Gd _ _ _ I Hn' D0)].
          exfalso. assert (is_declaration ns (da_id da) = true) by (rewrite Hn'; apply declares_spec; eauto). congruence. }
        unfold ordinary, declared in *. cbn [filter fst]. rewrite Dc. cbn [negb].
        split; [|split; [exact M2|]].
        + rewrite <- app_assoc. f_equal. rewrite <- Nat.add_assoc. f_equal. rewrite <- count_app. reflexivity.
        + intros n. rewrite HG2. cbn [map fst In]. rewrite in_app_iff. cbn [In]. tauto.
      - intros e (n & v' & p' & I & R). exists n, v', p'. rewrite Sup. split; [right; exact I|exact R]. }
    destruct (ai_prefix a) as [p|] eqn:Ep.
    + assert (p <> PDangling \/ p = PDangling) as [Hp|Hp] by (destruct p; [left|left|right]; congruence).
      * assert (SP : new_spec ns (da_id da) a) by (apply id_ok_spec; [exact IDK|congruence]).
        destruct SP as [p' Hns Hd D' P' XM|p' l Hns Hd Pf P' XM|Hd Hc P' XM]; rewrite Ep in P'; try discriminate; injection P' as P'; subst p; rewrite XM.
        -- apply runs_bind' . exact (Hdecl _ D' Hd Hns).
        -- apply runs_bind. destruct (mid_type _ _ _ _ _ (da_id da) Prefixed M) as (s1 & E1 & M1 & _). unfold runs at 1. rewrite E1. unfold runs at 1, pret at 1.
           assert (IP : is_pref ns (da_id da) = true) by (rewrite Hns; apply is_pref_spec; eapply prefixed_in; exact Pf).
           specialize (Hord Prefixed s1 Hd ltac:(rewrite IP; reflexivity) E1 M1).
           unfold count in Hord at 1. cbn [filter fst] in Hord. rewrite IP in Hord. cbn [length] in Hord. rewrite Nat.add_1_r, map_app in Hord. exact Hord.
      * subst p. destruct IDK as [X [Y|(Y1 & Y2 & _)]].
        -- exfalso. rewrite Ep in Y. destruct (new_attid_spec ns (da_id da)) as ([p' _ _ D' P' _|p' l' _ _ _ P' _|_ _ P' _] & _); rewrite P' in Y; try discriminate; injection Y as <-; inversion D'.
        -- rewrite X, Y1, Y2. change (ai_xmlns (new_attid true xmlns_prefix)) with true. cbv iota. unfold declare, runs, pbind, get, addBinding, die. exact (HBd _ _ L Ep).
    + assert (SP : new_spec ns (da_id da) a) by (apply id_ok_spec; [exact IDK|congruence]).
      destruct SP as [p' Hns Hd D' P' XM|p' l Hns Hd Pf P' XM|Hd Hc P' XM]; rewrite Ep in P'; try discriminate.
      apply runs_bind. destruct (mid_type _ _ _ _ _ (da_id da) Normal M) as (s1 & E1 & M1 & _). unfold runs at 1. rewrite E1. unfold runs at 1, pret at 1.
      pose proof (is_pref_false _ _ Hc) as IP. specialize (Hord Normal s1 Hd ltac:(rewrite IP; reflexivity) E1 M1).
      unfold count in Hord at 1. cbn [filter fst] in Hord. rewrite IP in Hord. cbn [length] in Hord. rewrite Nat.add_0_r, map_app in Hord. exact Hord.
Qed.
End Tag.
