(* Whole runs of the prolog machine. *)
From Coq Require Import String List NArith Bool Lia Arith.
From Coq Require Import ZifyBool ZifyNat ZifyN.
From Verif Require Import Base Encoding TokMisc SpecText SpecUnicode SpecLex Role SpecRole RoleLaws RoleGram RoleTop RoleDoc.
Import ListNotations.
Local Open Scope list_scope.

Section Run.
Variable e : EncImpl.
Variable enc : N -> list N.
Hypothesis SH : shape e enc.
Notation rstep := (rstep e).
Notation pick := (pick enc).
Notation St q lv rn i d := {| hd := q; level := lv; role_none := rn; include := i; doc := d |}.
Ltac ev := unfold RoleLaws.rstep, token_role; cbn [hd]; machine; cbn [pad app]; rewrite ?inc_start_pad; cbn [bind];
  repeat match goal with |- context [tok_eqb ?a ?b] => let v := eval vm_compute in (tok_eqb a b) in change (tok_eqb a b) with v end; cbv iota;
  rewrite ?inc_start_pad; cbn [bind]; rewrite ?(on_kw_pick e enc SH) by alts_asc;
  unfold to, set_level, set_none, set_include, subset; cbn [hd level role_none include doc].

Lemma run_cons : forall s tok b ts, token_ok e (tok, b) ->
  token_roles e s ((tok, b) :: ts) =
  match token_roles e (fst (rstep s tok (text_of e (tok, b)))) ts with
  | Ok (rs, s') => Ok (snd (rstep s tok (text_of e (tok, b))) :: rs, s')
  | Err x => Err x
  end.
Proof.
  intros s tok b ts H. cbn [token_roles]. rewrite (token_role_rstep e enc SH) by exact H.
  destruct (rstep s tok (text_of e (tok, b))) as [s1 r]. cbn [bind fst snd].
  destruct (token_roles e s1 ts) as [[rs s2]|x]; reflexivity.
Qed.
Lemma run_cons_inv : forall s tok b ts rs s', token_ok e (tok, b) -> token_roles e s ((tok, b) :: ts) = Ok (rs, s') ->
  exists s1 r rs1, rstep s tok (text_of e (tok, b)) = (s1, r) /\ rs = r :: rs1 /\ token_roles e s1 ts = Ok (rs1, s').
Proof.
  intros s tok b ts rs s' H K. rewrite run_cons in K by exact H.
  destruct (rstep s tok (text_of e (tok, b))) as [s1 r]. cbn [fst snd] in K.
  destruct (token_roles e s1 ts) as [[rs1 s2]|x] eqn:E; [|discriminate]. injection K as <- <-. exists s1, r, rs1. auto.
Qed.
Lemma run_error : forall ts s, hd s = H_error -> token_roles e s ts = Ok (map (fun _ => R_NONE) ts, s).
Proof.
  induction ts as [|[tok b] ts IH]; intros s H; [reflexivity|]. cbn [token_roles map]. unfold token_role. rewrite H. cbn [bind]. rewrite IH by exact H. reflexivity.
Qed.
Lemma run_app : forall ts1 ts2 s rs s', token_roles e s (ts1 ++ ts2) = Ok (rs, s') ->
  exists rs1 rs2 s1, token_roles e s ts1 = Ok (rs1, s1) /\ token_roles e s1 ts2 = Ok (rs2, s') /\ rs = rs1 ++ rs2.
Proof.
  induction ts1 as [|[tok b] ts1 IH]; intros ts2 s rs s' H.
  - exists [], rs, s. auto.
  - cbn [app token_roles] in *. destruct (token_role e s tok b) as [[s1 r]|]; [|discriminate]. cbn [bind] in *.
    destruct (token_roles e s1 (ts1 ++ ts2)) as [[rs0 s2]|] eqn:E; [|discriminate]. cbn [bind] in H. injection H as <- <-.
    apply IH in E as (rs1 & rs2 & s3 & E1 & E2 & ->). rewrite E1. cbn [bind]. exists (r :: rs1), rs2, s3. auto.
Qed.
Lemma run_app_fwd : forall ts1 ts2 s rs1 s1 rs2 s2, token_roles e s ts1 = Ok (rs1, s1) -> token_roles e s1 ts2 = Ok (rs2, s2) ->
  token_roles e s (ts1 ++ ts2) = Ok (rs1 ++ rs2, s2).
Proof.
  induction ts1 as [|[tok b] ts1 IH]; intros ts2 s rs1 s1 rs2 s2 H1 H2.
  - cbn in H1. injection H1 as <- <-. exact H2.
  - cbn [app token_roles] in *. destruct (token_role e s tok b) as [[s3 r]|]; [|discriminate]. cbn [bind] in *.
    destruct (token_roles e s3 ts1) as [[rs0 s4]|] eqn:E; [|discriminate]. cbn [bind] in H1. injection H1 as <- <-.
    rewrite (IH _ _ _ _ _ _ E H2). reflexivity.
Qed.
Lemma run_length : forall ts s rs s', token_roles e s ts = Ok (rs, s') -> List.length rs = List.length ts.
Proof.
  induction ts as [|[tok b] ts IH]; intros s rs s' H; cbn [token_roles] in H.
  - injection H as <- <-. reflexivity.
  - destruct (token_role e s tok b) as [[s1 r]|]; [|discriminate]. cbn [bind] in H.
    destruct (token_roles e s1 ts) as [[rs0 s2]|] eqn:E; [|discriminate]. cbn [bind] in H. injection H as <- <-. cbn. f_equal. eauto.
Qed.

(* only the start of the root element is reported as such *)
Lemma root_tok : forall s tok t s', rstep s tok t = (s', R_INSTANCE_START) -> none_ok s -> tok = T_INSTANCE_START.
Proof.
  intros [q lv rn i d] tok t s' H Hn. revert H.
  assert (G : forall s0 tk, common s0 tk <> (s', R_INSTANCE_START)).
  { intros s0 tk. unfold common. destruct (_ && _); discriminate. }
  assert (GP : forall tx alts d0, Forall (fun x => snd (snd x) <> R_INSTANCE_START) alts -> d0 <> (s', R_INSTANCE_START) ->
    pick tx alts d0 <> (s', R_INSTANCE_START)).
  { intros tx alts d0. induction 1 as [|[k [s0 r0]] alts Hx HF IH]; [auto|]. cbn [RoleLaws.pick]. intros Hd.
    destruct (beq tx (flat_map enc k)); [|exact (IH Hd)]. intros E. injection E as E1 E2. cbn in Hx. congruence. }
  unfold none_ok in Hn. cbn [hd role_none] in Hn.
  destruct tok; try (intros; reflexivity); destruct q; ev; intros H; exfalso; revert H;
    try discriminate; try (apply G);
    try (apply GP; [repeat (apply Forall_cons; [cbn; discriminate|]); apply Forall_nil|apply G]);
    try (unfold close_group, to, set_level, set_none; cbn [level hd role_none include doc]);
    repeat match goal with |- context [if ?c then _ else _] => destruct c end; try discriminate; try (apply G);
    try (destruct (Hn eq_refl) as [-> |[-> | ->]]; discriminate).
Qed.

Section Final.
Variable F : pstate -> Prop.
Notation acc := (acc e F).

Fixpoint root_last (ts : list (XML_TOK * bytes)) : Prop :=
  match ts with
  | [] | [_] => True
  | x :: r => fst x <> T_INSTANCE_START /\ root_last r
  end.
Lemma pieces_cons : forall x ts r rs, pieces e (x :: ts) (r :: rs) =
  if filler (fst x, text_of e x, r) then pieces e ts rs else (fst x, text_of e x, r) :: pieces e ts rs.
Proof. intros x ts r rs. unfold pieces. cbn [combine map filter fst snd]. destruct (filler _); reflexivity. Qed.
Lemma text_plain : forall tok b, carries tok = false -> text_of e (tok, b) = [].
Proof. intros tok b. destruct tok; intros H; try discriminate H; reflexivity. Qed.

Lemma run_acc : forall ts s rs s', Forall (token_ok e) ts -> Forall (fun x => fst x <> T_NONE) ts -> root_last ts ->
  steady (hd s) \/ ts = [] -> none_ok s -> token_roles e s ts = Ok (rs, s') -> ~ In R_ERROR rs -> F s' -> acc s (pieces e ts rs).
Proof.
  induction ts as [|[tok b] ts IH]; intros s rs s' OK NN RL ST NO H NE HF.
  - cbn in H. injection H as <- <-. constructor. exact HF.
  - inversion OK as [|x y O1 O2]; subst. inversion NN as [|x y N1 N2]; subst. destruct ST as [ST|ST]; [|discriminate ST].
    apply run_cons_inv in H as (s1 & r & rs1 & Es & -> & H); [|exact O1]. cbn [fst] in N1.
    assert (NE1 : r <> R_ERROR) by (intros ->; apply NE; now left).
    assert (NE2 : ~ In R_ERROR rs1) by (intros K; apply NE; now right).
    pose proof (step_keeps e enc SH _ _ _ _ _ Es NO) as K. unfold keeps in K. cbn [fst snd] in K. destruct K as (K1 & K2 & K3 & _ & K5 & K6 & K7 & _).
    assert (ST1 : steady (hd s1) \/ ts = []).
    { destruct ts as [|x ts]; [now right|]. left. destruct ST as (S1 & S2 & S3). split; [|split].
      - intros E. apply S1. auto.
      - exact K2.
      - intros E. destruct (K7 S3 E) as [E2|E2]; [contradiction|]. subst r. apply root_tok in Es; [|exact NO].
        destruct RL as [RL _]. cbn [fst] in RL. contradiction. }
    assert (RL1 : root_last ts) by (destruct ts as [|x ts]; [exact I|destruct RL; assumption]).
    specialize (IH s1 rs1 s' O2 N2 RL1 ST1 K3 H NE2 HF).
    rewrite pieces_cons. cbn [fst]. destruct (filler (tok, text_of e (tok, b), r)) eqn:Ef.
    + unfold filler in Ef. cbn [tok_of role_of fst snd] in Ef. apply orb_true_iff in Ef as [Ef|Ef].
      * assert (tok = T_PROLOG_S) as -> by (destruct tok; first [reflexivity|discriminate Ef]).
        destruct (filler_space e s (text_of e (T_PROLOG_S, b)) ST NO) as (r' & E & _). rewrite E in Es. injection Es as <- <-. exact IH.
      * assert (r = R_INNER_PARAM_ENTITY_REF) as -> by (destruct r; first [reflexivity|discriminate Ef]).
        apply (inner_same e enc SH) in Es; [subst s1; exact IH|apply ST|exact NO].
    + econstructor; [exact Es|exact NE1|exact Ef|exact N1|apply ST|apply text_plain|exact IH].
Qed.

Lemma toks_cons : forall x ts, toks e (x :: ts) = if tok_eqb (fst x) T_PROLOG_S then toks e ts else (fst x, text_of e x) :: toks e ts.
Proof. intros x ts. unfold toks. cbn [map filter fst]. destruct (tok_eqb _ _); reflexivity. Qed.
Lemma acc_run : forall ts s l, acc s l -> toks e ts = strip l -> Forall (token_ok e) ts ->
  hd s <> H_prolog0 -> hd s <> H_externalSubset0 -> none_ok s ->
  exists rs s', token_roles e s ts = Ok (rs, s') /\ ~ In R_ERROR rs /\ F s' /\ pieces e ts rs = l.
Proof.
  induction ts as [|[tok b] ts IH]; intros s l A E OK H1 H2 NO.
  - destruct l as [|p l]; [|discriminate E]. inversion A; subst. exists [], s. repeat split; auto.
  - inversion OK as [|x y O1 O2]; subst. rewrite toks_cons in E. cbn [fst] in E. rewrite run_cons by exact O1.
    destruct (tok_eqb tok T_PROLOG_S) eqn:Et.
    + assert (tok = T_PROLOG_S) as -> by (destruct tok; first [reflexivity|discriminate Et]).
      assert (W : exists r, rstep s T_PROLOG_S (text_of e (T_PROLOG_S, b)) = (s, r) /\ r <> R_ERROR).
      { assert (D : hd s = H_error \/ hd s <> H_error) by (destruct (hd s); first [now left|right; discriminate]). destruct D as [D|D].
        - exists R_NONE. unfold RoleLaws.rstep, token_role. rewrite D. split; [reflexivity|discriminate].
        - apply (filler_space e); [repeat split; assumption|exact NO]. }
      destruct W as (r & -> & Hr). cbn [fst snd]. destruct (IH s l A E O2 H1 H2 NO) as (rs & s' & -> & NE & HF & P).
      exists (r :: rs), s'. split; [reflexivity|]. split; [intros [K|K]; [now apply Hr|contradiction]|]. split; [exact HF|].
      rewrite pieces_cons. unfold filler. cbn [tok_of fst]. change (tok_eqb T_PROLOG_S T_PROLOG_S) with true. cbn [orb]. exact P.
    + destruct l as [|p l]; [discriminate E|]. inversion A as [|? tok' t' r' s1 l' Es Nr Nf Nt Nh Nc A1]; subst.
      cbn [strip map fst] in E. injection E as E1 E2 E3. subst tok' t'. rewrite Es. cbn [fst snd].
      pose proof (step_keeps e enc SH _ _ _ _ _ Es NO) as K. unfold keeps in K. cbn [fst snd] in K. destruct K as (K1 & K2 & K3 & _).
      destruct (IH s1 l A1 E3 O2) as (rs & s' & -> & NE & HF & P); [intros X; apply H1; auto|exact K2|exact K3|].
      exists (r' :: rs), s'. split; [reflexivity|]. split; [intros [K|K]; [now apply Nr|contradiction]|]. split; [exact HF|].
      rewrite pieces_cons. cbn [fst]. rewrite Nf. now rewrite P.
Qed.
Lemma toks_strip : forall ts s rs s', Forall (token_ok e) ts -> token_roles e s ts = Ok (rs, s') -> ~ In R_INNER_PARAM_ENTITY_REF rs -> strip (pieces e ts rs) = toks e ts.
Proof.
  induction ts as [|[tok b] ts IH]; intros s rs s' OK H NI.
  - cbn in H. injection H as <- <-. reflexivity.
  - inversion OK as [|x y O1 O2]; subst. apply run_cons_inv in H as (s1 & r & rs1 & Es & -> & H); [|exact O1].
    assert (NI1 : ~ In R_INNER_PARAM_ENTITY_REF rs1) by (intros K; apply NI; now right).
    specialize (IH _ _ _ O2 H NI1). rewrite pieces_cons, toks_cons. unfold filler. cbn [tok_of role_of fst snd].
    assert (role_eqb r R_INNER_PARAM_ENTITY_REF = false) as ->.
    { destruct r; try reflexivity. exfalso. apply NI. now left. }
    rewrite orb_false_r. destruct (tok_eqb tok T_PROLOG_S); [exact IH|]. cbn [strip map fst]. unfold strip in IH. now rewrite IH.
Qed.
End Final.

(* in a document no parameter entity reference is expanded inside a declaration *)
Lemma no_inner : forall ts s rs s', Forall (token_ok e) ts -> doc s = true -> hd s <> H_externalSubset0 -> none_ok s -> token_roles e s ts = Ok (rs, s') -> ~ In R_INNER_PARAM_ENTITY_REF rs.
Proof.
  induction ts as [|[tok b] ts IH]; intros s rs s' OK D H1 NO H.
  - cbn in H. injection H as <- <-. intros [].
  - inversion OK as [|x y O1 O2]; subst. apply run_cons_inv in H as (s1 & r & rs1 & Es & -> & H); [|exact O1].
    pose proof (step_keeps e enc SH _ _ _ _ _ Es NO) as K. unfold keeps in K. cbn [fst snd] in K. destruct K as (K1 & K2 & K3 & K4 & _).
    intros [K|K]; [|exact (IH _ _ _ O2 (eq_trans K4 D) K2 K3 H K)]. subst r. clear - Es D NO SH.
    destruct s as [q lv rn i d]. cbn [doc] in D. subst d. unfold none_ok in NO. cbn [hd role_none] in NO. revert Es. generalize (text_of e (tok, b)). intros t.
    assert (G : forall s0 tk, doc s0 = true -> common s0 tk <> (s1, R_INNER_PARAM_ENTITY_REF)).
    { intros s0 tk E. unfold common. rewrite E. cbn [negb andb]. discriminate. }
    assert (GP : forall tx alts d0, Forall (fun x => snd (snd x) <> R_INNER_PARAM_ENTITY_REF) alts -> d0 <> (s1, R_INNER_PARAM_ENTITY_REF) ->
      pick tx alts d0 <> (s1, R_INNER_PARAM_ENTITY_REF)).
    { intros tx alts d0. induction 1 as [|[k [s0 r0]] alts Hx HF IH]; [auto|]. cbn [RoleLaws.pick]. intros Hd.
      destruct (beq tx (flat_map enc k)); [|exact (IH Hd)]. intros E. injection E as E1 E2. cbn in Hx. congruence. }
    destruct tok; destruct q; ev;
      try discriminate; try (apply G; reflexivity);
      try (apply GP; [repeat (apply Forall_cons; [cbn; discriminate|]); apply Forall_nil|apply G; reflexivity]);
      try (unfold close_group, to, set_level, set_none; cbn [level hd role_none include doc]);
      repeat match goal with |- context [if ?c then _ else _] => destruct c end; try discriminate; try (apply G; reflexivity);
      try (destruct (NO eq_refl) as [-> |[-> | ->]]; discriminate).
Qed.

(* after an error nothing more is reported *)
Lemma error_final : forall ts s a c s', Forall (token_ok e) ts -> none_ok s -> token_roles e s ts = Ok (a ++ R_ERROR :: c, s') -> Forall (eq R_NONE) c.
Proof.
  induction ts as [|[tok b] ts IH]; intros s a c s' OK NO H.
  - cbn in H. injection H as H _. destruct a; discriminate H.
  - inversion OK as [|x y O1 O2]; subst. apply run_cons_inv in H as (s1 & r & rs1 & Es & Er & H); [|exact O1].
    pose proof (step_keeps e enc SH _ _ _ _ _ Es NO) as K. unfold keeps in K. cbn [fst snd] in K. destruct K as (K1 & K2 & K3 & K4 & K5 & K6 & _).
    destruct a as [|x a]; cbn [app] in Er; injection Er as E1 E2; subst.
    + rewrite run_error in H by auto. injection H as <- _. clear. induction ts; cbn; constructor; auto.
    + eapply IH; [exact O2|exact K3|exact H].
Qed.

Ltac sweep G GP NO :=
  try discriminate; try (apply G; reflexivity); try (apply G);
  try (apply GP; [repeat (apply Forall_cons; [cbn; first [discriminate|tauto]|]); apply Forall_nil|apply G; reflexivity]);
  try (unfold close_group, to, set_level, set_none; cbn [level hd role_none include doc]);
  repeat match goal with |- context [if ?c then _ else _] => destruct c end; try discriminate; try (apply G; reflexivity);
  try (destruct (NO eq_refl) as [-> |[-> | ->]]; discriminate).

Lemma root_ends : forall s t s' r, rstep s T_INSTANCE_START t = (s', r) -> none_ok s -> r <> R_ERROR -> hd s' = H_error.
Proof.
  intros s t s' r H NO NE.
  assert (C : forall s0, common s0 T_INSTANCE_START = (to H_error s0, R_ERROR)) by (intros s0; unfold common; change (tok_eqb T_INSTANCE_START T_PARAM_ENTITY_REF) with false; now rewrite andb_false_r).
  destruct s as [q lv rn i d]. revert H. destruct q; ev; rewrite ?C; intros H; injection H as <- <-; first [reflexivity|exfalso; apply NE; reflexivity].
Qed.
Lemma p0_step : forall tok t lv rn i, tok <> T_BOM -> tok <> T_XML_DECL -> rstep (St H_prolog0 lv rn i true) tok t = rstep (St H_prolog1 lv rn i true) tok t.
Proof. intros tok t lv rn i H1 H2. destruct tok; try contradiction; ev; reflexivity. Qed.
Lemma boms_p0 : forall boms lv rn i, Forall (fun x : XML_TOK * bytes => fst x = T_BOM) boms ->
  token_roles e (St H_prolog0 lv rn i true) boms = Ok (map (fun _ => R_NONE) boms, St H_prolog0 lv rn i true) /\
  token_roles e (St H_prolog1 lv rn i true) boms = Ok (map (fun _ => R_NONE) boms, St H_prolog1 lv rn i true).
Proof.
  induction boms as [|[tok b] boms IH]; intros lv rn i H; [split; reflexivity|]. inversion H as [|x y H1 H2]; subst. cbn [fst] in H1. subst tok.
  destruct (IH lv rn i H2) as [E1 E2]. cbn [token_roles map]. unfold token_role. cbn [hd prolog0 prolog1 bind]. rewrite E1, E2. split; reflexivity.
Qed.
Lemma p1_decl : forall boms d rest lv rn i rs s', Forall (fun x : XML_TOK * bytes => fst x = T_BOM) boms ->
  token_roles e (St H_prolog1 lv rn i true) (boms ++ (T_XML_DECL, d) :: rest) = Ok (rs, s') -> In R_ERROR rs.
Proof.
  intros boms d rest lv rn i rs s' HB H. apply run_app in H as (rs1 & rs2 & s1 & E1 & E2 & ->).
  destruct (boms_p0 boms lv rn i HB) as [_ E]. rewrite E in E1. injection E1 as <- <-.
  cbn [token_roles] in E2. unfold token_role in E2. cbn [hd prolog1] in E2. unfold common in E2. cbn [doc negb andb bind] in E2.
  destruct (token_roles e _ rest) as [[r2 s2]|]; [|discriminate E2]. cbn [bind] in E2. injection E2 as <- _. apply in_or_app. right. now left.
Qed.
Lemma p0_split : forall ts lv rn i, Forall (token_ok e) ts ->
  (exists boms d rest, ts = boms ++ (T_XML_DECL, d) :: rest /\ Forall (fun x => fst x = T_BOM) boms) \/
  Forall (fun x => fst x = T_BOM) ts \/
  (forall boms d rest, Forall (fun x => fst x = T_BOM) boms -> ts <> boms ++ (T_XML_DECL, d) :: rest) /\ token_roles e (St H_prolog0 lv rn i true) ts = token_roles e (St H_prolog1 lv rn i true) ts.
Proof.
  induction ts as [|[tok b] ts IH]; intros lv rn i OK; [right; left; constructor|].
  inversion OK as [|x y O1 O2]; subst.
  assert (D : tok = T_BOM \/ tok = T_XML_DECL \/ (tok <> T_BOM /\ tok <> T_XML_DECL)).
  { destruct tok; first [now left | right; left; reflexivity | right; right; split; discriminate]. }
  destruct D as [->|[->|[D1 D2]]].
  - destruct (IH lv rn i O2) as [(boms & d & rest & -> & HB)|[HB|[NB E]]].
    + left. exists ((T_BOM, b) :: boms), d, rest. split; [reflexivity|]. constructor; auto.
    + right. left. constructor; auto.
    + right. right. split.
      * intros [|y boms] d rest HB X; [discriminate X|]. cbn [app] in X. injection X as _ X. inversion HB; subst. eapply NB; eauto.
      * cbn [token_roles]. unfold token_role. cbn [hd prolog0 prolog1 bind]. now rewrite E.
  - left. exists [], b, ts. split; [reflexivity|constructor].
  - right. right. split.
    + intros [|y boms] d rest HB X; cbn [app] in X.
      * injection X as X _ _. now apply D2.
      * injection X as X _. subst y. inversion HB; subst. now apply D1.
    + rewrite !run_cons by exact O1. now rewrite p0_step.
Qed.

Definition Fd (s : pstate) : Prop := hd s = H_error.
Lemma Fd_ok : accepting Fd.
Proof. split; unfold Fd; [congruence|auto]. Qed.
Lemma toks_length : forall ts, (List.length (toks e ts) <= List.length ts)%nat.
Proof. induction ts as [|x ts IH]; [cbn; lia|]. rewrite toks_cons. destruct (tok_eqb _ _); cbn [List.length]; lia. Qed.
Lemma pieces_length : forall ts rs, (List.length (pieces e ts rs) <= List.length ts)%nat.
Proof.
  induction ts as [|x ts IH]; intros [|r rs]; try (cbn; lia). rewrite pieces_cons. specialize (IH rs). destruct (filler _); cbn [List.length]; lia.
Qed.
Lemma root_last_app : forall ts x, Forall (fun y : XML_TOK * bytes => fst y <> T_INSTANCE_START) ts -> root_last (ts ++ [x]).
Proof.
  induction ts as [|y ts IH]; intros x H; [exact I|]. inversion H as [|? ? H1 H2]; subst. specialize (IH x H2). cbn [app].
  destruct ts as [|z ts]; cbn [app root_last] in *; auto.
Qed.

(* from prolog1 on *)
Lemma p1_sound : forall ts b lv rn rs s', Forall (token_ok e) ts -> Forall (fun x => fst x <> T_NONE /\ fst x <> T_INSTANCE_START) ts ->
  (N.of_nat (List.length ts) < 4294967290)%N ->
  token_roles e (St H_prolog1 lv rn 0%N true) (ts ++ [(T_INSTANCE_START, b)]) = Ok (rs, s') -> ~ In R_ERROR rs ->
  exists p, wf_prolog p /\ pieces e (ts ++ [(T_INSTANCE_START, b)]) rs = s_prolog enc p.
Proof.
  intros ts b lv rn rs s' OK NN LB H NE.
  assert (OK2 : Forall (token_ok e) (ts ++ [(T_INSTANCE_START, b)])).
  { apply Forall_app. split; [exact OK|]. constructor; [|constructor]. split; discriminate. }
  assert (FE : Fd s').
  { pose proof H as H0. apply run_app in H0 as (rs1 & rs2 & s1 & E1 & E2 & ->).
    assert (NO : none_ok s1).
    { assert (G : forall l s rs s', Forall (token_ok e) l -> none_ok s -> token_roles e s l = Ok (rs, s') -> none_ok s').
      { clear - SH. induction l as [|[tok b] l IH]; intros s rs s' OK NO H; [cbn in H; injection H as <- <-; exact NO|].
        inversion OK as [|x y O1 O2]; subst. apply run_cons_inv in H as (s1 & r & rs1 & Es & -> & H); [|exact O1].
        pose proof (step_keeps e enc SH _ _ _ _ _ Es NO) as K. unfold keeps in K. cbn [fst snd] in K. destruct K as (K1 & K2 & K3 & _). eauto. }
      eapply G; [exact OK| |exact E1]. intros X. discriminate X. }
    apply run_cons_inv in E2 as (s2 & r & rs3 & Es & -> & E2); [|split; discriminate]. cbn in E2. injection E2 as <- <-.
    apply root_ends in Es; [exact Es|exact NO|]. intros ->. apply NE. apply in_or_app. right. now left. }
  apply (run_acc Fd) in H; auto.
  - pose proof (pieces_length (ts ++ [(T_INSTANCE_START, b)]) rs) as L. rewrite app_length in L. cbn [List.length] in L.
    apply (prolog_inv e enc SH Fd Fd_ok (List.length (pieces e (ts ++ [(T_INSTANCE_START, b)]) rs))) in H as (p & l' & lv' & rn' & W & E & A); [|lia|lia].
    exists p. split; [exact W|]. rewrite E. inversion A as [|? ? ? ? ? ? _ _ _ _ X]; subst; [now rewrite app_nil_r|]. exfalso. now apply X.
  - apply Forall_app. split; [|constructor; [discriminate|constructor]]. eapply Forall_impl; [|exact NN]. cbn. tauto.
  - apply root_last_app. eapply Forall_impl; [|exact NN]. cbn. tauto.
  - left. repeat split; discriminate.
  - intros X. discriminate X.
Qed.
Lemma p1_complete : forall ts lv rn p, Forall (token_ok e) ts -> (N.of_nat (List.length ts) < 4294967290)%N ->
  wf_prolog p -> toks e ts = strip (s_prolog enc p) ->
  exists rs s', token_roles e (St H_prolog1 lv rn 0%N true) ts = Ok (rs, s') /\ ~ In R_ERROR rs /\ pieces e ts rs = s_prolog enc p.
Proof.
  intros ts lv rn p OK LB W E.
  assert (A : acc e Fd (St H_prolog1 lv rn 0%N true) (s_prolog enc p ++ [])).
  { apply (prolog_fwd e enc SH Fd); [exact W| |].
    - assert (L : (List.length (s_prolog enc p) <= List.length ts)%nat).
      { pose proof (toks_length ts) as L. rewrite E in L. unfold strip in L. rewrite map_length in L. exact L. }
      lia.
    - intros. constructor. reflexivity. }
  rewrite app_nil_r in A. apply (acc_run Fd ts) in A; auto; try discriminate.
  destruct A as (rs & s' & H & NE & _ & P). eauto.
Qed.

Lemma prolog_grammar : forall s0 ts b rs s', Forall (token_ok e) ts -> Forall (fun x => fst x <> T_NONE /\ fst x <> T_INSTANCE_START) ts ->
  (N.of_nat (List.length ts) < 4294967290 - 1)%N ->
  token_roles e (prolog_init s0) (ts ++ [(T_INSTANCE_START, b)]) = Ok (rs, s') ->
  (~ In R_ERROR rs -> exists p, wf_prolog p /\ prolog_text e enc p (ts ++ [(T_INSTANCE_START, b)]) /\ prolog_roles e enc p (ts ++ [(T_INSTANCE_START, b)]) rs) /\
  (forall p, wf_prolog p -> prolog_text e enc p (ts ++ [(T_INSTANCE_START, b)]) ->
     ~ In R_ERROR rs /\ prolog_roles e enc p (ts ++ [(T_INSTANCE_START, b)]) rs).
Proof.
  intros s0 ts b rs s' OK NN LB H. unfold prolog_init in H.
  assert (OK2 : Forall (token_ok e) (ts ++ [(T_INSTANCE_START, b)])).
  { apply Forall_app. split; [exact OK|]. constructor; [|constructor]. split; discriminate. }
  assert (RP : forall l lv rn rs1 s1, Forall (token_ok e) l -> token_roles e (St H_prolog1 lv rn 0%N true) l = Ok (rs1, s1) -> forall p, pieces e l rs1 = s_prolog enc p -> toks e l = strip (s_prolog enc p)).
  { intros l lv rn rs1 s1 O X p P. rewrite <- P. symmetry. eapply toks_strip; [exact O|exact X|]. eapply no_inner; [exact O| | | |exact X]; [reflexivity|discriminate|]. intros Y. discriminate Y. }
  destruct (p0_split (ts ++ [(T_INSTANCE_START, b)]) (level s0) (role_none s0) 0%N OK2) as [(boms & d & rest & E & HB)|[HB|[NB E]]].
  - (* an XML declaration *)
    assert (exists rest', rest = rest' ++ [(T_INSTANCE_START, b)] /\ ts = boms ++ (T_XML_DECL, d) :: rest') as (rest' & -> & ET).
    { destruct (exists_last (l := (T_XML_DECL, d) :: rest)) as (l0 & x & E0); [discriminate|].
      pose proof E as E1. rewrite E0, app_assoc in E1. apply app_inj_tail in E1 as [E1 <-].
      destruct l0 as [|y l0]; [discriminate E0|]. cbn [app] in E0. injection E0 as <- ->. exists l0. split; [reflexivity|exact E1]. }
    rewrite E in H. apply run_app in H as (rs1 & rs2 & s1 & E1 & E2 & ->).
    destruct (boms_p0 boms (level s0) (role_none s0) 0%N HB) as [E3 _]. rewrite E3 in E1. injection E1 as <- <-.
    cbn [token_roles] in E2. unfold token_role in E2. cbn [hd prolog0 bind to level role_none include doc] in E2. unfold to in E2. cbn [level role_none include doc] in E2.
    destruct (token_roles e _ (rest' ++ _)) as [[r2 s2]|] eqn:E4; [|discriminate E2]. cbn [bind] in E2. injection E2 as <- <-.
    assert (OKr : Forall (token_ok e) rest') by (rewrite ET in OK; apply Forall_app in OK as [_ OK]; now inversion OK).
    assert (NNr : Forall (fun x => fst x <> T_NONE /\ fst x <> T_INSTANCE_START) rest') by (rewrite ET in NN; apply Forall_app in NN as [_ NN]; now inversion NN).
    assert (LBr : (N.of_nat (List.length rest') < 4294967290 - 1)%N) by (rewrite ET, app_length in LB; cbn [List.length] in LB; lia).
    assert (OKr2 : Forall (token_ok e) (rest' ++ [(T_INSTANCE_START, b)])).
    { apply Forall_app. split; [exact OKr|]. constructor; [|constructor]. split; discriminate. }
    assert (NB : ~ In R_ERROR (map (fun _ : XML_TOK * bytes => R_NONE) boms)).
    { intros K. apply in_map_iff in K as (x & K & _). discriminate K. }
    split.
    + intros NE. assert (NE2 : ~ In R_ERROR r2) by (intros K; apply NE; apply in_or_app; right; now right).
      destruct (p1_sound rest' b _ _ _ _ OKr NNr ltac:(lia) E4 NE2) as (p & W & P). exists p. split; [exact W|]. rewrite E. split; right.
      * exists boms, d, (rest' ++ [(T_INSTANCE_START, b)]). split; [reflexivity|]. split; [exact HB|]. eapply RP; eauto.
      * exists boms, d, (rest' ++ [(T_INSTANCE_START, b)]), r2. auto.
    + intros p W [T|(boms' & d' & rest2 & E5 & HB2 & T)].
      * exfalso. destruct (p1_complete _ (level s0) (role_none s0) p OK2 ltac:(rewrite app_length; cbn [List.length]; lia) W T) as (rs' & s3 & X & Y & _).
        apply Y. rewrite E in X. eapply p1_decl; eauto.
      * assert (boms' = boms /\ rest2 = rest' ++ [(T_INSTANCE_START, b)]) as [-> ->].
        { rewrite E in E5. clear - E5 HB HB2. revert boms' E5 HB2. induction HB as [|x l Hx HB IH]; intros [|y l'] E HB2; cbn [app] in E.
          - injection E as _ <-. auto.
          - injection E as <- _. inversion HB2; subst. discriminate.
          - injection E as -> _. discriminate Hx.
          - inversion HB2; subst. injection E as -> E. apply IH in E as [-> ->]; auto. }
        destruct (p1_complete _ (level s0) (role_none s0) p OKr2 ltac:(rewrite app_length; cbn [List.length]; lia) W T) as (rs' & s3 & X & Y & Z).
        rewrite E4 in X. injection X as <- <-. split.
        -- intros K. apply in_app_or in K as [K|[K|K]]; [contradiction|discriminate K|contradiction].
        -- rewrite E. right. exists boms, d, (rest' ++ [(T_INSTANCE_START, b)]), r2. auto.
  - exfalso. apply Forall_app in HB as [_ HB]. inversion HB; subst. discriminate.
  - rewrite E in H. split.
    + intros NE. destruct (p1_sound ts b _ _ _ _ OK NN ltac:(lia) H NE) as (p & W & P). exists p. split; [exact W|]. split; left; [|exact P]. eapply RP; eauto.
    + intros p W [T|(boms' & d' & rest2 & E5 & HB2 & T)].
      * destruct (p1_complete _ (level s0) (role_none s0) p OK2 ltac:(rewrite app_length; cbn [List.length]; lia) W T) as (rs' & s3 & X & Y & Z).
        rewrite H in X. injection X as <- <-. split; [exact Y|]. left. exact Z.
      * exfalso. exact (NB _ _ _ HB2 E5).
Qed.

(* the external subset *)
Definition Fx (s : pstate) : Prop := hd s = H_externalSubset1 /\ include s = 0%N.
Lemma Fx_ok : accepting Fx.
Proof. split; unfold Fx; [|tauto]. intros s s' [A B] C D. split; congruence. Qed.
Lemma none_ends : forall s t s' r, rstep s T_NONE t = (s', r) -> r <> R_ERROR -> ext_hd (hd s) = true -> none_ok s -> hd s <> H_externalSubset0 -> Fx s /\ r = R_NONE /\ s' = s.
Proof.
  intros s t s' r H NE X NO X0.
  assert (C : forall s0, common s0 T_NONE = (to H_error s0, R_ERROR)) by (intros s0; unfold common; change (tok_eqb T_NONE T_PARAM_ENTITY_REF) with false; now rewrite andb_false_r).
  destruct s as [q lv rn i d]. cbn [hd] in *. revert H. destruct q; try discriminate X; try contradiction; ev; rewrite ?C;
    try (intros H; injection H as <- <-; exfalso; apply NE; reflexivity).
  all: try (destruct (N.eqb_spec i 0); intros H; injection H as <- <-; [subst i; repeat split|exfalso; apply NE; reflexivity]).
Qed.
Lemma none_fwd : forall s t, Fx s -> rstep s T_NONE t = (s, R_NONE).
Proof. intros [q lv rn i d] t [A B]. cbn [hd include] in A, B. subst q i. ev. reflexivity. Qed.
Lemma x0_step : forall tok t lv rn i d, tok <> T_XML_DECL -> rstep (St H_externalSubset0 lv rn i d) tok t = rstep (St H_externalSubset1 lv rn i d) tok t.
Proof. intros tok t lv rn i d H. destruct tok; try contradiction; ev; first [reflexivity|destruct (i =? 0)%N; reflexivity]. Qed.
Lemma run_ext : forall ts s rs s', Forall (token_ok e) ts -> token_roles e s ts = Ok (rs, s') -> ~ In R_ERROR rs ->
  none_ok s -> doc s = false -> ext_hd (hd s) = true -> hd s <> H_externalSubset0 ->
  none_ok s' /\ doc s' = false /\ ext_hd (hd s') = true /\ hd s' <> H_externalSubset0.
Proof.
  induction ts as [|[tok b] ts IH]; intros s rs s' OK H NE NO D X X0.
  - cbn in H. injection H as <- <-. auto.
  - inversion OK as [|x y O1 O2]; subst. apply run_cons_inv in H as (s1 & r & rs1 & Es & -> & H); [|exact O1].
    pose proof (step_keeps e enc SH _ _ _ _ _ Es NO) as K. unfold keeps in K. cbn [fst snd] in K. destruct K as (K1 & K2 & K3 & K4 & K5 & K6 & K7 & K8).
    apply (IH s1 rs1 s'); auto.
    + intros K. apply NE. now right.
    + congruence.
    + destruct (K8 X D) as [->|K]; [exfalso; apply NE; now left|exact K].
Qed.
Lemma no_root : forall ts s rs s', Forall (token_ok e) ts -> token_roles e s ts = Ok (rs, s') -> ~ In R_ERROR rs ->
  none_ok s -> doc s = false -> ext_hd (hd s) = true -> hd s <> H_externalSubset0 -> Forall (fun x => fst x <> T_INSTANCE_START) ts.
Proof.
  induction ts as [|[tok b] ts IH]; intros s rs s' OK H NE NO D X X0; [constructor|].
  inversion OK as [|x y O1 O2]; subst. apply run_cons_inv in H as (s1 & r & rs1 & Es & -> & H); [|exact O1].
  pose proof (step_keeps e enc SH _ _ _ _ _ Es NO) as K. unfold keeps in K. cbn [fst snd] in K. destruct K as (K1 & K2 & K3 & K4 & K5 & K6 & K7 & K8).
  assert (NR : r <> R_ERROR) by (intros ->; apply NE; now left).
  destruct (K8 X D) as [K|K]; [contradiction|].
  constructor.
  - cbn [fst]. intros ->. apply root_ends in Es; auto. rewrite Es in K. discriminate K.
  - eapply (IH s1 rs1 s'); auto; [|congruence]. intros Y. apply NE. now right.
Qed.
Lemma root_last_all : forall ts, Forall (fun y : XML_TOK * bytes => fst y <> T_INSTANCE_START) ts -> root_last ts.
Proof. induction 1 as [|x l Hx H IH]; [exact I|]. destruct l; cbn [root_last]; auto. Qed.

Lemma x1_sound : forall ts b lv rn rs s', Forall (token_ok e) ts -> Forall (fun x => fst x <> T_NONE) ts -> (N.of_nat (List.length ts) < 4294967290)%N ->
  token_roles e (St H_externalSubset1 lv rn 0%N false) (ts ++ [(T_NONE, b)]) = Ok (rs, s') -> ~ In R_ERROR rs ->
  exists x rs1, wf_exts x /\ rs = rs1 ++ [R_NONE] /\ pieces e ts rs1 = s_exts enc x.
Proof.
  intros ts b lv rn rs s' OK NN LB H NE. apply run_app in H as (rs1 & rs2 & s1 & E1 & E2 & ->).
  assert (NE1 : ~ In R_ERROR rs1) by (intros K; apply NE; apply in_or_app; now left).
  assert (N0 : none_ok (St H_externalSubset1 lv rn 0%N false)) by (intros Y; discriminate Y).
  pose proof (run_ext _ _ _ _ OK E1 NE1 N0 eq_refl eq_refl ltac:(discriminate)) as (A & B & C & D).
  apply run_cons_inv in E2 as (s2 & r & rs3 & Es & -> & E2); [|split; discriminate]. cbn in E2. injection E2 as <- <-.
  apply none_ends in Es as (HF & -> & ->); auto; [|intros ->; apply NE; apply in_or_app; right; now left].
  pose proof (no_root _ _ _ _ OK E1 NE1 N0 eq_refl eq_refl ltac:(discriminate)) as NR.
  apply (run_acc Fx) in E1; auto; [|now apply root_last_all|left; repeat split; discriminate].
  pose proof (pieces_length ts rs1) as L.
  apply (exts_inv e enc SH Fx Fx_ok) with (len := List.length (pieces e ts rs1)) in E1 as (x & l' & W & E & [[-> _]|(l2 & lv' & rn' & _ & Z & _)]); try lia.
  - exists x, rs1. rewrite app_nil_r in E. auto.
  - unfold Fx. cbn [include]. tauto.
Qed.
Lemma x1_complete : forall ts b lv rn x, Forall (token_ok e) ts -> (N.of_nat (List.length ts) < 4294967290)%N ->
  wf_exts x -> toks e ts = strip (s_exts enc x) ->
  exists rs s', token_roles e (St H_externalSubset1 lv rn 0%N false) (ts ++ [(T_NONE, b)]) = Ok (rs ++ [R_NONE], s') /\ ~ In R_ERROR rs /\ pieces e ts rs = s_exts enc x.
Proof.
  intros ts b lv rn x OK LB W E.
  assert (A : acc e Fx (St H_externalSubset1 lv rn 0%N false) (s_exts enc x ++ [])).
  { apply (exts_fwd e enc SH Fx); [unfold Fx; cbn [include]; tauto|exact W| |].
    - assert (L : (List.length (s_exts enc x) <= List.length ts)%nat).
      { pose proof (toks_length ts) as L. rewrite E in L. unfold strip in L. rewrite map_length in L. exact L. }
      lia.
    - intros. constructor. split; reflexivity. }
  rewrite app_nil_r in A. apply (acc_run Fx ts) in A; auto; try discriminate.
  destruct A as (rs & s' & H & NE & HF & P). exists rs, s'. split; [|split; [exact NE|exact P]].
    eapply run_app_fwd; [exact H|]. rewrite run_cons by (split; discriminate). rewrite none_fwd by exact HF. reflexivity.
Qed.

Lemma subset_grammar : forall s0 ts b rs s', Forall (token_ok e) ts -> Forall (fun x => fst x <> T_NONE) ts ->
  (N.of_nat (List.length ts) < 4294967290)%N ->
  token_roles e (external_init s0) (ts ++ [(T_NONE, b)]) = Ok (rs, s') ->
  (~ In R_ERROR rs -> exists x rs1, rs = rs1 ++ [R_NONE] /\ wf_exts x /\ subset_roles e enc x ts rs1) /\
  (forall x, wf_exts x -> subset_text e enc x ts -> ~ In R_ERROR rs /\ exists rs1, rs = rs1 ++ [R_NONE] /\ subset_roles e enc x ts rs1).
Proof.
  intros s0 ts b rs s' OK NN LB H. unfold external_init in H.
  assert (NI : forall l, ~ In R_ERROR l -> ~ In R_ERROR (l ++ [R_NONE])).
  { intros l X K. apply in_app_or in K as [K|[K|[]]]; [contradiction|discriminate K]. }
  assert (D : (exists d rest, ts = (T_XML_DECL, d) :: rest) \/ (forall d rest, ts <> (T_XML_DECL, d) :: rest)).
  { destruct ts as [|[tok t] ts]; [right; discriminate|].
    destruct tok; first [left; eexists; eexists; reflexivity | right; intros d rest X; discriminate X]. }
  destruct D as [(d & rest & ->)|ND].
  - inversion OK as [|? ? _ OK2]; subst. inversion NN as [|? ? _ NN2]; subst. cbn [List.length] in LB. cbn [app] in H.
    apply run_cons_inv in H as (s1 & r & rs1 & Es & -> & H); [|split; discriminate].
    assert (s1 = St H_externalSubset1 (level s0) (role_none s0) 0%N false /\ r = R_TEXT_DECL) as [-> ->].
    { revert Es. ev. intros Es. injection Es as <- <-. auto. }
    split.
    + intros NE. destruct (x1_sound rest b _ _ _ _ OK2 NN2 ltac:(lia) H) as (x & rs2 & W & -> & P); [intros K; apply NE; now right|].
      exists x, (R_TEXT_DECL :: rs2). split; [reflexivity|]. split; [exact W|]. right. exists d, rest, rs2. auto.
    + intros x W [T|(d' & rest2 & E & T)].
      * exfalso. (* no declaration of the subset is an XML declaration *)
        destruct (x1_complete _ b (level s0) (role_none s0) x OK ltac:(cbn [List.length]; lia) W T) as (r2 & s2 & X & Y & _).
        cbn [app] in X. apply run_cons_inv in X as (s3 & r3 & rs3 & X1 & X2 & X3); [|split; discriminate].
        revert X1. ev. unfold common. cbn [doc negb andb]. change (tok_eqb T_XML_DECL T_PARAM_ENTITY_REF) with false. intros X1. injection X1 as <- <-.
        destruct r2 as [|r0 r2]; cbn [app] in X2; injection X2 as X2 X4; [discriminate X2|]. apply Y. left. exact X2.
      * injection E as <- <-. destruct (x1_complete _ b (level s0) (role_none s0) x OK2 ltac:(lia) W T) as (r2 & s2 & X & Y & Z).
        rewrite H in X. injection X as -> ->. split; [intros [K|K]; [discriminate K|exact (NI _ Y K)]|].
        exists (R_TEXT_DECL :: r2). split; [reflexivity|]. right. exists d, rest, r2. auto.
  - assert (E : token_roles e (St H_externalSubset0 (level s0) (role_none s0) 0%N false) (ts ++ [(T_NONE, b)]) =
                token_roles e (St H_externalSubset1 (level s0) (role_none s0) 0%N false) (ts ++ [(T_NONE, b)])).
    { destruct ts as [|[tok t] ts]; cbn [app].
      - rewrite !run_cons by (split; discriminate). now rewrite x0_step by discriminate.
      - inversion OK as [|? ? O1 O2]; subst. rewrite !run_cons by exact O1. rewrite x0_step; [reflexivity|]. intros ->. exact (ND _ _ eq_refl). }
    rewrite E in H. split.
    + intros NE. destruct (x1_sound ts b _ _ _ _ OK NN LB H NE) as (x & rs2 & W & -> & P). exists x, rs2. split; [reflexivity|]. split; [exact W|]. now left.
    + intros x W [T|(d' & rest2 & X & T)]; [|exfalso; exact (ND _ _ X)].
      destruct (x1_complete _ b (level s0) (role_none s0) x OK LB W T) as (r2 & s2 & X & Y & Z).
      rewrite H in X. injection X as -> ->. split; [exact (NI _ Y)|]. exists r2. split; [reflexivity|]. now left.
Qed.

(* a parameter entity reference may stand anywhere in the external subset but first *)
Lemma ref_step : forall s t, ext_hd (hd s) = true -> doc s = false -> none_ok s -> hd s <> H_externalSubset0 ->
  exists r, rstep s T_PARAM_ENTITY_REF t = (s, r) /\ (r = R_PARAM_ENTITY_REF \/ r = R_INNER_PARAM_ENTITY_REF).
Proof.
  intros [q lv rn i d] t X D NO X0. cbn [hd doc] in *. subst d.
  destruct q; try discriminate X; try contradiction; ev; try (unfold common; cbn [doc negb andb]; change (tok_eqb T_PARAM_ENTITY_REF T_PARAM_ENTITY_REF) with true; cbv iota);
  eexists; (split; [reflexivity|]); auto.
Qed.
Lemma ref_anywhere : forall s0 x ts1 ts2 b rs1 rs2 s', Forall (token_ok e) (x :: ts1) -> Forall (token_ok e) ts2 -> List.length rs1 = List.length (x :: ts1) ->
  token_roles e (external_init s0) ((x :: ts1) ++ ts2) = Ok (rs1 ++ rs2, s') -> ~ In R_ERROR rs1 ->
  exists r, (r = R_PARAM_ENTITY_REF \/ r = R_INNER_PARAM_ENTITY_REF) /\
    token_roles e (external_init s0) ((x :: ts1) ++ (T_PARAM_ENTITY_REF, b) :: ts2) = Ok (rs1 ++ r :: rs2, s').
Proof.
  intros s0 x ts1 ts2 b rs1 rs2 s' OK1 OK2 L H NE. apply run_app in H as (r1 & r2 & s1 & E1 & E2 & E3).
  assert (rs1 = r1 /\ rs2 = r2) as [<- <-].
  { pose proof (run_length _ _ _ _ E1) as L1. assert (L2 : List.length rs1 = List.length r1) by congruence. clear - E3 L2.
    revert r1 E3 L2. induction rs1 as [|a rs1 IH]; intros [|b r1] E L; try discriminate L; auto. cbn in *. injection E as -> E. apply IH in E as [-> ->]; auto. }
  pose proof E1 as E0. destruct x as [tok t]. inversion OK1 as [|? ? O1 O2]; subst.
  apply run_cons_inv in E1 as (sa & ra & rb & Es & Er & E1); [|exact O1]. subst rs1.
  assert (NR : ra <> R_ERROR) by (intros ->; apply NE; now left).
  assert (I0 : none_ok (external_init s0)) by (intros Y; discriminate Y).
  pose proof (step_keeps e enc SH _ _ _ _ _ Es I0) as K. unfold keeps in K. cbn [fst snd] in K. destruct K as (_ & K2 & K3 & K4 & _ & _ & _ & K8).
  destruct (K8 eq_refl eq_refl) as [K|K]; [contradiction|].
  pose proof (run_ext _ _ _ _ O2 E1 ltac:(intros Y; apply NE; now right) K3 K4 K K2) as (A & B & C & D).
  destruct (ref_step s1 (text_of e (T_PARAM_ENTITY_REF, b)) C B A D) as (r & Er & Hr). exists r. split; [exact Hr|].
  eapply run_app_fwd; [exact E0|]. rewrite run_cons by (split; discriminate). rewrite Er. cbn [fst snd]. now rewrite E2.
Qed.

(* the order of the roles of a document prolog *)
Definition part_of (q : handler) : part :=
  match q with
  | H_prolog0 => PStart | H_prolog1 => PMisc | H_prolog2 => PAfter
  | H_doctype0 | H_doctype1 | H_doctype2 | H_doctype3 | H_doctype4 => PHead
  | H_doctype5 => PTail | H_error => PRoot | _ => PSubset
  end.
Definition in_doc (q : handler) : bool :=
  match q with H_externalSubset0 | H_externalSubset1 | H_condSect0 | H_condSect1 | H_condSect2 => false | _ => true end.
Lemma order_step : forall s tok t s' r, rstep s tok t = (s', r) -> none_ok s -> doc s = true -> in_doc (hd s) = true ->
  (r = R_ERROR \/ follows (part_of (hd s)) r (part_of (hd s'))) /\ in_doc (hd s') = true.
Proof.
  intros [q lv rn i d] tok t s' r H NO D X. cbn [hd doc] in *. subst d. unfold none_ok in NO. cbn [hd role_none] in NO.
  set (P := fun x : pstate * ROLE => (snd x = R_ERROR \/ follows (part_of q) (snd x) (part_of (hd (fst x)))) /\ in_doc (hd (fst x)) = true).
  change (P (s', r)). rewrite <- H. clear H.
  assert (G : forall s0 tk, doc s0 = true -> P (common s0 tk)).
  { intros s0 tk E. unfold common. rewrite E. cbn [negb andb]. unfold P. cbn [fst snd hd to]. auto. }
  assert (GP : forall tx alts d0, Forall (fun x => P (snd x)) alts -> P d0 -> P (pick tx alts d0)).
  { intros tx alts d0 HF Hd. induction HF as [|[k [s0 r0]] alts Hx HF IH]; [exact Hd|]. cbn [RoleLaws.pick].
    destruct (beq tx (flat_map enc k)); [exact Hx|exact IH]. }
  assert (SR : forall r0, match r0 with R_ERROR | R_XML_DECL | R_TEXT_DECL | R_INSTANCE_START | R_DOCTYPE_NONE | R_DOCTYPE_NAME | R_DOCTYPE_PUBLIC_ID | R_DOCTYPE_SYSTEM_ID
          | R_DOCTYPE_INTERNAL_SUBSET | R_DOCTYPE_CLOSE | R_IGNORE_SECT | R_INNER_PARAM_ENTITY_REF => False | _ => True end -> subset_role r0).
  { intros r0 Hr K. cbn [In] in K. repeat destruct K as [K|K]; subst; try exact Hr; exact K. }
  Local Ltac fol SR := match goal with P := _ : pstate * ROLE -> Prop |- _ => unfold P end; cbn [fst snd hd part_of]; split; [right; first
    [ apply f_subset; apply SR; exact I | constructor; unfold misc_role, doctype_role; tauto | constructor ]|reflexivity].
  destruct q; try discriminate X; destruct tok; ev;
    try (apply G; reflexivity);
    try (apply GP; [repeat (apply Forall_cons; [cbn [fst snd]; fol SR|]); apply Forall_nil|apply G; reflexivity]);
    try (unfold close_group, to, set_level, set_none; cbn [level hd role_none include doc]);
    repeat match goal with |- context [if ?c then _ else _] => destruct c end;
    try (apply G; reflexivity); try (destruct (NO eq_refl) as [-> |[-> | ->]]); fol SR.
Qed.
Lemma run_order : forall ts s rs s', Forall (token_ok e) ts -> token_roles e s ts = Ok (rs, s') -> none_ok s -> doc s = true -> in_doc (hd s) = true ->
  in_order (part_of (hd s)) rs.
Proof.
  induction ts as [|[tok b] ts IH]; intros s rs s' OK H NO D X.
  - cbn in H. injection H as <- <-. constructor.
  - inversion OK as [|x y O1 O2]; subst. apply run_cons_inv in H as (s1 & r & rs1 & Es & -> & H); [|exact O1].
    pose proof (step_keeps e enc SH _ _ _ _ _ Es NO) as K. unfold keeps in K. cbn [fst snd] in K. destruct K as (K1 & K2 & K3 & K4 & K5 & K6 & K7 & K8).
    destruct (order_step _ _ _ _ _ Es NO D X) as [[->|O] X1].
    + apply io_error. rewrite run_error in H by auto. injection H as <- _. clear. induction ts; cbn; constructor; auto.
    + eapply io_role; [exact O|]. eapply IH; [exact O2|exact H|exact K3|congruence|exact X1].
Qed.

(* one element declaration, from its name on *)
Definition elem (q : handler) : bool :=
  match q with H_element1 | H_element2 | H_element3 | H_element4 | H_element5 | H_element6 | H_element7 | H_declClose => true | _ => false end.
Definition outside (s : pstate) : pstate :=
  {| hd := match hd s with H_internalSubset => H_externalSubset1 | q => q end; level := level s; role_none := role_none s; include := include s; doc := false |}.
Lemma elem_step : forall s tok t s' r, rstep s tok t = (s', r) -> elem (hd s) = true -> r <> R_ERROR ->
  (tok = T_DECL_CLOSE -> hd s' = if doc s then H_internalSubset else H_externalSubset1) /\ (tok <> T_DECL_CLOSE -> elem (hd s') = true) /\
  (doc s = true -> doc s' = true /\ rstep (outside s) tok t = (outside s', r)).
Proof.
  intros [q lv rn i d] tok t s' r H X NE. cbn [hd doc] in *. revert H.
  set (P := fun x : pstate * ROLE => x = (s', r) -> (tok = T_DECL_CLOSE -> hd s' = if d then H_internalSubset else H_externalSubset1) /\ (tok <> T_DECL_CLOSE -> elem (hd s') = true)
    /\ (d = true -> doc s' = true)).
  assert (C1 : tok <> T_DECL_CLOSE -> P (common (St q lv rn i d) tok)).
  { intros T. unfold P, common. cbn [doc]. destruct (negb d && _); intros H; injection H as <- <-; [|contradiction]. cbn [hd doc]. split; [intros Y; contradiction|auto]. }
  assert (C2 : P (common (St q lv rn i d) T_DECL_CLOSE)).
  { unfold P, common. change (tok_eqb T_DECL_CLOSE T_PARAM_ENTITY_REF) with false. rewrite andb_false_r. intros H. injection H as <- <-. contradiction. }
  assert (C3 : d = true -> forall tk z, common (St q lv rn i d) tk = (s', r) -> z).
  { intros -> tk z H. exfalso. unfold common in H. cbn [doc negb andb] in H. injection H as <- <-. contradiction. }
  intros H. assert (A : P (rstep (St q lv rn i d) tok t) -> (tok = T_DECL_CLOSE -> hd s' = if d then H_internalSubset else H_externalSubset1) /\ (tok <> T_DECL_CLOSE -> elem (hd s') = true)
    /\ (d = true -> doc s' = true)) by (intros Y; exact (Y H)).
  assert (B : d = true -> rstep (outside (St q lv rn i d)) tok t = (outside s', r)).
  { intros ->. unfold outside at 1. cbn [hd level role_none include]. revert H. clear A P C1 C2.
    destruct q; try discriminate X; destruct tok; ev; try (exact (C3 eq_refl _ _));
    try (intros H; injection H as <- <-; reflexivity).
    all: unfold close_group, to, set_level, set_none; cbn [level hd role_none include doc].
    all: try (match goal with |- context [if ?c then _ else _] => destruct c end; intros H; try (exact (C3 eq_refl _ _ H)); injection H as <- <-; reflexivity).
    all: try (cbn [RoleLaws.pick]; repeat (match goal with |- context [beq ?a ?b] => destruct (beq a b) end; [intros H; injection H as <- <-; reflexivity|]); exact (C3 eq_refl _ _)). }
  assert (A1 : P (rstep (St q lv rn i d) tok t)).
  { clear A B C3 H. destruct q; try discriminate X; destruct tok; ev; try exact C2; try (apply C1; discriminate);
    unfold close_group, to, set_level, set_none; cbn [level hd role_none include doc];
    try (cbn [RoleLaws.pick]; repeat (match goal with |- context [beq ?a ?b] => destruct (beq a b) end));
    try (match goal with |- context [N.eqb ?c ?x] => destruct (N.eqb c x) end);
    try exact C2; try (apply C1; discriminate);
    unfold P; intros H; injection H as <- <-; cbn [hd doc];
    (split; [intros Y; first [discriminate Y|destruct d; reflexivity]|split; [intros Y; first [reflexivity|exfalso; apply Y; reflexivity]|destruct d; auto]]). }
  specialize (A A1). destruct A as (A2 & A3 & A4). auto.
Qed.
Lemma elem_run : forall ts b s rs s', Forall (token_ok e) ts -> Forall (fun x => fst x <> T_NONE /\ fst x <> T_DECL_CLOSE) ts ->
  elem (hd s) = true -> token_roles e s (ts ++ [(T_DECL_CLOSE, b)]) = Ok (rs, s') -> ~ In R_ERROR rs ->
  hd s' = (if doc s then H_internalSubset else H_externalSubset1) /\
  (doc s = true -> token_roles e (outside s) (ts ++ [(T_DECL_CLOSE, b)]) = Ok (rs, outside s')).
Proof.
  induction ts as [|[tok t] ts IH]; intros b s rs s' OK NN X H NE; cbn [app] in *.
  - apply run_cons_inv in H as (s1 & r & rs1 & Es & -> & H); [|split; discriminate]. cbn in H. injection H as <- <-.
    apply elem_step in Es as (A & _ & C); auto; [|intros ->; apply NE; now left]. split; [auto|]. intros D.
    rewrite run_cons by (split; discriminate). destruct (C D) as [_ ->]. reflexivity.
  - inversion OK as [|x y O1 O2]; subst. inversion NN as [|x y N1 N2]; subst. apply run_cons_inv in H as (s1 & r & rs1 & Es & -> & H); [|exact O1].
    pose proof Es as Es0. apply elem_step in Es as (A & B & C); auto; [|intros ->; apply NE; now left]. cbn [fst] in N1.
    assert (D1 : doc s1 = doc s).
    { clear - Es0 X SH. destruct s as [q lv rn i d]. cbn [hd doc] in *. pose proof (step_keeps e enc SH) as K. specialize (K _ _ _ _ _ Es0).
      assert (Z : none_ok (St q lv rn i d) \/ q = H_declClose) by (destruct q; first [now right|left; intros Y; discriminate Y]).
      destruct Z as [Z|Z]; [specialize (K Z); unfold keeps in K; cbn [fst snd doc] in K; tauto|].
      subst q. clear K X. revert Es0. destruct tok; ev; unfold common; try (destruct (negb d && _)); intros H; apply (f_equal (fun x => doc (fst x))) in H; cbn [fst doc] in H; rewrite <- H; try reflexivity; destruct d; reflexivity. }
    destruct (IH b s1 rs1 s' O2 N2) as [E1 E2]; [apply B; tauto|exact H|intros K; apply NE; now right|]. rewrite D1 in *.
    split; [exact E1|]. intros D. rewrite run_cons by exact O1. destruct (C D) as [_ ->]. cbn [fst snd]. now rewrite (E2 D).
Qed.
Definition Fe (s : pstate) : Prop := hd s = H_externalSubset1.
Lemma Fe_ok : accepting Fe.
Proof. split; unfold Fe; [congruence|auto]. Qed.
Lemma pieces_app : forall t1 t2 r1 r2, List.length t1 = List.length r1 -> pieces e (t1 ++ t2) (r1 ++ r2) = pieces e t1 r1 ++ pieces e t2 r2.
Proof.
  induction t1 as [|x t1 IH]; intros t2 [|r r1] r2 L; try discriminate L; [reflexivity|]. cbn [app]. rewrite !pieces_cons, IH by (cbn in L; lia).
  destruct (filler _); reflexivity.
Qed.
Lemma pieces_in : forall ts rs p, In p (pieces e ts rs) -> exists x, In x ts /\ fst x = tok_of p.
Proof.
  induction ts as [|x ts IH]; intros [|r rs] p H; try destruct H. rewrite pieces_cons in H. destruct (filler _).
  - apply IH in H as (y & A & B). exists y. split; [now right|exact B].
  - destruct H as [<-|H]; [exists x; split; [now left|reflexivity]|]. apply IH in H as (y & A & B). exists y. split; [now right|exact B].
Qed.
Lemma content_sound : forall s ts b rs s', hd s = H_element1 ->
  Forall (token_ok e) ts -> Forall (fun x => fst x <> T_NONE /\ fst x <> T_DECL_CLOSE) ts -> (N.of_nat (List.length ts) < 4294967290)%N ->
  token_roles e s (ts ++ [(T_DECL_CLOSE, b)]) = Ok (rs, s') -> ~ In R_ERROR rs ->
  exists c rs1, wf_content c /\ rs = rs1 ++ [R_ELEMENT_NONE] /\ pieces e ts rs1 = s_content enc c.
Proof.
  intros s0 ts b rs s0' Hh0 OK NN LB H0 NE.
  assert (Q : exists s s', hd s = H_element1 /\ doc s = false /\ token_roles e s (ts ++ [(T_DECL_CLOSE, b)]) = Ok (rs, s')).
  { destruct (elem_run ts b s0 rs s0' OK NN) as [_ A]; auto; [now rewrite Hh0|]. destruct (doc s0) eqn:D.
    - exists (outside s0), (outside s0'). unfold outside at 1 2. cbn [hd doc]. rewrite Hh0. auto.
    - exists s0, s0'. auto. }
  clear s0 s0' Hh0 H0. destruct Q as (s & s' & Hh & D & H).
  destruct (elem_run ts b s rs s' OK NN) as [HF _]; auto; [now rewrite Hh|]. rewrite D in HF.
  assert (OK2 : Forall (token_ok e) (ts ++ [(T_DECL_CLOSE, b)])).
  { apply Forall_app. split; [exact OK|]. constructor; [|constructor]. split; discriminate. }
  assert (N0 : none_ok s) by (intros Y; rewrite Hh in Y; discriminate Y).
  pose proof H as H1. apply run_app in H1 as (rs1 & rs2 & s1 & E1 & E2 & ->).
  assert (EX : ext_hd (hd s) = true) by now rewrite Hh.
  assert (X0 : hd s <> H_externalSubset0) by (rewrite Hh; discriminate).
  pose proof (no_root _ _ _ _ OK2 H NE N0 D EX X0) as NR.
  apply (run_acc Fe) in H; auto.
  - destruct s as [q lv rn i d]. cbn [hd doc] in Hh, D. subst q d.
    pose proof (pieces_length (ts ++ [(T_DECL_CLOSE, b)]) (rs1 ++ rs2)) as L. rewrite app_length in L. cbn [List.length] in L.
    apply (content_inv e enc SH Fe Fe_ok) in H as (c & l' & lv' & W & E & _); [|lia].
    apply run_cons_inv in E2 as (s2 & r & rs3 & Es & -> & E2); [|split; discriminate]. cbn in E2. injection E2 as <- <-.
    pose proof (run_length _ _ _ _ E1) as L1. rewrite pieces_app in E by congruence.
    assert (NF : filler (T_DECL_CLOSE, text_of e (T_DECL_CLOSE, b), r) = false \/ r = R_INNER_PARAM_ENTITY_REF).
    { unfold filler. cbn [tok_of role_of fst snd]. change (tok_eqb T_DECL_CLOSE T_PROLOG_S) with false. cbn [orb]. destruct r; try (left; reflexivity). now right. }
    destruct NF as [NF|NF].
    + rewrite pieces_cons in E. cbn [fst] in E. rewrite NF in E. change (text_of e (T_DECL_CLOSE, b)) with (@nil N) in E. change (pieces e [] []) with (@nil piece) in E.
      assert (NC : forall p, In p (pieces e ts rs1) -> tok_of p <> T_DECL_CLOSE).
      { intros p Hp. apply pieces_in in Hp as (x & A & B). rewrite <- B. rewrite Forall_forall in NN. now apply NN. }
      assert (Z : pieces e ts rs1 = s_content enc c /\ r = R_ELEMENT_NONE /\ l' = []).
      { clear - E NC. revert E NC. generalize (pieces e ts rs1) (s_content enc c). intros A. induction A as [|a A IH]; intros [|x B] E NC; cbn [app] in E.
        - injection E as -> <-. auto.
        - injection E as _ E. destruct B; discriminate E.
        - injection E as -> E. exfalso. apply (NC (punct T_DECL_CLOSE R_ELEMENT_NONE)); [now left|reflexivity].
        - injection E as -> E. apply IH in E as (-> & -> & ->); auto. intros p Hp. apply NC. now right. }
      destruct Z as (Z1 & -> & _). exists c, rs1. auto.
    + exfalso. subst r. apply (inner_same e enc SH) in Es.
      * rewrite Es in HF. assert (Fx0 : elem (hd s1) = true).
        { assert (NN1 : ~ In R_ERROR rs1) by (intros K; apply NE; apply in_or_app; now left). clear - E1 NN OK SH NN1 HF.
          remember (St H_element1 lv rn i false) as s eqn:Eq. assert (X : elem (hd s) = true) by now rewrite Eq. clear Eq HF.
          revert s rs1 s1 E1 NN OK X NN1. induction ts as [|[tok t] ts IH]; intros s rs1 s1 E1 NN OK X NN1.
          - cbn in E1. injection E1 as <- <-. exact X.
          - inversion OK as [|x y O1 O2]; subst. inversion NN as [|x y N1 N2]; subst. apply run_cons_inv in E1 as (s2 & r & rs2 & Es & -> & E1); [|exact O1].
            apply elem_step in Es as (_ & B & _); auto; [|intros ->; apply NN1; now left]. eapply (IH s2); eauto; [apply B; cbn [fst] in N1; tauto|]. intros K. apply NN1. now right. }
        rewrite HF in Fx0. discriminate Fx0.
      * intros Y. assert (NN1 : ~ In R_ERROR rs1) by (intros K; apply NE; apply in_or_app; now left).
        pose proof (run_ext _ _ _ _ OK E1 NN1 N0 eq_refl eq_refl X0) as (_ & _ & _ & ZZ). contradiction.
      * assert (NN1 : ~ In R_ERROR rs1) by (intros K; apply NE; apply in_or_app; now left).
        pose proof (run_ext _ _ _ _ OK E1 NN1 N0 eq_refl eq_refl X0) as (ZZ & _). exact ZZ.
  - apply Forall_app. split; [|constructor; [discriminate|constructor]]. eapply Forall_impl; [|exact NN]. cbn. tauto.
  - now apply root_last_all.
  - left. rewrite Hh. repeat split; discriminate.
Qed.
Lemma content_complete : forall s ts b rs s' c, hd s = H_element1 ->
  Forall (token_ok e) ts -> (N.of_nat (List.length ts) < 4294967290)%N -> token_roles e s (ts ++ [(T_DECL_CLOSE, b)]) = Ok (rs, s') ->
  wf_content c -> toks e ts = strip (s_content enc c) -> ~ In R_ERROR rs.
Proof.
  intros s ts b rs s' c Hh OK LB H W T. destruct s as [q lv rn i d]. cbn [hd] in Hh. subst q.
  set (X := if d then [(T_CLOSE_BRACKET, @nil N); (T_DECL_CLOSE, @nil N); (T_INSTANCE_START, @nil N)] else []).
  set (XP := if d then [punct T_CLOSE_BRACKET R_DOCTYPE_NONE; punct T_DECL_CLOSE R_DOCTYPE_CLOSE; punct T_INSTANCE_START R_INSTANCE_START] else []).
  set (F := fun s : pstate => if d then Fd s else Fe s).
  assert (FA : accepting F) by (unfold F; destruct d; [exact Fd_ok|exact Fe_ok]).
  assert (A : acc e F (St H_element1 lv rn i d) (s_content enc c ++ punct T_DECL_CLOSE R_ELEMENT_NONE :: XP)).
  { apply (content_fwd e enc SH F); [exact W| |].
    - assert (L : (List.length (s_content enc c) <= List.length ts)%nat).
      { pose proof (toks_length ts) as L. rewrite T in L. unfold strip in L. rewrite map_length in L. exact L. }
      lia.
    - intros lv' rn'. unfold XP, F. destruct d; unfold punct.
      + eapply (go e); [ev; reflexivity|discriminate..|reflexivity|]. eapply (go e); [ev; reflexivity|discriminate..|reflexivity|].
        eapply (go e); [ev; reflexivity|discriminate..|reflexivity|]. constructor. reflexivity.
      + constructor. reflexivity. }
  assert (OK2 : Forall (token_ok e) (ts ++ (T_DECL_CLOSE, b) :: X)).
  { apply Forall_app. split; [exact OK|]. constructor; [split; discriminate|]. unfold X. destruct d; [|constructor].
    repeat (apply Forall_cons; [split; discriminate|]). apply Forall_nil. }
  assert (TA : toks e (ts ++ (T_DECL_CLOSE, b) :: X) = strip (s_content enc c ++ punct T_DECL_CLOSE R_ELEMENT_NONE :: XP)).
  { unfold strip. rewrite map_app. transitivity (toks e ts ++ map fst (punct T_DECL_CLOSE R_ELEMENT_NONE :: XP)); [|now rewrite T].
    unfold toks. rewrite map_app, filter_app. f_equal. unfold X, XP. destruct d; reflexivity. }
  apply (acc_run F _ _ _ A) in TA as (rs' & s2 & R & NE & HF & P); auto; try discriminate.
  change ((T_DECL_CLOSE, b) :: X) with ([(T_DECL_CLOSE, b)] ++ X) in R. rewrite app_assoc in R.
  apply run_app in R as (r1 & r2 & s3 & R1 & R2 & ->). rewrite H in R1. injection R1 as <- <-.
  intros K. apply NE. apply in_or_app. now left.
Qed.

(* where an element declaration's name has been read *)
Lemma named : forall s tok t s', rstep s tok t = (s', R_ELEMENT_NAME) -> none_ok s -> hd s' = H_element1.
Proof.
  intros [q lv rn i d] tok t s' H Hn. revert H.
  assert (G : forall s0 tk, common s0 tk <> (s', R_ELEMENT_NAME)).
  { intros s0 tk. unfold common. destruct (_ && _); discriminate. }
  assert (GP : forall tx alts d0, Forall (fun x => snd (snd x) <> R_ELEMENT_NAME) alts -> d0 <> (s', R_ELEMENT_NAME) ->
    pick tx alts d0 <> (s', R_ELEMENT_NAME)).
  { intros tx alts d0. induction 1 as [|[k [s0 r0]] alts Hx HF IH]; [auto|]. cbn [RoleLaws.pick]. intros Hd.
    destruct (beq tx (flat_map enc k)); [|exact (IH Hd)]. intros E. injection E as E1 E2. cbn in Hx. congruence. }
  unfold none_ok in Hn. cbn [hd role_none] in Hn.
  destruct tok; destruct q; ev; try (intros H; injection H as <-; reflexivity); intros H; exfalso; revert H;
    try discriminate; try (apply G);
    try (apply GP; [repeat (apply Forall_cons; [cbn; discriminate|]); apply Forall_nil|apply G]);
    try (unfold close_group, to, set_level, set_none; cbn [level hd role_none include doc]);
    repeat match goal with |- context [if ?c then _ else _] => destruct c end; try discriminate; try (apply G);
    try (destruct (Hn eq_refl) as [-> |[-> | ->]]; discriminate).
Qed.
Lemma none_run : forall ts s rs s', Forall (token_ok e) ts -> none_ok s -> token_roles e s ts = Ok (rs, s') -> none_ok s'.
Proof.
  induction ts as [|[tok b] ts IH]; intros s rs s' OK NO H; [cbn in H; injection H as <- <-; exact NO|].
  inversion OK as [|x y O1 O2]; subst. apply run_cons_inv in H as (s1 & r & rs1 & Es & -> & H); [|exact O1].
  pose proof (step_keeps e enc SH _ _ _ _ _ Es NO) as K. unfold keeps in K. cbn [fst snd] in K. destruct K as (K1 & K2 & K3 & _). eauto.
Qed.
Lemma named_run : forall pre ts s rs1 rs s', Forall (token_ok e) pre -> none_ok s -> List.length pre = S (List.length rs1) ->
  token_roles e s (pre ++ ts) = Ok (rs1 ++ R_ELEMENT_NAME :: rs, s') -> exists s1, hd s1 = H_element1 /\ token_roles e s1 ts = Ok (rs, s').
Proof.
  intros pre ts s rs1 rs s' OK NO L H. destruct (exists_last (l := pre)) as (pre1 & [tok b] & ->); [destruct pre; discriminate|].
  apply Forall_app in OK as [OK1 OK2]. inversion OK2 as [|x y O1 _]; subst. rewrite app_length in L. cbn [List.length] in L.
  rewrite <- app_assoc in H. apply run_app in H as (ra & rb & s1 & E1 & E2 & E3).
  pose proof (run_length _ _ _ _ E1) as L1.
  assert (ra = rs1 /\ rb = R_ELEMENT_NAME :: rs) as [-> ->].
  { assert (L2 : List.length rs1 = List.length ra) by lia. clear - E3 L2.
    revert ra E3 L2. induction rs1 as [|a rs1 IH]; intros [|c ra] E L; try discriminate L; auto. cbn in *. injection E as -> E. apply IH in E as [-> ->]; auto. }
  cbn [app] in E2. apply run_cons_inv in E2 as (s2 & r & rs2 & Es & E & E2); [|exact O1]. injection E as <- <-.
  exists s2. split; [|exact E2]. eapply named; [exact Es|]. eapply none_run; [exact OK1|exact NO|exact E1].
Qed.
End Run.
