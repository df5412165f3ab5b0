(* Attribute declarations. *)
From Coq Require Import List NArith ZArith Bool Lia Arith.
From Verif Require Import Base Encoding Status Role State AttVal Bind Atts SpecNs SpecCtx CtxLaws SpecAtts AttsLaws AttsTop.
From Verif Require Nest.
Import ListNotations.
Local Open Scope N_scope.

Definition defined (el id : bytes) (isCdata isId : bool) (value : option bytes) (s : st) : st :=
  set_dtd (defineAttribute el id isCdata isId value (s_dtd s)) s.
Definition is_declared (id : bytes) (ds : list (bytes * bool * option bytes)) : bool :=
  match declaration_of id ds with Some _ => true | None => false end.

Lemma find_app {A} (f : A -> bool) l m : find f (l ++ m) = match find f l with Some x => Some x | None => find f m end.
Proof. induction l as [|x l IH]; [reflexivity|]. cbn [List.app find]. destruct (f x); auto. Qed.
Lemma declaration_app n a b : declaration_of n (a ++ b) = match declaration_of n a with Some x => Some x | None => declaration_of n b end.
Proof. unfold declaration_of. rewrite find_app. destruct (find _ a) as [[[m c] v]|]; reflexivity. Qed.
Lemma existsb_decl id l : existsb (fun da => beqb id (da_id da)) l = is_declared id (map (fun da => (da_id da, da_cdata da, da_value da)) l).
Proof.
  unfold is_declared, declaration_of. induction l as [|da l IH]; [reflexivity|]. cbn [map existsb find]. destruct (beqb id (da_id da)); [reflexivity|exact IH].
Qed.
Lemma is_declared_in id l : is_declared id (map (fun da => (da_id da, da_cdata da, da_value da)) l) = mem id (map da_id l).
Proof. rewrite <- existsb_decl. induction l as [|da l IH]; [reflexivity|]. cbn [map existsb mem]. rewrite IH. reflexivity. Qed.
Lemma defaults_app a : forall seen b, defaults_from seen (a ++ b) = defaults_from seen a ++ defaults_from (rev (map (fun x => fst (fst x)) a) ++ seen) b.
Proof.
  induction a as [|[[n c] v] a IH]; intros seen b; [reflexivity|]. cbn [List.app defaults_from map rev fst]. rewrite IH, <- !app_assoc. reflexivity.
Qed.
Lemma look_declarations el s et : look el (d_elems (s_dtd s)) = Some et -> declarations el s = map (fun da => (da_id da, da_cdata da, da_value da)) (et_defaults et).
Proof. intros E. unfold declarations. rewrite E. reflexivity. Qed.

Section Define.
Variables (el id : bytes) (c isId : bool) (v : option bytes) (s : st) (et : elemtype) (a : attid).
Hypothesis TA : tables s.
Hypothesis El : look el (d_elems (s_dtd s)) = Some et.
Hypothesis Ea : look id (d_attids (s_dtd s)) = Some a.
Let s' := defined el id c isId v s.
Let checked := (match v with Some _ => true | None => false end) || isId.

Lemma defined_cases :
  (checked = true /\ mem id (map da_id (et_defaults et)) = true /\ s' = s) \/
  ((checked = true -> mem id (map da_id (et_defaults et)) = false) /\ exists et' ids,
     s_dtd s' = set_d_elems (put el et' (d_elems (s_dtd s))) (set_d_attids ids (s_dtd s)) /\ s' = set_dtd (s_dtd s') s /\
     et_prefix et' = et_prefix et /\ et_defaults et' = et_defaults et ++ [{| da_id := id; da_cdata := c; da_value := v |}] /\
     (et_idAtt et' = et_idAtt et \/ et_idAtt et' = Some id) /\
     forall n, look n ids = if beqb n id && negb c then option_map (set_ai_maybe true) (look n (d_attids (s_dtd s))) else look n (d_attids (s_dtd s))).
Proof.
  unfold s', defined, defineAttribute. rewrite El, Ea. fold checked. unfold has_default.
  rewrite existsb_decl, is_declared_in. destruct (checked && mem id (map da_id (et_defaults et))) eqn:E.
  - left. apply andb_true_iff in E as [E1 E2]. split; [exact E1|]. split; [exact E2|]. destruct s; reflexivity.
  - right. split. { intros Hc. rewrite Hc in E. exact E. }
    set (et1 := if _ && _ && _ && _ then _ else et). exists (set_et_defaults (et_defaults et ++ [{| da_id := id; da_cdata := c; da_value := v |}]) et1).
    exists (if c then d_attids (s_dtd s) else d_attids (upd_attid id (set_ai_maybe true) (s_dtd s))).
    assert (X : et_prefix et1 = et_prefix et /\ et_defaults et1 = et_defaults et /\ (et_idAtt et1 = et_idAtt et \/ et_idAtt et1 = Some id)).
    { unfold et1. destruct (_ && _ && _ && _); auto. }
    destruct X as (X1 & X2 & X3). rewrite X2. split; [|split; [reflexivity|split; [exact X1|split; [reflexivity|split; [exact X3|]]]]].
    + change (s_dtd (set_dtd ?y s)) with y. destruct c; [destruct (s_dtd s); reflexivity|]. destruct (upd_attid_rest id (set_ai_maybe true) (s_dtd s)) as (x & ->).
      reflexivity.
    + intros n. destruct c; cbn [negb]; [rewrite andb_false_r; reflexivity|]. rewrite andb_true_r. apply look_upd_attid.
Qed.

Lemma defined_declarations e : declarations e s' =
  declarations e s ++ (if beqb e el then if checked && is_declared id (declarations el s) then [] else [(id, c, v)] else []).
Proof.
  rewrite (look_declarations _ _ _ El), is_declared_in. destruct defined_cases as [(H1 & H2 & ->)|(H1 & et' & ids & E & _ & _ & D & _)].
  - rewrite H1, H2. cbn [andb]. destruct (beqb e el); rewrite app_nil_r; reflexivity.
  - unfold declarations. rewrite E. change (d_elems (set_d_elems ?x ?y)) with x. rewrite look_put. destruct (beqb e el) eqn:B; [|rewrite app_nil_r; reflexivity].
    apply beqb_spec in B. subst e. rewrite El, D, map_app. f_equal. destruct checked eqn:Hc; [rewrite H1 by reflexivity|]; reflexivity.
Qed.
(* the first declaration of an attribute stays the one that counts *)
Lemma defined_first e n : declaration_of n (declarations e s') =
  match declaration_of n (declarations e s) with
  | Some x => Some x
  | None => if beqb e el && beqb n id then Some (c, v) else None
  end.
Proof.
  rewrite defined_declarations, declaration_app. destruct (declaration_of n (declarations e s)) eqn:E; [reflexivity|].
  destruct (beqb e el) eqn:B; [|reflexivity]. apply beqb_spec in B. subst e. cbn [andb]. destruct (beqb n id) eqn:Bn.
  - apply beqb_spec in Bn. subst n. unfold is_declared. rewrite E, andb_false_r. unfold declaration_of. cbn [find]. rewrite Nest.beqb_refl. reflexivity.
  - destruct (_ && _); [reflexivity|]. unfold declaration_of. cbn [find]. rewrite Bn. reflexivity.
Qed.
Lemma defined_defaults e : defaults e s' =
  defaults e s ++ (if beqb e el && negb (is_declared id (declarations el s)) then match v with Some v => [(id, v)] | None => [] end else []).
Proof.
  unfold defaults. rewrite defined_declarations, defaults_app. f_equal. destruct (beqb e el) eqn:B; [|reflexivity]. apply beqb_spec in B. subst e. cbn [andb].
  rewrite app_nil_r. rewrite (look_declarations _ _ _ El). rewrite is_declared_in.
  assert (M : existsb (beqb id) (rev (map (fun x => fst (fst x)) (map (fun da => (da_id da, da_cdata da, da_value da)) (et_defaults et)))) = mem id (map da_id (et_defaults et))).
  { rewrite map_map. cbn [fst]. fold (mem id (rev (map da_id (et_defaults et)))). destruct (mem id (map da_id (et_defaults et))) eqn:E.
    - apply mem_In. rewrite <- in_rev. apply mem_In. exact E.
    - apply mem_false. rewrite <- in_rev. apply mem_false. exact E. }
  destruct (mem id (map da_id (et_defaults et))) eqn:E; [rewrite andb_true_r|rewrite andb_false_r]; cbn [negb].
  - destruct checked; [reflexivity|]. cbn [defaults_from]. rewrite M. reflexivity.
  - cbn [defaults_from]. rewrite M. rewrite app_nil_r. reflexivity.
Qed.
Lemma defined_tables : tables s'.
Proof.
  destruct defined_cases as [(_ & _ & ->)|(H1 & et' & ids & E & Es & Pf & Df & Ia & Li)]; [exact TA|].
  assert (Cf : s_cfg s' = s_cfg s) by (rewrite Es; reflexivity).
  assert (At : d_attids (s_dtd s') = ids) by (rewrite E; reflexivity).
  assert (Em : d_elems (s_dtd s') = put el et' (d_elems (s_dtd s))) by (rewrite E; reflexivity).
  assert (Bi : forall p, binding_of p (s_dtd s') = binding_of p (s_dtd s)) by (intros p; rewrite E; destruct p; reflexivity).
  assert (Old : forall n x, look n (d_attids (s_dtd s)) = Some x -> exists y, look n ids = Some y /\ (ai_maybe x = true -> ai_maybe y = true)).
  { intros n x L. rewrite Li, L. destruct (beqb n id && negb c); cbn [option_map]; eexists; (split; [reflexivity|]); auto. }
  assert (New : forall n y, look n ids = Some y -> exists x, look n (d_attids (s_dtd s)) = Some x /\ ai_type y = ai_type x /\ ai_prefix y = ai_prefix x /\ ai_xmlns y = ai_xmlns x).
  { intros n y. rewrite Li. destruct (look n (d_attids (s_dtd s))) as [x|]; [|destruct (beqb n id && negb c); discriminate].
    destruct (beqb n id && negb c); cbn [option_map]; intros K; injection K as <-; eexists; (split; [reflexivity|]); auto. }
  constructor; rewrite ?At, ?Cf.
  - intros n y L. destruct (New n y L) as (x & Lx & T & _). rewrite T. exact (ta_clear _ TA _ _ Lx).
  - intros n y L. destruct (New n y L) as (x & Lx & _ & Px & Xx). destruct (ta_id _ TA _ _ Lx) as [I1 I2]. split; [rewrite Xx; exact I1|rewrite Px; exact I2].
  - intros e x da. rewrite Em, look_put. destruct (beqb e el) eqn:B.
    + intros K I. injection K as <-. rewrite Df in I. apply in_app_or in I as [I|[<-|[]]].
      * destruct (ta_default _ TA _ _ _ El I) as (y & Ly & My). destruct (Old _ _ Ly) as (z & Lz & Mz). exists z. auto.
      * cbn [da_id da_cdata]. rewrite Li, Ea, Nest.beqb_refl. destruct c; cbn [negb andb option_map]; eexists; (split; [reflexivity|]); [discriminate|reflexivity].
    + intros K I. destruct (ta_default _ TA _ _ _ K I) as (y & Ly & My). destruct (Old _ _ Ly) as (z & Lz & Mz). exists z. auto.
  - intros e x l1 da l2. rewrite Em, look_put. destruct (beqb e el) eqn:B; [|apply (ta_first _ TA)].
    intros K D V. injection K as <-. rewrite Df in D. clear -TA El H1 D V.
    destruct l2 as [|d l2 _] using rev_ind.
    + apply app_inj_tail in D as [<- <-]. cbn [da_id da_value] in *. assert (checked = true) by (unfold checked; destruct v; [reflexivity|congruence]).
      apply mem_false, H1, H.
    + rewrite app_comm_cons, app_assoc in D. apply app_inj_tail in D as [D _]. exact (ta_first _ TA _ _ _ _ _ El D V).
  - intros e x. rewrite Em, look_put. destruct (beqb e el) eqn:B; [|apply (ta_elem _ TA)]. apply beqb_spec in B. subst e.
    intros K Hn. injection K as <-. rewrite Pf. exact (ta_elem _ TA _ _ El Hn).
  - intros e x i. rewrite Em, look_put. destruct (beqb e el) eqn:B.
    + intros K I. injection K as <-. destruct Ia as [Ia|Ia]; rewrite Ia in I.
      * destruct (ta_ident _ TA _ _ _ El I) as (y & Ly). destruct (Old _ _ Ly) as (z & Lz & _). eauto.
      * injection I as <-. destruct (Old _ _ Ea) as (z & Lz & _). eauto.
    + intros K I. destruct (ta_ident _ TA _ _ _ K I) as (y & Ly). destruct (Old _ _ Ly) as (z & Lz & _). eauto.
  - intros p b. rewrite Bi. unfold separator. rewrite Cf. exact (ta_bound _ TA p b).
Qed.
End Define.
