(* A parser for a parameter entity never comes to a tag: it makes no element or namespace event and changes no binding. *)
From Coq Require Import List NArith ZArith Bool Arith Lia.
From Verif Require Import Base Encoding Tok TokMisc Norm XmlDecl Status Role RoleLaws State AttVal Bind Atts Scaf Content Prolog Core.
From Verif Require Import Keep Walk LogWalk SpecScope Trace Scope.
From Verif Require Api ApiInv Nest.
Import ListNotations.
#[local] Hint Resolve Nest.tok_end_code : codes.

(* the states of the grammar that external subsets go through *)
Definition outside (p : pstate) : bool :=
  negb (doc p) && negb (role_eqb (role_none p) R_INSTANCE_START) &&
  match hd p with
  | H_prolog0 | H_prolog1 | H_prolog2 | H_doctype0 | H_doctype1 | H_doctype2 | H_doctype3 | H_doctype4 | H_doctype5 | H_internalSubset => false
  | _ => true
  end.
Definition remains (p : pstate) (ro : ROLE) : Prop := outside p = true /\ ro <> R_INSTANCE_START.
Definition fine (x : res (pstate * ROLE)) : Prop := match x with Ok (p, ro) => remains p ro | Err _ => True end.
Lemma outside_to h p : outside p = true -> outside (to h p) = negb (match h with
  | H_prolog0 | H_prolog1 | H_prolog2 | H_doctype0 | H_doctype1 | H_doctype2 | H_doctype3 | H_doctype4 | H_doctype5 | H_internalSubset => true
  | _ => false end).
Proof.
  unfold outside. cbn [to doc hd role_none]. intros H. apply andb_true_iff in H as [H _]. rewrite H. destruct h; reflexivity.
Qed.
Lemma fine_common p k : outside p = true -> remains (fst (common p k)) (snd (common p k)).
Proof.
  intros H. unfold common. destruct (_ && _); cbn [fst snd]; split; try discriminate; [exact H|]. rewrite outside_to by exact H. reflexivity.
Qed.
Section E.
Variable e : EncImpl.
Lemma fine_kw b alts d : Forall (fun a => remains (fst (snd a)) (snd (snd a))) alts -> remains (fst d) (snd d) -> fine (on_kw e b alts d).
Proof.
  intros Ha Hd. induction alts as [|[k [p ro]] alts IH]; cbn [on_kw].
  - destruct d. exact Hd.
  - inversion Ha; subst. destruct (nameMatchesAscii e b k) as [[]|]; cbn [bind]; [assumption|apply IH; assumption|exact I].
Qed.
Lemma fine_let {A} (x : res A) (k : A -> res (pstate * ROLE)) : (forall a, fine (k a)) -> fine (bind x k).
Proof. intros H. destruct x; [apply H|exact I]. Qed.
Lemma fine_ok p ro : remains p ro -> fine (Ok (p, ro)).
Proof. exact (fun H => H). Qed.
Lemma fine_kw_pair b alts d : Forall (fun a : bytes * (pstate * ROLE) => remains (fst (snd a)) (snd (snd a))) alts -> remains (fst d) (snd d) -> fine (on_kw e b alts d).
Proof. apply fine_kw. Qed.
Lemma fine_step p k b : outside p = true -> fine (token_role e p k b).
Proof.
  destruct p as [h lv rn i d]. intros H.
  assert (d = false) by (destruct d; [discriminate H|reflexivity]). subst d.
  assert (Hr : negb (role_eqb rn R_INSTANCE_START) = true).
  { unfold outside in H. cbn [doc hd role_none negb andb] in H. apply andb_true_iff in H as [H _]. exact H. }
  assert (Hn : rn <> R_INSTANCE_START) by (intros E; rewrite E in Hr; discriminate Hr).
  assert (Ho : forall h lv rn' i, rn' = rn \/ negb (role_eqb rn' R_INSTANCE_START) = true -> 
     match h with
     | H_prolog0 | H_prolog1 | H_prolog2 | H_doctype0 | H_doctype1 | H_doctype2 | H_doctype3 | H_doctype4 | H_doctype5 | H_internalSubset => false
     | _ => true end = true -> outside {| hd := h; level := lv; role_none := rn'; include := i; doc := false |} = true).
  { clear -Hr. intros h lv rn' i E Hh. unfold outside. cbn [doc hd role_none negb andb]. rewrite Hh.
    destruct E as [->|E]; [rewrite Hr|rewrite E]; reflexivity. }
  unfold token_role. cbn [hd].
  assert (Rem : forall h lv' rn' i' ro, rn' = rn \/ negb (role_eqb rn' R_INSTANCE_START) = true -> ro <> R_INSTANCE_START ->
     match h with
     | H_prolog0 | H_prolog1 | H_prolog2 | H_doctype0 | H_doctype1 | H_doctype2 | H_doctype3 | H_doctype4 | H_doctype5 | H_internalSubset => false
     | _ => true end = true -> remains {| hd := h; level := lv'; role_none := rn'; include := i'; doc := false |} ro).
  { intros h' lv' rn' i' ro E1 E2 E3. split; [apply Ho; assumption|exact E2]. }
  clear Hr.
  destruct h; try discriminate H;
    try (unfold outside in H; cbn [hd] in H; rewrite andb_false_r in H; discriminate H);
    machine; destruct k; unfold close_group; cbv zeta;
    repeat match goal with
    | |- fine (Ok (common ?s ?t)) => exact (fine_common s t (Ho _ _ _ _ (or_introl eq_refl) eq_refl))
    | |- fine (bind _ _) => apply fine_let; intro
    | |- fine (on_kw _ _ _ _) => apply fine_kw; [repeat apply Forall_cons; try apply Forall_nil; cbn [fst snd]|]
    | |- fine (if ?c then _ else _) => destruct c
    | |- fine (Ok _) => unfold close_group, Role.subset, Role.to, Role.set_none, Role.set_level, Role.set_include; cbv zeta; cbn [hd level role_none include doc]; repeat match goal with |- context [if ?c then _ else _] => destruct c end; apply Rem; [first [left; reflexivity|right; reflexivity]|first [exact Hn|discriminate]|reflexivity]
    | |- remains (fst (common _ _)) _ => apply fine_common, Ho; [left; reflexivity|reflexivity]
    | |- remains _ _ => unfold close_group, Role.subset, Role.to, Role.set_none, Role.set_level, Role.set_include; cbv zeta; cbn [hd level role_none include doc]; apply Rem; [first [left; reflexivity|right; reflexivity]|first [exact Hn|discriminate]|reflexivity]
    end.
  all: unfold fine, Role.set_level, Role.to, Role.set_none; cbn [hd level role_none include doc]; destruct (_ =? 0)%N; (apply Rem; [first [left; reflexivity|right; reflexivity]|discriminate|reflexivity]).
Qed.
End E.

(* a parser for a parameter entity *)
Definition par_proc (p : processor) : bool :=
  match p with PrParEntInit | PrInternalEntity => true | _ => prolog_proc p end.
Record par (s : st) : Prop := {
  pa_role : outside (s_role s) = true;
  pa_proc : par_proc (s_processor s) = true;
  pa_open : Forall (fun oe => fst (oe_ent oe) = true) (s_open s)
}.
Definition R (s s' : st) : Prop := sane s -> par s -> sane s' /\ grown s s' /\ still s s' /\ par s'.
Lemma R_trans a b c : R a b -> R b c -> R a c.
Proof.
  intros H1 H2 Ha Pa. destruct (H1 Ha Pa) as (Hb & g1 & s1 & Pb). destruct (H2 Hb Pb) as (Hc & g2 & s2 & Pc).
  split; [assumption|]. split; [eapply grown_trans; eassumption|]. split; [eapply still_trans; eassumption|assumption].
Qed.
Lemma R_refl s : R s s.
Proof. intros H P. split; [exact H|]. split; [apply grown_refl|]. split; [apply still_refl|exact P]. Qed.
Lemma frame_R : frame R R. Proof. split; eauto using R_trans, R_refl. Qed.
Lemma par_place s s' : place s' = place s -> par s -> par s'.
Proof. unfold place. intros E [A B C]. injection E; intros E1 E2 E3 E4. split; congruence. Qed.
Lemma N_R a b : N a b -> R a b.
Proof. intros H Ha Pa. destruct (H Ha) as (A & B & C & D). split; [exact A|]. split; [exact B|]. split; [exact C|]. eapply par_place; eassumption. Qed.
Lemma NR {A} (m : P A) : keeps N N m -> keeps R R m.
Proof. apply keeps_imp; intros; apply N_R; assumption. Qed.
(* the bindings, the events and the open elements are as they were *)
Lemma R_place s s' : s_cfg s' = s_cfg s -> s_pid s' = s_pid s -> s_log s' = s_log s -> s_tags s' = s_tags s ->
  s_bindings s' = s_bindings s -> s_dtd s' = s_dtd s -> (par s -> par s') -> R s s'.
Proof.
  intros E1 E2 E3 E4 E5 E6 Hp H P. split; [eapply sane_same; eassumption|]. split; [apply grown_same; assumption|].
  split; [|apply Hp, P]. split; [assumption|assumption|apply mine_same; assumption|]. intros p _. unfold bound_in. rewrite E6. reflexivity.
Qed.
Lemma R_open l s : Forall (fun oe => fst (oe_ent oe) = true) l -> R s (set_open l s).
Proof. intros Hl. apply R_place; try reflexivity. intros [A B C]. split; assumption. Qed.
Lemma R_proc p s : par_proc p = true -> R s (set_processor p s).
Proof. intros Hl. apply R_place; try reflexivity. intros [A B C]. split; assumption. Qed.

(* nothing but that failures have codes *)
Definition U (s s' : st) : Prop := True.
Lemma frame_U : frame U U. Proof. split; intros; exact I. Qed.
Lemma U_of {A} X Y (m : P A) : keeps X Y m -> keeps U U m.
Proof. intros H s. specialize (H s). destruct (m s); [exact I|split; [apply H|exact I]|exact I]. Qed.
Lemma U_leafs : leafs U. Proof. split; [exact frame_U| | | |]; intros; try exact I; intros s; exact I. Qed.
Lemma U_upd f : keeps U U (upd f). Proof. intros s. exact I. Qed.
Lemma U_dtd f : keeps U U (upd_dtd f). Proof. intros s. exact I. Qed.
(* at a state of such a parser *)
Definition atR {A} (m : P A) (s : st) : Prop := match m s with Ret _ s' => R s s' | Fail _ s' => R s s' | Die _ => True end.
Lemma keeps_R {A} (m : P A) : keeps U U m -> (forall s, par s -> atR m s) -> keeps R R m.
Proof.
  intros Ht H s. specialize (H s). unfold atR in H. specialize (Ht s).
  destruct (m s) as [a s'|e s'|]; [| |exact I].
  - intros Hs Hp. exact (H Hp Hs Hp).
  - split; [apply Ht|]. intros Hs Hp. exact (H Hp Hs Hp).
Qed.
Lemma R_get {A B} (g : st -> A) (Q : A -> Prop) (k : A -> P B) : (forall s, par s -> Q (g s)) -> (forall a, keeps U U (k a)) ->
  (forall a, Q a -> keeps R R (k a)) -> keeps R R (pbind (get g) k).
Proof.
  intros Hg Ht Hk. apply keeps_R.
  - apply (keeps_bind _ _ frame_U); [apply (keeps_get _ _ frame_U)|exact Ht].
  - intros s Hp. unfold atR, pbind, get. specialize (Hk (g s) (Hg s Hp) s). destruct (k (g s) s); [exact Hk|apply Hk|exact I].
Qed.
Lemma R_role_of {B} e x b (k : ROLE -> P B) : (forall a, keeps U U (k a)) ->
  (forall a, a <> R_INSTANCE_START -> keeps R R (k a)) -> keeps R R (pbind (role_of e x b) k).
Proof.
  intros Ht Hk. apply keeps_R.
  - apply (keeps_bind _ _ frame_U); [|exact Ht]. apply (U_of T T). apply (wk_role_of _ _ _ _ _ T_walker).
  - intros s Hp. unfold atR, role_of, pbind, get, lift. pose proof (fine_step e _ x b (pa_role s Hp)) as Hf.
    destruct (token_role e (s_role s) x b) as [[p ro]|]; [|exact I]. destruct Hf as [H1 H2].
    unfold upd, pret. assert (H0 : R s (set_role p s)).
    { apply R_place; try reflexivity. intros [A1 A2 A3]. split; assumption. }
    specialize (Hk ro H2 (set_role p s)). destruct (k ro (set_role p s)); [|destruct Hk as [_ Hk]|exact I]; eapply R_trans; eassumption.
Qed.

(* what parsers for parameter entities do not do *)
Definition mute (r : recs) : recs :=
  {| rc_content := fun _ _ _ _ => die EPanic; rc_prolog := rc_prolog r; rc_ext := rc_ext r; rc_fuel := rc_fuel r |}.
Lemma mute_callees G Gf r : (forall t b k n h a, keeps G Gf (rc_prolog r t b k n h a)) -> (forall a b c d, keeps N N (rc_ext r a b c d)) ->
  callees N G Gf (mute r).
Proof. intros H1 H2. split; [intros; apply keeps_die|exact H1|exact H2]. Qed.

(* entities *)
Notation pents := (Forall (fun oe => fst (oe_ent oe) = true)).
Lemma R_leave ent l n b : pents l -> keeps R R (leave_entity ent l n b).
Proof.
  intros Hl. unfold leave_entity.
  walk frame_R ltac:(idtac; first [apply NR, N_entity|apply keeps_upd; intros; apply R_open; exact Hl]).
Qed.
Lemma U_leave ent l n b : keeps U U (leave_entity ent l n b).
Proof. unfold leave_entity, upd_entity. walk frame_U ltac:(idtac; first [apply U_upd|apply U_dtd]). Qed.
Ltac wu x := walk frame_U ltac:(idtac; first [x|apply U_upd|apply U_dtd|lw_all U_leafs]).
Lemma R_pie r n text b : callees N R R r -> keeps R R (processInternalEntity r (true, n) text b).
Proof.
  intros Hr. unfold processInternalEntity. cbn [fst].
  apply (keeps_bind _ _ frame_R); [apply NR, N_entity|]. intros _. apply (keeps_bind _ _ frame_R); [apply NR, N_entity|]. intros _.
  apply (R_get _ (fun l => pents l)).
  - intros s Hp. apply Hp.
  - intros l. wu ltac:(first [apply (U_of R R), (c_prolog _ _ _ _ Hr)|apply U_leave]).
  - intros l Hl. walk frame_R ltac:(idtac; first [apply (c_prolog _ _ _ _ Hr)|apply R_leave; exact Hl
      |apply NR; lw_all N_leafs
      |apply keeps_upd; intros; first [apply R_open; apply Forall_cons; [reflexivity|exact Hl]|apply R_proc; reflexivity]]).
Qed.
Lemma R_parameter r n b : callees N R R r -> keeps R R (handleEntityRef r (true, n) b).
Proof.
  intros Hr. unfold handleEntityRef.
  walk frame_R ltac:(idtac; first [apply R_pie, Hr|apply NR, (c_ext _ _ _ _ Hr)|apply NR, N_entity|apply NR; lw_all N_leafs]).
Qed.
Lemma N_declare a b c : keeps N N (declare_entity a b c).
Proof.
  unfold declare_entity. walk frame_N ltac:(idtac; first [lw_all N_leafs
    |apply keeps_upd; intros; apply N_same; reflexivity|apply N_dtd; intros d; split; destruct a; reflexivity]).
Qed.
Lemma N_role ro k t e a b n r : entity_role ro = true -> (forall a b c d, keeps N N (rc_ext r a b c d)) -> keeps N N (role_action r ro k t e a b n).
Proof.
  intros He Hx. unfold role_action. destruct ro; try discriminate He; clear He.
  all: walk frame_N ltac:(idtac; first [apply N_insert|apply N_entity|apply N_storeEntityValue, Hx|lw_all N_leafs
    |apply keeps_upd; intros; apply N_same; reflexivity]).
Qed.
Lemma walker_R : pwalker N R R.
Proof.
  split.
  - exact N_leafs.
  - exact frame_R.
  - exact N_R.
  - exact N_append.
  - intros. apply N_value; assumption.
  - intros. apply R_parameter; assumption.
  - intros. apply N_subset, (c_ext _ _ _ _ H).
  - intros. apply NR, N_declare.
  - intros. apply N_R, N_same; reflexivity.
  - intros. apply NR, N_role; [assumption|]. apply (c_ext _ _ _ _ H0).
  - intros. apply R_proc. destruct p; try discriminate H; reflexivity.
Qed.

(* the parser *)
Section Par.
Variable r : recs.
Hypothesis Ht : callees T T T r.
Hypothesis Hp : forall t b k n h a, keeps R R (rc_prolog r t b k n h a).
Hypothesis Hx : forall a b c d, keeps N N (rc_ext r a b c d).
Let Hm : callees N R R (mute r) := mute_callees R R r Hp Hx.
Lemma R_role_step ro k t e h a b tok rest : ro <> R_INSTANCE_START -> keeps R R (role_step r ro k t e h a b tok rest).
Proof.
  intros Hro. pose proof (wk_role_step_prolog _ _ _ walker_R (mute r) Hm ro k t e h a b tok rest Hro) as H.
  destruct ro; try exact H. elim Hro. reflexivity.
Qed.
Lemma R_doProlog t b k n h a : keeps R R (doProlog r t b k n h a).
Proof.
  unfold doProlog.
  walk frame_R ltac:(idtac; first
   [ match goal with |- keeps _ _ (pbind (role_of _ _ _) _) => apply R_role_of; [intros ?|intros ? ?] end
   | match goal with |- keeps U U _ => solve [wu ltac:(first [apply (U_of T T), (wk_role_step _ _ _ _ _ T_walker r Ht)|apply (U_of R R), Hp])] end
   | apply Hp | apply R_role_step; assumption | apply NR; lw_all N_leafs ]).
Qed.
Lemma R_prologProcessor b : keeps R R (prologProcessor r b).
Proof. exact (wk_prologProcessor _ _ _ walker_R (mute r) Hm b). Qed.
Lemma R_internal b : keeps R R (internalEntityProcessor r b).
Proof.
  unfold internalEntityProcessor. apply (R_get _ (fun l => pents l)).
  - intros s H. apply H.
  - intros l. wu ltac:(first [apply (U_of R R), Hp|apply (U_of T T), (c_content _ _ _ _ Ht)|apply U_leave]).
  - intros l Hl. destruct l as [|oe l]; [apply (keeps_fail _ _ frame_R); discriminate|].
    assert (Ho : fst (oe_ent oe) = true) by (inversion Hl; assumption). assert (Hl' : pents l) by (inversion Hl; assumption).
    cbv zeta. rewrite Ho.
    walk frame_R ltac:(idtac; first [apply Hp|apply R_leave; exact Hl'|apply NR; lw_all N_leafs
      |apply keeps_upd; intros; apply R_proc; reflexivity]).
Qed.
Lemma atR_of {A} (m : P A) s : keeps R R m -> atR m s.
Proof. intros H. specialize (H s). unfold atR. destruct (m s); [exact H|apply H|exact I]. Qed.
Lemma R_process b : keeps R R (process r b).
Proof.
  apply keeps_R; [apply (U_of T T), (wk_process _ _ _ _ _ T_walker r Ht)|].
  intros s H. pose proof (pa_proc s H) as E. unfold atR, process, pbind, get.
  assert (Hall : forall m : P bytes, keeps R R m -> match m s with Ret _ s' => R s s' | Fail _ s' => R s s' | Die _ => True end) by (intros m; apply atR_of).
  destruct (s_processor s); try discriminate E; apply Hall.
  - apply R_prologProcessor.
  - apply R_internal.
  - exact (wk_ignore _ _ _ walker_R (mute r) Hm b).
  - exact (wk_parentinit _ _ _ walker_R (mute r) Hm b).
  - exact (wk_parent _ _ _ walker_R (mute r) Hm b).
  - exact (wk_ev_init_loop _ _ _ walker_R (mute r) Hm (rc_fuel r) b b).
  - exact (up _ _ _ walker_R _ (wk_ev_loop _ _ _ walker_R (mute r) Hm (rc_fuel r) b)).
Qed.
End Par.
