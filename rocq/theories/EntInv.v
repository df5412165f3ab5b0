(* The entities that are open, and the entities that have been declared. *)
From Coq Require Import List NArith ZArith Bool Arith Lia.
From Verif Require Import Base Encoding Tok TokMisc XmlDecl Status Role State AttVal Bind Atts Scaf Content Prolog Core.
From Verif Require Import Keep Walk.
From Verif Require Nest Api ApiInv.
Import ListNotations.

Lemma look_put_same {A} n (v : A) l : look n (put n v l) = Some v.
Proof.
  induction l as [|[m w] l IH]; cbn [put look].
  - rewrite Nest.beqb_refl. reflexivity.
  - destruct (beqb n m) eqn:E; cbn [look]; rewrite ?E, ?Nest.beqb_refl; auto.
Qed.
Lemma look_put_other {A} n m (v : A) l : m <> n -> look m (put n v l) = look m l.
Proof.
  intros H. assert (E : beqb m n = false) by (destruct (beqb m n) eqn:E; [apply Nest.beqb_eq in E; contradiction|reflexivity]).
  induction l as [|[k w] l IH]; cbn [put look]; [rewrite E; reflexivity|].
  destruct (beqb n k) eqn:Ek; cbn [look]; [apply Nest.beqb_eq in Ek; subst k; rewrite E; reflexivity|]. rewrite IH. reflexivity.
Qed.
Lemma look_put_entity_same ref e d : look_entity ref (put_entity ref e d) = Some e.
Proof. destruct ref as [[] n]; cbn; apply look_put_same. Qed.
Lemma look_put_entity_other ref ref' e d : ref' <> ref -> look_entity ref' (put_entity ref e d) = look_entity ref' d.
Proof.
  intros H. destruct ref as [[] n], ref' as [[] m]; cbn; try reflexivity; apply look_put_other; congruence.
Qed.
Lemma entref_dec (a b : entref) : {a = b} + {a <> b}.
Proof. decide equality; [apply (list_eq_dec N.eq_dec)|apply bool_dec]. Qed.

Definition ent (s : st) (ref : entref) : option entity := look_entity ref (s_dtd s).
Definition isopen (s : st) (ref : entref) : Prop := exists e, ent s ref = Some e /\ e_open e = true.
(* what a declaration says *)
Definition declared (e : entity) := (e_text e, e_sys e, e_base e, e_pub e, e_notation e, e_is_param e, e_is_internal e).
Definition fixed (s s' : st) : Prop := forall ref e, ref <> subset -> ent s ref = Some e -> s_declEntity s <> Some ref ->
  s_declEntity s' <> Some ref /\ exists e', ent s' ref = Some e' /\ declared e' = declared e.
Record N (s s' : st) : Prop := {
  n_stack : s_open s' = s_open s;
  n_decl : s_declEntity s' = s_declEntity s;
  n_open : forall ref, isopen s ref -> isopen s' ref;
  n_fixed : fixed s s'
}.
(* [O]: entities that were open before the parser was made *)
Record inv (O : entref -> Prop) (s : st) : Prop := {
  i_nodup : NoDup (map oe_ent (s_open s));
  i_stack : forall o, In o (s_open s) -> isopen s (oe_ent o);
  i_outer : forall ref, O ref -> isopen s ref;
  i_apart : forall o, In o (s_open s) -> ~ O (oe_ent o)
}.
Definition G (s s' : st) : Prop := fixed s s' /\ forall O, inv O s -> inv O s' /\ exists more, s_open s' = more ++ s_open s.
Definition Gf (s s' : st) : Prop := fixed s s' /\ forall O, inv O s -> inv O s'.

Lemma fixed_refl s : fixed s s.
Proof. intros ref e _ H1 H2. split; [exact H2|]. exists e. auto. Qed.
Lemma fixed_trans a b c : fixed a b -> fixed b c -> fixed a c.
Proof.
  intros H1 H2 ref e Hs E D. destruct (H1 ref e Hs E D) as (D1 & e1 & E1 & F1).
  destruct (H2 ref e1 Hs E1 D1) as (D2 & e2 & E2 & F2). split; [exact D2|]. exists e2. split; congruence.
Qed.
Lemma frame_N : frame N N.
Proof.
  assert (T : forall a b c, N a b -> N b c -> N a c).
  { intros a b c [A1 A2 A3 A4] [B1 B2 B3 B4]. split; [congruence|congruence|auto|eapply fixed_trans; eassumption]. }
  split; auto. intros s. split; auto using fixed_refl. 
Qed.
Lemma frame_G : frame G Gf.
Proof.
  split.
  - intros s. split; [apply fixed_refl|]. intros O H. split; [exact H|]. exists []. reflexivity.
  - intros a b c [F1 H1] [F2 H2]. split; [eapply fixed_trans; eassumption|]. intros O H.
    destruct (H1 O H) as (Hb & m1 & E1). destruct (H2 O Hb) as (Hc & m2 & E2). split; [exact Hc|].
    exists (m2 ++ m1). rewrite E2, E1, app_assoc. reflexivity.
  - intros a b c [F1 H1] [F2 H2]. split; [eapply fixed_trans; eassumption|]. intros O H. apply H2, H1, H.
  - intros a b [F H]. split; [exact F|]. intros O Hi. apply H, Hi.
Qed.
Lemma frame_Gf : frame Gf Gf.
Proof.
  assert (T : forall a b c, Gf a b -> Gf b c -> Gf a c).
  { intros a b c [F1 H1] [F2 H2]. split; [eapply fixed_trans; eassumption|]. intros O H. apply H2, H1, H. }
  split; auto. intros s. split; auto using fixed_refl.
Qed.
Lemma N_G s s' : N s s' -> G s s'.
Proof.
  intros [A1 A2 A3 A4]. split; [exact A4|]. intros O [I1 I2 I3 I4]. split; [|exists []; rewrite A1; reflexivity].
  split; rewrite ?A1; auto.
Qed.
Lemma keeps_N_G {A} (m : P A) : keeps N N m -> keeps G Gf m.
Proof. apply keeps_imp; intros; [|apply (f_weak _ _ frame_G)]; apply N_G; assumption. Qed.

(* what changes nothing here *)
Lemma N_same s s' : s_open s' = s_open s -> s_declEntity s' = s_declEntity s -> d_gents (s_dtd s') = d_gents (s_dtd s) ->
  d_pents (s_dtd s') = d_pents (s_dtd s) -> N s s'.
Proof.
  intros E1 E2 E3 E4.
  assert (E : forall ref, ent s' ref = ent s ref).
  { intros [[] n]; unfold ent, look_entity, entity_table; cbn; rewrite ?E3, ?E4; reflexivity. }
  split; [exact E1|exact E2| |].
  - intros ref (e & H & Ho). exists e. rewrite E. auto.
  - intros ref e _ H D. rewrite E2, E. split; [exact D|]. exists e. auto.
Qed.
Lemma call_N ev : keeps N N (call ev).
Proof. intros s. apply N_same; reflexivity. Qed.
Lemma leafs_N : leafs N.
Proof.
  split.
  - exact frame_N.
  - intros s s' E. unfold view, dview in E. apply N_same; congruence.
  - intros. apply call_N.
  - intros. apply call_N.
  - intros. apply N_same; reflexivity.
Qed.
(* an update of an entity *)
Definition put_in (ref : entref) (f : entity -> entity) (s : st) : st :=
  set_dtd (match look_entity ref (s_dtd s) with Some e => put_entity ref (f e) (s_dtd s) | None => s_dtd s end) s.
Lemma upd_entity_eq ref f s : upd_entity ref f s = Ret tt (put_in ref f s).
Proof. reflexivity. Qed.
Lemma ent_put_same ref f s : ent (put_in ref f s) ref = match ent s ref with Some e => Some (f e) | None => None end.
Proof.
  unfold ent, put_in. cbn [s_dtd set_dtd]. destruct (look_entity ref (s_dtd s)) eqn:E; [apply look_put_entity_same|exact E].
Qed.
Lemma ent_put_other ref ref' f s : ref' <> ref -> ent (put_in ref f s) ref' = ent s ref'.
Proof.
  intros H. unfold ent, put_in. cbn [s_dtd set_dtd]. destruct (look_entity ref (s_dtd s)); [apply look_put_entity_other, H|reflexivity].
Qed.
Lemma put_fixed ref f s : (forall e, declared (f e) = declared e) -> fixed s (put_in ref f s).
Proof.
  intros Hf ref' e _ E D. split; [exact D|]. destruct (entref_dec ref' ref) as [->|Hn].
  - rewrite ent_put_same, E. eauto.
  - rewrite ent_put_other by exact Hn. eauto.
Qed.
Lemma put_N ref f s : (forall e, declared (f e) = declared e) -> (forall e, e_open e = true -> e_open (f e) = true) ->
  N s (put_in ref f s).
Proof.
  intros Hf Ho. split; [reflexivity|reflexivity| |apply put_fixed, Hf].
  intros ref' (e & E & Oe). destruct (entref_dec ref' ref) as [->|Hn].
  - exists (f e). rewrite ent_put_same, E. auto.
  - exists e. rewrite ent_put_other by exact Hn. auto.
Qed.
Lemma put_subset f s : (forall e, e_open e = true -> e_open (f e) = true) -> N s (put_in subset f s).
Proof.
  intros Ho. split; [reflexivity|reflexivity| |].
  - intros ref' (e & E & Oe). destruct (entref_dec ref' subset) as [->|Hn].
    + exists (f e). rewrite ent_put_same, E. auto.
    + exists e. rewrite ent_put_other by exact Hn. auto.
  - intros ref' e Hn E D. split; [exact D|]. rewrite ent_put_other by exact Hn. eauto.
Qed.

(* opened, used and closed again *)
Lemma close_N ref s s1 : ~ isopen s ref -> N (put_in ref (set_e_open true) s) s1 -> N s (put_in ref (set_e_open false) s1).
Proof.
  intros Hc [A1 A2 A3 A4]. split.
  - exact A1.
  - exact A2.
  - intros ref' Hr. assert (ref' <> ref) by (intros ->; contradiction).
    destruct (A3 ref') as (e & E & Oe).
    + destruct Hr as (e & E & Oe). exists e. rewrite ent_put_other by assumption. auto.
    + exists e. rewrite ent_put_other by assumption. auto.
  - eapply fixed_trans; [apply (put_fixed ref (set_e_open true)); reflexivity|]. eapply fixed_trans; [exact A4|]. apply put_fixed. reflexivity.
Qed.

Lemma open_N ref s s1 : N (put_in ref (set_e_open true) s) s1 -> N s s1.
Proof. apply (f_trans _ _ frame_N). apply put_N; reflexivity. Qed.
Lemma keeps_at {A B} (f : st -> A) (k : A -> P B) R F : (forall s, match k (f s) s with Ret _ s' => R s s' | Fail e s' => e <> XE_NONE /\ F s s' | Die _ => True end) ->
  keeps R F (pbind (get f) k).
Proof. intros H. exact H. Qed.
Definition at_ (R F : st -> st -> Prop) {A} (m : P A) (s : st) : Prop :=
  match m s with Ret _ s' => R s s' | Fail e s' => e <> XE_NONE /\ F s s' | Die _ => True end.
Lemma keeps_at_ {A} R F (m : P A) s : keeps R F m -> at_ R F m s.
Proof. intros H. apply H. Qed.
Lemma at_from R F (fr : frame R F) {A} (m : P A) s0 s : R s0 s -> keeps R F m ->
  match m s with Ret _ s' => R s0 s' | Fail e s' => e <> XE_NONE /\ F s0 s' | Die _ => True end.
Proof.
  intros H Hm. specialize (Hm s). destruct (m s) as [a s'|e s'|e]; [eapply (f_trans _ _ fr); eassumption| |exact I].
  destruct Hm. split; [assumption|eapply (f_fail _ _ fr); eassumption].
Qed.
Lemma bracket_try {A B} ref (m : P A) (k : XML_Error + A -> P B) s : ~ isopen s ref -> keeps N N m ->
  (forall e, e <> XE_NONE -> keeps N N (k (inl e))) -> (forall a, keeps N N (k (inr a))) ->
  at_ N N (upd_entity ref (set_e_open true) ;;; do r <- try m; upd_entity ref (set_e_open false) ;;; k r) s.
Proof.
  intros Hc Hm He Hk. unfold at_, pbind. rewrite upd_entity_eq. unfold try. specialize (Hm (put_in ref (set_e_open true) s)).
  destruct (m (put_in ref (set_e_open true) s)) as [a s'|e s'|e]; [| |exact I]; rewrite upd_entity_eq.
  - apply (at_from N N frame_N); [|apply Hk]. apply close_N; assumption.
  - destruct Hm as [Hm1 Hm2]. apply (at_from N N frame_N); [|apply He; assumption]. apply close_N; assumption.
Qed.
Lemma bracket {A B} ref (m : P A) (k : A -> P B) s : ~ isopen s ref -> keeps N N m -> (forall a, keeps N N (k a)) ->
  at_ N N (upd_entity ref (set_e_open true) ;;; do r <- m; upd_entity ref (set_e_open false) ;;; k r) s.
Proof.
  intros Hc Hm Hk. unfold at_, pbind. rewrite upd_entity_eq. specialize (Hm (put_in ref (set_e_open true) s)).
  destruct (m (put_in ref (set_e_open true) s)) as [a s'|e s'|e]; [| |exact I]; rewrite ?upd_entity_eq.
  - apply (at_from N N frame_N); [|apply Hk]. apply close_N; assumption.
  - destruct Hm as [Hm1 Hm2]. split; [exact Hm1|]. apply (open_N ref). exact Hm2.
Qed.
Lemma at_G {A} (m : P A) s : at_ N N m s -> at_ G Gf m s.
Proof.
  unfold at_. destruct (m s); [apply N_G| |auto]. intros [H1 H2]. split; [exact H1|]. apply (f_weak _ _ frame_G), N_G, H2.
Qed.
Lemma closed s ref e : ent s ref = Some e -> e_open e = false -> ~ isopen s ref.
Proof. intros E Ho (e' & E' & Ho'). rewrite E in E'. injection E' as <-. congruence. Qed.

Lemma dtd_N f : (forall d, d_gents (f d) = d_gents d /\ d_pents (f d) = d_pents d) -> keeps N N (upd_dtd f).
Proof. intros H s. apply N_same; try reflexivity; cbn; apply H. Qed.
Ltac same_N := first [ apply keeps_upd; intros; apply N_same; reflexivity
                     | unfold upd_dtd; apply keeps_upd; intros; apply N_same; reflexivity
                     | apply dtd_N; let d := fresh in intros d; destruct (d_peRead d); split; reflexivity ].
Ltac wn x := walk frame_N ltac:(idtac; first [x | lw_all leafs_N | same_N]).
Ltac at_walk := match goal with |- at_ ?R ?F ?m ?s => apply (keeps_at_ R F m s) end.

Lemma at_get R F {A B} (f : st -> A) (k : A -> P B) s : at_ R F (k (f s)) s -> at_ R F (pbind (get f) k) s.
Proof. exact (fun H => H). Qed.
Ltac intercept := match goal with |- keeps ?R ?F (pbind (get s_dtd) ?k) =>
  let s := fresh "s" in intros s; change (at_ R F (pbind (get s_dtd) k) s); apply at_get end.

Lemma N_append fuel prolog : forall t cd b acc, keeps N N (appendAttributeValue fuel prolog t cd b acc).
Proof.
  induction fuel as [|fuel IH]; intros t cd b acc; cbn [appendAttributeValue]; [apply keeps_die|].
  walk frame_N ltac:(idtac; first [ intercept | apply IH | lw_all leafs_N | same_N ]).
  do 2 apply at_get. cbv zeta.
  match goal with |- at_ _ _ (match look ?n ?t with _ => _ end) _ => destruct (look n t) as [en|] eqn:E end.
  2: at_walk; wn ltac:(apply IH).
  match goal with |- at_ _ _ (if ?c then _ else _) _ => destruct c end; [at_walk; wn nope|].
  destruct (e_open en) eqn:Eo; [at_walk; wn nope|].
  destruct (e_notation en); [at_walk; wn nope|].
  destruct (e_text en); [|at_walk; wn nope].
  apply bracket_try.
  - eapply closed; [exact E|exact Eo].
  - apply IH.
  - intros x Hx. apply keeps_fail; [exact frame_N|exact Hx].
  - intros x. wn ltac:(apply IH).
Qed.
Lemma pents_same s s' : d_gents (s_dtd s') = d_gents (s_dtd s) -> d_pents (s_dtd s') = d_pents (s_dtd s) -> forall ref, ent s' ref = ent s ref.
Proof. intros E3 E4 [[] n]; unfold ent, look_entity, entity_table; cbn; rewrite ?E3, ?E4; reflexivity. Qed.
Lemma at_upd {B} f (k : P B) s : N s (f s) -> at_ N N k (f s) -> at_ N N (upd f ;;; k) s.
Proof.
  intros H Hk. unfold at_, pbind, upd in *. destruct (k (f s)) as [b s'|e s'|e]; [|destruct Hk; split; [assumption|]|exact I];
  eapply (f_trans _ _ frame_N); eassumption.
Qed.
Lemma N_value x fuel : (forall a b c d, keeps N N (x a b c d)) -> forall t b, keeps N N (entity_value x fuel t b).
Proof.
  intros Hx. induction fuel as [|fuel IH]; intros t b; cbn [entity_value]; [apply keeps_die|]. unfold append_ev.
  walk frame_N ltac:(idtac; first [ intercept | apply IH | lw_all leafs_N | same_N ]).
  match goal with |- at_ _ _ (match look ?n ?t with _ => _ end) _ => destruct (look n t) as [en|] eqn:E end.
  2: at_walk; wn ltac:(apply IH).
  destruct (e_open en) eqn:Eo; [at_walk; wn nope|].
  match type of E with look ?n _ = _ => match goal with |- at_ _ _ _ ?s => assert (Hc : ~ isopen s (true, n)) by (eapply closed; [exact E|exact Eo]) end end.
  destruct (e_sys en).
  - unfold handler. apply at_get. match goal with |- at_ _ _ (if ?c then _ else _) _ => destruct c end; [|at_walk; wn ltac:(apply IH)].
    unfold upd_dtd at 1. apply at_upd; [apply N_same; reflexivity|].
    apply bracket; [|apply Hx|intros; wn ltac:(apply IH)].
    intros (e' & E' & O'). apply Hc. exists e'. split; [|exact O']. rewrite <- E'. apply pents_same; reflexivity.
  - apply bracket; [exact Hc|apply IH|intros; wn ltac:(apply IH)].
Qed.

Lemma bind_N p u d : d_gents (bind_prefix p u d) = d_gents d /\ d_pents (bind_prefix p u d) = d_pents d.
Proof. destruct p; split; reflexivity. Qed.
Lemma N_bind p a u bs : keeps N N (addBinding p a u bs).
Proof. unfold addBinding, emit. wn ltac:(first [apply call_N|apply dtd_N; intros; apply bind_N]). Qed.
Lemma tags_N : tagleafs N.
Proof.
  split; intros; auto using leafs_N, N_append, N_bind, call_N.
  - apply dtd_N. intros. apply bind_N.
  - apply N_same; reflexivity.
  - apply N_same; reflexivity.
  - apply N_same; reflexivity.
Qed.

(* entering an entity and leaving it *)
Lemma push o s e : ent s (oe_ent o) = Some e -> e_open e = false ->
  let s2 := set_open (o :: s_open s) (put_in (oe_ent o) (set_e_processed 0) (put_in (oe_ent o) (set_e_open true) s)) in
  fixed s s2 /\ forall O, inv O s -> inv O s2.
Proof.
  intros E Eo. cbv zeta.
  set (s1 := put_in (oe_ent o) (set_e_processed 0) (put_in (oe_ent o) (set_e_open true) s)).
  assert (H1 : N s s1).
  { eapply (f_trans _ _ frame_N); [apply (put_N (oe_ent o) (set_e_open true)); reflexivity|]. apply put_N; [reflexivity|]. intros x Hx. exact Hx. }
  assert (Ho : isopen s1 (oe_ent o)).
  { exists (set_e_processed 0 (set_e_open true e)). unfold s1. rewrite !ent_put_same, E. split; reflexivity. }
  destruct H1 as [A1 A2 A3 A4]. split; [exact A4|]. intros O [I1 I2 I3 I4].
  pose proof (closed _ _ _ E Eo) as Hc. split.
  - cbn [s_open set_open map]. constructor; [|exact I1]. intros Hin. apply in_map_iff in Hin. destruct Hin as (o' & Eo' & Hin).
    apply Hc. rewrite <- Eo'. apply I2, Hin.
  - intros o' [<-|Hin]; [exact Ho|]. exact (A3 _ (I2 _ Hin)).
  - intros ref Hr. exact (A3 _ (I3 _ Hr)).
  - intros o' [<-|Hin]; [|exact (I4 _ Hin)]. intros Hr. apply Hc, I3, Hr.
Qed.
Lemma NoDup_suffix {A} (l1 l2 : list A) : NoDup (l1 ++ l2) -> NoDup l2.
Proof. induction l1 as [|x l1 IH]; [auto|]. cbn. intros H. inversion H; auto. Qed.
Lemma pop O o more outer s : s_open s = more ++ o :: outer -> inv O s -> inv O (set_open outer (put_in (oe_ent o) (set_e_open false) s)).
Proof.
  intros E [I1 I2 I3 I4]. rewrite E in *. rewrite map_app in I1. apply NoDup_suffix in I1. cbn [map] in I1.
  inversion I1 as [|x l Hn Hd]; subst. clear I1.
  assert (Hin : forall o', In o' outer -> In o' (more ++ o :: outer)) by (intros o' H; apply in_or_app; right; right; exact H).
  split.
  - exact Hd.
  - intros o' H. assert (Hne : oe_ent o' <> oe_ent o) by (intros Eq; apply Hn; rewrite <- Eq; apply in_map, H).
    destruct (I2 o' (Hin _ H)) as (e & Ee & Oe). exists e. split; [|exact Oe].
    change (ent (put_in (oe_ent o) (set_e_open false) s) (oe_ent o') = Some e). rewrite ent_put_other; assumption.
  - intros ref Hr. assert (Hne : ref <> oe_ent o).
    { intros ->. revert Hr. apply I4. apply in_or_app. right. left. reflexivity. }
    destruct (I3 ref Hr) as (e & Ee & Oe). exists e. split; [|exact Oe].
    change (ent (put_in (oe_ent o) (set_e_open false) s) ref = Some e). rewrite ent_put_other; assumption.
  - intros o' H. apply I4, Hin, H.
Qed.
Lemma pop_fixed ref outer s : fixed s (set_open outer (put_in ref (set_e_open false) s)).
Proof. exact (put_fixed ref (set_e_open false) s (fun _ => eq_refl)). Qed.
Lemma leave_cases ref outer n rest s :
  leave_entity ref outer n rest s = Ret true (put_in ref (set_e_processed (n - length rest)) s) \/
  leave_entity ref outer n rest s = Ret false (set_open outer (put_in ref (set_e_open false) s)).
Proof. unfold leave_entity, pbind, get. destruct (_ && _); [left|right]; reflexivity. Qed.
Lemma processed_N ref n s : N s (put_in ref (set_e_processed n) s).
Proof. apply put_N; [reflexivity|]. intros e H. exact H. Qed.

Section R.
Variable r : recs.
Hypothesis Hr : callees N G Gf r.
Ltac wg x := walk frame_G ltac:(idtac; first [x | apply keeps_N_G; lw_all leafs_N | apply keeps_N_G; same_N ]).
Ltac rec := first [apply (c_content _ _ _ _ Hr)|apply (c_prolog _ _ _ _ Hr)|apply keeps_N_G; apply (c_ext _ _ _ _ Hr)].
Lemma G_body (ref : entref) level text ac hm : keeps G Gf (if fst ref : bool then
    do (tok, n) <- scan_as EInternal false text; rc_prolog r EInternal text tok n hm ac
  else rc_content r level EInternal text hm).
Proof. destruct (fst ref); wg rec. Qed.
Lemma G_pie ref text b s e : ent s ref = Some e -> e_open e = false -> at_ G Gf (processInternalEntity r ref text b) s.
Proof.
  intros E Eo. unfold at_, processInternalEntity. unfold pbind at 1 2. rewrite upd_entity_eq. unfold pbind at 1. rewrite upd_entity_eq.
  unfold pbind at 1 2 3, get at 1 2, upd at 1.
  set (o := {| oe_ent := ref; oe_level := _; oe_between := b |}).
  match goal with |- context [set_open (o :: ?l) ?x] => change l with (s_open s); set (s2 := set_open (o :: s_open s) x) end.
  destruct (push o s e E Eo) as [F2 I2]. fold s2 in F2, I2.
  change (fixed s s2) in F2. change (forall O, inv O s -> inv O s2) in I2.
  match goal with |- context [rc_content r ?l EInternal text false] => pose proof (G_body ref l text false false s2) as HB end.
  match goal with |- match match ?m s2 with _ => _ end with _ => _ end => set (body := m); change m with body in HB end.
  destruct (body s2) as [rest s3|x s3|x]; [| |exact I].
  - destruct HB as [F3 I3].
    assert (X : forall O, inv O s -> inv O s3 /\ exists more, s_open s3 = more ++ o :: s_open s).
    { intros O Hi. apply I3. apply I2, Hi. }
    assert (F : fixed s s3) by (eapply fixed_trans; eassumption).
    unfold pbind at 1.
    destruct (leave_cases ref (s_open s) (length text) rest s3) as [-> | ->]; cbn [when].
    + pose proof (processed_N ref (length text - length rest) s3) as [B1 B2 B3 B4].
      split; [eapply fixed_trans; [exact F|exact B4]|]. intros O Hi. destruct (X O Hi) as (J & more & Em). split.
      * destruct J as [J1 J2 J3 J4]. split; [exact J1| |intros x Hx; exact (B3 _ (J3 _ Hx))|exact J4]. intros o' H. exact (B3 _ (J2 _ H)).
      * exists (more ++ [o]). cbn [s_open set_processor]. rewrite <- app_assoc. exact Em.
    + split; [eapply fixed_trans; [exact F|apply pop_fixed]|]. intros O Hi. destruct (X O Hi) as (J & more & Em). split.
      * exact (pop O o more (s_open s) s3 Em J).
      * exists []. reflexivity.
  - destruct HB as [Hx [F3 I3]]. split; [exact Hx|]. split; [eapply fixed_trans; eassumption|]. intros O Hi. apply I3, I2, Hi.
Qed.

Lemma at_G_get {A B} (f : st -> A) (k : A -> P B) s : at_ G Gf (k (f s)) s -> at_ G Gf (pbind (get f) k) s.
Proof. exact (fun H => H). Qed.
Lemma G_reference t e b n : keeps G Gf (content_entity r t e b n).
Proof.
  unfold content_entity. walk frame_G ltac:(idtac; first [ intercept | apply keeps_N_G; lw_all leafs_N | apply keeps_N_G; same_N ]).
  cbv zeta.
  match goal with |- at_ _ _ (match look ?n ?t with _ => _ end) _ => destruct (look n t) as [en|] eqn:E end.
  2: at_walk; unfold emit; wg ltac:(apply keeps_N_G; apply call_N).
  match goal with |- at_ _ _ (if ?c then _ else _) _ => destruct c end; [at_walk; wg nope|].
  destruct (e_open en) eqn:Eo; [at_walk; wg nope|].
  destruct (e_notation en); [at_walk; wg nope|].
  destruct (e_text en).
  - apply at_get. match goal with |- at_ _ _ (if ?c then _ else _) _ => destruct c end.
    + eapply G_pie; [exact E|exact Eo].
    + at_walk; unfold emit; wg ltac:(apply keeps_N_G; apply call_N).
  - unfold handler. apply at_get. match goal with |- at_ _ _ (if ?c then _ else _) _ => destruct c end; [|at_walk; wg nope].
    apply at_G. apply bracket; [eapply closed; [exact E|exact Eo]|apply keeps_get, frame_N|].
    intros. wn ltac:(apply (c_ext _ _ _ _ Hr)).
Qed.
Lemma G_parameter ref b : keeps G Gf (handleEntityRef r ref b).
Proof.
  unfold handleEntityRef, entity_at. intros s. change (at_ G Gf (handleEntityRef r ref b) s). unfold handleEntityRef, entity_at.
  unfold at_. unfold pbind at 1 2, get at 1.
  destruct (look_entity ref (s_dtd s)) as [en|] eqn:E; [|exact I]. unfold pret at 1.
  match goal with |- match ?m s with _ => _ end => change (at_ G Gf m s) end.
  destruct (e_open en) eqn:Eo; [at_walk; wg nope|].
  assert (Hc : ~ isopen s ref) by (eapply closed; [exact E|exact Eo]).
  destruct (e_text en).
  - unfold at_, pbind. pose proof (G_pie ref b0 b s en E Eo) as H. unfold at_ in H. destruct (processInternalEntity r ref b0 b s); exact H.
  - unfold handler. apply at_get. match goal with |- at_ _ _ (if ?c then _ else _) _ => destruct c end;
      [|at_walk; unfold keep_if_standalone; wg ltac:(apply keeps_N_G; first [apply (lw_keep_if_standalone _ leafs_N)])].
    apply at_G. unfold upd_dtd at 1. apply at_upd; [apply N_same; reflexivity|]. apply bracket.
    + intros (e' & E' & O'). apply Hc. exists e'. split; [|exact O']. rewrite <- E'. apply pents_same; reflexivity.
    + apply (c_ext _ _ _ _ Hr).
    + intros. unfold keep_if_standalone. wn nope.
Qed.

Lemma N_Gf a b : N a b -> Gf a b.
Proof. intros H. apply (f_weak _ _ frame_G), N_G, H. Qed.
Lemma keeps_G_Gf {A} (m : P A) : keeps G Gf m -> keeps Gf Gf m.
Proof. apply keeps_imp; intros; [apply (f_weak _ _ frame_G)|]; assumption. Qed.
Ltac wf x := walk frame_Gf ltac:(idtac; first [x | apply keeps_G_Gf, keeps_N_G; lw_all leafs_N | apply keeps_G_Gf, keeps_N_G; same_N ]).
Lemma G_internal b : keeps Gf Gf (internalEntityProcessor r b).
Proof.
  intros s. unfold internalEntityProcessor. unfold pbind at 1, get at 1.
  destruct (s_open s) as [|o outer] eqn:Es.
  { split; [discriminate|]. apply (f_refl _ _ frame_Gf). }
  unfold pbind at 1, get at 1.
  destruct (look_entity (oe_ent o) (s_dtd s)) as [x|] eqn:E; [|exact I].
  cbv zeta. set (text := match e_text x with Some t => t | None => [] end).
  unfold pbind at 1, inc at 1, lift at 1. destruct (inc_start (e_processed x) text) as [tb|]; [|exact I].
  pose proof (G_body (oe_ent o) (oe_level o) tb true false s) as HB. 
  unfold pbind at 1.
  match goal with |- match match ?m s with _ => _ end with _ => _ end => set (body := m); change m with body in HB end.
  destruct (body s) as [rest s3|y s3|y]; [| |exact I].
  - destruct HB as [F3 I3]. unfold pbind at 1.
    destruct (leave_cases (oe_ent o) outer (length text) rest s3) as [-> | ->].
    + apply (f_trans _ _ frame_Gf _ s3); [split; [exact F3|]; intros O Hi; apply I3, Hi|]. apply N_Gf, processed_N.
    + apply (at_from Gf Gf frame_Gf).
      * split; [eapply fixed_trans; [exact F3|apply pop_fixed]|]. intros O Hi. destruct (I3 O Hi) as (J & more & Em).
        rewrite Es in Em. exact (pop O o more outer s3 Em J).
      * wf ltac:(apply keeps_G_Gf; rec).
  - destruct HB as [Hx HB]. split; [exact Hx|exact HB].
Qed.
Lemma N_insert : keeps N N insert_subset.
Proof.
  intros s. unfold insert_subset, upd_dtd, upd. destruct (look_entity subset (s_dtd s)) as [e|] eqn:E.
  - apply N_same; reflexivity.
  - assert (X : forall ref, ref <> subset -> ent (set_dtd (put_entity subset entity0 (s_dtd s)) s) ref = ent s ref)
      by (intros ref Hr'; apply look_put_entity_other, Hr').
    split; [reflexivity|reflexivity| |].
    + intros ref (e & Ee & Oe). assert (ref <> subset) by (intros ->; unfold ent in Ee; congruence). exists e. rewrite X by assumption. auto.
    + intros ref e Hn Ee D. split; [exact D|]. rewrite X by exact Hn. eauto.
Qed.
Lemma N_upd_subset f : (forall e, e_open (f e) = e_open e) -> keeps N N (upd_entity subset f).
Proof. intros H s. rewrite upd_entity_eq. apply put_subset. intros e He. rewrite H. exact He. Qed.
Lemma N_entity_at ref : keeps N N (entity_at ref).
Proof. unfold entity_at. wn nope. Qed.
Lemma N_subset a b : keeps N N (external_subset r a b).
Proof.
  unfold external_subset.
  wn ltac:(first [apply (c_ext _ _ _ _ Hr)|apply N_insert|apply N_upd_subset; reflexivity|apply N_entity_at]).
Qed.
Lemma G_decl x s : (x = None \/ x = Some subset) -> G s (set_declEntity x s).
Proof.
  intros Hx. split.
  - intros ref e Hn E D. split; [|exists e; auto]. destruct Hx as [-> | ->]; cbn; congruence.
  - intros O [I1 I2 I3 I4]. split; [|exists []; reflexivity]. split; assumption.
Qed.
Lemma G_new ref e s : ent s ref = None -> G s (set_declEntity (Some ref) (set_dtd (put_entity ref e (s_dtd s)) s)).
Proof.
  intros E. assert (X : forall ref', ref' <> ref -> ent (set_declEntity (Some ref) (set_dtd (put_entity ref e (s_dtd s)) s)) ref' = ent s ref')
      by (intros ref' Hr'; apply look_put_entity_other, Hr').
  assert (Y : forall ref' x, ent s ref' = Some x -> ref' <> ref) by (intros ref' x Ex ->; congruence).
  assert (Z : forall ref', isopen s ref' -> isopen (set_declEntity (Some ref) (set_dtd (put_entity ref e (s_dtd s)) s)) ref').
  { intros ref' (x & Ex & Ox). exists x. rewrite X by (eapply Y; eassumption). auto. }
  split.
  - intros ref' x Hn Ex D. pose proof (Y _ _ Ex). split; [cbn; congruence|]. rewrite X by assumption. eauto.
  - intros O [I1 I2 I3 I4]. split; [|exists []; reflexivity]. split; auto.
Qed.
Lemma G_declare p e tok : keeps G Gf (declare_entity p e tok).
Proof.
  unfold declare_entity. 
  walk frame_G ltac:(idtac; first [ intercept | apply keeps_upd; intros; apply G_decl; left; reflexivity | apply keeps_N_G; lw_all leafs_N | apply keeps_N_G; same_N ]).
  match goal with |- at_ _ _ (match look_entity ?n ?t with _ => _ end) _ => destruct (look_entity n t) as [en|] eqn:E end.
  - at_walk. wg ltac:(apply keeps_upd; intros; apply G_decl; left; reflexivity).
  - do 2 apply at_get. unfold upd_dtd. unfold at_, pbind, upd, handler, get, pret. apply G_new. exact E.
Qed.
(* an update of the entity that is being declared *)
Definition Gd (ref : entref) (s s' : st) : Prop := s_declEntity s = Some ref -> G s s' /\ s_declEntity s' = Some ref.
Definition Gdf (ref : entref) (s s' : st) : Prop := s_declEntity s = Some ref -> Gf s s'.
Lemma frame_Gd ref : frame (Gd ref) (Gdf ref).
Proof.
  split.
  - intros s H. split; [apply (f_refl _ _ frame_G)|exact H].
  - intros a b c H1 H2 H. destruct (H1 H) as [G1 D1]. destruct (H2 D1) as [G2 D2]. split; [eapply (f_trans _ _ frame_G); eassumption|exact D2].
  - intros a b c H1 H2 H. destruct (H1 H) as [G1 D1]. eapply (f_fail _ _ frame_G); [exact G1|apply H2, D1].
  - intros a b H1 H. apply (f_weak _ _ frame_G), H1, H.
Qed.
Lemma N_Gd ref a b : N a b -> Gd ref a b.
Proof. intros H D. split; [apply N_G, H|]. rewrite (n_decl _ _ H). exact D. Qed.
Lemma keeps_N_Gd ref {A} (m : P A) : keeps N N m -> keeps (Gd ref) (Gdf ref) m.
Proof. apply keeps_imp; intros a b H; [apply N_Gd, H|]. intros _. apply N_Gf, H. Qed.
Lemma Gd_upd ref f : (forall e, e_open (f e) = e_open e) -> keeps (Gd ref) (Gdf ref) (upd_entity ref f).
Proof.
  intros Hf s. rewrite upd_entity_eq. intros D. split; [|exact D].
  assert (Z : forall ref', isopen s ref' -> isopen (put_in ref f s) ref').
  { intros ref' (x & Ex & Ox). destruct (entref_dec ref' ref) as [->|Hn].
    - exists (f x). rewrite ent_put_same, Ex, Hf. auto.
    - exists x. rewrite ent_put_other by exact Hn. auto. }
  split.
  - intros ref' x Hn Ex D'. split; [exact D'|]. rewrite ent_put_other by congruence. eauto.
  - intros O [I1 I2 I3 I4]. split; [|exists []; reflexivity]. split; auto.
Qed.
Lemma keeps_decl {A} (k : option entref -> P A) : (forall ref, keeps (Gd ref) (Gdf ref) (k (Some ref))) -> keeps G Gf (k None) ->
  keeps G Gf (pbind (get s_declEntity) k).
Proof.
  intros H1 H2 s. unfold pbind, get. destruct (s_declEntity s) as [ref|] eqn:D; [|apply H2].
  specialize (H1 ref s). destruct (k (Some ref) s) as [a s'|e s'|e]; [apply H1, D| |exact I].
  destruct H1 as [Hx H1]. split; [exact Hx|apply H1, D].
Qed.
Lemma N_storeEntityValue fuel t b : keeps N N (storeEntityValue (rc_ext r) fuel t b).
Proof. unfold storeEntityValue. wn ltac:(apply N_value; apply (c_ext _ _ _ _ Hr)). Qed.
Lemma storeEntityValue_code fuel t b : forall s, match storeEntityValue (rc_ext r) fuel t b s with Fail e _ => e <> XE_NONE | _ => True end.
Proof. intros s. pose proof (N_storeEntityValue fuel t b s) as H. destruct (storeEntityValue _ _ _ _ s); auto. apply H. Qed.
Lemma G_role ro k t e a b n : entity_role ro = true -> keeps G Gf (role_action r ro k t e a b n).
Proof.
  intros E. unfold role_action. destruct ro; try discriminate E; clear E; unfold quiet, emit.
  all: walk frame_G ltac:(idtac; first
    [ apply keeps_N_G; first [apply N_storeEntityValue|apply N_insert|apply N_upd_subset; reflexivity|apply N_entity_at|apply call_N]
    | apply keeps_upd; intros; apply G_decl; auto
    | match goal with |- keeps G Gf (pbind (get s_declEntity) _) =>
        apply keeps_decl; [intros ref; solve [match goal with |- keeps (Gd ?ref) _ _ =>
          walk (frame_Gd ref) ltac:(idtac; first [apply Gd_upd; reflexivity | apply keeps_N_Gd; first [apply N_entity_at|apply call_N|lw_all leafs_N|same_N]]) end]|] end
    | apply keeps_N_G; lw_all leafs_N | apply keeps_N_G; same_N ]).
Qed.
End R.
Lemma walker_N : walker N G Gf Gf Gf.
Proof.
  split; intros.
  - split; intros.
    + exact leafs_N.
    + exact frame_G.
    + apply N_G; assumption.
    + apply N_append.
    + apply N_value; assumption.
    + apply G_parameter; assumption.
    + apply N_subset; assumption.
    + apply G_declare.
    + apply G_decl. auto.
    + apply G_role; assumption.
    + apply N_G, N_same; reflexivity.
  - exact frame_Gf.
  - apply (f_weak _ _ frame_G); assumption.
  - assumption.
  - apply keeps_N_G, (tw_start_tag N tags_N).
  - apply keeps_N_G, (tw_empty_tag N tags_N).
  - apply keeps_N_G, (tw_end_tag N tags_N).
  - apply G_reference; assumption.
  - apply G_internal; assumption.
  - apply N_G, N_same; reflexivity.
  - apply N_G, N_same; reflexivity.
  - apply N_G, N_same; reflexivity.
Qed.
Lemma N_setContext c : keeps N N (setContext c).
Proof.
  unfold setContext. generalize (2 + length c) as fuel. intros fuel. generalize (@nil BinNums.N) as acc. revert c.
  induction fuel as [|fuel IH]; intros c acc; cbn [setContext_loop]; [apply keeps_die|].
  walk frame_N ltac:(idtac; first [apply IH|apply N_bind
    | match goal with |- keeps _ _ (upd_entity ?ref (set_e_open true)) =>
        let s := fresh in intros s; rewrite upd_entity_eq; apply put_N; reflexivity end
    | apply dtd_N; let d := fresh in intros d; repeat match goal with |- context [match ?x with _ => _ end] => destruct x end; split; reflexivity
    | lw_all leafs_N | same_N]).
Qed.
Lemma Gf_same s s' : N s s' -> Gf s s'. Proof. intros H. apply (f_weak _ _ frame_G), N_G, H. Qed.
Lemma Gf_run r : callees N G Gf r -> forall c p f b x, run r c p f b = Ok x -> Gf c (Api.r_core x).
Proof.
  intros Hr c p f b x E. unfold run in E.
  set (c1 := set_evEnd None (set_ev None (set_final f (set_parsing p c)))) in E.
  assert (H1 : Gf c c1) by (apply Gf_same, N_same; reflexivity).
  pose proof (wk_process _ _ _ _ _ walker_N r Hr b c1) as Hp. destruct (process r b c1) as [y s'|e s'|e]; [| |discriminate].
  - injection E as <-. exact (f_trans _ _ frame_Gf _ _ _ H1 Hp).
  - injection E as <-. exact (f_trans _ _ frame_Gf _ _ _ H1 (proj2 Hp)).
Qed.
Lemma Gf_start c c' : start c = Ok (Some c') -> Gf c c'.
Proof.
  unfold start. intros E. destruct (c_ns (s_cfg c)).
  - pose proof (N_setContext implicitContext c) as H. destruct (setContext implicitContext c) as [[] s|e s|e]; try discriminate.
    injection E as <-. apply Gf_same, H.
  - injection E as <-. apply (f_refl _ _ frame_Gf).
Qed.
Lemma Gf_parse_all r : callees N G Gf r -> forall c0 chunks a a' l, Gf c0 (Api.core a) ->
  parse_all r chunks a = Ok (a', l) -> Gf c0 (Api.core a').
Proof.
  intros Hr c0 chunks. induction chunks as [|[b f] chunks IH]; intros a a' l Ha E; cbn [parse_all] in E.
  - injection E as <- <-. exact Ha.
  - destruct (Api.parse (run r) start position b f true a) as [[a1 s]|] eqn:Ep; [|discriminate]. cbn [bind] in E.
    assert (H1 : Gf c0 (Api.core a1)).
    { assert (X : ApiInv.holds (Gf c0) (Gf c0) a1); [|unfold ApiInv.holds in X; destruct (Api.failed a1); exact X].
      eapply (ApiInv.parse_inv (run r) start position); [| | | | |exact Ep]; auto.
      - intros c p f' b' x Hc Ex. apply (Gf_run r Hr) in Ex. destruct (Api.is_none _); eapply (f_trans _ _ frame_Gf); eassumption.
      - intros c c' Hc Es. apply Gf_start in Es. eapply (f_trans _ _ frame_Gf); eassumption.
      - intros c c' Hc Es. apply Gf_start in Es. eapply (f_trans _ _ frame_Gf); eassumption.
      - unfold ApiInv.holds. destruct (Api.failed a); exact Ha. }
    destruct s; try (injection E as <- <-; exact H1).
    destruct (parse_all r chunks a1) as [[a2 l2]|] eqn:Er; [|discriminate]. cbn [bind] in E. injection E as <- <-.
    eapply IH; eassumption.
Qed.
(* a parser for a parameter entity works on the tables of the parser that created it *)
Lemma N_ext r : callees N G Gf r -> forall a b c d, keeps N N (ext r a b c d).
Proof.
  intros Hr context base sysid pubid s0. unfold ext, pbind.
  set (ev := EvExternalEntityRef context base sysid pubid).
  pose proof (call_N ev s0) as Hcall.
  destruct (call ev s0) as [re s|e s|e]; [|exact Hcall|exact I].
  destruct (child_plan re) as [[enc chunks]|]; [|exact Hcall].
  destruct (child_parser context enc s) as [[c|]|] eqn:Ec; [|exact Hcall|exact I].
  destruct (parse_all r chunks (new_parser c)) as [[a l]|] eqn:Ep; [|exact I].
  apply (Gf_parse_all r Hr c) in Ep; [|apply (f_refl _ _ frame_Gf)].
  destruct context; (eapply (f_trans _ _ frame_N); [exact Hcall|]); [apply N_same; reflexivity|].
  cbn [child_parser] in Ec. injection Ec as <-.
  match type of Ep with Gf ?c0 _ => set (c := c0) in * end. destruct Ep as [F Hi].
  assert (E : forall ref, ent c ref = ent s ref) by reflexivity.
  assert (Hj : inv (isopen s) (Api.core a)).
  { apply Hi. split.
    - constructor.
    - intros o [].
    - intros ref (x & Ex & Ox). exists x. auto.
    - intros o []. }
  destruct Hj as [J1 J2 J3 J4]. split.
  - reflexivity.
  - reflexivity.
  - intros ref H. exact (J3 ref H).
  - intros ref e Hn Ee D. split; [exact D|]. destruct (F ref e Hn) as (_ & e' & Ee' & De); [exact Ee|discriminate|]. exists e'. auto.
Qed.
Lemma N_knot n : callees N G Gf (knot n).
Proof. exact (callees_knot _ _ _ _ _ walker_N N_ext n). Qed.
Lemma Gf_steps n os c a a' l : Forall ApiInv.plain os -> Gf c (Api.core a) ->
  Api.steps (run (knot n)) start position os a = Ok (a', l) -> Gf c (Api.core a').
Proof.
  intros Hos Ha E.
  assert (X : ApiInv.holds (Gf c) (Gf c) a'); [|unfold ApiInv.holds in X; destruct (Api.failed a'); exact X].
  eapply (ApiInv.steps_inv (run (knot n)) start position); [| | | |exact Hos| |exact E]; auto.
  - intros c1 p f' b' x Hc Ex. apply (Gf_run _ (N_knot n)) in Ex. destruct (Api.is_none _); eapply (f_trans _ _ frame_Gf); eassumption.
  - intros c1 c' Hc Es. apply Gf_start in Es. eapply (f_trans _ _ frame_Gf); eassumption.
  - intros c1 c' Hc Es. apply Gf_start in Es. eapply (f_trans _ _ frame_Gf); eassumption.
  - unfold ApiInv.holds. destruct (Api.failed a); exact Ha.
Qed.
