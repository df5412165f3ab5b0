(* Which declaration a prefix resolves to. *)
From Coq Require Import List NArith ZArith Bool Arith Lia.
From Verif Require Import Base Encoding Tok Status Role State Bind Core.
From Verif Require Import Keep SpecScope Trace Scope ScopeTag ScopeTop SpecCtx.
From Verif Require Api ApiInv Nest.
Import ListNotations.

Lemma unused_fresh c : unused c -> fresh c.
Proof.
  intros [A [B C D] E F]. split; [split|exact E|exact F]; try assumption. intros q. apply begun_trace, D.
Qed.
Lemma sane_ordered s : sane s -> ordered (s_pid s) (s_log s).
Proof. intros [A B C D]. split; [exact B|exact C|]. intros p. destruct (D p) as [t H]. eapply trace_begun, H. Qed.
Lemma fresh_unused c : fresh c -> unused c.
Proof. intros [A B C]. split; [apply A|apply sane_ordered, A|exact B|exact C]. Qed.
Lemma proper_t0 : proper t0. Proof. intros H. elim H. reflexivity. Qed.
Lemma scope_of base s : inv base s -> in_scope [] (mine s) = map (decl_of (sep s)) (flat_map State.t_bindings (s_tags s)).
Proof.
  intros H. pose proof (trace_scope _ _ _ proper_t0 (h_trace _ _ _ _ _ _ _ _ H)) as E. cbn [scope t0 app flat_map] in E. rewrite E.
  unfold stack, decls. clear. induction (s_tags s) as [|tg l IH]; cbn [map flat_map snd]; [reflexivity|]. rewrite map_app, IH. reflexivity.
Qed.
Lemma same_prefix p b : b <> PDangling -> same p (prefix_name b) = if prefref_dec (prefix p) b then true else false.
Proof.
  intros H. destruct (prefref_dec (prefix p) b) as [<-|Hn]; [destruct p; cbn; [apply Nest.beqb_refl|reflexivity]|].
  destruct p as [p|], b as [|n|]; cbn; try reflexivity; try contradiction; try (elim Hn; reflexivity).
  destruct (beqb p n) eqn:E; [|reflexivity]. apply Nest.beqb_eq in E. subst n. elim Hn. reflexivity.
Qed.
Lemma chain_pure sep base bs : forall f, chain sep base f bs -> Forall (fun b => b_prefix b <> PDangling /\ exists u, b_uri b = u ++ (if (sep =? 0)%N then [] else [sep])) bs.
Proof. induction bs as [|b bs IH]; intros f H; [constructor|]. destruct H as (H1 & _ & H3). constructor; [exact H1|eapply IH, H3]. Qed.
Lemma find_decl sep p bs : Forall (fun b => b_prefix b <> PDangling) bs ->
  find (fun d => same p (fst d)) (map (decl_of sep) bs) =
  match find (fun b => if prefref_dec (prefix p) (b_prefix b) then true else false) bs with Some b => Some (decl_of sep b) | None => None end.
Proof.
  induction 1 as [|b bs H _ IH]; cbn [map find]; [reflexivity|]. cbn [decl_of fst].
  rewrite same_prefix by exact H. destruct (prefref_dec (prefix p) (b_prefix b)); [reflexivity|exact IH].
Qed.
Lemma plain_of sep b u : b_uri b = u ++ (if (sep =? 0)%N then [] else [sep]) -> plain_uri sep b = u.
Proof. intros E. unfold plain_uri. rewrite E. destruct (sep =? 0)%N; [apply app_nil_r|apply removelast_last]. Qed.
Lemma resolution c s p u : p <> Some xml_prefix -> inv (bound_in c) s -> s_cfg s = s_cfg c ->
  (in_force s (prefix p) u <->
   match declared p (marks (s_pid s) (s_log s)) with Some d => d = Some u | None => in_force c (prefix p) u end).
Proof.
  intros Hp Hi Ec. pose proof (h_chain _ _ _ _ _ _ _ _ Hi) as Hc. pose proof (chain_pure _ _ _ _ Hc) as Hpure.
  assert (Hx : prefix p <> xml) by (destruct p; [intros E; injection E as ->; apply Hp; reflexivity|discriminate]).
  pose proof (chain_find _ _ _ _ _ Hx Hc) as E.
  unfold declared. fold (mine s). rewrite (scope_of _ _ Hi), find_decl by (eapply Forall_impl; [|exact Hpure]; intros b X; apply X).
  unfold in_force at 1. change (binding_of (prefix p) (s_dtd s)) with (bound_in s (prefix p)). rewrite E.
  destruct (find _ _) as [b|] eqn:Ef.
  - apply find_some in Ef as [Hin _]. rewrite Forall_forall in Hpure. destruct (Hpure b Hin) as [Hd [u' Hu]]. unfold value_of.
    assert (Hs : separator s = if (sep s =? 0)%N then [] else [sep s]) by reflexivity.
    assert (Hd' : snd (decl_of (sep s) b) = None \/ snd (decl_of (sep s) b) = Some u').
    { unfold decl_of. cbn [snd]. rewrite (plain_of _ _ _ Hu). destruct (b_prefix b); [destruct (is_nil u'); auto|auto|auto]. }
    destruct Hd' as [-> | ->]; [split; [intros (b' & X & _); discriminate X|discriminate]|].
    rewrite Hs. split.
    + intros (b' & X & Y). injection X as <-. rewrite Hu in Y. apply app_inv_tail in Y. subst. reflexivity.
    + intros X. injection X as ->. exists b. auto.
  - unfold in_force, separator. rewrite Ec. reflexivity.
Qed.
Lemma resolved n os c a l : unused c -> Forall ApiInv.plain os ->
  Api.steps (run (knot n)) start position os (new_parser c) = Ok (a, l) -> Api.failed a = false ->
  forall p u, p <> Some xml_prefix ->
  (in_force (Api.core a) (prefix p) u <->
   match declared p (marks (s_pid c) (s_log (Api.core a))) with Some d => d = Some u | None => in_force c (prefix p) u end).
Proof.
  intros Hu Hos E Hf p u Hp. pose proof (history_inv _ _ _ _ _ (unused_fresh _ Hu) Hos E) as H. unfold ApiInv.holds in H. rewrite Hf in H.
  destruct H as [Hi [g1 g2 _ _]]. rewrite <- g2. apply resolution; assumption.
Qed.
Lemma ordered_after n os c a l : unused c -> Forall ApiInv.plain os ->
  Api.steps (run (knot n)) start position os (new_parser c) = Ok (a, l) -> ordered (s_pid c) (s_log (Api.core a)).
Proof.
  intros Hu Hos E. pose proof (history_inv _ _ _ _ _ (unused_fresh _ Hu) Hos E) as H. apply holds_W in H; [|apply I1_W1].
  destruct H as [Hs [g1 g2 _ _]]. rewrite <- g2. apply sane_ordered, Hs.
Qed.
Lemma restored n os1 os2 c a1 a2 l1 l2 m : unused c -> Forall ApiInv.plain os1 -> Forall ApiInv.plain os2 ->
  Api.steps (run (knot n)) start position os1 (new_parser c) = Ok (a1, l1) -> Api.failed a1 = false ->
  Api.steps (run (knot n)) start position os2 (new_parser c) = Ok (a2, l2) -> Api.failed a2 = false ->
  marks (s_pid c) (s_log (Api.core a2)) = marks (s_pid c) (s_log (Api.core a1)) ++ m -> nested m ->
  forall p u, p <> Some xml_prefix -> (in_force (Api.core a2) (prefix p) u <-> in_force (Api.core a1) (prefix p) u).
Proof.
  intros Hu H1 H2 E1 F1 E2 F2 Em Hm p u Hp. rewrite (resolved _ _ _ _ _ Hu H1 E1 F1 p u Hp), (resolved _ _ _ _ _ Hu H2 E2 F2 p u Hp).
  unfold declared. rewrite Em, in_scope_app, (in_scope_nested _ Hm). reflexivity.
Qed.
Lemma unused_root cfg enc pep foreign base : listening (c_h cfg) -> unused (root cfg enc pep foreign base).
Proof. intros H. apply fresh_unused, root_fresh, H. Qed.
Lemma unused_child ctx enc s c : listening (c_h (s_cfg s)) -> ordered (s_pid s) (s_log s) ->
  child_parser (Some ctx) enc s = Ok (Some c) -> unused c.
Proof.
  intros Hl [A B C] E. apply fresh_unused. eapply child_some; [|exact E]. split; try assumption. intros q. apply begun_trace, C.
Qed.
