(* The automaton behind nested namespace and element events. *)
From Coq Require Import List NArith ZArith Bool Arith Lia.
From Verif Require Import Base Encoding Status Role State SpecScope.
From Verif Require Nest.
Import ListNotations.

(* declarations of the tag that is being read; open elements with their declarations; declarations to be withdrawn.
   The latest first. *)
Definition tstate : Type := (list decl * list (bytes * list decl) * list decl)%type.
Definition tstep (t : tstate) (m : mark) : option tstate :=
  match t, m with
  | (pend, stk, []), OpenNs d => Some (d :: pend, stk, [])
  | (pend, stk, []), OpenEl n => Some ([], (n, pend) :: stk, [])
  | ([], (n', ds) :: stk, []), CloseEl n => if beqb n' n then Some ([], stk, ds) else None
  | ([], stk, d :: cl), CloseNs p => if same p (fst d) then Some ([], stk, cl) else None
  | (d :: pend, stk, []), CloseNs p => if same p (fst d) then Some ([], stk, pend) else None
  | _, _ => None
  end.
Fixpoint trace (t : tstate) (l : list mark) : option tstate :=
  match l with
  | [] => Some t
  | m :: l => match tstep t m with Some t => trace t l | None => None end
  end.
Definition t0 : tstate := ([], [], []).

Lemma trace_app l : forall t l', trace t (l ++ l') = match trace t l with Some t' => trace t' l' | None => None end.
Proof. induction l as [|m l IH]; intros t l'; cbn [trace app]; [reflexivity|]. destruct (tstep t m); [apply IH|reflexivity]. Qed.
Lemma same_refl p : same p p = true.
Proof. destruct p; [apply Nest.beqb_refl|reflexivity]. Qed.
Lemma same_eq p q : same p q = true <-> p = q.
Proof.
  destruct p as [p|], q as [q|]; cbn [same]; try (split; (reflexivity || discriminate)).
  rewrite Nest.beqb_eq. split; [intros ->; reflexivity|intros E; injection E; auto].
Qed.

(* what is still to come when everything is to be closed *)
Definition withdrawn (ds : list decl) : list mark := map (fun d => CloseNs (fst d)) ds.
Definition ending (stk : list (bytes * list decl)) (l : list mark) : Prop :=
  exists bs, Forall nested bs /\ Forall2 (fun e b => True) stk bs /\
    l = concat (map (fun '(n, ds, b) => CloseEl n :: withdrawn ds ++ b) (combine stk bs)).
Definition coming (t : tstate) (l : list mark) : Prop :=
  let '(pend, stk, cl) := t in
  match cl with
  | _ :: _ => pend = [] -> exists w z, nested w /\ ending stk z /\ l = withdrawn cl ++ w ++ z
  | [] => exists more mid w z, (mid = [] \/ exists n b, nested b /\ mid = OpenEl n :: b ++ [CloseEl n]) /\
            nested w /\ ending stk z /\ l = opens more ++ mid ++ withdrawn (rev more ++ pend) ++ w ++ z
  end.
Definition proper (t : tstate) : Prop := let '(pend, _, cl) := t in cl <> [] -> pend = [].
Lemma proper_step t m t' : proper t -> tstep t m = Some t' -> proper t'.
Proof.
  destruct t as [[pend stk] cl]. destruct m, pend as [|d0 pend], stk as [|[n' ds] stk], cl as [|c cl]; cbn; intros H E; try discriminate;
    try destruct (same _ _); try destruct (beqb _ _); try discriminate; injection E as <-; cbn; intros; auto; congruence.
Qed.
Lemma coming_closed stk cl l : coming ([], stk, cl) l <-> exists w z, nested w /\ ending stk z /\ l = withdrawn cl ++ w ++ z.
Proof.
  destruct cl as [|d cl]; cbn [coming]; [|split; [intros H; apply H; reflexivity|auto]]. split.
  - intros (more & mid & w & z & Hm & Hw & Hz & ->). rewrite app_nil_r.
    exists ((opens more ++ mid ++ withdrawn (rev more)) ++ w), z. split; [|split; [exact Hz|]].
    + apply nt_app; [|exact Hw]. destruct Hm as [->|(n & b & Hb & ->)]; [apply (nt_none more)|apply (nt_elem more); exact Hb].
    + cbn [withdrawn map app]. rewrite <- !app_assoc. reflexivity.
  - intros (w & z & Hw & Hz & ->). exists [], [], w, z. repeat split; auto.
Qed.
Lemma ending_cons n ds stk w z : nested w -> ending stk z -> ending ((n, ds) :: stk) (CloseEl n :: withdrawn ds ++ w ++ z).
Proof.
  intros Hw (bs & Hb & Hl & ->). exists (w :: bs). split; [constructor; assumption|]. split; [constructor; auto|].
  cbn [combine map concat app]. rewrite <- app_assoc. reflexivity.
Qed.
Lemma ending_inv n ds stk l : ending ((n, ds) :: stk) l -> exists w z, nested w /\ ending stk z /\ l = CloseEl n :: withdrawn ds ++ w ++ z.
Proof.
  intros (bs & Hb & Hl & ->). inversion Hl as [|? b ? bs' _ Hl']; subst. inversion Hb; subst. exists b, (concat (map (fun '(n, ds, b) => CloseEl n :: withdrawn ds ++ b) (combine stk bs'))).
  split; [assumption|]. split; [exists bs'; auto|]. cbn [combine map concat app]. rewrite <- app_assoc. reflexivity.
Qed.
Lemma trace_coming l : forall t, proper t -> trace t l = Some t0 -> coming t l.
Proof.
  induction l as [|m l IH]; intros t Hp E; cbn [trace] in E.
  - injection E as ->. apply coming_closed. exists [], []. split; [constructor|]. split; [|reflexivity].
    exists []. repeat split; constructor.
  - destruct (tstep t m) as [t'|] eqn:Et; [|discriminate]. apply IH in E; [|eapply proper_step; eassumption].
    destruct t as [[pend stk] cl]. destruct m as [d|n|n|p].
    + (* a declaration *)
      destruct cl as [|c cl]; [|destruct pend, stk as [|[]]; discriminate Et]. assert (t' = (d :: pend, stk, [])) as -> by (destruct pend, stk as [|[]]; cbn in Et; congruence).
      destruct E as (more & mid & w & z & Hm & Hw & Hz & ->). exists (d :: more), mid, w, z.
      split; [exact Hm|]. split; [exact Hw|]. split; [exact Hz|]. cbn [opens map app rev]. rewrite <- app_assoc. reflexivity.
    + (* a start *)
      destruct cl as [|c cl]; [|destruct pend, stk as [|[]]; discriminate Et]. assert (t' = ([], (n, pend) :: stk, [])) as -> by (destruct pend, stk as [|[]]; cbn in Et; congruence).
      apply coming_closed in E as (w & z & Hw & Hz & ->). apply ending_inv in Hz as (w' & z' & Hw' & Hz' & ->).
      exists [], (OpenEl n :: w ++ [CloseEl n]), w', z'. split; [right; eauto|]. split; [exact Hw'|]. split; [exact Hz'|].
      cbn [opens map app rev withdrawn]. rewrite <- !app_assoc. reflexivity.
    + (* an end *)
      destruct pend; [|destruct cl, stk as [|[]]; discriminate Et]. destruct stk as [|[n' ds] stk]; [destruct cl; discriminate Et|].
      destruct cl; [|discriminate Et]. cbn in Et. destruct (beqb n' n) eqn:En; [|discriminate]. injection Et as <-.
      apply Nest.beqb_eq in En. subst n'. apply coming_closed in E as (w & z & Hw & Hz & ->).
      apply coming_closed. exists [], (CloseEl n :: withdrawn ds ++ w ++ z). split; [constructor|].
      split; [|reflexivity]. apply ending_cons; assumption.
    + (* a withdrawal *)
      destruct pend as [|d pend].
      * destruct cl as [|d cl]; [destruct stk as [|[]]; discriminate|].
        assert (E' : tstep ([], stk, d :: cl) (CloseNs p) = if same p (fst d) then Some ([], stk, cl) else None) by (destruct stk as [|[]]; reflexivity).
        rewrite E' in Et. destruct (same p (fst d)) eqn:Ed; [|discriminate]. injection Et as <-. apply same_eq in Ed. subst p.
        apply coming_closed in E as (w & z & Hw & Hz & ->). apply coming_closed. exists w, z. auto.
      * destruct cl as [|c cl]; [|destruct stk as [|[]]; discriminate].
        assert (E' : tstep (d :: pend, stk, []) (CloseNs p) = if same p (fst d) then Some ([], stk, pend) else None) by (destruct stk as [|[]]; reflexivity).
        rewrite E' in Et. destruct (same p (fst d)) eqn:Ed; [|discriminate]. injection Et as <-. apply same_eq in Ed. subst p.
        apply coming_closed in E as (w & z & Hw & Hz & ->). exists [], [], w, z.
        split; [left; reflexivity|]. auto.
Qed.
Lemma trace_nested l : trace t0 l = Some t0 -> nested l.
Proof.
  intros E. apply trace_coming in E; [|intros H; elim H; reflexivity]. apply (proj1 (coming_closed [] [] l)) in E as (w & z & Hw & (bs & _ & Hl & ->) & ->).
  inversion Hl; subst. cbn. rewrite app_nil_r. exact Hw.
Qed.
(* everything can be closed *)
Lemma trace_closing cl : forall stk, trace ([], stk, cl) (withdrawn cl) = Some ([], stk, []).
Proof.
  induction cl as [|d cl IH]; intros stk; cbn [withdrawn map trace]; [reflexivity|].
  assert (E' : tstep ([], stk, d :: cl) (CloseNs (fst d)) = Some ([], stk, cl)) by (destruct stk as [|[]]; cbn [tstep]; rewrite same_refl; reflexivity).
  rewrite E'. apply IH.
Qed.
Lemma trace_pending d pend stk : trace (d :: pend, stk, []) (withdrawn (d :: pend)) = Some ([], stk, []).
Proof.
  cbn [withdrawn map trace].
  assert (E' : tstep (d :: pend, stk, []) (CloseNs (fst d)) = Some ([], stk, pend)) by (destruct stk as [|[]]; cbn [tstep]; rewrite same_refl; reflexivity).
  rewrite E'. apply trace_closing.
Qed.
Lemma trace_stack stk : exists l, trace ([], stk, []) l = Some t0.
Proof.
  induction stk as [|[n ds] stk [l E]]; [exists []; reflexivity|]. exists (CloseEl n :: withdrawn ds ++ l).
  cbn [trace tstep]. rewrite Nest.beqb_refl, trace_app, trace_closing. exact E.
Qed.
Lemma trace_begun l t : trace t0 l = Some t -> begun l.
Proof.
  intros E. assert (Hp : proper t).
  { assert (H0 : proper t0) by (intros H; elim H; reflexivity). revert H0 E. generalize t0. induction l as [|m l IH]; intros t1 H1 E; cbn [trace] in E; [injection E as <-; exact H1|].
    destruct (tstep t1 m) eqn:Es; [|discriminate]. eapply IH; [|exact E]. eapply proper_step; eassumption. }
  destruct t as [[pend stk] cl]. destruct (trace_stack stk) as [z Hz].
  assert (H : exists r, trace (pend, stk, cl) r = Some ([], stk, [])).
  { destruct cl as [|d cl].
    - destruct pend as [|d pend]; [exists []; reflexivity|]. eexists. apply trace_pending.
    - rewrite (Hp ltac:(discriminate)). eexists. apply trace_closing. }
  destruct H as [r Hr]. exists (r ++ z). apply trace_nested. rewrite trace_app, E, trace_app, Hr. exact Hz.
Qed.

(* what is in scope *)
Definition scope (t : tstate) : list decl := let '(pend, stk, cl) := t in pend ++ cl ++ flat_map snd stk.
Lemma scope_step t m t' k : proper t -> tstep t m = Some t' -> in_scope (scope t ++ k) [m] = scope t' ++ k.
Proof.
  destruct t as [[pend stk] cl]. destruct m, pend as [|d0 pend], stk as [|[n' ds] stk], cl as [|c cl]; cbn [tstep in_scope]; intros H E; try discriminate;
    try destruct (same _ _); try destruct (beqb _ _); try discriminate; try (specialize (H ltac:(discriminate)); discriminate H); injection E as <-; cbn; rewrite ?app_nil_r; try reflexivity.
Qed.
Lemma in_scope_app l : forall k l', in_scope k (l ++ l') = in_scope (in_scope k l) l'.
Proof. induction l as [|[] l IH]; intros k l'; cbn [in_scope app]; [reflexivity|..]; apply IH. Qed.
Lemma trace_scope l : forall t t', proper t -> trace t l = Some t' -> in_scope (scope t) l = scope t'.
Proof.
  induction l as [|m l IH]; intros t t' Hp E; cbn [trace] in E; [injection E as ->; reflexivity|].
  destruct (tstep t m) as [t1|] eqn:Es; [|discriminate]. change (m :: l) with ([m] ++ l). rewrite in_scope_app.
  pose proof (scope_step _ _ _ [] Hp Es) as H. rewrite !app_nil_r in H. rewrite H. apply IH; [|exact E]. eapply proper_step; eassumption.
Qed.

(* nested events lead back *)
Lemma trace_opens ds : forall pend stk, trace (pend, stk, []) (opens ds) = Some (rev ds ++ pend, stk, []).
Proof.
  induction ds as [|d ds IH]; intros pend stk; cbn [opens map trace rev]; [reflexivity|].
  assert (E : tstep (pend, stk, []) (OpenNs d) = Some (d :: pend, stk, [])) by (destruct pend, stk as [|[]]; reflexivity).
  rewrite E. fold (opens ds). rewrite IH, <- app_assoc. reflexivity.
Qed.
Lemma trace_back l : nested l -> forall stk, trace ([], stk, []) l = Some ([], stk, []).
Proof.
  induction 1 as [|a b Ha IHa Hb IHb|ds n b Hb IH|ds]; intros stk.
  - reflexivity.
  - rewrite trace_app, IHa. apply IHb.
  - rewrite trace_app, trace_opens, app_nil_r. cbn [app trace].
    assert (E : tstep (rev ds, stk, []) (OpenEl n) = Some ([], (n, rev ds) :: stk, [])) by (destruct (rev ds), stk as [|[]]; reflexivity).
    rewrite E, <- app_assoc, trace_app, IH. cbn [app trace tstep]. rewrite Nest.beqb_refl. apply trace_closing.
  - rewrite trace_app, trace_opens, app_nil_r. unfold closes. fold (withdrawn (rev ds)). destruct (rev ds); [reflexivity|apply trace_pending].
Qed.
Lemma begun_trace l : begun l -> exists t, trace t0 l = Some t.
Proof.
  intros [rest H]. apply trace_back with (stk := []) in H. change ([], [], []) with t0 in H. rewrite trace_app in H.
  destruct (trace t0 l) as [t|]; [exists t; reflexivity|discriminate].
Qed.
Lemma in_scope_nested l : nested l -> forall k, in_scope k l = k.
Proof.
  assert (Ho : forall ds k, in_scope k (opens ds) = rev ds ++ k).
  { induction ds as [|d ds IH]; intros k; cbn [opens map in_scope rev app]; [reflexivity|]. fold (opens ds). rewrite IH, <- app_assoc. reflexivity. }
  assert (Hc : forall ds k, in_scope (ds ++ k) (withdrawn ds) = k).
  { induction ds as [|d ds IH]; intros k; cbn [withdrawn map in_scope app tl]; [reflexivity|]. apply IH. }
  induction 1 as [|a b Ha IHa Hb IHb|ds n b Hb IH|ds]; intros k.
  - reflexivity.
  - rewrite in_scope_app, IHa. apply IHb.
  - rewrite in_scope_app, Ho. cbn [app in_scope]. rewrite <- app_assoc, in_scope_app, IH. cbn [app in_scope]. apply Hc.
  - rewrite in_scope_app, Ho. apply Hc.
Qed.
