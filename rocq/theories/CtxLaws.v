(* Writing and reading the context string. *)
From Coq Require Import List NArith ZArith Bool Arith Lia Permutation.
From Verif Require Import Base Encoding Tok TokMisc XmlDecl Status Role State AttVal Bind Atts Scaf Content Prolog Core.
From Verif Require Import Keep SpecNs NsRules SpecCtx.
From Verif Require Nest.
Import ListNotations.
Local Open Scope nat_scope.

Inductive entry := EB (p : prefref) (u : bytes) | EE (n : bytes).
Definition show (x : entry) : bytes :=
  match x with
  | EB p u => (match p with PNamed n => n | _ => [] end) ++ [61%N] ++ u
  | EE n => n
  end.
Definition good (x : entry) : Prop :=
  match x with
  | EB p u => match p with PNamed n => word n | PDefault => True | PDangling => False end /\
              u <> [] /\ ~ In FF u /\ allowed (prefix_name p) u
  | EE n => word n
  end.

Definition known_prefix (p : prefref) (d : dtd) : dtd :=
  match p with
  | PNamed n => match look n (d_prefixes d) with None => set_d_prefixes (put n None (d_prefixes d)) d | Some _ => d end
  | _ => d
  end.
Definition bound (p : prefref) (u : bytes) (s : st) : binding := MkB p None (u ++ separator s) (binding_of p (s_dtd s)).
Definition apply (x : entry) (s : st) : st :=
  match x with
  | EB p u =>
      let s1 := set_dtd (known_prefix p (s_dtd s)) s in
      set_inherited (bound p u s1 :: s_inherited s) (set_dtd (bind_prefix p (Some (bound p u s1)) (s_dtd s1)) s1)
  | EE n =>
      set_dtd (match look_entity (false, n) (s_dtd s) with
               | Some e => put_entity (false, n) (set_e_open true e) (s_dtd s) | None => s_dtd s end) s
  end.

Lemma until_sep_app u : forall r, ~ In FF u -> (r = [] \/ exists r', r = FF :: r') -> until_sep (u ++ r) = (u, r).
Proof.
  induction u as [|c u IH]; intros r H Hr.
  - destruct Hr as [->|[r' ->]]; reflexivity.
  - cbn [app until_sep]. destruct (N.eqb_spec c CONTEXT_SEP) as [->|Hc]; [destruct H; now left|].
    rewrite IH; [reflexivity|intros X; apply H; now right|exact Hr].
Qed.

(* the characters of a word are taken over one by one *)
Lemma loop_word n : forall fuel acc r s, ~ In EQUALS n -> ~ In FF n ->
  setContext_loop (length n + fuel) acc (n ++ r) s = setContext_loop fuel (acc ++ n) r s.
Proof.
  induction n as [|c n IH]; intros fuel acc r s H1 H2.
  - cbn [length app Nat.add]. rewrite app_nil_r. reflexivity.
  - cbn [length app Nat.add setContext_loop]. cbv zeta.
    destruct (N.eqb_spec c CONTEXT_SEP) as [->|Hc]; [destruct H2; now left|].
    destruct (N.eqb_spec c 61%N) as [->|Hc']; [destruct H1; now left|].
    rewrite IH; [|intros X; apply H1; now right|intros X; apply H2; now right].
    rewrite <- app_assoc. reflexivity.
Qed.

Lemma addBinding_inherits p u bs s : p <> PDangling -> u <> [] -> allowed (prefix_name p) u ->
  addBinding p None u bs s = Ret (bound p u s :: bs) (set_dtd (bind_prefix p (Some (bound p u s)) (s_dtd s)) s).
Proof.
  intros Hp Hu Ha. rewrite addBinding_eq by exact Hp. rewrite (proj2 (verdict_allowed _ _) Ha).
  destruct p, u; try congruence; reflexivity.
Qed.

Definition ends (r : bytes) : Prop := r = [] \/ exists r', r = FF :: r'.
Lemma loop_entry x r fuel s : good x -> ends r ->
  setContext_loop (S (length (show x) + fuel)) [] (show x ++ r) s =
  setContext_loop (match x with EE _ => fuel | EB _ u => S (length u + fuel) end) [] (tl r) (apply x s).
Proof.
  intros G Hr. destruct x as [p u|n]; cbn [good] in G.
  - destruct G as (Hp & Hu & Hf & Ha).
    set (n := match p with PNamed n => n | _ => [] end).
    assert (Hn : ~ In EQUALS n /\ ~ In FF n /\ (if is_nil n then PDefault else PNamed n) = p).
    { subst n. destruct p as [|n|]; [cbn; auto| |contradiction]. destruct Hp as (H1 & H2 & H3). destruct n; [contradiction|].
      auto. }
    destruct Hn as (H1 & H2 & H3).
    assert (Hd : p <> PDangling) by (destruct p; [discriminate|discriminate|contradiction]).
    cbn [show]. fold n. rewrite <- !app_assoc.
    replace (S (length (n ++ [61%N] ++ u) + fuel)) with (length n + S (S (length u + fuel)))
      by (rewrite !app_length; cbn [length]; lia).
    rewrite loop_word by assumption. generalize (S (length u + fuel)) as f. intros f. cbn [app setContext_loop]. cbv zeta.
    change (61 =? CONTEXT_SEP)%N with false. change (61 =? 61)%N with true. cbv iota.
    rewrite H3. rewrite until_sep_app by assumption.
    unfold pbind at 1. unfold upd_dtd at 1, upd at 1.
    change (set_dtd (match p with
      | PNamed n0 => match look n0 (d_prefixes (s_dtd s)) with
                     | Some _ => s_dtd s | None => set_d_prefixes (put n0 None (d_prefixes (s_dtd s))) (s_dtd s) end
      | _ => s_dtd s end) s) with (set_dtd (known_prefix p (s_dtd s)) s).
    unfold apply. set (s1 := set_dtd (known_prefix p (s_dtd s)) s). cbv zeta.
    unfold pbind at 1, get at 1. unfold pbind at 1, try.
    rewrite addBinding_inherits by assumption. reflexivity.
  - destruct G as (H0 & H1 & H2). cbn [show].
    replace (S (length n + fuel)) with (length n + S fuel) by lia.
    rewrite loop_word by assumption. cbn [app setContext_loop]. cbv zeta.
    destruct Hr as [->|[r' ->]].
    + replace (is_nil n) with false by (destruct n; [contradiction|reflexivity]). reflexivity.
    + change (FF =? CONTEXT_SEP)%N with true. reflexivity.
Qed.
Definition applies (es : list entry) (s : st) : st := fold_left (fun s x => apply x s) es s.
Lemma loop_entries es : forall fuel s, Forall good es -> length (join CONTEXT_SEP (map show es)) + 2 <= fuel ->
  setContext_loop fuel [] (join CONTEXT_SEP (map show es)) s = Ret true (applies es s).
Proof.
  induction es as [|x es IH]; intros fuel s G Hf.
  - destruct fuel as [|fuel]; [cbn in Hf; lia|]. reflexivity.
  - pose proof (Forall_inv G) as Gx. pose proof (Forall_inv_tail G) as Ge. clear G.
    unfold applies. cbn [fold_left]. fold (applies es (apply x s)).
    assert (E : exists r, join CONTEXT_SEP (map show (x :: es)) = show x ++ r /\ ends r /\ tl r = join CONTEXT_SEP (map show es)
                /\ (r = [] -> es = [])).
    { destruct es as [|y es].
      - exists []. cbn [map join]. rewrite app_nil_r. split; [reflexivity|]. split; [now left|]. auto.
      - exists (FF :: join CONTEXT_SEP (map show (y :: es))). split; [reflexivity|]. split; [right; eexists; reflexivity|].
        split; [reflexivity|discriminate]. }
    destruct E as (r & E & Hr & Ht & Hn). rewrite E in *. rewrite app_length in Hf.
    assert (Hl : length (tl r) + 2 <= fuel - S (length (show x)) + (match r with [] => 1 | _ => 0 end)).
    { destruct r; cbn [tl length] in *; lia. }
    replace fuel with (S (length (show x) + (fuel - S (length (show x))))) by lia.
    rewrite loop_entry by assumption. rewrite Ht in *.
    destruct r as [|c r].
    + rewrite (Hn eq_refl). cbn [map join applies fold_left].
      destruct x as [p u|n].
      * reflexivity.
      * destruct (fuel - S (length (show (EE n)))) eqn:E2; [cbn [length] in *; lia|]. reflexivity.
    + apply IH; [assumption|]. destruct x; lia.
Qed.

(* what is in force after all the entries *)
Definition is_b (p : prefref) (x : entry) : bool :=
  match x, p with
  | EB PDefault _, PDefault => true
  | EB (PNamed n) _, PNamed m => beqb n m
  | _, _ => false
  end.
Definition is_e (n : bytes) (x : entry) : bool := match x with EE m => beqb n m | _ => false end.

Lemma look_put {A} n m (v : A) t : look n (put m v t) = if beqb n m then Some v else look n t.
Proof.
  induction t as [|[k w] t IH]; cbn [put look].
  - reflexivity.
  - destruct (beqb m k) eqn:E; cbn [look].
    + apply Nest.beqb_eq in E. subst k. destruct (beqb n m) eqn:E2; reflexivity.
    + rewrite IH. destruct (beqb n k) eqn:E3; [|reflexivity]. apply Nest.beqb_eq in E3. subst k.
      destruct (beqb n m) eqn:E4; [|reflexivity]. apply Nest.beqb_eq in E4. subst m. rewrite Nest.beqb_refl in E. discriminate.
Qed.
Lemma beqb_sym a b : beqb a b = beqb b a.
Proof.
  destruct (beqb a b) eqn:E; symmetry.
  - apply Nest.beqb_eq in E. subst. apply Nest.beqb_refl.
  - destruct (beqb b a) eqn:F; [|reflexivity]. apply Nest.beqb_eq in F. subst. rewrite Nest.beqb_refl in E. discriminate.
Qed.

Lemma apply_cfg x s : s_cfg (apply x s) = s_cfg s.
Proof. destruct x; reflexivity. Qed.
Lemma applies_cfg es : forall s, s_cfg (applies es s) = s_cfg s.
Proof. induction es as [|x es IH]; intros s; [reflexivity|]. change (s_cfg (applies es (apply x s)) = s_cfg s). rewrite IH. apply apply_cfg. Qed.

Lemma known_binding p q d : binding_of q (known_prefix p d) = binding_of q d.
Proof.
  destruct p as [|n|]; try reflexivity. cbn [known_prefix]. destruct (look n (d_prefixes d)) eqn:E; [reflexivity|].
  destruct q as [|m|]; try reflexivity. cbn [binding_of set_d_prefixes d_prefixes]. rewrite look_put.
  destruct (beqb m n) eqn:F; [|reflexivity]. apply Nest.beqb_eq in F. subst m. rewrite E. reflexivity.
Qed.
Lemma bind_binding p b q d : p <> PDangling -> q <> PDangling ->
  binding_of q (bind_prefix p b d) = if is_b q (EB p []) then b else binding_of q d.
Proof.
  intros Hp Hq. destruct p as [|n|], q as [|m|]; try congruence; try reflexivity.
  cbn [bind_prefix binding_of set_d_prefixes d_prefixes is_b]. rewrite look_put, beqb_sym. destruct (beqb n m); reflexivity.
Qed.
Lemma apply_binding x q s : good x -> q <> PDangling ->
  (is_b q x = false /\ binding_of q (s_dtd (apply x s)) = binding_of q (s_dtd s)) \/
  (exists p u b, x = EB p u /\ p = q /\ is_b q x = true /\ binding_of q (s_dtd (apply x s)) = Some b /\ b_uri b = u ++ separator s).
Proof.
  intros G Hq. destruct x as [p u|n].
  - assert (Hp : p <> PDangling) by (destruct G as (G & _); destruct p; [discriminate|discriminate|contradiction]).
    unfold apply. cbv zeta. set (s1 := set_dtd (known_prefix p (s_dtd s)) s).
    change (s_dtd (set_inherited _ (set_dtd ?d s1))) with d.
    rewrite (bind_binding p _ q (s_dtd s1) Hp Hq).
    change (is_b q (EB p [])) with (is_b q (EB p u)).
    destruct (is_b q (EB p u)) eqn:E.
    + right. exists p, u, (bound p u s1). repeat split.
      destruct p as [|n|], q as [|m|]; try discriminate; try reflexivity. cbn in E. apply Nest.beqb_eq in E. congruence.
    + left. split; [reflexivity|]. subst s1. cbn [s_dtd set_dtd]. apply known_binding.
  - left. split; [reflexivity|]. unfold apply. cbn [s_dtd set_dtd]. destruct (look_entity (false, n) (s_dtd s)); [|reflexivity].
    destruct q; reflexivity.
Qed.
Lemma apply_open x n s : exists o,
  look n (d_gents (s_dtd (apply x s))) = match look n (d_gents (s_dtd s)) with Some e => Some (if (o : bool) then set_e_open true e else e) | None => None end
  /\ o = is_e n x.
Proof.
  exists (is_e n x). split; [|reflexivity]. destruct x as [p u|m].
  - assert (E : d_gents (s_dtd (apply (EB p u) s)) = d_gents (s_dtd s)).
    { unfold apply, known_prefix. destruct p as [|k|]; try reflexivity.
      destruct (look k (d_prefixes (s_dtd s))); reflexivity. }
    rewrite E. cbn [is_e]. destruct (look n (d_gents (s_dtd s))); reflexivity.
  - unfold apply. cbn [s_dtd set_dtd is_e]. unfold look_entity, put_entity, entity_table. cbn [fst snd].
    destruct (look m (d_gents (s_dtd s))) as [e|] eqn:E.
    + cbn [d_gents set_d_gents]. rewrite look_put. destruct (beqb n m) eqn:F.
      * apply Nest.beqb_eq in F. subst m. rewrite E. reflexivity.
      * destruct (look n (d_gents (s_dtd s))); reflexivity.
    + destruct (look n (d_gents (s_dtd s))) as [e|] eqn:F; [|reflexivity].
      destruct (beqb n m) eqn:G; [|reflexivity]. apply Nest.beqb_eq in G. congruence.
Qed.

Lemma applies_none es : forall q s, q <> PDangling -> Forall good es -> existsb (is_b q) es = false ->
  binding_of q (s_dtd (applies es s)) = binding_of q (s_dtd s).
Proof.
  induction es as [|x es IH]; intros q s Hq G H; [reflexivity|]. cbn [existsb] in H. apply orb_false_iff in H. destruct H as [H1 H2].
  unfold applies. cbn [fold_left]. fold (applies es (apply x s)). rewrite IH; [|exact Hq|exact (Forall_inv_tail G)|exact H2].
  destruct (apply_binding x q s (Forall_inv G) Hq) as [[_ E]|(p & u & b & _ & _ & E & _)]; [exact E|congruence].
Qed.
Lemma applies_some es : forall q u s, q <> PDangling -> Forall good es -> In (EB q u) es ->
  (forall u', In (EB q u') es -> u' = u) ->
  exists b, binding_of q (s_dtd (applies es s)) = Some b /\ b_uri b = u ++ separator s.
Proof.
  induction es as [|x es IH]; intros q u s Hq G Hin Hu; [contradiction|].
  unfold applies. cbn [fold_left]. fold (applies es (apply x s)).
  destruct (existsb (is_b q) es) eqn:E.
  - apply existsb_exists in E. destruct E as (y & Hy & Ey).
    assert (exists v, y = EB q v) as [v ->].
    { destruct y as [p v|n]; [|discriminate]. exists v. destruct p as [|n|], q as [|m|]; try discriminate; try reflexivity.
      cbn in Ey. apply Nest.beqb_eq in Ey. congruence. }
    assert (v = u) by (apply Hu; right; exact Hy). subst v.
    assert (Es : separator (apply x s) = separator s) by (unfold separator; rewrite apply_cfg; reflexivity).
    rewrite <- Es. apply IH; [exact Hq|exact (Forall_inv_tail G)|exact Hy|intros u' H; apply Hu; now right].
  - rewrite applies_none; [|exact Hq|exact (Forall_inv_tail G)|exact E].
    assert (Hx : x = EB q u).
    { destruct Hin as [->|Hin]; [reflexivity|]. exfalso.
      assert (X : existsb (is_b q) es = true).
      { apply existsb_exists. exists (EB q u). split; [exact Hin|]. destruct q; try reflexivity; [apply Nest.beqb_refl|congruence]. }
      congruence. }
    subst x. destruct (apply_binding (EB q u) q s (Forall_inv G) Hq) as [[E1 _]|(p & v & b & E1 & _ & _ & E2 & E3)].
    + destruct q; try discriminate; [cbn in E1; rewrite Nest.beqb_refl in E1; discriminate|congruence].
    + injection E1 as _ <-. exists b. split; assumption.
Qed.
Lemma applies_open es : forall n s,
  look n (d_gents (s_dtd (applies es s))) =
  match look n (d_gents (s_dtd s)) with Some e => Some (if existsb (is_e n) es then set_e_open true e else e) | None => None end.
Proof.
  induction es as [|x es IH]; intros n s.
  - unfold applies. cbn [fold_left existsb]. destruct (look n (d_gents (s_dtd s))); reflexivity.
  - unfold applies. cbn [fold_left existsb]. fold (applies es (apply x s)). rewrite IH.
    destruct (apply_open x n s) as (o & E & Ho). rewrite E, Ho.
    destruct (look n (d_gents (s_dtd s))) as [e|]; [|reflexivity].
    destruct (is_e n x); cbn [orb]; [|reflexivity]. destruct (existsb (is_e n) es); reflexivity.
Qed.

(* the entries a state writes *)
Definition entries (sep : N) (d : dtd) : list entry :=
  (match d_default d with Some b => [EB PDefault (plain_uri sep b)] | None => [] end)
  ++ flat_map (fun '(n, b) => match b with Some b => [EB (PNamed n) (plain_uri sep b)] | None => [] end) (d_prefixes d)
  ++ flat_map (fun '(n, e) => if e_open e then [EE n] else []) (d_gents d).
Lemma entries_show sep d : context_entries sep d = map show (entries sep d).
Proof.
  unfold context_entries, entries. rewrite !map_app. f_equal; [destruct (d_default d); reflexivity|]. f_equal.
  - induction (d_prefixes d) as [|[n [b|]] t IH]; cbn [flat_map map app]; [reflexivity| |exact IH]. f_equal. exact IH.
  - induction (d_gents d) as [|[n e] t IH]; cbn [flat_map map app]; [reflexivity|]. destruct (e_open e); cbn [map app]; [f_equal|]; exact IH.
Qed.
Lemma plain_app s b u : b_uri b = u ++ separator s -> plain_uri (c_sep (s_cfg s)) b = u.
Proof.
  unfold separator, plain_uri. intros ->. destruct (c_sep (s_cfg s) =? 0)%N; [apply app_nil_r|apply removelast_last].
Qed.
Lemma look_in {A} n (v : A) t : look n t = Some v -> In (n, v) t.
Proof.
  induction t as [|[k w] t IH]; cbn [look]; [discriminate|]. destruct (beqb n k) eqn:E.
  - intros X. injection X as ->. apply Nest.beqb_eq in E. subst k. now left.
  - intros X. right. apply IH. exact X.
Qed.
Lemma in_look {A} n (v : A) t : NoDup (map fst t) -> In (n, v) t -> look n t = Some v.
Proof.
  induction t as [|[k w] t IH]; cbn [look map fst]; [contradiction|]. intros H. apply NoDup_cons_iff in H. destruct H as [H1 H2].
  intros [X|X].
  - injection X as -> ->. rewrite Nest.beqb_refl. reflexivity.
  - destruct (beqb n k) eqn:E; [|apply IH; assumption]. apply Nest.beqb_eq in E. subst k.
    exfalso. apply H1. apply in_map_iff. exists (n, v). auto.
Qed.
Lemma in_entries_b s p u : presentable s -> p <> PDangling -> (In (EB p u) (entries (c_sep (s_cfg s)) (s_dtd s)) <-> in_force s p u).
Proof.
  intros H Hp. unfold entries. rewrite !in_app_iff, !in_flat_map.
  assert (F : forall b, binding_of p (s_dtd s) = Some b -> (plain_uri (c_sep (s_cfg s)) b = u <-> b_uri b = u ++ separator s)).
  { intros b Hb. destruct (pr_bound _ H _ _ Hb) as (v & Hv & _). split.
    - intros <-. rewrite Hv. f_equal. symmetry. apply plain_app. exact Hv.
    - intros E. apply plain_app. exact E. }
  split.
  - intros [X|[([n ob] & Hin & X)|([n e] & Hin & X)]].
    + destruct (d_default (s_dtd s)) as [b|] eqn:E; [|contradiction]. destruct X as [X|[]]. injection X as <- X.
      exists b. split; [exact E|]. apply F; assumption.
    + destruct ob as [b|]; [|contradiction]. destruct X as [X|[]]. injection X as <- X.
      assert (Hb : binding_of (PNamed n) (s_dtd s) = Some b).
      { cbn [binding_of]. rewrite (in_look _ _ _ (pr_prefixes _ H) Hin). reflexivity. }
      exists b. split; [exact Hb|]. apply F; assumption.
    + destruct (e_open e); [|contradiction]. destruct X as [X|[]]. discriminate.
  - intros (b & Hb & Hu). apply (F b Hb) in Hu. destruct p as [|n|]; [| |congruence].
    + left. cbn [binding_of] in Hb. rewrite Hb. left. congruence.
    + right. left. cbn [binding_of] in Hb. destruct (look n (d_prefixes (s_dtd s))) as [ob|] eqn:E; [|discriminate]. subst ob.
      exists (n, Some b). split; [apply look_in; exact E|]. left. congruence.
Qed.
Lemma in_entries_e s n : presentable s -> (In (EE n) (entries (c_sep (s_cfg s)) (s_dtd s)) <-> is_open s n).
Proof.
  intros H. unfold entries. rewrite !in_app_iff, !in_flat_map. split.
  - intros [X|[([m ob] & Hin & X)|([m e] & Hin & X)]].
    + destruct (d_default (s_dtd s)); [destruct X as [X|[]]; discriminate|contradiction].
    + destruct ob; [destruct X as [X|[]]; discriminate|contradiction].
    + destruct (e_open e) eqn:E; [|contradiction]. destruct X as [X|[]]. injection X as <-.
      exists e. split; [apply in_look; [apply (pr_entities _ H)|exact Hin]|exact E].
  - intros (e & He & Ho). right. right. exists (n, e). split; [apply look_in; exact He|]. rewrite Ho. now left.
Qed.
Lemma entries_good s : presentable s -> Forall good (entries (c_sep (s_cfg s)) (s_dtd s)).
Proof.
  intros H. apply Forall_forall. intros x Hx.
  assert (B : forall p b, binding_of p (s_dtd s) = Some b -> plain_uri (c_sep (s_cfg s)) b <> [] /\ ~ In FF (plain_uri (c_sep (s_cfg s)) b)
              /\ allowed (prefix_name p) (plain_uri (c_sep (s_cfg s)) b)).
  { intros p b Hb. destruct (pr_bound _ H _ _ Hb) as (u & Hu & H1 & H2 & H3). rewrite (plain_app _ _ _ Hu). auto. }
  unfold entries in Hx. rewrite !in_app_iff, !in_flat_map in Hx. destruct Hx as [X|[([m ob] & Hin & X)|([m e] & Hin & X)]].
  - destruct (d_default (s_dtd s)) as [b|] eqn:E; [|contradiction]. destruct X as [<-|[]]. split; [exact I|]. apply (B PDefault). exact E.
  - destruct ob as [b|]; [|contradiction]. destruct X as [<-|[]]. split; [exact (pr_prefix _ H _ _ Hin)|]. apply (B (PNamed m)).
    cbn [binding_of]. rewrite (in_look _ _ _ (pr_prefixes _ H) Hin). reflexivity.
  - destruct (e_open e) eqn:E; [|contradiction]. destruct X as [<-|[]]. exact (pr_entity _ H _ _ Hin E).
Qed.
Lemma good_ne x : good x -> show x <> [].
Proof. destruct x as [p u|n]; cbn; [|intros (H & _); exact H]. intros _ E. destruct p; try discriminate. destruct n; discriminate. Qed.

Lemma look_map {A B} (f : A -> B) n t : look n (map (fun '(k, v) => (k, f v)) t) = option_map f (look n t).
Proof. induction t as [|[k v] t IH]; cbn [look map option_map]; [reflexivity|]. destruct (beqb n k); [reflexivity|exact IH]. Qed.
Lemma look_map_none {A B} n (t : list (bytes * A)) (w : B) :
  look n (map (fun '(k, _) => (k, w)) t) = Some w \/ look n (map (fun '(k, _) => (k, w)) t) = None.
Proof. induction t as [|[k v] t IH]; cbn [look map]; [auto|]. destruct (beqb n k); auto. Qed.

Lemma clone_open e e' : set_e_open false e = set_e_open false e' -> clone_entity e = clone_entity e'.
Proof.
  intros E. assert (X : forall x, clone_entity x = clone_entity (set_e_open false x)) by (intros []; reflexivity).
  rewrite (X e), (X e'), E. reflexivity.
Qed.
Lemma clone_gents t t' : Forall2 (fun a b : bytes * entity => fst a = fst b /\ set_e_open false (snd a) = set_e_open false (snd b)) t t' ->
  map (fun '(n, e) => (n, clone_entity e)) t = map (fun '(n, e) => (n, clone_entity e)) t'.
Proof.
  induction 1 as [|[n e] [n' e'] t t' [E1 E2] _ IH]; [reflexivity|]. cbn [map fst snd] in *. rewrite IH, E1, (clone_open _ _ E2). reflexivity.
Qed.

(* a parser created with the context string, in whatever order its entries were written *)
Theorem context_taken_over : forall s s' enc l, presentable s -> same_but_open s s' ->
  Permutation l (context_entries (c_sep (s_cfg s)) (s_dtd s)) ->
  exists c, child_parser (Some (join CONTEXT_SEP l)) enc s' = Ok (Some c) /\
    (forall p u, p <> PDangling -> in_force c p u <-> in_force s p u) /\
    (forall n, is_open c n <-> is_open s n).
Proof.
  intros s s' enc l H (Hcfg & gt & Hdtd & Hgt) Hl. rewrite entries_show in Hl. apply Permutation_map_inv in Hl.
  destruct Hl as (es & -> & Hp).
  assert (G : Forall good es).
  { apply Forall_forall. intros x Hx. apply (Permutation_in x (Permutation_sym Hp)) in Hx.
    exact (proj1 (Forall_forall _ _) (entries_good s H) x Hx). }
  assert (HB : forall p u, p <> PDangling -> (In (EB p u) es <-> in_force s p u)).
  { intros p u Hd. rewrite <- (in_entries_b s p u H Hd). split; apply Permutation_in; [apply Permutation_sym|]; exact Hp. }
  assert (HE : forall n, In (EE n) es <-> is_open s n).
  { intros n. rewrite <- (in_entries_e s n H). split; apply Permutation_in; [apply Permutation_sym|]; exact Hp. }
  unfold child_parser. cbv zeta. unfold clone_dtd. rewrite Hdtd.
  cbn [set_d_gents d_gents d_pents d_elems d_attids d_prefixes d_keep d_hasPE d_standalone d_peRead d_scaf d_index d_inEldecl d_cslen].
  rewrite (clone_gents _ _ Hgt).
  assert (Hx : existsb (fun '(_, a) => dangling a) (d_attids (s_dtd s)) = false).
  { destruct (existsb _ _) eqn:E; [|reflexivity]. apply existsb_exists in E. destruct E as ([n a] & Hin & E).
    exfalso. apply (pr_attids _ H _ _ Hin). unfold dangling in E. destruct (ai_prefix a) as [[| |]|]; congruence. }
  rewrite Hx. cbn [bind].
  set (d := {| d_gents := _ |}).
  set (s0 := set_log _ _).
  unfold setContext. rewrite (loop_entries es _ s0 G) by lia.
  eexists. split; [reflexivity|].
  assert (Hs0 : separator s0 = separator s) by (unfold separator; subst s0; rewrite <- Hcfg; reflexivity).
  assert (Hs : separator (set_processor PrExtEntInit (applies es s0)) = separator s).
  { unfold separator. change (s_cfg (set_processor PrExtEntInit ?x)) with (s_cfg x). rewrite applies_cfg. exact Hs0. }
  split.
  - intros p u Hd. unfold in_force at 1. rewrite Hs. change (s_dtd (set_processor PrExtEntInit ?x)) with (s_dtd x).
    destruct (existsb (is_b p) es) eqn:E.
    + apply existsb_exists in E. destruct E as (y & Hy & Ey).
      assert (exists v, y = EB p v) as [v ->].
      { destruct y as [q v|n]; [|discriminate]. exists v. destruct q as [|n|], p as [|m|]; try discriminate; try reflexivity.
        cbn in Ey. apply Nest.beqb_eq in Ey. congruence. }
      assert (Hv : forall w, in_force s p w -> w = v).
      { intros w (b1 & B1 & U1). destruct (proj1 (HB p v Hd) Hy) as (b2 & B2 & U2). rewrite B1 in B2. injection B2 as <-.
        rewrite U1 in U2. apply app_inv_tail in U2. exact U2. }
      destruct (applies_some es p v s0 Hd G Hy) as (b & Hb & Hu).
      { intros w Hw. apply Hv. apply HB; assumption. }
      rewrite Hs0 in Hu. split.
      * intros (b' & Hb' & Hu'). rewrite Hb in Hb'. injection Hb' as <-. rewrite Hu in Hu'. apply app_inv_tail in Hu'. subst u.
        apply HB; assumption.
      * intros X. apply Hv in X. subst u. exists b. auto.
    + rewrite applies_none by assumption. subst s0. cbn [s_dtd set_log set_pid set_declElement set_child set_pep set_inEV new_state]. split.
      * intros (b & Hb & _). exfalso. destruct p as [|n|]; [discriminate| |congruence].
        subst d. cbn [binding_of d_prefixes] in Hb. destruct (look_map_none n (d_prefixes (s_dtd s)) (@None binding)) as [X|X]; rewrite X in Hb; discriminate.
      * intros X. exfalso. apply HB in X; [|exact Hd].
        assert (existsb (is_b p) es = true); [|congruence]. apply existsb_exists. exists (EB p u). split; [exact X|].
        destruct p; try reflexivity; [apply Nest.beqb_refl|congruence].
  - intros n. rewrite <- HE. unfold is_open. change (s_dtd (set_processor PrExtEntInit ?x)) with (s_dtd x). rewrite applies_open.
    subst s0. cbn [s_dtd set_log set_pid set_declElement set_child set_pep set_inEV new_state]. subst d. cbn [d_gents].
    rewrite look_map. split.
    + intros (e & He & Ho). destruct (look n (d_gents (s_dtd s))) as [e0|]; [|discriminate]. cbn [option_map] in He. injection He as <-.
      destruct (existsb (is_e n) es) eqn:E.
      * apply existsb_exists in E. destruct E as ([p u|m] & Hy & Ey); [discriminate|]. cbn in Ey. apply Nest.beqb_eq in Ey. subst m. exact Hy.
      * exfalso. unfold clone_entity in Ho. destruct (e_sys e0); discriminate.
    + intros X. pose proof (proj1 (HE n) X) as (e & He & Ho). rewrite He. cbn [option_map].
      replace (existsb (is_e n) es) with true.
      * eexists. split; reflexivity.
      * symmetry. apply existsb_exists. exists (EE n). split; [exact X|apply Nest.beqb_refl].
Qed.

Lemma put_put {A} n (v w : A) t : put n v (put n w t) = put n v t.
Proof.
  induction t as [|[k x] t IH]; cbn [put]; [rewrite Nest.beqb_refl; reflexivity|].
  destruct (beqb n k) eqn:E; cbn [put]; [rewrite Nest.beqb_refl; reflexivity|]. rewrite E, IH. reflexivity.
Qed.
Lemma put_same {A} n (v : A) t : look n t = Some v -> put n v t = t.
Proof.
  induction t as [|[k x] t IH]; cbn [put look]; [discriminate|].
  destruct (beqb n k) eqn:E; intros H.
  - injection H as ->. apply Nest.beqb_eq in E. subst k. reflexivity.
  - rewrite IH by exact H. reflexivity.
Qed.
Lemma opened_same n e s : look n (d_gents (s_dtd s)) = Some e -> same_but_open (opened n e s) s.
Proof.
  intros H. split; [reflexivity|]. exists (d_gents (s_dtd s)). split; [destruct s, s_dtd; reflexivity|].
  cbn [opened set_gents s_dtd set_dtd d_gents set_d_gents]. revert H. generalize (d_gents (s_dtd s)).
  induction l as [|[k x] t IH]; cbn [put look]; [discriminate|].
  destruct (beqb n k) eqn:E; intros H.
  - injection H as ->. apply Nest.beqb_eq in E. subst k. constructor; [split; [reflexivity|]; destruct e; reflexivity|].
    clear. induction t; constructor; auto.
  - constructor; [auto|]. apply IH. exact H.
Qed.

Lemma reopen x : e_open x = false -> set_e_open false (set_e_open true x) = x.
Proof. destruct x. cbn. intros ->. reflexivity. Qed.

(* a reference in content to an external entity: what the handler is given *)
Theorem reference_context r t e buf n s raw name ent :
  ref_name e buf n s = Ret raw s -> predefinedEntityName e raw = Ok 0%N -> conv e raw = Ok name ->
  look name (d_gents (s_dtd s)) = Some ent -> e_open ent = false -> e_notation ent = None -> e_text ent = None ->
  (d_hasPE (s_dtd s) = true /\ d_standalone (s_dtd s) = false \/ e_is_internal ent = true) ->
  h_external (c_h (s_cfg s)) = true ->
  content_entity r t e buf n s =
    (do ok <- rc_ext r (Some (getContext (opened name ent s))) (e_base ent) (e_sys ent) (e_pub ent);
     if ok then pret tt else fail XE_EXTERNAL_ENTITY_HANDLING) s.
Proof.
  intros H1 H2 H3 H4 H5 H6 H7 H8 H9. unfold content_entity. unfold pbind at 1. rewrite H1. unfold pbind at 1, lift at 1. rewrite H2.
  change (negb (0 =? 0)%N) with false. cbv iota. unfold pbind at 1, lift at 1. rewrite H3. unfold pbind at 1, get at 1. cbv zeta. rewrite H4.
  replace ((negb (d_hasPE (s_dtd s)) || d_standalone (s_dtd s)) && negb (e_is_internal ent)) with false
    by (destruct H8 as [[-> ->]| ->]; [reflexivity|rewrite andb_false_r; reflexivity]).
  rewrite H5, H6, H7. unfold pbind at 1, handler at 1, get at 1. rewrite H9.
  unfold pbind at 1, upd_entity at 1, upd_dtd at 1, upd at 1. unfold look_entity, entity_table, put_entity. cbn [fst snd]. rewrite H4.
  fold (set_gents (put name (set_e_open true ent) (d_gents (s_dtd s))) s). fold (opened name ent s).
  unfold pbind at 1, get at 1. unfold pbind at 1, upd_entity at 1, upd_dtd at 1, upd at 1. unfold look_entity, entity_table, put_entity. cbn [fst snd].
  cbn [opened set_gents s_dtd set_dtd d_gents set_d_gents]. rewrite look_put, Nest.beqb_refl.
  rewrite put_put. rewrite (reopen _ H5).
  rewrite (put_same _ _ _ H4). 
  match goal with |- ?m ?x = _ => replace x with s by (destruct s, s_dtd; reflexivity) end. reflexivity.
Qed.
