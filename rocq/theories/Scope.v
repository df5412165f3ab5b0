(* What the functions of the parser do to the namespace and element events and to the bindings in force. *)
From Coq Require Import List NArith ZArith Bool Arith Lia.
From Verif Require Import Base Encoding Tok TokMisc Norm XmlDecl Status Role State AttVal Bind Atts Scaf Content Prolog Core.
From Verif Require Import Keep Walk LogWalk SpecScope Trace.
From Verif Require Nest.
Import ListNotations.
#[local] Hint Resolve Nest.tok_end_code : codes.

(* a failure has an error code *)
Definition any (e : event) : Prop := True.
Definition T := logged any.
Lemma frame_T : frame T T. Proof. apply frame_logged. Qed.
Lemma T_leafs : leafs T. Proof. apply logged_leafs; intros; exact I. Qed.
Lemma T_call e : keeps T T (call e). Proof. apply logged_call. exact I. Qed.
Lemma T_upd f : (forall s, s_log (f s) = s_log s) -> keeps T T (upd f).
Proof. intros H s. apply logged_same. apply H. Qed.
Lemma T_dtd f : keeps T T (upd_dtd f). Proof. apply logged_dtd. Qed.
Lemma T_bind p a u bs : keeps T T (addBinding p a u bs).
Proof. unfold addBinding, emit. walk frame_T ltac:(idtac; first [apply T_call|apply T_dtd|lw_all T_leafs]). Qed.
Lemma T_walker : walker T T T T T.
Proof. apply logged_walker; intros; try exact I. apply T_bind. Qed.
Lemma T_tags : tagleafs T.
Proof. apply logged_tags; intros; try exact I. apply T_bind. Qed.
Lemma T_knot n : callees T T T (knot n).
Proof. apply logged_knot; intros; try exact I. apply T_bind. Qed.
Lemma code {A} (m : P A) : keeps T T m -> forall s, match m s with Fail e _ => e <> XE_NONE | _ => True end.
Proof. intros H s. specialize (H s). destruct (m s); [exact I|apply H|exact I]. Qed.

(* bindings, apart from that of the prefix xml *)
Definition table : Type := prefref -> option binding.
Definition xml : prefref := PNamed xml_prefix.
Definition eqx (f g : table) : Prop := forall p, p <> xml -> f p = g p.
Definition bound_in (s : st) : table := fun p => binding_of p (s_dtd s).
Lemma prefref_dec (p q : prefref) : {p = q} + {p <> q}.
Proof. decide equality. apply (list_eq_dec N.eq_dec). Defined.
Definition over (f : table) (p : prefref) (b : option binding) : table := fun q => if prefref_dec q p then b else f q.
Lemma eqx_refl f : eqx f f. Proof. intros p _. reflexivity. Qed.
Lemma eqx_sym f g : eqx f g -> eqx g f. Proof. intros H p Hp. symmetry. apply H, Hp. Qed.
Lemma eqx_trans f g h : eqx f g -> eqx g h -> eqx f h. Proof. intros H1 H2 p Hp. rewrite H1, H2 by exact Hp. reflexivity. Qed.
Lemma eqx_over f g p b : eqx f g -> eqx (over f p b) (over g p b).
Proof. intros H q Hq. unfold over. destruct (prefref_dec q p); [reflexivity|apply H, Hq]. Qed.
Lemma look_put_same {A} n (x : A) l : look n (put n x l) = Some x.
Proof. induction l as [|[m y] l IH]; cbn [put look]; [rewrite Nest.beqb_refl; reflexivity|].
  destruct (beqb n m) eqn:E; cbn [look]; [rewrite Nest.beqb_refl; reflexivity|]. rewrite E. exact IH. Qed.
Lemma look_put_other {A} n m (x : A) l : n <> m -> look n (put m x l) = look n l.
Proof.
  intros H. assert (Hb : beqb n m = false) by (destruct (beqb n m) eqn:E; [apply Nest.beqb_eq in E; contradiction|reflexivity]).
  induction l as [|[k y] l IH]; cbn [put look]; [rewrite Hb; reflexivity|].
  destruct (beqb m k) eqn:E; cbn [look].
  - apply Nest.beqb_eq in E. subst k. rewrite Hb. reflexivity.
  - destruct (beqb n k); [reflexivity|exact IH].
Qed.
Lemma bound_bind p b d q : p <> PDangling -> binding_of q (bind_prefix p b d) = over (fun q => binding_of q d) p b q.
Proof.
  intros Hp. unfold over. destruct (prefref_dec q p) as [->|Hq].
  - destruct p; [reflexivity| |contradiction]. cbn. rewrite look_put_same. reflexivity.
  - destruct p as [|n|]; [| |contradiction]; destruct q as [|m|]; cbn; try reflexivity; try contradiction.
    rewrite look_put_other; [reflexivity|]. intros ->. apply Hq. reflexivity.
Qed.

(* the declaration that a binding stands for *)
Definition decl_of (sep : BinNums.N) (b : binding) : decl :=
  (prefix_name (b_prefix b),
   match b_prefix b with PDefault => if is_nil (plain_uri sep b) then None else Some (plain_uri sep b) | _ => Some (plain_uri sep b) end).
Definition value_of (sep : BinNums.N) (b : binding) : option binding := match snd (decl_of sep b) with Some _ => Some b | None => None end.
(* [bs] have been made one on top of the other, the latest first *)
Fixpoint chain (sep : BinNums.N) (base f : table) (bs : list binding) : Prop :=
  match bs with
  | [] => eqx f base
  | b :: bs => (b_prefix b <> PDangling /\ exists u, b_uri b = u ++ (if (sep =? 0)%N then [] else [sep])) /\ (b_prefix b <> xml -> f (b_prefix b) = value_of sep b) /\
      chain sep base (over f (b_prefix b) (b_prev b)) bs
  end.
Lemma chain_ext sep base bs : forall f g, eqx f g -> chain sep base f bs -> chain sep base g bs.
Proof.
  induction bs as [|b bs IH]; intros f g E; cbn [chain].
  - intros H. eapply eqx_trans; [apply eqx_sym, E|exact H].
  - intros (H1 & H2 & H3). split; [exact H1|]. split; [intros Hx; rewrite <- E by exact Hx; apply H2, Hx|].
    eapply IH; [|exact H3]. apply eqx_over, E.
Qed.
(* the innermost one counts *)
Lemma chain_find sep base bs : forall f p, p <> xml -> chain sep base f bs ->
  f p = match find (fun b => if prefref_dec p (b_prefix b) then true else false) bs with Some b => value_of sep b | None => base p end.
Proof.
  induction bs as [|b bs IH]; intros f p Hp; cbn [chain find].
  - intros H. apply H, Hp.
  - intros (_ & H2 & H3). destruct (prefref_dec p (b_prefix b)) as [E|E].
    + rewrite E in *. apply H2. rewrite <- E in *. exact Hp.
    + rewrite <- (IH _ p Hp H3). unfold over. destruct (prefref_dec p (b_prefix b)); [contradiction|reflexivity].
Qed.

(* the log: a parser's number is at most the length of the log when it was made *)
Definition mine (s : st) : list mark := marks (s_pid s) (s_log s).
Definition traceable (l : list mark) : Prop := exists t, trace t0 l = Some t.
Record sane (s : st) : Prop := {
  sn_listening : listening (c_h (s_cfg s));
  sn_pid : s_pid s <= length (s_log s);
  sn_low : forall q e, In (q, e) (s_log s) -> q < length (s_log s);
  sn_all : forall q, traceable (marks q (s_log s))
}.
Record grown (s s' : st) : Prop := {
  gr_cfg : s_cfg s' = s_cfg s;
  gr_pid : s_pid s' = s_pid s;
  gr_len : length (s_log s) <= length (s_log s');
  gr_others : forall q, q <> s_pid s -> q < length (s_log s) -> marks q (s_log s') = marks q (s_log s)
}.
(* no event and no change of a binding *)
Record still (s s' : st) : Prop := {
  st_tags : s_tags s' = s_tags s;
  st_bindings : s_bindings s' = s_bindings s;
  st_mine : mine s' = mine s;
  st_bound : eqx (bound_in s') (bound_in s)
}.
(* where in the document the parser is *)
Definition place (s : st) := (s_role s, s_processor s, s_isParam s, s_open s).
Definition N (s s' : st) : Prop := sane s -> sane s' /\ grown s s' /\ still s s' /\ place s' = place s.

Lemma grown_refl s : grown s s. Proof. split; auto. Qed.
Lemma grown_trans a b c : grown a b -> grown b c -> grown a c.
Proof.
  intros [A1 A2 A3 A4] [B1 B2 B3 B4]. split; [congruence|congruence|lia|].
  intros q Hq Hl. rewrite B4; [apply A4; assumption|congruence|lia].
Qed.
Lemma still_refl s : still s s. Proof. split; auto. apply eqx_refl. Qed.
Lemma still_trans a b c : still a b -> still b c -> still a c.
Proof. intros [A1 A2 A3 A4] [B1 B2 B3 B4]. split; [congruence|congruence|congruence|]. eapply eqx_trans; eassumption. Qed.
Lemma N_trans a b c : N a b -> N b c -> N a c.
Proof.
  intros H1 H2 Ha. apply H1 in Ha as (Hb & g1 & s1 & p1). apply H2 in Hb as (Hc & g2 & s2 & p2).
  split; [assumption|]. split; [eapply grown_trans; eassumption|]. split; [eapply still_trans; eassumption|congruence].
Qed.
Lemma N_refl s : N s s.
Proof. intros H. split; [exact H|]. split; [apply grown_refl|]. split; [apply still_refl|reflexivity]. Qed.
Lemma frame_N : frame N N. Proof. split; eauto using N_trans, N_refl. Qed.

Lemma sane_same s s' : s_cfg s' = s_cfg s -> s_pid s' = s_pid s -> s_log s' = s_log s -> sane s -> sane s'.
Proof. intros E1 E2 E3 [A B C D]. split; rewrite ?E1, ?E2, ?E3; assumption. Qed.
Lemma grown_same s s' : s_cfg s' = s_cfg s -> s_pid s' = s_pid s -> s_log s' = s_log s -> grown s s'.
Proof. intros E1 E2 E3. split; rewrite ?E3; auto. Qed.
Lemma mine_same s s' : s_pid s' = s_pid s -> s_log s' = s_log s -> mine s' = mine s.
Proof. unfold mine. congruence. Qed.
Lemma N_same s s' : s_cfg s' = s_cfg s -> s_pid s' = s_pid s -> s_log s' = s_log s -> s_tags s' = s_tags s ->
  s_bindings s' = s_bindings s -> (forall p, binding_of p (s_dtd s') = binding_of p (s_dtd s)) -> place s' = place s -> N s s'.
Proof.
  intros E1 E2 E3 E4 E5 E6 E7 H. split; [eapply sane_same; eassumption|]. split; [apply grown_same; assumption|].
  split; [|exact E7]. split; [assumption|assumption|apply mine_same; assumption|]. intros p _. apply E6.
Qed.
Lemma sane_event s ev s' : sane s -> traceable (mine s ++ mark_of ev) -> s_cfg s' = s_cfg s -> s_pid s' = s_pid s ->
  s_log s' = (s_pid s, ev) :: s_log s -> sane s' /\ grown s s' /\ mine s' = mine s ++ mark_of ev.
Proof.
  intros [A C D E] Hn E1 E2 E3. split; [|split].
  - split; rewrite ?E1, ?E2, ?E3; [assumption|cbn [length]; lia| |].
    + cbn [In length]. intros q e [Hq|Hq]; [injection Hq; intros; subst; lia|]. apply D in Hq. lia.
    + intros q. cbn [marks]. destruct (s_pid s =? q) eqn:Eq; [apply Nat.eqb_eq in Eq; subst q; exact Hn|].
      rewrite app_nil_r. apply E.
  - split; rewrite ?E3; cbn [length]; [assumption|assumption|lia|].
    intros q Hq _. cbn [marks]. replace (s_pid s =? q) with false by (symmetry; apply Nat.eqb_neq; congruence).
    apply app_nil_r.
  - unfold mine. rewrite E2, E3. cbn [marks]. rewrite Nat.eqb_refl. reflexivity.
Qed.
Lemma N_call ev : mark_of ev = [] -> keeps N N (call ev).
Proof.
  intros He s Hs. destruct (sane_event s ev (set_parsing (stopped (c_app (s_cfg s) ((s_pid s, ev) :: s_log s)) (s_isParam s) (s_parsing s)) (set_log ((s_pid s, ev) :: s_log s) s)) Hs) as (H1 & H2 & H3); try reflexivity.
  { rewrite He, app_nil_r. apply Hs. }
  split; [assumption|]. split; [assumption|]. split; [|reflexivity].
  split; [reflexivity|reflexivity|rewrite H3, He, app_nil_r; reflexivity|apply eqx_refl].
Qed.
Lemma mild_mark e : mild e = true -> mark_of e = []. Proof. destruct e; cbn; congruence. Qed.
Lemma N_leafs : leafs N.
Proof.
  split.
  - exact frame_N.
  - intros s s' E. unfold view, dview in E. injection E; intros. apply N_same; try assumption.
    + assert (E1 : d_prefixes (s_dtd s') = d_prefixes (s_dtd s)) by congruence.
      assert (E2 : d_default (s_dtd s') = d_default (s_dtd s)) by congruence.
      intros p. unfold binding_of. rewrite E1, E2. reflexivity.
    + unfold place. congruence.
  - intros. apply N_call, mild_mark; assumption.
  - intros. apply N_call. reflexivity.
  - intros n s E. apply N_same; try reflexivity. intros p. destruct p as [|m|]; try reflexivity. cbn.
    destruct (list_eq_dec N.eq_dec m n) as [->|Hm]; [rewrite look_put_same, E; reflexivity|].
    rewrite look_put_other by exact Hm. reflexivity.
Qed.
Lemma N_dtd f : (forall d, d_prefixes (f d) = d_prefixes d /\ d_default (f d) = d_default d) -> keeps N N (upd_dtd f).
Proof.
  intros H. unfold upd_dtd. apply keeps_upd. intros s. apply N_same; try reflexivity.
  intros p. destruct (H (s_dtd s)) as [E1 E2]. cbn [s_dtd set_dtd]. unfold binding_of. rewrite E1, E2. reflexivity.
Qed.
Lemma N_entity ref f : keeps N N (upd_entity ref f).
Proof.
  unfold upd_entity. apply N_dtd. intros d. unfold put_entity. destruct (look_entity ref d); [|auto]. destruct (fst ref); auto.
Qed.

(* functions that change entities *)
Ltac ent := first [apply N_entity|apply N_dtd; let d := fresh in intros d; first [split; reflexivity
  | repeat match goal with |- context [match ?x with _ => _ end] => destruct x end; split; reflexivity]].
Ltac wn x := walk frame_N ltac:(idtac; first [x | lw_all N_leafs | solve [ent]]).
Lemma N_append fuel prolog : forall t cd b acc, keeps N N (appendAttributeValue fuel prolog t cd b acc).
Proof. induction fuel as [|fuel IH]; intros t cd b acc; cbn [appendAttributeValue]; [apply keeps_die|]. wn ltac:(apply IH). Qed.
Lemma N_value x fuel : (forall a b c d, keeps N N (x a b c d)) -> forall t b, keeps N N (entity_value x fuel t b).
Proof. intros Hx. induction fuel as [|fuel IH]; intros t b; cbn [entity_value]; unfold append_ev; wn ltac:(first [apply Hx|apply IH]). Qed.
Lemma N_storeEntityValue x fuel t b : (forall a b c d, keeps N N (x a b c d)) -> keeps N N (storeEntityValue x fuel t b).
Proof. intros Hx. unfold storeEntityValue. wn ltac:(apply N_value; exact Hx). Qed.
Lemma N_insert : keeps N N insert_subset.
Proof.
  unfold insert_subset. apply N_dtd. intros d. destruct (look_entity subset d); split; reflexivity.
Qed.
Lemma N_subset r a b : (forall a b c d, keeps N N (rc_ext r a b c d)) -> keeps N N (external_subset r a b).
Proof. intros Hx. unfold external_subset. wn ltac:(first [apply Hx|apply N_insert]). Qed.
