(* Tags: the declarations they announce are those they bind, and end tags take them back. *)
From Coq Require Import List NArith ZArith Bool Arith Lia.
From Verif Require Import Base Encoding Tok TokMisc Norm XmlDecl Status Role State AttVal Bind Atts Scaf Content Prolog Core.
From Verif Require Import Keep Walk LogWalk SpecScope Trace Scope ScopePar.
From Verif Require Nest.
Import ListNotations.
#[local] Hint Resolve Nest.tok_end_code : codes.

Definition sep (s : st) : BinNums.N := c_sep (s_cfg s).
(* the events of the parser have led to [(pend, stk, cl)], and [bs] are the bindings on top of [base] *)
Record holds (base : table) (pend : list decl) (stk : list (bytes * list decl)) (cl : list decl) (tags : list tag) (bs : list binding) (s0 s : st) : Prop := {
  h_sane : sane s;
  h_grown : grown s0 s;
  h_trace : trace t0 (mine s) = Some (pend, stk, cl);
  h_tags : s_tags s = tags;
  h_chain : chain (sep s) base (bound_in s) bs
}.
Lemma sep_grown a b : grown a b -> sep b = sep a.
Proof. intros [E _ _ _]. unfold sep. rewrite E. reflexivity. Qed.
Lemma holds_sep base pend stk cl tags bs s0 s : holds base pend stk cl tags bs s0 s -> sep s = sep s0.
Proof. intros H. apply sep_grown, H. Qed.
Lemma holds_N base pend stk cl tags bs s0 s1 s2 : holds base pend stk cl tags bs s0 s1 -> N s1 s2 ->
  holds base pend stk cl tags bs s0 s2 /\ s_bindings s2 = s_bindings s1.
Proof.
  intros [A B C D E] H. destruct (H A) as (A' & B' & [C1 C2 C3 C4] & _). split; [|exact C2]. split.
  - exact A'.
  - eapply grown_trans; eassumption.
  - rewrite C3. exact C.
  - congruence.
  - rewrite (sep_grown _ _ B'). eapply chain_ext; [apply eqx_sym, C4|exact E].
Qed.
(* a state that differs elsewhere *)
Lemma holds_same base pend stk cl tags bs s0 s s' : s_cfg s' = s_cfg s -> s_pid s' = s_pid s -> s_log s' = s_log s -> s_dtd s' = s_dtd s ->
  holds base pend stk cl tags bs s0 s -> holds base pend stk cl (s_tags s') bs s0 s'.
Proof.
  intros E1 E2 E3 E4 [A B C D E]. split.
  - eapply sane_same; eassumption.
  - eapply grown_trans; [exact B|apply grown_same; assumption].
  - rewrite (mine_same s s') by assumption. exact C.
  - reflexivity.
  - unfold sep, bound_in. rewrite E1, E4. exact E.
Qed.
(* an event *)
Lemma holds_event ev base pend stk cl pend' stk' cl' tags bs s0 s s' : trace (pend, stk, cl) (mark_of ev) = Some (pend', stk', cl') ->
  s_cfg s' = s_cfg s -> s_pid s' = s_pid s -> s_log s' = (s_pid s, ev) :: s_log s -> s_tags s' = s_tags s -> s_dtd s' = s_dtd s ->
  holds base pend stk cl tags bs s0 s -> holds base pend' stk' cl' tags bs s0 s'.
Proof.
  intros Ht E1 E2 E3 E4 E5 [A B C D E]. destruct (sane_event s ev s') as (A' & B' & C'); try assumption.
  { exists (pend', stk', cl'). rewrite trace_app, C. exact Ht. }
  split.
  - exact A'.
  - eapply grown_trans; eassumption.
  - rewrite C', trace_app, C. exact Ht.
  - congruence.
  - unfold sep, bound_in. rewrite E1, E5. exact E.
Qed.
Lemma step_ns d pend stk : trace (pend, stk, []) [OpenNs d] = Some (d :: pend, stk, []).
Proof. cbn [trace]. assert (tstep (pend, stk, []) (OpenNs d) = Some (d :: pend, stk, [])) as -> by (destruct pend, stk as [|[]]; reflexivity). reflexivity. Qed.
Lemma step_el n pend stk : trace (pend, stk, []) [OpenEl n] = Some ([], (n, pend) :: stk, []).
Proof. cbn [trace]. assert (tstep (pend, stk, []) (OpenEl n) = Some ([], (n, pend) :: stk, [])) as -> by (destruct pend, stk as [|[]]; reflexivity). reflexivity. Qed.
Lemma step_end n ds stk : trace ([], (n, ds) :: stk, []) [CloseEl n] = Some ([], stk, ds).
Proof. cbn [trace tstep]. rewrite Nest.beqb_refl. reflexivity. Qed.
Lemma step_close d cl stk : trace ([], stk, d :: cl) [CloseNs (fst d)] = Some ([], stk, cl).
Proof. cbn [trace]. assert (tstep ([], stk, d :: cl) (CloseNs (fst d)) = Some ([], stk, cl)) as -> by (destruct stk as [|[]]; cbn [tstep]; rewrite same_refl; reflexivity). reflexivity. Qed.
Lemma step_withdraw d pend stk : trace (d :: pend, stk, []) [CloseNs (fst d)] = Some ([], stk, pend).
Proof. cbn [trace]. assert (tstep (d :: pend, stk, []) (CloseNs (fst d)) = Some ([], stk, pend)) as -> by (destruct stk as [|[]]; cbn [tstep]; rewrite same_refl; reflexivity). reflexivity. Qed.

(* reading the attributes *)
Definition decls (s : st) (bs : list binding) : list decl := map (decl_of (sep s)) bs.
Definition mid base stk tags bs0 s0 s : Prop := holds base (decls s0 (s_bindings s)) stk [] tags (s_bindings s ++ bs0) s0 s.
Definition M (s s' : st) : Prop := forall base stk tags bs0 s0, mid base stk tags bs0 s0 s -> mid base stk tags bs0 s0 s'.
Lemma frame_M : frame M M. Proof. split; unfold M; eauto. Qed.
Lemma N_M a b : N a b -> M a b.
Proof.
  intros H base stk tags bs0 s0 Hm. destruct (holds_N _ _ _ _ _ _ _ _ _ Hm H) as [A E]. unfold mid. rewrite E. exact A.
Qed.
Lemma NM {A} (m : P A) : keeps N N m -> keeps M M m.
Proof. apply keeps_imp; intros; apply N_M; assumption. Qed.

Lemma plain_made p id uri sp prev : plain_uri sp (MkB p id (uri ++ (if (sp =? 0)%N then [] else [sp])) prev) = uri.
Proof. unfold plain_uri. cbn [b_uri]. destruct (sp =? 0)%N; [apply app_nil_r|apply removelast_last]. Qed.
Lemma bound_made p id uri sp prev : p <> PDangling -> let b := MkB p id (uri ++ (if (sp =? 0)%N then [] else [sp])) prev in
  match p with PDefault => if is_nil uri then None else Some b | _ => Some b end = value_of sp b.
Proof.
  intros Hp b. unfold value_of, decl_of. cbn [snd]. change (b_prefix b) with p. unfold b. rewrite plain_made.
  destruct p; [|reflexivity|contradiction]. destruct (is_nil uri); reflexivity.
Qed.
Lemma decl_made p id uri sp prev : p <> PDangling -> let b := MkB p id (uri ++ (if (sp =? 0)%N then [] else [sp])) prev in
  (prefix_name p, match value_of sp b with Some _ => Some uri | None => None end) = decl_of sp b.
Proof.
  intros Hp b. unfold value_of, decl_of. cbn [snd]. change (b_prefix b) with p. unfold b. rewrite plain_made.
  destruct p; [|reflexivity|contradiction]. destruct (is_nil uri); reflexivity.
Qed.
Lemma M_declared s p id uri s' : p <> PDangling ->
  let b := MkB p (Some id) (uri ++ (if (sep s =? 0)%N then [] else [sep s])) (binding_of p (s_dtd s)) in
  s_cfg s' = s_cfg s -> s_pid s' = s_pid s ->
  s_log s' = (s_pid s, EvStartNs (prefix_name p) (match value_of (sep s) b with Some _ => Some uri | None => None end)) :: s_log s ->
  s_tags s' = s_tags s -> s_dtd s' = bind_prefix p (value_of (sep s) b) (s_dtd s) -> s_bindings s' = b :: s_bindings s -> M s s'.
Proof.
  intros Hp b E1 E2 E3 E4 E5 E6 base stk tags bs0 s0 Hm. unfold mid in Hm |- *. rewrite E6. cbn [decls map app].
  pose proof (holds_sep _ _ _ _ _ _ _ _ Hm) as Es.
  assert (H1 : holds base (decl_of (sep s0) b :: decls s0 (s_bindings s)) stk [] tags (s_bindings s ++ bs0) s0 (set_dtd (s_dtd s) s')).
  { eapply (holds_event (EvStartNs (prefix_name p) (match value_of (sep s) b with Some _ => Some uri | None => None end)));
      [|exact E1|exact E2|exact E3|exact E4|reflexivity|exact Hm].
    pose proof (decl_made p (Some id) uri (sep s) (binding_of p (s_dtd s)) Hp) as Hd. cbv zeta in Hd. fold b in Hd.
    cbn [mark_of]. rewrite step_ns, <- Es, <- Hd. reflexivity. }
  destruct H1 as [A B C D E]. split.
  - eapply sane_same; [| | |exact A]; reflexivity.
  - eapply grown_trans; [exact B|]. apply grown_same; reflexivity.
  - exact C.
  - exact D.
  - change (chain (sep s') base (bound_in s) (s_bindings s ++ bs0)) in E. cbn [chain].
    assert (Eb : forall q, bound_in s' q = over (bound_in s) p (value_of (sep s) b) q).
    { intros q. unfold bound_in. rewrite E5. apply bound_bind, Hp. }
    assert (Es' : sep s' = sep s) by (unfold sep; rewrite E1; reflexivity).
    split; [split; [exact Hp|rewrite Es'; exists uri; reflexivity]|]. split.
    + intros _. rewrite Es'. change (b_prefix b) with p. rewrite Eb. unfold over. destruct (prefref_dec p p); [reflexivity|contradiction].
    + eapply chain_ext; [|exact E]. intros q _. change (b_prefix b) with p. change (b_prev b) with (binding_of p (s_dtd s)).
      unfold over. destruct (prefref_dec q p) as [->|Hq]; [reflexivity|].
      rewrite Eb. unfold over. destruct (prefref_dec q p); [contradiction|reflexivity].
Qed.
(* at a state where the application listens *)
Lemma keeps_M {A} (m : P A) : keeps U U m -> (forall s, sane s -> match m s with Ret _ s' => M s s' | Fail _ s' => M s s' | Die _ => True end) -> keeps M M m.
Proof.
  intros Hu H s. specialize (Hu s). specialize (H s). destruct (m s) as [a s'|e s'|]; [| |exact I].
  - intros base stk tags bs0 s0 Hm. exact (H (h_sane _ _ _ _ _ _ _ _ Hm) base stk tags bs0 s0 Hm).
  - split; [apply Hu|]. intros base stk tags bs0 s0 Hm. exact (H (h_sane _ _ _ _ _ _ _ _ Hm) base stk tags bs0 s0 Hm).
Qed.
Lemma M_refl s : M s s. Proof. unfold M. auto. Qed.
Lemma emit_on (h : handlers -> bool) ev s : h (c_h (s_cfg s)) = true -> exists s', emit h ev s = Ret true s' /\
  s_cfg s' = s_cfg s /\ s_pid s' = s_pid s /\ s_log s' = (s_pid s, ev) :: s_log s /\ s_tags s' = s_tags s /\ s_dtd s' = s_dtd s /\ s_bindings s' = s_bindings s.
Proof.
  intros Hh. unfold emit, pbind, handler, get. cbn beta iota. rewrite Hh. unfold pbind, call, pret. cbn beta iota.
  eexists. split; [reflexivity|]. repeat split.
Qed.
Lemma addBinding_at p id u bs s : p <> PDangling -> 
  let b := MkB p (Some id) (u ++ (if (sep s =? 0)%N then [] else [sep s])) (binding_of p (s_dtd s)) in
  (exists e, addBinding p (Some id) u bs s = Fail e s) \/
  addBinding p (Some id) u bs s = (upd_dtd (bind_prefix p (value_of (sep s) b)) ;;;
     (emit h_startNs (EvStartNs (prefix_name p) (match value_of (sep s) b with Some _ => Some u | None => None end)) ;;; pret tt) ;;; pret (b :: bs)) s.
Proof.
  intros Hp b. pose proof (bound_made p (Some id) u (sep s) (binding_of p (s_dtd s)) Hp) as Hb. cbv zeta in Hb. fold b in Hb. rewrite <- Hb. clear Hb.
  unfold addBinding. destruct p; [| |contradiction].
  all: destruct (is_nil u && _); [left; eexists; reflexivity|].
  all: match goal with |- context [if ?c then fail XE_RESERVED_PREFIX_XMLNS else _] => destruct c end; [left; eexists; reflexivity|].
  all: cbv zeta; destruct (uri_loop _ _ _ _ _ _ _) as [[x y] len].
  all: match goal with |- context [if ?c then fail (if _ then XE_RESERVED_PREFIX_XML else _) else _] => destruct c end; [left; eexists; reflexivity|].
  all: match goal with |- context [if ?c then fail XE_RESERVED_NAMESPACE_URI else _] => destruct c end; [left; eexists; reflexivity|].
  all: right; reflexivity.
Qed.
Lemma bind_emit {A} f h ev (x : A) s : (upd_dtd f ;;; (emit h ev ;;; pret tt) ;;; pret x) s =
  match emit h ev (set_dtd (f (s_dtd s)) s) with Ret _ s' => Ret x s' | Fail e s' => Fail e s' | Die e => Die e end.
Proof. unfold pbind, upd_dtd, upd, pret. destruct (emit h ev (set_dtd (f (s_dtd s)) s)); reflexivity. Qed.
Lemma M_declare p i v : keeps M M (declare p i v).
Proof.
  apply keeps_M; [unfold declare; walk frame_U ltac:(idtac; first [apply (U_of T T), T_bind|apply U_upd])|].
  intros s Hs. unfold declare. unfold pbind at 1, get at 1. unfold pbind at 1.
  destruct (prefref_dec p PDangling) as [->|Hp]; [exact I|].
  destruct (addBinding_at p i v (s_bindings s) s Hp) as [[e E]|E]; rewrite E; clear E; [apply M_refl|].
  rewrite bind_emit.
  match goal with |- context [emit h_startNs ?ev ?x] => destruct (emit_on h_startNs ev x) as (s2 & E & F1 & F2 & F3 & F4 & F5 & F6) end.
  { apply Hs. }
  rewrite E. unfold upd.
  eapply (M_declared s p i v); [exact Hp|..].
  - exact F1.
  - exact F2.
  - exact F3.
  - exact F4.
  - exact F5.
  - reflexivity.
Qed.
Ltac wm x := walk frame_M ltac:(idtac; first [x|apply NM; first [apply N_append|lw_all N_leafs]]).
Lemma M_value fuel p t cd b : keeps M M (storeAttributeValue fuel p t cd b).
Proof. unfold storeAttributeValue. wm nope. Qed.
Lemma M_specified_att f t el x st : keeps M M (specified_att f t el x st).
Proof. unfold specified_att. wm ltac:(first [apply M_declare|apply M_value]). Qed.
Lemma M_specified_atts f t el xs : forall st, keeps M M (specified_atts f t el xs st).
Proof. induction xs as [|x xs IH]; intros st; cbn [specified_atts]; wm ltac:(first [apply IH|apply M_specified_att]). Qed.
Lemma M_default_att d st : keeps M M (default_att d st).
Proof. unfold default_att. wm ltac:(apply M_declare). Qed.
Lemma M_default_atts ds : forall st, keeps M M (default_atts ds st).
Proof. induction ds as [|x xs IH]; intros st; cbn [default_atts]; wm ltac:(first [apply IH|apply M_default_att]). Qed.

Notation wp := Nest.wp.
Lemma wp_M {A} (m : P A) base stk tags bs0 s0 s (Qr : A -> st -> Prop) (Qf : XML_Error -> st -> Prop) : keeps M M m -> mid base stk tags bs0 s0 s ->
  (forall a s', mid base stk tags bs0 s0 s' -> Qr a s') -> (forall e s', mid base stk tags bs0 s0 s' -> Qf e s') -> wp m s Qr Qf.
Proof. intros Hk Hm H1 H2. eapply Nest.wp_keeps; [exact Hk| |]; intros x s' HM; [apply H1|apply H2]; apply HM, Hm. Qed.
Lemma wp_N {A} (m : P A) base pend stk cl tags bs s0 s (Qr : A -> st -> Prop) (Qf : XML_Error -> st -> Prop) : keeps N N m -> holds base pend stk cl tags bs s0 s ->
  (forall a s', holds base pend stk cl tags bs s0 s' -> s_bindings s' = s_bindings s -> Qr a s') -> (forall e s', holds base pend stk cl tags bs s0 s' -> s_bindings s' = s_bindings s -> Qf e s') -> wp m s Qr Qf.
Proof.
  intros Hk Hm H1 H2. eapply Nest.wp_keeps; [exact Hk| |]; intros x s' HN; [apply H1|apply H2]; apply (holds_N _ _ _ _ _ _ _ _ _ Hm HN).
Qed.
Lemma wp_get {A B} (g : st -> A) (k : A -> P B) s Qr Qf : wp (k (g s)) s Qr Qf -> wp (pbind (get g) k) s Qr Qf.
Proof. exact (fun H => H). Qed.
Lemma wp_upd {B} (g : st -> st) (k : unit -> P B) s Qr Qf : wp (k tt) (g s) Qr Qf -> wp (pbind (upd g) k) s Qr Qf.
Proof. exact (fun H => H). Qed.
Lemma wp_dtd {B} g (k : unit -> P B) s Qr Qf : wp (k tt) (set_dtd (g (s_dtd s)) s) Qr Qf -> wp (pbind (upd_dtd g) k) s Qr Qf.
Proof. exact (fun H => H). Qed.
Lemma wp_pret {A} (a : A) s (Qr : A -> st -> Prop) Qf : Qr a s -> wp (pret a) s Qr Qf.
Proof. exact (fun H => H). Qed.
Lemma wp_code {A} (m : P A) s (Qr : A -> st -> Prop) (Qf : XML_Error -> st -> Prop) : wp m s Qr Qf -> match m s with Ret a s' => Qr a s' | Fail e s' => Qf e s' | Die _ => True end.
Proof. unfold wp, Nest.wp. destruct (m s); auto. intros [_ H]. exact H. Qed.

Lemma wp_storeAtts f t b el base stk tags bs0 s0 s : holds base [] stk [] tags bs0 s0 s ->
  wp (storeAtts f t b el) s
    (fun so s' => holds base (decls s0 (so_bindings so)) stk [] tags (so_bindings so ++ bs0) s0 s')
    (fun _ s' => mid base stk tags bs0 s0 s').
Proof.
  intros H. unfold storeAtts. apply wp_get. generalize (c_ns (s_cfg s)). intros ns.
  apply wp_dtd. assert (Hf0 : forall s', holds base [] stk [] tags bs0 s0 s' -> mid base stk tags bs0 s0 (set_bindings [] s')).
  { intros s' Hs'. assert (s_tags s' = tags) by apply Hs'. subst tags. exact (holds_same _ _ _ _ _ _ _ s' (set_bindings [] s') eq_refl eq_refl eq_refl eq_refl Hs'). }
  assert (H1 : holds base [] stk [] tags bs0 s0 (set_dtd (insert_elem ns el (s_dtd s)) s)).
  { eapply holds_N; [exact H|]. exact (lw_insert_elem _ N_leafs ns el s). }
  apply wp_upd. generalize (Hf0 _ H1). generalize (set_bindings [] (set_dtd (insert_elem ns el (s_dtd s)) s)). clear. intros s H.
  apply Nest.wp_bind. eapply wp_M; [apply NM, (keeps_encoding _ _ frame_N)|exact H| |auto]. clear; intros e s H.
  apply Nest.wp_bind. eapply wp_M; [apply NM, (keeps_lift _ _ frame_N)|exact H| |auto]. clear; intros xs s H.
  apply Nest.wp_bind. eapply wp_M; [apply M_specified_atts|exact H| |auto]. clear; intros [atts np] s H.
  apply Nest.wp_bind. eapply wp_M; [apply NM, (lw_id_index _ N_leafs)|exact H| |auto]. clear; intros _ s H.
  apply wp_get. generalize (s_dtd s). intros d.
  apply Nest.wp_bind. eapply wp_M; [|exact H| |auto]. { destruct (look el (d_elems d)); [apply NM, (keeps_ret _ _ frame_N)|apply keeps_die]. }
  clear; intros das s H.
  apply Nest.wp_bind. eapply wp_M; [apply M_default_atts|exact H| |auto]. clear; intros [atts1 np1] s H.
  apply Nest.wp_bind. eapply wp_M; [|exact H| |auto]. { destruct np1; [apply NM, (keeps_ret _ _ frame_N)|apply NM, (lw_expand_atts _ N_leafs)]. }
  clear; intros ex s H.
  apply Nest.wp_bind. eapply wp_M; [apply NM, (lw_clear_types _ N_leafs)|exact H| |auto]. clear; intros _ s H.
  apply wp_get. remember (s_bindings s) as bs eqn:Eb.
  assert (Hm : forall s', holds base (decls s0 bs) stk [] tags (bs ++ bs0) s0 s' -> s_bindings s' = bs -> mid base stk tags bs0 s0 s').
  { intros s' Hs' E. unfold mid. rewrite E. exact Hs'. }
  unfold mid in H. rewrite <- Eb in H.
  apply Nest.wp_bind. eapply wp_N; [apply (lw_clear_bindings _ N_leafs)|exact H| |]; [|intros; apply Hm; [assumption|congruence]].
  intros _ s1 H1 E1. rewrite <- Eb in E1.
  apply Nest.wp_bind. eapply wp_N; [|exact H1| |]; [| |intros; apply Hm; [assumption|congruence]].
  { destruct ns; [apply (lw_expand_name _ N_leafs)|apply (keeps_ret _ _ frame_N)]. }
  intros name s2 H2 _. apply wp_pret. exact H2.
Qed.

(* events *)
Lemma wp_emit h ev base pend stk cl pend' stk' cl' tags bs s0 s (Qr : bool -> st -> Prop) (Qf : XML_Error -> st -> Prop) :
  (forall x, listening x -> h x = true) -> trace (pend, stk, cl) (mark_of ev) = Some (pend', stk', cl') ->
  holds base pend stk cl tags bs s0 s -> (forall s', holds base pend' stk' cl' tags bs s0 s' -> Qr true s') -> wp (emit h ev) s Qr Qf.
Proof.
  intros Hh Ht H HQ. destruct (emit_on h ev s) as (s2 & E & F1 & F2 & F3 & F4 & F5 & F6); [apply Hh, (h_sane _ _ _ _ _ _ _ _ H)|].
  unfold Nest.wp. rewrite E. apply HQ. eapply holds_event; eassumption.
Qed.
Lemma holds_unbind base pend stk cl tags b bs s0 s : holds base pend stk cl tags (b :: bs) s0 s ->
  holds base pend stk cl tags bs s0 (set_dtd (bind_prefix (b_prefix b) (b_prev b) (s_dtd s)) s).
Proof.
  intros [A B C D ([E1 _] & E2 & E3)]. split.
  - eapply sane_same; [| | |exact A]; reflexivity.
  - eapply grown_trans; [exact B|]. apply grown_same; reflexivity.
  - exact C.
  - exact D.
  - eapply chain_ext; [|exact E3]. intros q _. unfold bound_in. cbn [s_dtd set_dtd]. rewrite bound_bind by exact E1. reflexivity.
Qed.
(* taking back what has been declared *)
Lemma wp_free base stk tags bs0 s0 bs : forall s (Qr : unit -> st -> Prop) (Qf : XML_Error -> st -> Prop),
  holds base [] stk (decls s0 bs) tags (bs ++ bs0) s0 s -> (forall s', holds base [] stk [] tags bs0 s0 s' -> Qr tt s') -> wp (freeBindings bs) s Qr Qf.
Proof.
  induction bs as [|b bs IH]; intros s Qr Qf H HQ; cbn [freeBindings].
  - apply wp_pret, HQ, H.
  - apply Nest.wp_bind. eapply (wp_emit _ _ _ _ _ _ [] stk (decls s0 bs)); [intros x Hx; apply Hx| |exact H|].
    { cbn [mark_of]. apply (step_close (decl_of (sep s0) b)). }
    intros s1 H1. apply wp_dtd. apply IH; [|exact HQ]. apply holds_unbind. exact H1.
Qed.
Lemma wp_free_rejected base stk tags bs0 s0 s (Qr : unit -> st -> Prop) (Qf : XML_Error -> st -> Prop) :
  mid base stk tags bs0 s0 s -> (forall s', holds base [] stk [] tags bs0 s0 s' -> Qr tt s') -> wp (freeBindings (s_bindings s)) s Qr Qf.
Proof.
  unfold mid. destruct (s_bindings s) as [|b bs]; intros H HQ; cbn [freeBindings].
  - apply wp_pret, HQ, H.
  - apply Nest.wp_bind. eapply (wp_emit _ _ _ _ _ _ [] stk (decls s0 bs)); [intros x Hx; apply Hx| |exact H|].
    { cbn [mark_of]. apply (step_withdraw (decl_of (sep s0) b)). }
    intros s1 H1. apply wp_dtd. eapply wp_free; [|exact HQ]. apply holds_unbind. exact H1.
Qed.

(* between tags *)
Definition stack (s : st) (l : list tag) : list (bytes * list decl) := map (fun tg => (t_name tg, decls s (State.t_bindings tg))) l.
Definition inv (base : table) (s : st) : Prop := holds base [] (stack s (s_tags s)) [] (s_tags s) (flat_map State.t_bindings (s_tags s)) s s.
Definition G (s s' : st) : Prop := forall base, inv base s -> inv base s' /\ grown s s'.
Definition Gf (s s' : st) : Prop := forall base, inv base s -> sane s' /\ grown s s'.
Lemma inv_sane base s : inv base s -> sane s. Proof. intros H. apply H. Qed.
Lemma frame_G : frame G Gf.
Proof.
  split.
  - intros s base H. split; [exact H|apply grown_refl].
  - intros a b c H1 H2 base Ha. destruct (H1 _ Ha) as [Hb g1]. destruct (H2 _ Hb) as [Hc g2]. split; [exact Hc|]. eapply grown_trans; eassumption.
  - intros a b c H1 H2 base Ha. destruct (H1 _ Ha) as [Hb g1]. destruct (H2 _ Hb) as [Hc g2]. split; [exact Hc|]. eapply grown_trans; eassumption.
  - intros a b H base Ha. destruct (H _ Ha) as [Hb g]. split; [eapply inv_sane, Hb|exact g].
Qed.
Lemma stack_grown s s' l : grown s s' -> stack s' l = stack s l.
Proof. intros g. unfold stack, decls. rewrite (sep_grown _ _ g). reflexivity. Qed.
Lemma inv_of base tags s0 s : holds base [] (stack s0 tags) [] tags (flat_map State.t_bindings tags) s0 s -> inv base s /\ grown s0 s.
Proof.
  intros [A B C D E]. split; [|exact B]. unfold inv. rewrite D, (stack_grown _ _ _ B). split; try assumption. apply grown_refl.
Qed.
Lemma N_G a b : N a b -> G a b.
Proof. intros H base Ha. apply (inv_of base (s_tags a)). eapply holds_N; eassumption. Qed.
Lemma NG {A} (m : P A) : keeps N N m -> keeps G Gf m.
Proof. apply keeps_imp; intros; [|apply (f_weak _ _ frame_G)]; apply N_G; assumption. Qed.
Lemma G_same s s' : s_cfg s' = s_cfg s -> s_pid s' = s_pid s -> s_log s' = s_log s -> s_dtd s' = s_dtd s -> s_tags s' = s_tags s -> G s s'.
Proof.
  intros E1 E2 E3 E4 E5 base H. apply (inv_of base (s_tags s)). rewrite <- E5 at 2. eapply holds_same; eassumption.
Qed.
Lemma keeps_G {A} (m : P A) : keeps U U m -> (forall base s, inv base s -> 
   wp m s (fun _ s' => holds base [] (stack s (s_tags s')) [] (s_tags s') (flat_map State.t_bindings (s_tags s')) s s') (fun _ s' => sane s' /\ grown s s')) -> keeps G Gf m.
Proof.
  intros Hu H s. specialize (Hu s).
  assert (H' : forall base, inv base s -> match m s with Ret _ s' => inv base s' /\ grown s s' | Fail _ s' => sane s' /\ grown s s' | Die _ => True end).
  { intros base Hi. specialize (H base s Hi). apply wp_code in H. destruct (m s) as [a s'|e s'|]; [|exact H|exact I].
    exact (inv_of base (s_tags s') s s' H). }
  destruct (m s) as [a s'|e s'|]; [exact H'|split; [apply Hu|exact H']|exact I].
Qed.
Lemma holds_out base pend stk cl tags bs s0 s : holds base pend stk cl tags bs s0 s -> sane s /\ grown s0 s.
Proof. intros [A B _ _ _]. split; assumption. Qed.
Ltac n1 L := apply Nest.wp_bind; eapply wp_N; [exact L|eassumption| |intros; eapply holds_out; eassumption]; intros.

Lemma wp_imp {A} (m : P A) s (Q1 Q2 : A -> st -> Prop) (F1 F2 : XML_Error -> st -> Prop) : wp m s Q1 F1 ->
  (forall a s', Q1 a s' -> Q2 a s') -> (forall e s', F1 e s' -> F2 e s') -> wp m s Q2 F2.
Proof. unfold Nest.wp. destruct (m s); auto. intros [X Y] H1 H2. auto. Qed.
Lemma holds_set base pend stk cl tags bs s0 s g : holds base pend stk cl tags bs s0 s -> s_cfg (g s) = s_cfg s -> s_pid (g s) = s_pid s ->
  s_log (g s) = s_log s -> s_dtd (g s) = s_dtd s -> holds base pend stk cl (s_tags (g s)) bs s0 (g s).
Proof. intros. eapply holds_same; eassumption. Qed.

Lemma G_start_tag r t e b n : keeps G Gf (start_tag r t e b n).
Proof.
  apply keeps_G; [apply (U_of T T), (tw_start_tag _ T_tags)|]. intros base s0 Hi. unfold start_tag.
  n1 (lw_tag_raw _ N_leafs e 1 b). rename a into raw. apply wp_upd.
  assert (H1 : holds base [] (stack s0 (s_tags s0)) [] (s_tags s0) (flat_map State.t_bindings (s_tags s0)) s0 (set_tagLevel (S (s_tagLevel s')) s')).
  { rewrite <- (h_tags _ _ _ _ _ _ _ _ H) at 2. exact (holds_same _ _ _ _ _ _ _ s' (set_tagLevel (S (s_tagLevel s')) s') eq_refl eq_refl eq_refl eq_refl H). }
  clear H H0. n1 (keeps_lift N N frame_N (conv e raw)). rename a into name. clear H1 H0 s'.
  apply Nest.wp_bind. eapply wp_imp; [exact (wp_storeAtts (rc_fuel r) t b name _ _ _ _ _ _ H)| |intros ? ? Hq; exact (holds_out _ _ _ _ _ _ _ _ Hq)]. cbv beta.
  clear. intros so s1 H1. apply wp_get. generalize (s_idIx s1). intros ix.
  apply Nest.wp_bind. eapply wp_emit; [intros x Hx; apply Hx| |exact H1|]. { cbn [mark_of]. apply step_el. }
  intros s2 H2. cbn [negb when]. apply Nest.wp_bind, wp_pret.
  assert (Et : s_tags s2 = s_tags s0) by apply H2.
  cbn beta. unfold Nest.wp, upd. cbn [s_tags set_tags]. rewrite Et. cbn [stack map t_name State.t_bindings flat_map].
  exact (holds_same _ _ _ _ _ _ _ s2 (set_tags ({| t_raw := raw; t_name := so_name so; State.t_bindings := so_bindings so |} :: s_tags s0) s2) eq_refl eq_refl eq_refl eq_refl H2).
Qed.
Lemma G_empty_tag r t e b n : keeps G Gf (empty_tag r t e b n).
Proof.
  apply keeps_G; [apply (U_of T T), (tw_empty_tag _ T_tags)|]. intros base s0 Hi. unfold empty_tag.
  n1 (lw_tag_raw _ N_leafs e 1 b). rename a into raw. clear H0.
  n1 (keeps_lift N N frame_N (conv e raw)). rename a into name. clear H1 H s'.
  apply Nest.wp_bind. pose proof (wp_storeAtts (rc_fuel r) t b name _ _ _ _ _ _ H0) as Hs. unfold Nest.wp, try in *.
  destruct (storeAtts (rc_fuel r) t b name s'0) as [so s1|er s1|]; [| |exact I]; clear H0 s'0 Hi.
  - change (wp (do ix <- get s_idIx;
      do started <- emit h_startElement (EvStartElement (so_name so) (so_atts so) (so_spec so) ix);
      when started (set_event_n t (length b - n)) ;;;
      do ended <- emit h_endElement (EvEndElement (so_name so));
      when (negb started && negb ended) (reportDefault t (firstn n b) (length b - n)) ;;;
      freeBindings (so_bindings so)) s1 (fun _ s' => holds base [] (stack s0 (s_tags s')) [] (s_tags s') (flat_map State.t_bindings (s_tags s')) s0 s') (fun _ s' => sane s' /\ grown s0 s')).
    apply wp_get. generalize (s_idIx s1). intros ix.
    apply Nest.wp_bind. eapply wp_emit; [intros x Hx; apply Hx| |exact Hs|]. { cbn [mark_of]. apply step_el. }
    clear s1 Hs. intros s1 H1. cbn [when].
    n1 (lw_set_event_n _ N_leafs t (length b - n)). clear H0.
    apply Nest.wp_bind. eapply wp_emit; [intros x Hx; apply Hx| |exact H|]. { cbn [mark_of]. apply step_end. }
    intros s2 H2. cbn [negb andb when]. apply Nest.wp_bind, wp_pret. 
    eapply wp_free; [exact H2|]. intros s3 H3. assert (Et : s_tags s3 = s_tags s0) by apply H3. rewrite Et. exact H3.
  - destruct Hs as [He Hs]. change (Nest.wp (do bs <- get s_bindings; freeBindings bs ;;; @fail unit er) s1 (fun _ s' => holds base [] (stack s0 (s_tags s')) [] (s_tags s') (flat_map State.t_bindings (s_tags s')) s0 s') (fun _ s' => sane s' /\ grown s0 s')).
    apply wp_get. apply Nest.wp_bind. eapply wp_free_rejected; [exact Hs|]. intros s2 H2.
    split; [exact He|]. eapply holds_out; exact H2.
Qed.
Lemma G_end_tag t e b n : keeps G Gf (end_tag t e b n).
Proof.
  apply keeps_G; [apply (U_of T T), (tw_end_tag _ T_tags)|]. intros base s0 Hi. unfold end_tag. apply wp_get.
  destruct (s_tags s0) as [|tg tags] eqn:Et; [exact I|]. unfold inv in Hi. rewrite Et in Hi. cbn [stack map flat_map] in Hi.
  apply wp_upd.
  pose proof (holds_same _ _ _ _ _ _ _ s0 (set_tags tags s0) eq_refl eq_refl eq_refl eq_refl Hi) as H. cbn [s_tags set_tags] in H. clear Hi.
  n1 (lw_inc _ N_leafs (minbpc e * 2) b). rename a into bb. clear H1 H.
  n1 (lw_tag_raw _ N_leafs e 2 b). rename a into raw. clear H1 H0.
  destruct (negb (beqb raw (t_raw tg))).
  { n1 (lw_set_event _ N_leafs t bb). split; [discriminate|]. eapply holds_out; eassumption. }
  apply wp_upd.
  assert (H1 : holds base [] ((t_name tg, decls s0 (State.t_bindings tg)) :: stack s0 tags) [] tags (State.t_bindings tg ++ flat_map State.t_bindings tags) s0 (set_tagLevel (pred (s_tagLevel s'0)) s'0)).
  { rewrite <- (h_tags _ _ _ _ _ _ _ _ H) at 2. exact (holds_same _ _ _ _ _ _ _ s'0 (set_tagLevel (pred (s_tagLevel s'0)) s'0) eq_refl eq_refl eq_refl eq_refl H). }
  clear H. apply Nest.wp_bind. eapply wp_emit; [intros x Hx; apply Hx| |exact H1|]. { cbn [mark_of]. apply step_end. }
  intros s2 H2. cbn [negb when]. apply Nest.wp_bind, wp_pret.
  eapply wp_free; [exact H2|]. intros s3 H3. assert (Ett : s_tags s3 = tags) by apply H3. rewrite Ett. exact H3.
Qed.
