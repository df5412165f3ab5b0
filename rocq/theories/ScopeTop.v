(* Parsers for external entities, the closed recursion and the calling interface: namespace events and bindings. *)
From Coq Require Import List NArith ZArith Bool Arith Lia.
From Verif Require Import Base Encoding Tok TokMisc Norm XmlDecl Status Role State AttVal Bind Atts Scaf Content Prolog Core.
From Verif Require Import Keep Walk LogWalk SpecScope Trace Scope ScopePar ScopeTag.
From Verif Require Api ApiInv Nest.
Import ListNotations.
#[local] Hint Resolve Nest.tok_end_code : codes.

(* entities *)
Ltac gsame := apply keeps_upd; intros; apply G_same; reflexivity.
Lemma G_leave ent l n b : keeps G Gf (leave_entity ent l n b).
Proof. unfold leave_entity. walk frame_G ltac:(idtac; first [apply NG, N_entity|solve [gsame]]). Qed.
Section Ent.
Variable r : recs.
Hypothesis Hr : callees N G Gf r.
Ltac wg x := walk frame_G ltac:(idtac; first [x|apply (c_prolog _ _ _ _ Hr)|apply (c_content _ _ _ _ Hr)|apply NG, (c_ext _ _ _ _ Hr)
  |apply G_leave|apply NG, N_entity|apply NG; lw_all N_leafs|solve [gsame]]).
Lemma G_pie ent text b : keeps G Gf (processInternalEntity r ent text b).
Proof. unfold processInternalEntity. wg nope. Qed.
Lemma G_parameter ent b : keeps G Gf (handleEntityRef r ent b).
Proof. unfold handleEntityRef. wg ltac:(apply G_pie). Qed.
Lemma G_reference t e b n : keeps G Gf (content_entity r t e b n).
Proof. unfold content_entity. wg ltac:(apply G_pie). Qed.
Lemma G_internal b : keeps G Gf (internalEntityProcessor r b).
Proof. unfold internalEntityProcessor. wg nope. Qed.
End Ent.
Lemma walker_G : walker N G Gf G Gf.
Proof.
  split.
  - split.
    + exact N_leafs.
    + exact frame_G.
    + exact N_G.
    + exact N_append.
    + intros. apply N_value; assumption.
    + intros. apply G_parameter; assumption.
    + intros. apply N_subset, (c_ext _ _ _ _ H).
    + intros. apply NG, N_declare.
    + intros. apply G_same; reflexivity.
    + intros. apply NG, N_role; [assumption|]. apply (c_ext _ _ _ _ H0).
    + intros. apply G_same; reflexivity.
  - exact frame_G.
  - auto.
  - auto.
  - intros. apply G_start_tag.
  - intros. apply G_empty_tag.
  - intros. apply G_end_tag.
  - intros. apply G_reference; assumption.
  - intros. apply G_internal; assumption.
  - intros. apply G_same; reflexivity.
  - intros. apply G_same; reflexivity.
  - intros. apply G_same; reflexivity.
Qed.

(* the implicit binding of xml *)
Lemma N_xml b : keeps N N (upd_dtd (bind_prefix (PNamed xml_prefix) b)).
Proof.
  intros s Hs. unfold upd_dtd, upd. split; [eapply sane_same; [| | |exact Hs]; reflexivity|]. split; [apply grown_same; reflexivity|].
  split; [|reflexivity]. split; try reflexivity. intros p Hp. unfold bound_in. cbn [s_dtd set_dtd]. rewrite bound_bind by discriminate.
  unfold over. destruct (prefref_dec p (PNamed xml_prefix)); [contradiction|reflexivity].
Qed.
Lemma N_insert_prefix n : keeps N N (upd_dtd (fun d => match look n (d_prefixes d) with None => set_d_prefixes (put n None (d_prefixes d)) d | Some _ => d end)).
Proof.
  intros s. unfold upd_dtd, upd. destruct (look n (d_prefixes (s_dtd s))) eqn:E; [apply N_same; reflexivity|].
  exact (l_insert _ N_leafs n s E).
Qed.
Lemma implicit : setContext implicitContext = (upd_dtd (fun d => match look xml_prefix (d_prefixes d) with None => set_d_prefixes (put xml_prefix None (d_prefixes d)) d | Some _ => d end) ;;;
  do bs <- get s_inherited;
  do r <- try (addBinding (PNamed xml_prefix) None xmlNamespace bs);
  match r with inl _ => pret false | inr bs => upd (set_inherited bs) ;;; pret true end).
Proof. reflexivity. Qed.
Lemma N_inherited uri bs : keeps N N (addBinding (PNamed xml_prefix) None uri bs).
Proof.
  unfold addBinding. walk frame_N ltac:(idtac; match goal with |- keeps _ _ (upd_dtd _) => apply N_xml end).
Qed.
Lemma N_implicit : keeps N N (setContext implicitContext).
Proof.
  rewrite implicit. generalize xmlNamespace. intros uri. apply (keeps_bind _ _ frame_N); [apply N_insert_prefix|]. intros _.
  walk frame_N ltac:(idtac; match goal with
    | |- keeps _ _ (addBinding _ _ _ _) => apply N_inherited
    | |- keeps _ _ (upd _) => apply keeps_upd; intros; apply N_same; reflexivity end).
Qed.
Lemma start_N c c' : start c = Ok (Some c') -> N c c'.
Proof.
  unfold start. intros E. destruct (c_ns (s_cfg c)).
  - pose proof (N_implicit c) as H. destruct (setContext implicitContext c) as [[] s|e s|e]; try discriminate.
    injection E as <-. exact H.
  - injection E as <-. apply N_refl.
Qed.
(* taking over a context *)
Definition apart (s s' : st) : Prop := s_cfg s' = s_cfg s /\ s_pid s' = s_pid s /\ s_log s' = s_log s /\ s_tags s' = s_tags s.
Lemma frame_apart : frame apart apart.
Proof. split; unfold apart; intros; intuition congruence. Qed.
Lemma apart_context fuel : forall acc b, keeps apart apart (setContext_loop fuel acc b).
Proof.
  induction fuel as [|fuel IH]; intros acc b; cbn [setContext_loop]; unfold upd_entity, upd_dtd, addBinding;
    walk frame_apart ltac:(idtac; first [apply IH|apply keeps_upd; intros; unfold apart; repeat split; reflexivity]).
Qed.

(* calls of the processors *)
Section Run.
Variables G0 Gf0 : st -> st -> Prop.
Variables I W : st -> Prop.
Hypothesis HG : forall s s', G0 s s' -> I s -> I s'.
Hypothesis HF : forall s s', Gf0 s s' -> I s -> W s'.
Hypothesis HI : forall s s', s_cfg s' = s_cfg s -> s_pid s' = s_pid s -> s_log s' = s_log s -> s_dtd s' = s_dtd s -> s_tags s' = s_tags s ->
  s_bindings s' = s_bindings s -> place s' = place s -> I s -> I s'.
Hypothesis HIW : forall s, I s -> W s.
Hypothesis HS : forall s s', N s s' -> I s -> I s'.
Hypothesis HW : forall s s', N s s' -> W s -> W s'.
Variable r : recs.
Hypothesis Hr : forall b, keeps G0 Gf0 (process r b).
Lemma run_I c p f b x : I c -> run r c p f b = Ok x -> if Api.is_none (Api.r_err x) then I (Api.r_core x) else W (Api.r_core x).
Proof.
  intros Hi E. unfold run in E.
  set (c1 := set_evEnd None (set_ev None (set_final f (set_parsing p c)))) in E.
  assert (H1 : I c1) by (apply (HI c c1); try reflexivity; exact Hi).
  pose proof (Hr b c1) as Hp. destruct (process r b c1) as [y s'|e s'|e]; [| |discriminate].
  - injection E as <-. cbn. exact (HG _ _ Hp H1).
  - injection E as <-. cbn [Api.r_err Api.r_core]. destruct Hp as [He Hp]. pose proof (HF _ _ Hp H1) as A.
    destruct e; try assumption. elim He. reflexivity.
Qed.
Lemma start_I c c' : I c -> start c = Ok (Some c') -> I c'.
Proof. intros H E. eapply HS; [apply start_N, E|exact H]. Qed.
Lemma start_W c c' : W c -> start c = Ok (Some c') -> W c'.
Proof. intros H E. eapply HW; [apply start_N, E|exact H]. Qed.
Lemma parse_all_I chunks : forall a a' l, ApiInv.holds I W a -> parse_all r chunks a = Ok (a', l) -> ApiInv.holds I W a'.
Proof.
  induction chunks as [|[b f] chunks IH]; intros a a' l Ha E; cbn [parse_all] in E.
  - injection E as <- <-. exact Ha.
  - destruct (Api.parse (run r) start position b f true a) as [[a1 s]|] eqn:Ep; [|discriminate]. cbn [bind] in E.
    assert (H1 : ApiInv.holds I W a1).
    { eapply (ApiInv.parse_inv (run r) start position); [exact HIW|intros; eapply run_I; eassumption|intros; eapply start_I; eassumption
        |intros; eapply start_W; eassumption|exact Ha|exact Ep]. }
    destruct s; try (injection E as <- <-; exact H1).
    destruct (parse_all r chunks a1) as [[a2 l2]|] eqn:Er; [|discriminate]. cbn [bind] in E. injection E as <- <-.
    eapply IH; eassumption.
Qed.
Lemma steps_I os a a' l : Forall ApiInv.plain os -> ApiInv.holds I W a ->
  Api.steps (run r) start position os a = Ok (a', l) -> ApiInv.holds I W a'.
Proof.
  intros. eapply (ApiInv.steps_inv (run r) start position); [exact HIW|intros; eapply run_I; eassumption|intros; eapply start_I; eassumption
        |intros; eapply start_W; eassumption|eassumption|eassumption|eassumption].
Qed.
Lemma holds_W a : ApiInv.holds I W a -> W (Api.core a).
Proof. unfold ApiInv.holds. destruct (Api.failed a); [auto|apply HIW]. Qed.
End Run.

(* a parser for content: a document or a general entity *)
Definition I1 (base : table) (c0 c : st) : Prop := inv base c /\ grown c0 c.
Definition W1 (c0 c : st) : Prop := sane c /\ grown c0 c.
Lemma I1_W1 base c0 c : I1 base c0 c -> W1 c0 c.
Proof. intros [H g]. split; [eapply inv_sane, H|exact g]. Qed.
Lemma I1_G base c0 s s' : G s s' -> I1 base c0 s -> I1 base c0 s'.
Proof. intros H [A B]. destruct (H _ A) as [A' B']. split; [exact A'|eapply grown_trans; eassumption]. Qed.
Lemma I1_Gf base c0 s s' : Gf s s' -> I1 base c0 s -> W1 c0 s'.
Proof. intros H [A B]. destruct (H _ A) as [A' B']. split; [exact A'|eapply grown_trans; eassumption]. Qed.
Lemma W1_N c0 s s' : N s s' -> W1 c0 s -> W1 c0 s'.
Proof. intros H [A B]. destruct (H A) as (A' & B' & _). split; [exact A'|eapply grown_trans; eassumption]. Qed.
Lemma I1_N base c0 s s' : N s s' -> I1 base c0 s -> I1 base c0 s'.
Proof. intros H. apply I1_G, N_G, H. Qed.
Lemma I1_same base c0 s s' : s_cfg s' = s_cfg s -> s_pid s' = s_pid s -> s_log s' = s_log s -> s_dtd s' = s_dtd s -> s_tags s' = s_tags s ->
  s_bindings s' = s_bindings s -> place s' = place s -> I1 base c0 s -> I1 base c0 s'.
Proof. intros. eapply I1_G; [|eassumption]. apply G_same; assumption. Qed.
(* a parser for a parameter entity *)
Definition I2 (c0 c : st) : Prop := sane c /\ grown c0 c /\ still c0 c /\ par c.
Lemma I2_R c0 s s' : R s s' -> I2 c0 s -> I2 c0 s'.
Proof.
  intros H (A & B & C & D). destruct (H A D) as (A' & B' & C' & D').
  split; [exact A'|]. split; [eapply grown_trans; eassumption|]. split; [eapply still_trans; eassumption|exact D'].
Qed.
Lemma I2_same c0 s s' : s_cfg s' = s_cfg s -> s_pid s' = s_pid s -> s_log s' = s_log s -> s_dtd s' = s_dtd s -> s_tags s' = s_tags s ->
  s_bindings s' = s_bindings s -> place s' = place s -> I2 c0 s -> I2 c0 s'.
Proof. intros. eapply I2_R; [|eassumption]. apply N_R, N_same; try assumption. intros p. congruence. Qed.

(* parsers for external entities *)
Definition base_state (enc : option bytes) (s : st) (d : dtd) : st :=
  set_log (s_log s) (set_pid (length (s_log s)) (set_declElement (s_declElement s) (set_child true
      (set_pep (s_pep s) (set_inEV (s_inEV s) (new_state (child_config (s_cfg s)) enc d)))))).
Lemma fresh_marks q log : (forall p e, In (p, e) log -> p < q) -> marks q log = [].
Proof.
  induction log as [|[p e] log IH]; intros H; cbn [marks]; [reflexivity|].
  replace (p =? q) with false by (symmetry; apply Nat.eqb_neq; specialize (H p e (or_introl eq_refl)); lia).
  rewrite IH; [reflexivity|]. intros p' e' Hi. apply (H p' e'). right. exact Hi.
Qed.
Lemma base_sane enc s d : sane s -> sane (base_state enc s d) /\ mine (base_state enc s d) = [].
Proof.
  intros [A B C D]. split; [split|].
  - destruct A as [a1 a2 a3 a4]. split; assumption.
  - cbn. apply Nat.le_refl.
  - exact C.
  - exact D.
  - unfold mine. change (s_log (base_state enc s d)) with (s_log s). change (s_pid (base_state enc s d)) with (length (s_log s)).
    apply fresh_marks, C.
Qed.
(* a parser that has just been made *)
Record fresh (c : st) : Prop := { fr_sane : sane c; fr_mine : mine c = []; fr_tags : s_tags c = [] }.
Lemma fresh_inv c : fresh c -> inv (bound_in c) c.
Proof.
  intros [A B C]. unfold inv. rewrite C. split; [exact A|apply grown_refl|rewrite B; reflexivity|exact C|apply eqx_refl].
Qed.
Lemma child_some ctx enc s c : sane s -> child_parser (Some ctx) enc s = Ok (Some c) -> fresh c /\ s_pid c = length (s_log s) /\ s_log c = s_log s.
Proof.
  intros Hs E. unfold child_parser in E. change ((let* d := clone_dtd (s_dtd s) in
              match setContext ctx (base_state enc s d) with
              | Ret true c => Ok (Some (set_processor PrExtEntInit c))
              | Ret false _ | Fail _ _ => Ok None
              | Die e => Err e
              end) = Ok (Some c)) in E.
  destruct (clone_dtd (s_dtd s)) as [d|]; [|discriminate]. cbn [bind] in E. destruct (base_sane enc s d Hs) as [Hb Hm].
  pose proof (apart_context (2 + length ctx) [] ctx (base_state enc s d)) as H. fold (setContext ctx) in H.
  destruct (setContext ctx (base_state enc s d)) as [[] s'|e s'|e]; try discriminate.
  injection E as <-. destruct H as (E1 & E2 & E3 & E4).
  split; [split|split]; cbn [s_tags s_pid s_log set_processor].
  - eapply sane_same; [| | |exact Hb]; cbn [s_cfg s_pid s_log set_processor]; assumption.
  - rewrite <- Hm. apply mine_same; cbn [s_pid s_log set_processor]; assumption.
  - rewrite E4. reflexivity.
  - rewrite E2. reflexivity.
  - rewrite E3. reflexivity.
Qed.
Lemma child_none enc s c : sane s -> child_parser None enc s = Ok (Some c) ->
  sane c /\ par c /\ s_pid c = length (s_log s) /\ s_log c = s_log s /\ s_dtd c = s_dtd s.
Proof.
  intros Hs E. unfold child_parser in E.
  change (Ok (Some (set_processor PrParEntInit (set_isParam true (set_role (external_init (s_role (base_state enc s (s_dtd s)))) (base_state enc s (s_dtd s)))))) = Ok (Some c)) in E.
  destruct (base_sane enc s (s_dtd s) Hs) as [Hb _].
  assert (E1 : s_pid (base_state enc s (s_dtd s)) = length (s_log s)) by reflexivity.
  assert (E2 : s_log (base_state enc s (s_dtd s)) = s_log s) by reflexivity.
  assert (E3 : s_dtd (base_state enc s (s_dtd s)) = s_dtd s) by reflexivity.
  assert (E4 : s_open (base_state enc s (s_dtd s)) = []) by reflexivity.
  assert (E5 : s_role (base_state enc s (s_dtd s)) = prolog_init prolog_default) by reflexivity.
  generalize dependent (base_state enc s (s_dtd s)). intros m E Hb E1 E2 E3 E4 E5. injection E as <-. rewrite E5.
  split; [eapply sane_same; [| | |exact Hb]; reflexivity|]. split; [|repeat split; assumption].
  split; [reflexivity|reflexivity|]. cbn [s_open set_processor set_isParam set_role]. rewrite E4. constructor.
Qed.

Record tight (r : recs) : Prop := {
  ti_T : callees T T T r;
  ti_G : callees N G Gf r;
  ti_R : forall t b k n h a, keeps R R (rc_prolog r t b k n h a)
}.
Section Ext.
Variable r : recs.
Hypothesis Hr : tight r.
Lemma tight_G b : keeps G Gf (process r b).
Proof. apply (wk_process _ _ _ _ _ walker_G), Hr. Qed.
Lemma tight_R b : keeps R R (process r b).
Proof. apply R_process; [apply Hr|apply Hr|apply (c_ext _ _ _ _ (ti_G _ Hr))]. Qed.
Lemma ext_N context bs sysid pubid : keeps N N (ext r context bs sysid pubid).
Proof.
  intros s0. unfold ext, pbind.
  set (ev := EvExternalEntityRef context bs sysid pubid).
  pose proof (N_call ev eq_refl s0) as Hcall. assert (Hin : match call ev s0 with Ret _ s' => In (s_pid s', ev) (s_log s') | _ => True end) by (cbn; left; reflexivity).
  destruct (call ev s0) as [re s|e s|e]; [|apply Hcall|exact I].
  destruct (child_plan re) as [[enc chunks]|]; [|exact Hcall].
  destruct (child_parser context enc s) as [[c|]|] eqn:Ec; [|exact Hcall|exact I].
  destruct (parse_all r chunks (new_parser c)) as [[a l]|] eqn:Ep; [|exact I].
  match goal with |- N s0 ?x => assert (H3 : N s x) end; [|eapply N_trans; [exact Hcall|exact H3]].
  intros Hs. set (c' := Api.core a) in *.
  assert (H1 : W1 c c' -> s_pid c = length (s_log s) -> s_log c = s_log s -> N s (set_log (s_log c') s)).
  { intros [Hsa [g1 g2 g3 g4]] Hp El _. pose proof (sn_low s Hs _ _ Hin) as Hlt. rewrite El in g3, g4. rewrite Hp in g4.
    assert (Em : forall q, q < length (s_log s) -> marks q (s_log c') = marks q (s_log s)) by (intros q Hq; apply g4; lia).
    destruct Hs as [A B C D]. destruct Hsa as [A' B' C' D'].
    split; [split; cbn; first [assumption|lia]|]. split; [split; cbn; first [reflexivity|assumption|intros; apply Em; assumption]|].
    split; [|reflexivity]. split; [reflexivity|reflexivity|exact (Em _ Hlt)|apply eqx_refl]. }
  destruct context as [ctx|].
  - destruct (child_some _ _ _ _ Hs Ec) as (Hf & Hp & El).
    assert (Ha : ApiInv.holds (I1 (bound_in c) c) (W1 c) a).
    { eapply (parse_all_I G Gf); [apply I1_G|apply I1_Gf|apply I1_same|apply I1_W1|apply I1_N|apply W1_N|exact tight_G| |exact Ep].
      split; [apply fresh_inv, Hf|apply grown_refl]. }
    apply holds_W in Ha; [|apply I1_W1]. exact (H1 Ha Hp El Hs).
  - destruct (child_none _ _ _ Hs Ec) as (Hc & Hpar & Hp & El & Ed).
    assert (Ha : ApiInv.holds (I2 c) (I2 c) a).
    { eapply (parse_all_I R R); [apply I2_R|apply I2_R|apply I2_same|auto|intros s1 s2 H; apply I2_R, N_R, H|intros s1 s2 H; apply I2_R, N_R, H|exact tight_R| |exact Ep].
      split; [exact Hc|]. split; [apply grown_refl|]. split; [apply still_refl|exact Hpar]. }
    apply holds_W in Ha; [|auto]. destruct Ha as (A & B & [C1 C2 C3 C4] & D). fold c' in A, B, C1, C2, C3, C4, D.
    destruct (H1 (conj A B) Hp El Hs) as (X1 & X2 & [Y1 Y2 Y3 Y4] & X4).
    split; [eapply sane_same; [| | |exact X1]; reflexivity|]. split; [eapply grown_trans; [exact X2|apply grown_same; reflexivity]|].
    split; [|exact X4]. split; [exact Y1|exact Y2|exact Y3|].
    intros p Hq. specialize (C4 p Hq). unfold bound_in in *. rewrite Ed in C4. exact C4.
Qed.
End Ext.
Lemma tight_knot n : tight (knot n).
Proof.
  induction n as [|n IH].
  - split; [apply (T_knot 0)|split; cbn; intros; apply keeps_die|cbn; intros; apply keeps_die].
  - split; [apply (T_knot (S n))| |].
    + split; cbn [knot rc_content rc_prolog rc_ext]; intros;
        [apply (wk_doContent _ _ _ _ _ walker_G), IH|apply (wk_doProlog _ _ _ _ _ walker_G), IH|apply ext_N, IH].
    + cbn [knot rc_prolog]. intros. apply R_doProlog; [apply IH|apply IH|apply (c_ext _ _ _ _ (ti_G _ IH))].
Qed.

(* whole histories *)
Lemma history_inv n os c a l : fresh c -> Forall ApiInv.plain os ->
  Api.steps (run (knot n)) start position os (new_parser c) = Ok (a, l) -> ApiInv.holds (I1 (bound_in c) c) (W1 c) a.
Proof.
  intros Hf Hos E. eapply (steps_I G Gf); [apply I1_G|apply I1_Gf|apply I1_same|apply I1_W1|apply I1_N|apply W1_N|intros; apply tight_G, tight_knot|exact Hos| |exact E].
  split; [apply fresh_inv, Hf|apply grown_refl].
Qed.
Lemma root_fresh cfg enc pep foreign base : listening (c_h cfg) -> fresh (root cfg enc pep foreign base).
Proof.
  intros H. split; [split|reflexivity|reflexivity]; cbn; auto; [intros q e []|]. intros q. exists t0. reflexivity.
Qed.
