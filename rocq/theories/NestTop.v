(* Parsers for external entities, the closed recursion and the calling interface: element events nest. *)
From Coq Require Import List NArith ZArith Bool Arith Lia.
From Verif Require Import Base Encoding TokMisc XmlDecl Status Role State AttVal Bind Atts Scaf Content Prolog Core.
From Verif Require Import Keep SpecNest Nest.
From Verif Require Api ApiInv.
Import ListNotations.
Local Open Scope nat_scope.

Definition I0 (c0 c : st) : Prop := inv c /\ grown c0 c.
Definition W0 (c0 c : st) : Prop := sane c /\ grown c0 c.
Lemma I0_W0 c0 c : I0 c0 c -> W0 c0 c.
Proof. intros [[H _] g]. split; assumption. Qed.

Lemma run_inv r : good r -> forall c0 c p f b x, I0 c0 c -> run r c p f b = Ok x ->
  if Api.is_none (Api.r_err x) then I0 c0 (Api.r_core x) else W0 c0 (Api.r_core x).
Proof.
  intros Hr c0 c p f b x [Hi Hg] E. unfold run in E.
  set (c1 := set_evEnd None (set_ev None (set_final f (set_parsing p c)))) in E.
  assert (H1 : inv c1 /\ grown c c1) by (apply (N_G c c1); [apply N_same; reflexivity|exact Hi]).
  destruct H1 as [Hi1 Hg1].
  pose proof (kg_process r Hr b c1) as Hp. destruct (process r b c1) as [y s'|e s'|e]; [| |discriminate].
  - injection E as <-. cbn. destruct (Hp Hi1) as [A B]. split; [exact A|].
    eapply grown_trans; [exact Hg|]. eapply grown_trans; eassumption.
  - injection E as <-. cbn [Api.r_err Api.r_core]. destruct Hp as [He Hp]. destruct (Hp Hi1) as [A B].
    assert (W0 c0 s') by (split; [exact A|]; eapply grown_trans; [exact Hg|]; eapply grown_trans; eassumption).
    destruct e; try assumption. elim He. reflexivity.
Qed.
Lemma start_N c c' : start c = Ok (Some c') -> N c c'.
Proof.
  unfold start. intros E. destruct (c_ns (s_cfg c)).
  - pose proof (kp_setContext implicitContext c) as H. destruct (setContext implicitContext c) as [[] s|e s|e]; try discriminate.
    injection E as <-. exact H.
  - injection E as <-. apply (f_refl _ _ frame_N).
Qed.
Lemma start_inv c0 c c' : I0 c0 c -> start c = Ok (Some c') -> I0 c0 c'.
Proof.
  intros [Hi Hg] E. apply start_N, N_G in E. apply E in Hi as [Hi Hg']. split; [exact Hi|].
  eapply grown_trans; eassumption.
Qed.
Lemma start_invW c0 c c' : W0 c0 c -> start c = Ok (Some c') -> W0 c0 c'.
Proof.
  intros [Hi Hg] E. apply start_N in E. apply E in Hi as (Hi & Hg' & _). split; [exact Hi|].
  eapply grown_trans; eassumption.
Qed.

(* a parser for an external entity *)
Lemma fresh_elements q log : (forall p e, In (p, e) log -> p < q) -> elements q log = [].
Proof.
  induction log as [|[p e] log IH]; intros H; cbn [elements]; [reflexivity|].
  replace (p =? q) with false by (symmetry; apply Nat.eqb_neq; specialize (H p e (or_introl eq_refl)); lia).
  rewrite IH; [reflexivity|]. intros p' e' Hi. apply (H p' e'). right. exact Hi.
Qed.
Lemma child_inv context enc s c : sane s -> child_parser context enc s = Ok (Some c) ->
  inv c /\ s_pid c = length (s_log s) /\ length (s_log s) <= length (s_log c) /\
  forall q, q < length (s_log s) -> elements q (s_log c) = elements q (s_log s).
Proof.
  intros Hs E. unfold child_parser in E.
  set (make := fun d : dtd => set_log (s_log s) (set_pid (length (s_log s)) (set_declElement (s_declElement s) (set_child true
      (set_pep (s_pep s) (set_inEV (s_inEV s) (new_state (child_config (s_cfg s)) enc d))))))).
  change (match context with
          | None => Ok (Some (set_processor PrParEntInit (set_isParam true (let c := make (s_dtd s) in set_role (external_init (s_role c)) c))))
          | Some ctx => let* d := clone_dtd (s_dtd s) in
              match setContext ctx (make d) with
              | Ret true c => Ok (Some (set_processor PrExtEntInit c))
              | Ret false _ | Fail _ _ => Ok None
              | Die e => Err e
              end
          end = Ok (Some c)) in E.
  assert (Hm : forall d, inv (make d)).
  { intros d. destruct Hs as [A B C D F]. split; [split|].
    - exact A.
    - exact B.
    - cbn. apply Nat.le_refl.
    - exact D.
    - exact F.
    - unfold mine. change (s_log (make d)) with (s_log s). change (s_pid (make d)) with (length (s_log s)).
      rewrite fresh_elements by exact D. reflexivity. }
  destruct context as [ctx|].
  - destruct (clone_dtd (s_dtd s)) as [d|]; [|discriminate]. cbn [bind] in E.
    pose proof (kp_setContext ctx (make d)) as H. destruct (setContext ctx (make d)) as [[] s'|e s'|e]; try discriminate.
    injection E as <-.
    destruct (N_G _ _ H (Hm d)) as [Hi Hg]. destruct (N_G s' (set_processor PrExtEntInit s') (N_same s' (set_processor PrExtEntInit s') eq_refl eq_refl eq_refl eq_refl) Hi) as [Hi' _].
    split; [exact Hi'|]. destruct Hg as [g1 g2 g3 g4]. split; [exact g2|]. split; [exact g3|].
    intros q Hq. apply g4; [|exact Hq]. cbn. lia.
  - assert (Hd := Hm (s_dtd s)).
    assert (E1 : s_pid (make (s_dtd s)) = length (s_log s)) by reflexivity.
    assert (E2 : s_log (make (s_dtd s)) = s_log s) by reflexivity.
    generalize dependent (make (s_dtd s)). intros m E Hd E1 E2. injection E as <-.
    match goal with |- inv ?x /\ _ => assert (Hn : N m x) by (apply N_same; reflexivity) end.
    split; [apply (N_G _ _ Hn Hd)|]. cbn [s_pid s_log set_processor set_isParam set_role]. rewrite E1, E2. auto.
Qed.
Lemma parse_all_inv r : good r -> forall c0 chunks a a' l, ApiInv.holds (I0 c0) (W0 c0) a ->
  parse_all r chunks a = Ok (a', l) -> ApiInv.holds (I0 c0) (W0 c0) a'.
Proof.
  intros Hr c0 chunks. induction chunks as [|[b f] chunks IH]; intros a a' l Ha E; cbn [parse_all] in E.
  - injection E as <- <-. exact Ha.
  - destruct (Api.parse (run r) start position b f true a) as [[a1 s]|] eqn:Ep; [|discriminate]. cbn [bind] in E.
    assert (H1 : ApiInv.holds (I0 c0) (W0 c0) a1).
    { eapply (ApiInv.parse_inv (run r) start position); [apply I0_W0|intros; eapply run_inv; eassumption|intros; eapply start_inv; eassumption
        |intros; eapply start_invW; eassumption|exact Ha|exact Ep]. }
    destruct s; try (injection E as <- <-; exact H1).
    destruct (parse_all r chunks a1) as [[a2 l2]|] eqn:Er; [|discriminate]. cbn [bind] in E. injection E as <- <-.
    eapply IH; eassumption.
Qed.
Lemma call_in ev s : match call ev s with Ret _ s' => In (s_pid s', ev) (s_log s') | _ => True end.
Proof. cbn. left. reflexivity. Qed.
Lemma ext_N r : good r -> forall a b c d, keeps N N (ext r a b c d).
Proof.
  intros Hr context base sysid pubid s0. unfold ext, pbind.
  set (ev := EvExternalEntityRef context base sysid pubid).
  pose proof (kp_call ev eq_refl s0) as Hcall. pose proof (call_in ev s0) as Hin.
  destruct (call ev s0) as [re s|e s|e]; [|apply Hcall|exact I].
  destruct (child_plan re) as [[enc chunks]|]; [|exact Hcall].
  destruct (child_parser context enc s) as [[c|]|] eqn:Ec; [|exact Hcall|exact I].
  destruct (parse_all r chunks (new_parser c)) as [[a l]|] eqn:Ep; [|exact I].
  match goal with |- N s0 ?x => assert (H3 : N s x) end; [|eapply (f_trans _ _ frame_N); [exact Hcall|exact H3]].
  intros Hs. destruct (child_inv _ _ _ _ Hs Ec) as (Hi & Hp & Hl & Ho).
  assert (Ha : ApiInv.holds (I0 c) (W0 c) a).
  { eapply parse_all_inv; [exact Hr| |exact Ep]. unfold ApiInv.holds. cbn. split; [exact Hi|apply grown_refl]. }
  assert (Hw : W0 c (Api.core a)) by (unfold ApiInv.holds in Ha; destruct (Api.failed a); [exact Ha|apply I0_W0, Ha]).
  destruct Hw as [Hsa Hg]. set (c' := Api.core a) in *.
  assert (El : forall q, q < length (s_log s) -> elements q (s_log c') = elements q (s_log s)).
  { intros q Hq. destruct Hg as [g1 g2 g3 g4]. rewrite g4; [apply Ho, Hq|lia|lia]. }
  assert (H1 : N s (set_log (s_log c') s)).
  { intros _. pose proof (sn_low s Hs _ _ Hin) as Hlt.
    destruct Hs as [A B C D F]. destruct Hsa as [A' B' C' D' F']. destruct Hg as [g1 g2 g3 g4].
    split; [split|split; [split|split]]; try (cbn; first [assumption|reflexivity|lia]).
    - intros q _ Hq. exact (El q Hq).
    - exact (El _ Hlt). }
  assert (H2 : forall d, N s (set_dtd d (set_log (s_log c') s))).
  { intros d. eapply (f_trans _ _ frame_N); [exact H1|]. apply N_same; reflexivity. }
  destruct context; [apply H1|apply H2]; exact Hs.
Qed.
Lemma good_knot n : good (knot n).
Proof.
  induction n as [|n IH].
  - split; cbn; intros; apply keeps_die.
  - split; cbn [knot rc_content rc_prolog rc_ext]; intros; [apply kg_doContent, IH|apply kg_doProlog, IH|apply ext_N, IH].
Qed.

(* whole histories *)
Lemma new_inv cfg enc d : h_startElement (c_h cfg) = true -> h_endElement (c_h cfg) = true -> inv (new_state cfg enc d).
Proof.
  intros H1 H2. split; [split|]; cbn; auto; [intros q e []|]. intros q. exists []. reflexivity.
Qed.
Lemma nested n os c a l : inv c -> Forall ApiInv.plain os ->
  Api.steps (run (knot n)) start position os (new_parser c) = Ok (a, l) -> forall q, nested_so_far (elements q (s_log (Api.core a))).
Proof.
  intros Hi Hos E q.
  assert (Ha : ApiInv.holds (I0 c) (W0 c) a).
  { eapply (ApiInv.steps_inv (run (knot n)) start position); [apply I0_W0|intros; eapply run_inv; [apply good_knot|eassumption|eassumption]
      |intros; eapply start_inv; eassumption|intros; eapply start_invW; eassumption|exact Hos| |exact E].
    split; [exact Hi|apply grown_refl]. }
  assert (Hw : W0 c (Api.core a)) by (unfold ApiInv.holds in Ha; destruct (Api.failed a); [exact Ha|apply I0_W0, Ha]).
  destruct Hw as [Hs _]. destruct (sn_all _ Hs q) as [k Hk]. exact (stack_nested _ _ Hk).
Qed.

Lemma root_inv cfg enc pep foreign base : h_startElement (c_h cfg) = true -> h_endElement (c_h cfg) = true ->
  inv (root cfg enc pep foreign base).
Proof.
  intros H1 H2. unfold root. assert (Hn : N (new_state cfg enc dtd0) (set_base base (set_foreign foreign (set_pep pep (new_state cfg enc dtd0))))).
  { apply N_same; reflexivity. }
  exact (proj1 (N_G _ _ Hn (new_inv _ _ _ H1 H2))).
Qed.
