(* Relations that only look at the log: every event delivered by any history is as [ok] says. *)
From Coq Require Import List NArith ZArith Bool Arith.
From Verif Require Import Base Encoding Tok TokMisc XmlDecl Status Role State AttVal Bind Atts Scaf Content Prolog Core.
From Verif Require Import Keep Walk.
From Verif Require Api ApiInv.
Import ListNotations.

(* a relation that ignores the DTD, the open entities and the entity that is being declared *)
Section Simple.
Variable N : st -> st -> Prop.
Hypothesis Tl : tagleafs N.
Hypothesis Hd : forall d s, N s (set_dtd d s).
Hypothesis Ho : forall l s, N s (set_open l s).
Hypothesis He : forall x s, N s (set_declEntity x s).
Hypothesis Hpr : forall p s, N s (set_processor p s).
Hypothesis Hro : forall p s, N s (set_role p s).
Let L := t_leafs N Tl.
Let fr := l_frame N L.
Lemma sw_dtd f : keeps N N (upd_dtd f). Proof. unfold upd_dtd. apply keeps_upd. intros. apply Hd. Qed.
Lemma sw_entity ent f : keeps N N (upd_entity ent f). Proof. apply sw_dtd. Qed.
Ltac own := first [apply sw_entity|apply sw_dtd|apply keeps_upd; intros; apply Ho|apply keeps_upd; intros; apply He|apply keeps_upd; intros; apply Hpr].
Ltac wk x := walk fr ltac:(idtac; first [x | own | lw_all L]).
Lemma sw_value x fuel : (forall a b c d, keeps N N (x a b c d)) -> forall t b, keeps N N (entity_value x fuel t b).
Proof. intros Hx. induction fuel as [|fuel IH]; intros t b; cbn [entity_value]; unfold append_ev; wk ltac:(first [apply Hx|apply IH]). Qed.
Section R.
Variable r : recs.
Hypothesis Hr : callees N N N r.
Ltac rec := first [apply (c_content _ _ _ _ Hr)|apply (c_prolog _ _ _ _ Hr)|apply (c_ext _ _ _ _ Hr)].
Lemma sw_pie ent t b : keeps N N (processInternalEntity r ent t b).
Proof. unfold processInternalEntity, leave_entity. wk rec. Qed.
Lemma sw_reference t e b n : keeps N N (content_entity r t e b n).
Proof. unfold content_entity. wk ltac:(first [rec|apply sw_pie]). Qed.
Lemma sw_parameter e b : keeps N N (handleEntityRef r e b).
Proof. unfold handleEntityRef. wk ltac:(first [rec|apply sw_pie]). Qed.
Lemma sw_internal b : keeps N N (internalEntityProcessor r b).
Proof. unfold internalEntityProcessor, leave_entity. wk rec. Qed.
Lemma sw_insert : keeps N N insert_subset. Proof. unfold insert_subset. wk nope. Qed.
Lemma sw_subset a b : keeps N N (external_subset r a b).
Proof. unfold external_subset. wk ltac:(first [rec|apply sw_insert]). Qed.
Lemma sw_storeEntityValue fuel t b : keeps N N (storeEntityValue (rc_ext r) fuel t b).
Proof. unfold storeEntityValue. wk ltac:(apply sw_value; apply (c_ext _ _ _ _ Hr)). Qed.
Lemma sw_role ro k t e a b n : entity_role ro = true -> keeps N N (role_action r ro k t e a b n).
Proof.
  intros E. unfold role_action. destruct ro; try discriminate E; clear E.
  all: wk ltac:(first [rec|apply sw_insert|apply sw_storeEntityValue]).
Qed.
End R.
Lemma sw_declare a b c : keeps N N (declare_entity a b c). Proof. unfold declare_entity. wk nope. Qed.
Lemma simple_walker : walker N N N N N.
Proof.
  split; intros; auto.
  - split; intros; auto.
    + apply (t_append N Tl).
    + apply sw_value; assumption.
    + apply sw_parameter; assumption.
    + apply sw_subset; assumption.
    + apply sw_declare.
    + apply sw_role; assumption.
  - apply (tw_start_tag N Tl).
  - apply (tw_empty_tag N Tl).
  - apply (tw_end_tag N Tl).
  - apply sw_reference; assumption.
  - apply sw_internal; assumption.
  - apply (t_level N Tl).
Qed.
End Simple.

Section Log.
Variable ok : event -> Prop.
Definition logged (s s' : st) : Prop := exists new, s_log s' = new ++ s_log s /\ Forall (fun p => ok (snd p)) new.
Hypothesis mild_ok : forall e, mild e = true -> ok e.
Hypothesis decl_ok : forall el m, ok (EvElementDecl el m).
Hypothesis startel_ok : forall a b c d, ok (EvStartElement a b c d).
Hypothesis endel_ok : forall n, ok (EvEndElement n).
Hypothesis endns_ok : forall n, ok (EvEndNs n).
Hypothesis bind_ok : forall p a u bs, keeps logged logged (addBinding p a u bs).

Lemma logged_same s s' : s_log s' = s_log s -> logged s s'.
Proof. intros E. exists []. rewrite E. split; [reflexivity|constructor]. Qed.
Lemma logged_trans a b c : logged a b -> logged b c -> logged a c.
Proof.
  intros (n1 & E1 & F1) (n2 & E2 & F2). exists (n2 ++ n1). rewrite E2, E1, app_assoc. split; [reflexivity|].
  apply Forall_app. auto.
Qed.
Lemma frame_logged : frame logged logged.
Proof. split; eauto using logged_trans. intros s. apply logged_same. reflexivity. Qed.
Lemma logged_call e : ok e -> keeps logged logged (call e).
Proof. intros H s. exists [(s_pid s, e)]. split; [reflexivity|]. constructor; [exact H|constructor]. Qed.
Lemma logged_leafs : leafs logged.
Proof.
  split.
  - exact frame_logged.
  - intros s s' E. apply logged_same. unfold view in E. congruence.
  - intros. apply logged_call, mild_ok; assumption.
  - intros. apply logged_call, decl_ok.
  - intros. apply logged_same. reflexivity.
Qed.
Lemma logged_dtd f : keeps logged logged (upd_dtd f).
Proof. intros s. apply logged_same. reflexivity. Qed.
Lemma logged_append fuel prolog : forall t cd b acc, keeps logged logged (appendAttributeValue fuel prolog t cd b acc).
Proof.
  induction fuel as [|fuel IH]; intros t cd b acc; cbn [appendAttributeValue].
  - apply keeps_die.
  - walk frame_logged ltac:(idtac; first [apply IH|apply logged_dtd|lw_all logged_leafs]).
Qed.
Lemma logged_tags : tagleafs logged.
Proof.
  split; intros; auto using logged_leafs, logged_append, logged_dtd, logged_call.
  all: apply logged_same; reflexivity.
Qed.
Lemma logged_walker : walker logged logged logged logged logged.
Proof. apply simple_walker; [exact logged_tags|..]; intros; apply logged_same; reflexivity. Qed.
Lemma logged_setContext c : keeps logged logged (setContext c).
Proof.
  unfold setContext. generalize (2 + length c) as fuel. intros fuel. generalize (@nil N) as acc. revert c.
  induction fuel as [|fuel IH]; intros c acc; cbn [setContext_loop]; [apply keeps_die|].
  walk frame_logged ltac:(idtac; first [apply IH|apply bind_ok|apply logged_dtd|apply keeps_upd; intros; apply logged_same; reflexivity|lw_all logged_leafs]).
Qed.
Lemma logged_run r : callees logged logged logged r -> forall c p f b x, run r c p f b = Ok x -> logged c (Api.r_core x).
Proof.
  intros Hr c p f b x E. unfold run in E.
  set (c1 := set_evEnd None (set_ev None (set_final f (set_parsing p c)))) in E.
  assert (H1 : logged c c1) by (apply logged_same; reflexivity).
  pose proof (wk_process _ _ _ _ _ logged_walker r Hr b c1) as Hp. destruct (process r b c1) as [y s'|e s'|e]; [| |discriminate].
  - injection E as <-. exact (logged_trans _ _ _ H1 Hp).
  - injection E as <-. exact (logged_trans _ _ _ H1 (proj2 Hp)).
Qed.
Lemma logged_start c c' : start c = Ok (Some c') -> logged c c'.
Proof.
  unfold start. intros E. destruct (c_ns (s_cfg c)).
  - pose proof (logged_setContext implicitContext c) as H. destruct (setContext implicitContext c) as [[] s|e s|e]; try discriminate.
    injection E as <-. exact H.
  - injection E as <-. apply logged_same. reflexivity.
Qed.
Lemma logged_child context enc s c : child_parser context enc s = Ok (Some c) -> logged s c.
Proof.
  intros E. unfold child_parser in E. cbv zeta in E. destruct context as [ctx|].
  - destruct (clone_dtd (s_dtd s)) as [d|]; [|discriminate]. cbn [bind] in E.
    match type of E with match setContext ctx ?m with _ => _ end = _ =>
      pose proof (logged_setContext ctx m) as H; destruct (setContext ctx m) as [[] s'|e s'|e]; try discriminate end.
    injection E as <-. exact H.
  - injection E as <-. apply logged_same. reflexivity.
Qed.
Lemma logged_parse_all r : callees logged logged logged r -> forall c0 chunks a a' l, logged c0 (Api.core a) ->
  parse_all r chunks a = Ok (a', l) -> logged c0 (Api.core a').
Proof.
  intros Hr c0 chunks. induction chunks as [|[b f] chunks IH]; intros a a' l Ha E; cbn [parse_all] in E.
  - injection E as <- <-. exact Ha.
  - destruct (Api.parse (run r) start position b f true a) as [[a1 s]|] eqn:Ep; [|discriminate]. cbn [bind] in E.
    assert (H1 : logged c0 (Api.core a1)).
    { assert (X : ApiInv.holds (logged c0) (logged c0) a1); [|unfold ApiInv.holds in X; destruct (Api.failed a1); exact X].
      eapply (ApiInv.parse_inv (run r) start position); [| | | | |exact Ep]; auto.
      - intros c p f' b' x Hc Ex. apply (logged_run r Hr) in Ex. destruct (Api.is_none _); eapply logged_trans; eassumption.
      - intros c c' Hc Es. apply logged_start in Es. eapply logged_trans; eassumption.
      - intros c c' Hc Es. apply logged_start in Es. eapply logged_trans; eassumption.
      - unfold ApiInv.holds. destruct (Api.failed a); exact Ha. }
    destruct s; try (injection E as <- <-; exact H1).
    destruct (parse_all r chunks a1) as [[a2 l2]|] eqn:Er; [|discriminate]. cbn [bind] in E. injection E as <- <-.
    eapply IH; eassumption.
Qed.
Lemma logged_ext r : callees logged logged logged r -> forall a b c d, keeps logged logged (ext r a b c d).
Proof.
  intros Hr context base sysid pubid s0. unfold ext, pbind.
  set (ev := EvExternalEntityRef context base sysid pubid).
  pose proof (logged_call ev (mild_ok ev eq_refl) s0) as Hcall.
  destruct (call ev s0) as [re s|e s|e]; [|exact Hcall|exact I].
  destruct (child_plan re) as [[enc chunks]|]; [|exact Hcall].
  destruct (child_parser context enc s) as [[c|]|] eqn:Ec; [|exact Hcall|exact I].
  destruct (parse_all r chunks (new_parser c)) as [[a l]|] eqn:Ep; [|exact I].
  apply logged_child in Ec.
  apply (logged_parse_all r Hr c) in Ep; [|apply logged_same; reflexivity].
  assert (H : logged s (set_log (s_log (Api.core a)) s)).
  { destruct (logged_trans _ _ _ Ec Ep) as (new & E & F). exists new. split; assumption. }
  destruct context; (eapply logged_trans; [exact Hcall|]); [exact H|].
  eapply logged_trans; [exact H|]. apply logged_same. reflexivity.
Qed.
Lemma logged_knot n : callees logged logged logged (knot n).
Proof. exact (callees_knot _ _ _ _ _ logged_walker logged_ext n). Qed.
Lemma logged_steps n os c a l : Forall ApiInv.plain os ->
  Api.steps (run (knot n)) start position os (new_parser c) = Ok (a, l) -> logged c (Api.core a).
Proof.
  intros Hos E.
  assert (X : ApiInv.holds (logged c) (logged c) a); [|unfold ApiInv.holds in X; destruct (Api.failed a); exact X].
  eapply (ApiInv.steps_inv (run (knot n)) start position); [| | | |exact Hos| |exact E]; auto.
  - intros c1 p f' b' x Hc Ex. apply (logged_run _ (logged_knot n)) in Ex. destruct (Api.is_none _); eapply logged_trans; eassumption.
  - intros c1 c' Hc Es. apply logged_start in Es. eapply logged_trans; eassumption.
  - intros c1 c' Hc Es. apply logged_start in Es. eapply logged_trans; eassumption.
  - apply logged_same. reflexivity.
Qed.
End Log.
