(* The theorems about entities. *)
From Coq Require Import List NArith ZArith Bool Arith Lia.
From Verif Require Import Base Encoding Tok TokMisc XmlDecl Status Role State AttVal Bind Atts Scaf Content Prolog Core.
From Verif Require Import Keep Walk SpecEnt EntInv.
From Verif Require Nest Api ApiInv.
Import ListNotations.

Lemma look_in {A} n (v : A) l : look n l = Some v -> In n (map fst l).
Proof.
  induction l as [|[m w] l IH]; cbn [look map]; [discriminate|].
  destruct (beqb n m) eqn:E; [apply Nest.beqb_eq in E; subst; left; reflexivity|]. intros H. right. apply IH, H.
Qed.
Lemma entity_in s ref e : entity_of s ref = Some e -> In ref (all_entities s).
Proof.
  intros H. unfold entity_of, look_entity, entity_table in H. unfold all_entities. apply in_or_app.
  destruct ref as [[] n]; cbn in H; apply look_in in H; apply in_map_iff in H; destruct H as (p & Ep & Hin); [right|left];
    apply in_map_iff; exists p; subst; auto.
Qed.
Lemma open_once n c os a l : s_open c = [] -> Forall ApiInv.plain os ->
  Api.steps (run (knot n)) start position os (new_parser c) = Ok (a, l) ->
  let s := Api.core a in
  NoDup (expanding s) /\ (forall ref, In ref (expanding s) -> open_in s ref) /\
  (forall ref, open_in c ref -> open_in s ref /\ ~ In ref (expanding s)) /\
  length (expanding s) <= length (all_entities s).
Proof.
  intros Hc Hos E. cbv zeta.
  assert (X : Gf c (Api.core a)).
  { eapply Gf_steps; [exact Hos| |exact E]. apply (f_refl _ _ frame_Gf). }
  destruct X as [_ X]. destruct (X (isopen c)) as [I1 I2 I3 I4].
  { split; rewrite ?Hc; [constructor|intros o []|auto|intros o []]. }
  assert (Hin : forall ref, In ref (expanding (Api.core a)) -> open_in (Api.core a) ref).
  { intros ref H. unfold expanding in H. apply in_map_iff in H. destruct H as (o & <- & H). exact (I2 o H). }
  split; [exact I1|]. split; [exact Hin|]. split.
  - intros ref H. split; [exact (I3 ref H)|]. intros H'. unfold expanding in H'. apply in_map_iff in H'. destruct H' as (o & <- & H').
    exact (I4 o H' H).
  - apply NoDup_incl_length; [exact I1|]. intros ref H. destruct (Hin ref H) as (e & Ee & _). eapply entity_in. exact Ee.
Qed.
Lemma fixed_steps n os a a' l ref e : Forall ApiInv.plain os ->
  Api.steps (run (knot n)) start position os a = Ok (a', l) ->
  ref <> external_subset_entry -> entity_of (Api.core a) ref = Some e -> s_declEntity (Api.core a) <> Some ref ->
  exists e', entity_of (Api.core a') ref = Some e' /\ definition e' = definition e.
Proof.
  intros Hos E Hn Ee D. assert (X : Gf (Api.core a) (Api.core a')).
  { eapply Gf_steps; [exact Hos| |exact E]. apply (f_refl _ _ frame_Gf). }
  destruct X as [F _]. destruct (F ref e Hn Ee D) as (_ & H). exact H.
Qed.

(* references to an entity that is open *)
Lemma recursive_content r t e buf n s raw name ent : ref_name e buf n s = Ret raw s -> predefinedEntityName e raw = Ok 0%N ->
  conv e raw = Ok name -> entity_of s (false, name) = Some ent -> e_open ent = true ->
  content_entity r t e buf n s =
    Fail (if (negb (d_hasPE (s_dtd s)) || d_standalone (s_dtd s)) && negb (e_is_internal ent) then XE_ENTITY_DECLARED_IN_PE
          else XE_RECURSIVE_ENTITY_REF) s.
Proof.
  intros E1 E2 E3 E4 E5. unfold content_entity. unfold pbind at 1. rewrite E1. unfold pbind at 1, lift at 1. rewrite E2.
  cbn [N.eqb negb]. unfold pbind at 1, lift at 1. rewrite E3. unfold pbind at 1, get at 1. cbv zeta.
  unfold entity_of, look_entity, entity_table in E4. cbn [fst snd] in E4. rewrite E4.
  match goal with |- (if ?c then _ else _) s = _ => change c with ((negb (d_hasPE (s_dtd s)) || d_standalone (s_dtd s)) && negb (e_is_internal ent)) end.
  destruct (_ && _); [reflexivity|]. rewrite E5. reflexivity.
Qed.
Lemma recursive_parameter r ref between s ent : entity_of s ref = Some ent -> e_open ent = true ->
  handleEntityRef r ref between s = Fail XE_RECURSIVE_ENTITY_REF s.
Proof.
  intros E1 E2. unfold handleEntityRef, entity_at. unfold pbind at 1 2, get at 1. unfold entity_of in E1. rewrite E1.
  unfold pret at 1. rewrite E2. reflexivity.
Qed.
Lemma set_event_dtd t buf s : exists s', set_event t buf s = Ret tt s' /\ s_dtd s' = s_dtd s.
Proof. unfold set_event. destruct (is_internal t); eexists; split; reflexivity. Qed.
Lemma recursive_value r fuel t buf s e n raw name ent : encoding t s = Ret e s ->
  entityValueTok e buf = Ok (T_PARAM_ENTITY_REF, Some n) -> s_isParam s || is_internal t = true ->
  ref_name e buf n s = Ret raw s -> conv e raw = Ok name -> entity_of s (true, name) = Some ent -> e_open ent = true ->
  exists s', entity_value r (S fuel) t buf s = Ret XE_RECURSIVE_ENTITY_REF s' /\ s_dtd s' = s_dtd s.
Proof.
  intros E0 E1 Hp E2 E3 E4 E5. cbn [entity_value]. unfold pbind at 1. rewrite E0. unfold pbind at 1, lift at 1. rewrite E1.
  unfold pbind at 1, get at 1. rewrite Hp. cbn [need]. unfold pbind at 1, pret at 1. unfold pbind at 1. rewrite E2.
  unfold pbind at 1, lift at 1. rewrite E3. unfold pbind at 1, get at 1.
  unfold entity_of, look_entity, entity_table in E4. cbn [fst snd] in E4. rewrite E4, E5.
  destruct (set_event_dtd t buf s) as (s' & Es & Ed). unfold pbind at 1. rewrite Es. exists s'. split; [reflexivity|exact Ed].
Qed.
Lemma recursive_attribute fuel prolog t cd buf acc s e n raw name ent : encoding t s = Ret e s ->
  attributeValueTok e buf = Ok (T_ENTITY_REF, Some n) -> ref_name e buf n s = Ret raw s ->
  predefinedEntityName e raw = Ok 0%N -> conv e raw = Ok name -> entity_of s (false, name) = Some ent -> e_open ent = true ->
  exists x s', appendAttributeValue (S fuel) prolog t cd buf acc s = Fail x s' /\
    s_dtd s' = s_dtd s /\ (x = XE_RECURSIVE_ENTITY_REF \/ x = XE_ENTITY_DECLARED_IN_PE /\ e_is_internal ent = false).
Proof.
  intros E0 E1 E2 Ep E3 E4 E5. cbn [appendAttributeValue]. unfold pbind at 1. rewrite E0. unfold pbind at 1, lift at 1. rewrite E1.
  cbn [need]. unfold pbind at 1, pret at 1. unfold pbind at 1. rewrite E2.
  unfold pbind at 1, lift at 1. rewrite Ep. cbn [N.eqb negb]. unfold pbind at 1, lift at 1. rewrite E3. unfold pbind at 1 2 3, get at 1 2 3.
  cbv zeta. unfold entity_of, look_entity, entity_table in E4. cbn [fst snd] in E4. rewrite E4.
  match goal with |- context [if ?c && negb (e_is_internal ent) then _ else _] => destruct c end; cbn [andb].
  1: destruct (e_is_internal ent); cbn [negb].
  2: { exists XE_ENTITY_DECLARED_IN_PE, s. auto. }
  all: rewrite E5; destruct (set_event_dtd t buf s) as (s' & Es & Ed); unfold pbind; rewrite Es; exists XE_RECURSIVE_ENTITY_REF, s'; auto.
Qed.
Lemma attribute_flags fuel prolog t cd buf acc s ref : open_in s ref ->
  match appendAttributeValue fuel prolog t cd buf acc s with Ret _ s' | Fail _ s' => open_in s' ref | Die _ => True end.
Proof.
  intros H. pose proof (N_append fuel prolog t cd buf acc s) as X. destruct (appendAttributeValue _ _ _ _ _ _ s) as [a s'|e s'|e]; [| |exact I].
  - exact (n_open _ _ X ref H).
  - exact (n_open _ _ (proj2 X) ref H).
Qed.

(* declarations *)
Lemma declared_again p e tok name s x : d_keep (s_dtd s) = true -> conv e tok = Ok name -> entity_of s (p, name) = Some x ->
  declare_entity p e tok s = Ret true (set_declEntity None s).
Proof.
  intros Hk E1 E2. unfold declare_entity. unfold pbind at 1, getd, get at 1. rewrite Hk. unfold pbind at 1, lift at 1. rewrite E1.
  unfold pbind at 1, get at 1. unfold entity_of in E2. rewrite E2. reflexivity.
Qed.
Lemma declared_first p e tok name s : d_keep (s_dtd s) = true -> conv e tok = Ok name -> entity_of s (p, name) = None ->
  exists hd x s', declare_entity p e tok s = Ret hd s' /\ s_declEntity s' = Some (p, name) /\ entity_of s' (p, name) = Some x /\
    e_open x = false /\ e_text x = None /\ e_sys x = None /\ e_pub x = None /\ e_notation x = None /\ e_is_param x = p /\
    forall ref, ref <> (p, name) -> entity_of s' ref = entity_of s ref.
Proof.
  intros Hk E1 E2. unfold declare_entity. unfold pbind at 1, getd, get at 1. rewrite Hk. unfold pbind at 1, lift at 1. rewrite E1.
  unfold pbind at 1, get at 1. unfold entity_of in E2. rewrite E2. unfold pbind, upd_dtd, upd, handler, get, pret.
  eexists _, _, _. split; [reflexivity|]. split; [reflexivity|]. split; [apply look_put_entity_same|].
  repeat (split; [reflexivity|]). intros ref Hn. apply look_put_entity_other. exact Hn.
Qed.
Lemma declared_predefined r k t e allow tok after ch s : predefinedEntityName e tok = Ok ch -> ch <> 0%N ->
  role_action r R_GENERAL_ENTITY_NAME k t e allow tok after s = Ret true (set_declEntity None s).
Proof.
  intros E Hc. unfold role_action. unfold pbind at 1, lift at 1. rewrite E. apply N.eqb_neq in Hc. rewrite Hc. reflexivity.
Qed.
(* no part of the prolog changes an entity other than the one that is being declared *)
Lemma role_fixed n ro k t e allow tok after s ref x : ref <> external_subset_entry -> entity_of s ref = Some x ->
  s_declEntity s <> Some ref ->
  match role_action (knot n) ro k t e allow tok after s with
  | Ret _ s' | Fail _ s' => s_declEntity s' <> Some ref /\ exists x', entity_of s' ref = Some x' /\ definition x' = definition x
  | Die _ => True
  end.
Proof.
  intros Hn E D. pose proof (wk_role_action _ _ _ (w_p _ _ _ _ _ walker_N) (knot n) (N_knot n) ro k t e allow tok after s) as H.
  destruct (role_action _ _ _ _ _ _ _ _ s) as [a s'|y s'|y]; [| |exact I].
  - destruct H as [F _]. exact (F ref x Hn E D).
  - destruct H as [_ [F _]]. exact (F ref x Hn E D).
Qed.
