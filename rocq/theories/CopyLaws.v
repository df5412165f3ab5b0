(* Parsers for external entities take over the declarations. *)
From Coq Require Import List NArith ZArith Bool Lia.
From Verif Require Import Base State Bind Core Keep Walk SpecEnt EntInv SpecCopy.
From Coq Require Import List.
Import ListNotations.
Local Open Scope nat_scope.

Definition kept (s s' : st) : Prop :=
  (forall ref, option_map definition (entity_of s' ref) = option_map definition (entity_of s ref)) /\
  d_elems (s_dtd s') = d_elems (s_dtd s) /\ d_attids (s_dtd s') = d_attids (s_dtd s) /\ same_flags s s'.
Lemma frame_kept : frame kept kept.
Proof.
  assert (R : forall s, kept s s) by (intros s; repeat split).
  assert (T : forall a b c, kept a b -> kept b c -> kept a c).
  { intros a b c (A1 & A2 & A3 & A4 & A5 & A6) (B1 & B2 & B3 & B4 & B5 & B6). split; [intros ref; rewrite B1; apply A1|]. repeat split; congruence. }
  constructor; auto; try (intros; eapply T; eauto).
Qed.
Lemma kept_dtd s d : (forall ref, option_map definition (look_entity ref d) = option_map definition (look_entity ref (s_dtd s))) ->
  d_elems d = d_elems (s_dtd s) -> d_attids d = d_attids (s_dtd s) ->
  d_standalone d = d_standalone (s_dtd s) -> d_hasPE d = d_hasPE (s_dtd s) -> d_keep d = d_keep (s_dtd s) -> kept s (set_dtd d s).
Proof. intros. split; [assumption|]. repeat split; assumption. Qed.
Lemma kept_open ref : keeps kept kept (upd_entity ref (set_e_open true)).
Proof.
  intros s. rewrite upd_entity_eq. split.
  - intros ref'. unfold entity_of. fold (ent (put_in ref (set_e_open true) s) ref'). fold (ent s ref'). destruct (entref_dec ref' ref) as [->|Hn].
    + rewrite ent_put_same. destruct (ent s ref); reflexivity.
    + rewrite ent_put_other by exact Hn. reflexivity.
  - unfold put_in. cbn [s_dtd set_dtd]. destruct (look_entity ref (s_dtd s)); [|repeat split]. unfold put_entity. destruct (fst ref); repeat split.
Qed.
Lemma kept_upd_dtd f : (forall d, d_gents (f d) = d_gents d /\ d_pents (f d) = d_pents d /\ d_elems (f d) = d_elems d /\ d_attids (f d) = d_attids d /\
  d_standalone (f d) = d_standalone d /\ d_hasPE (f d) = d_hasPE d /\ d_keep (f d) = d_keep d) -> keeps kept kept (upd_dtd f).
Proof.
  intros H s. unfold upd_dtd, upd. destruct (H (s_dtd s)) as (A & B & C & D & E & F & G). apply kept_dtd; auto.
  intros [[] n]; unfold look_entity, entity_table; cbn [fst snd]; rewrite ?A, ?B; reflexivity.
Qed.
Lemma kept_bind p a u bs : keeps kept kept (addBinding p a u bs).
Proof.
  unfold addBinding, emit. walk frame_kept ltac:(idtac; first [apply kept_upd_dtd; intros d; destruct p; repeat split | solve [intros s; repeat split]]).
Qed.
Lemma kept_context fuel : forall acc b, keeps kept kept (setContext_loop fuel acc b).
Proof.
  induction fuel as [|fuel IH]; intros acc b; [apply keeps_die|]. cbn [setContext_loop]. destruct b as [|c b].
  all: walk frame_kept ltac:(idtac; first [apply IH|apply kept_bind|apply kept_open
    | apply kept_upd_dtd; let d := fresh in intros d; repeat match goal with |- context [match ?x with _ => _ end] => destruct x end; repeat split
    | solve [intros ?; repeat split]]).
Qed.
Lemma look_map {A B} (f : A -> B) n l : look n (map (fun '(k, x) => (k, f x)) l) = option_map f (look n l).
Proof. induction l as [|[k x] l IH]; [reflexivity|]. cbn [map look]. destruct (beqb n k); [reflexivity|exact IH]. Qed.
Lemma clone_whole e : whole e -> definition (clone_entity e) = definition e.
Proof.
  unfold whole, definition, clone_entity. destruct (e_sys e) as [x|] eqn:E; cbn.
  - intros ->. reflexivity.
  - intros (A & -> & ->). destruct (e_text e); [reflexivity|congruence].
Qed.
Lemma taken_over ctx enc s c : child_parser (Some ctx) enc s = Ok (Some c) ->
  same_entities s c /\ same_elements s c /\ same_attributes s c /\ same_flags s c.
Proof.
  unfold child_parser. cbv zeta. unfold clone_dtd. destruct (existsb _ _); [discriminate|]. cbn [bind].
  match goal with |- match setContext ctx ?m with _ => _ end = _ -> _ =>
    assert (D : s_dtd m = {| d_gents := map (fun '(n, e) => (n, clone_entity e)) (d_gents (s_dtd s));
       d_pents := map (fun '(n, e) => (n, clone_entity e)) (d_pents (s_dtd s));
       d_elems := d_elems (s_dtd s);
       d_attids := map (fun '(n, a) => (n, clone_attid a)) (d_attids (s_dtd s));
       d_prefixes := map (fun '(n, _) => (n, None)) (d_prefixes (s_dtd s));
       d_default := None;
       d_keep := d_keep (s_dtd s); d_hasPE := d_hasPE (s_dtd s); d_standalone := d_standalone (s_dtd s); d_peRead := d_peRead (s_dtd s);
       d_scaf := d_scaf (s_dtd s); d_index := d_index (s_dtd s); d_inEldecl := d_inEldecl (s_dtd s); d_cslen := d_cslen (s_dtd s); d_ev := [] |}) by reflexivity;
    generalize dependent m end.
  intros m D. pose proof (kept_context (2 + length ctx) [] ctx m) as K. fold (setContext ctx) in K.
  destruct (setContext ctx m) as [[] s'|e s'|e]; try discriminate. intros X. injection X as <-. destruct K as (K1 & K2 & K3 & K4 & K5 & K6).
  split; [|split; [|split; [|repeat split]]].
  - intros ref. specialize (K1 ref). change (entity_of (set_processor PrExtEntInit s') ref) with (entity_of s' ref). unfold entity_of in K1 at 2. rewrite D in K1.
    assert (Q : look_entity ref (s_dtd m) = option_map clone_entity (entity_of s ref)).
    { rewrite D. unfold entity_of, look_entity, entity_table. destruct ref as [[] n]; cbn [fst snd d_gents d_pents]; apply look_map. }
    rewrite D in Q. rewrite Q in K1. destruct (entity_of s ref) as [e|]; cbn [option_map] in K1.
    + destruct (entity_of s' ref) as [e'|]; [|discriminate]. exists e'. split; [reflexivity|]. intros H. injection K1. intros. rewrite <- (clone_whole e H). unfold definition. congruence.
    + destruct (entity_of s' ref); [discriminate|reflexivity].
  - unfold same_elements. cbn [s_dtd set_processor]. rewrite K2, D. reflexivity.
  - intros n. cbn [s_dtd set_processor]. rewrite K3, D. cbn [d_attids]. rewrite look_map. destruct (look n (d_attids (s_dtd s))) as [a|]; [|exact I]. cbn [option_map clone_attid ai_maybe ai_prefix ai_xmlns].
    split; [reflexivity|]. intros H. split; destruct (ai_prefix a) as [[| |]|]; congruence.
  - cbn [s_dtd set_processor]. rewrite K4, D. reflexivity.
  - cbn [s_dtd set_processor]. rewrite K5, D. reflexivity.
  - cbn [s_dtd set_processor]. rewrite K6, D. reflexivity.
Qed.
Lemma shared enc s : exists c, child_parser None enc s = Ok (Some c) /\ s_dtd c = s_dtd s.
Proof. eexists. split; reflexivity. Qed.
