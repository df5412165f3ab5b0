(* C71: the theorems about content, from the steps of ElemLaws.v. *)
From Coq Require Import String List NArith ZArith Bool Lia Arith.
From Verif Require Import Base Tables Encoding SpecText SpecUnicode SpecNames SpecLex SpecMisc.
From Verif Require Import Status State Content SpecAtts AttsLaws Core SpecDoc DocLaws DocAct SpecElem ElemLaws.
From Verif Require SpecData.
From Coq Require Import List.
Import ListNotations.
Local Open Scope N_scope.

Section TE.
Variables (e : EncImpl) (enc : N -> bytes) (dom : N -> bool) (lat : bool).
Hypothesis TE : text_encoding e enc dom lat false.
Notation T cs := (flat_map enc cs).
Lemma inside_env level s : inside e level s -> tenv e s.
Proof. intros [(A1 & A2 & A3) B C D E F G H I]. constructor; assumption. Qed.
Lemma inside_ready level s : inside e level s -> ready s level s.
Proof. intros [A B C D E F G H I]. constructor; auto; [apply same_refl|split; assumption]. Qed.
Lemma still_inside level s s' : inside e level s -> ready s level s' -> inside e level s'.
Proof.
  intros [A B C D E F G H I] [(S1 & S2 & S3 & S4 & S5 & S6 & S7) [T1 T2] R3 R4 R5]. constructor; auto; try congruence.
Qed.
Lemma did_reported rs rs' s s' : did rs' s s' -> merged rs' = merged rs -> reported rs s s'.
Proof.
  intros [D1 D2 D3 D4 D5] M. exists rs'. unfold fixed in D1. split; [exact D5|]. split; [exact M|]. repeat split; congruence.
Qed.
Lemma content_told src rs ok s : (tenv e s -> goes enc dom s src rs ok) ->
  forall level, inside e level s -> exists K, forall k more rest, (K <= k)%nat -> all_in dom (src ++ rest) -> ok rest ->
    exists k' s', (k <= k' + K)%nat /\ doContent (knot k) level ENormal (T (src ++ rest)) more s = doContent (knot k') level ENormal (T rest) more s' /\ reported rs s s' /\ inside e level s'.
Proof.
  intros G level I. destruct (G (inside_env _ _ I)) as (K & H). exists K. intros k more rest L D O.
  destruct (H k level more rest s L (inside_ready _ _ I) D O) as (k' & s' & rs' & L' & E & D' & M). exists k', s'. split; [exact L'|]. split; [exact E|].
  split; [eapply did_reported; eauto|]. eapply still_inside; [exact I|]. eapply ready_did; [exact D'|apply inside_ready, I].
Qed.
Theorem node_told s level n : inside e level s -> good n -> is_element n = true ->
  exists K, forall k more rest, (K <= k)%nat -> all_in dom (source n ++ rest) ->
    exists k' s', (k <= k' + K)%nat /\ doContent (knot k) level ENormal (T (source n ++ rest)) more s = doContent (knot k') level ENormal (T rest) more s' /\ reported (reports n) s s' /\ inside e level s'.
Proof.
  intros I0 G El. destruct (content_told (source n) (reports n) (after n) s (fun V => goes_node e enc dom lat TE s V n G) level I0) as (K & H).
  exists K. intros k more rest L D. apply H; auto. unfold after. destruct n as [[]|]; try discriminate; exact I.
Qed.
Theorem list_told s level l : inside e level s -> Forall good l -> apart l ->
  exists K, forall k more rest, (K <= k)%nat -> all_in dom (flat_map source l ++ rest) -> SpecData.at_markup rest ->
    exists k' s', (k <= k' + K)%nat /\ doContent (knot k) level ENormal (T (flat_map source l ++ rest)) more s = doContent (knot k') level ENormal (T rest) more s' /\ reported (flat_map reports l) s s' /\ inside e level s'.
Proof.
  intros I0 G A. apply (content_told _ _ SpecData.at_markup s); auto. intros V. apply (goes_list enc dom s); auto.
  eapply Forall_impl; [|exact G]. intros n _ Gn. apply (goes_node e enc dom lat TE s V n Gn).
Qed.
Theorem mismatch_refused s level name atts given sp l other sp' : inside e level s -> tag_good name atts given sp -> Forall good l -> apart l ->
  is_name false false other -> spaces sp' -> other <> name ->
  exists K, forall k more rest, (K <= k)%nat -> all_in dom (tag_text name atts sp false ++ flat_map source l ++ etag_text other sp' ++ rest) ->
    exists s' rs', doContent (knot k) level ENormal (T (tag_text name atts sp false ++ flat_map source l ++ etag_text other sp' ++ rest)) more s = Fail XE_TAG_MISMATCH s' /\
      flat_map (fun x => heard (snd x)) (rev (s_log s')) = flat_map (fun x => heard (snd x)) (rev (s_log s)) ++ rs' /\ merged rs' = merged (begins name given :: flat_map reports l).
Proof.
  intros I0 G Gl A Hn Hsp Ne. pose proof (inside_env _ _ I0) as V.
  assert (Gk : goes enc dom s (flat_map source l) (flat_map reports l) SpecData.at_markup).
  { apply (goes_list enc dom s); auto. eapply Forall_impl; [|exact Gl]. intros n _ Gn. apply (goes_node e enc dom lat TE s V n Gn). }
  destruct (leads_open e enc dom lat TE s V name atts given sp _ _ G Gk) as (K & H). exists K. intros k more rest L D.
  assert (De : all_in dom (etag_text other sp' ++ rest)) by (unfold all_in in *; rewrite !Forall_app in *; tauto).
  assert (Dn : all_in dom name) by (unfold tag_text, all_in in *; rewrite !Forall_app in *; tauto).
  rewrite app_assoc in D |- *.
  destruct (H k level more (etag_text other sp' ++ rest) s L (inside_ready _ _ I0) D ltac:(exists 60, (47 :: other ++ sp' ++ txt ">" ++ rest); split; [unfold etag_text; rewrite <- !app_assoc; reflexivity|auto]))
    as (k' & s1 & rs' & _ & E & D1 & M & R1 & Et & Lv).
  destruct (wrong_close e enc dom lat TE s V name other sp' rest level k' more s1 R1 Lv (ex_intro _ _ Et) Hn Hsp Dn De Ne) as (s2 & x & tgs & E2 & D2).
  exists (set_ev x (set_tags tgs s2)), rs'. split; [rewrite E; exact E2|]. split; [|exact M].
  change (said (set_ev x (set_tags tgs s2)) = said s ++ rs'). change (said (set_ev x (set_tags tgs s2))) with (said s2).
  rewrite (did_said _ _ _ D2), app_nil_r, (did_said _ _ _ D1). reflexivity.
Qed.
End TE.
