(* What is heard while the content of a well-formed document is read. *)
From Coq Require Import String List NArith ZArith Bool Lia Arith.
From Coq Require Import ZifyBool ZifyNat ZifyN.
From Verif Require Import Base Encoding SpecText SpecUnicode SpecNames SpecLex SpecMisc Tok TokMisc Norm Status Role State AttVal Bind Atts Content.
From Verif Require Import Keep SpecAttVal SpecAtts SpecDoc.
From Coq Require Import List.
Import ListNotations.

(* ---- character data in one piece ---- *)
Lemma glue_nil l : glue [] l = l.
Proof. destruct l as [|[]]; reflexivity. Qed.
Lemma glue_app a b l : glue a (glue b l) = glue (a ++ b) l.
Proof.
  destruct l as [|r l]; [|destruct r]; cbn [glue]; try (now rewrite app_assoc); destruct b as [|x b]; cbn [glue]; rewrite ?app_nil_r; auto; destruct a; reflexivity.
Qed.
Lemma merged_app a b : merged (a ++ b) = merged (a ++ merged b).
Proof.
  induction a as [|r a IH]; cbn [List.app].
  - induction b as [|r b IH]; [reflexivity|]. destruct r; cbn [merged]; try (now rewrite <- IH).
    rewrite IH at 1. generalize (merged b) as l. intros l. destruct l as [|r l]; cbn [merged glue].
    + destruct s; reflexivity.
    + destruct r; destruct s; reflexivity || (cbn [merged glue]; try rewrite glue_app; try reflexivity).
  - destruct r; cbn [merged]; now rewrite IH.
Qed.
Lemma merged_left a b : merged (a ++ b) = merged (merged a ++ b).
Proof.
  induction a as [|r a IH]; [reflexivity|]. destruct r; cbn [List.app merged]; try (now rewrite IH).
  rewrite IH. generalize (merged a) as l. intros l. destruct l as [|r l]; cbn [List.app glue].
  - destruct s; cbn [List.app merged]; [apply glue_nil|reflexivity].
  - destruct r; destruct s; cbn [List.app merged glue]; rewrite ?glue_nil, ?glue_app; reflexivity.
Qed.
Lemma merged_eq a b x y : merged a = merged b -> merged x = merged y -> merged (a ++ x) = merged (b ++ y).
Proof. intros H1 H2. rewrite merged_left, H1, <- merged_left, merged_app, H2, <- merged_app. reflexivity. Qed.
Lemma merged_text s t l : merged (Text s :: Text t :: l) = merged (Text (s ++ t) :: l).
Proof. cbn [merged]. apply glue_app. Qed.

(* ---- an application that never stops the parser ---- *)
Definition idle (s : st) : Prop := forall log, stop (c_app (s_cfg s) log) = None.
Definition fixed (s : st) :=
  (s_cfg s, s_pid s, s_child s, s_isParam s, s_pep s, s_foreign s, s_enc s, s_processor s, (s_role s, s_open s, s_tagLevel s, s_tags s, s_inherited s, s_final s)).
Definition said (s : st) : list report := flat_map (fun x => heard (snd x)) (rev (s_log s)).
Definition calm (s s' : st) : Prop := idle s -> fixed s' = fixed s /\ s_parsing s' = s_parsing s /\ said s' = said s.
Lemma fixed_cfg s s' : fixed s' = fixed s -> s_cfg s' = s_cfg s. Proof. unfold fixed. congruence. Qed.
Lemma fr_calm : frame calm calm.
Proof.
  constructor; unfold calm; auto.
  - intros a b c H1 H2 I. destruct (H1 I) as (F1 & P1 & S1). assert (Ib : idle b) by (unfold idle in *; rewrite (fixed_cfg _ _ F1); exact I).
    destruct (H2 Ib) as (F2 & P2 & S2). repeat split; congruence.
  - intros a b c H1 H2 I. destruct (H1 I) as (F1 & P1 & S1). assert (Ib : idle b) by (unfold idle in *; rewrite (fixed_cfg _ _ F1); exact I).
    destruct (H2 Ib) as (F2 & P2 & S2). repeat split; congruence.
Qed.
Lemma said_cons x s : flat_map (fun x => heard (snd x)) (rev (x :: s_log s)) = said s ++ heard (snd x).
Proof. cbn [rev]. rewrite flat_map_app. cbn [flat_map]. rewrite app_nil_r. reflexivity. Qed.
Lemma call_idle ev s : idle s -> exists r s', call ev s = Ret r s' /\ fixed s' = fixed s /\ s_parsing s' = s_parsing s /\ s_dtd s' = s_dtd s /\ said s' = said s ++ heard ev.
Proof.
  intros I. eexists _, _. split; [reflexivity|]. split; [reflexivity|]. split.
  - cbn. unfold stopped. rewrite I. reflexivity.
  - split; [reflexivity|]. unfold said. cbn [s_log set_parsing set_log]. apply said_cons.
Qed.
Lemma calm_call ev : heard ev = [] -> keeps calm calm (call ev).
Proof.
  intros H s. unfold call. intros I. split; [reflexivity|]. split.
  - cbn. unfold stopped. rewrite I. reflexivity.
  - unfold said at 1. cbn [s_log set_parsing set_log]. rewrite said_cons. cbn [snd]. rewrite H. apply app_nil_r.
Qed.
Ltac cm x := walk fr_calm ltac:(idtac; first [x | apply calm_call; reflexivity | apply keeps_upd; intros ? ?; split; [reflexivity|split; reflexivity]]).
Ltac sm := unfold ref_name, upd_entity, emit, set_event_opt, attid_of, set_type, store in *; unfold set_event, inc, need, dec, upd_dtd in *.
Lemma cm_append fuel prolog : forall t cd b acc, keeps calm calm (appendAttributeValue fuel prolog t cd b acc).
Proof. induction fuel as [|fuel IH]; intros; cbn [appendAttributeValue]; sm; cm ltac:(apply IH). Qed.
Lemma cm_value fuel p t cd b : keeps calm calm (storeAttributeValue fuel p t cd b).
Proof. unfold storeAttributeValue. cm ltac:(apply cm_append). Qed.
Lemma cm_declare p i v : keeps calm calm (declare p i v).
Proof. unfold declare, addBinding. sm. cm nope. Qed.
Lemma cm_specified_att f t el x st : keeps calm calm (specified_att f t el x st).
Proof. unfold specified_att, getAttributeId. sm. cm ltac:(first [apply cm_declare|apply cm_value]). Qed.
Lemma cm_specified_atts f t el xs : forall st, keeps calm calm (specified_atts f t el xs st).
Proof. induction xs as [|x xs IH]; intros st; cbn [specified_atts]; cm ltac:(first [apply IH|apply cm_specified_att]). Qed.
Lemma cm_default_att d st : keeps calm calm (default_att d st).
Proof. unfold default_att. sm. cm ltac:(apply cm_declare). Qed.
Lemma cm_default_atts ds : forall st, keeps calm calm (default_atts ds st).
Proof. induction ds as [|x xs IH]; intros st; cbn [default_atts]; cm ltac:(first [apply IH|apply cm_default_att]). Qed.
Lemma cm_expand atts : forall n seen, keeps calm calm (expand_atts n seen atts).
Proof. induction atts as [|x xs IH]; intros n seen; cbn [expand_atts]; unfold after_colon; sm; cm ltac:(apply IH). Qed.
Lemma cm_clear ids : keeps calm calm (clear_types ids).
Proof. induction ids as [|x xs IH]; cbn [clear_types]; sm; cm ltac:(apply IH). Qed.
Lemma cm_clear_bindings bs : keeps calm calm (clear_bindings bs).
Proof. induction bs as [|x xs IH]; cbn [clear_bindings]; sm; cm ltac:(apply IH). Qed.
Lemma cm_storeAtts f t b el : keeps calm calm (storeAtts f t b el).
Proof.
  unfold storeAtts, id_index, expand_name, after_colon. sm.
  cm ltac:(first [apply cm_specified_atts|apply cm_default_atts|apply cm_expand|apply cm_clear|apply cm_clear_bindings]).
Qed.
