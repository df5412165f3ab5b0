(* What reading the attributes of a start tag may deliver: no element event. *)
From Coq Require Import List NArith ZArith Bool Arith.
From Verif Require Import Base Encoding Tok TokMisc XmlDecl Status Role State AttVal Bind Atts Scaf Content Prolog Core.
From Verif Require Import Keep Walk LogWalk SpecAtts.
Import ListNotations.

Lemma mild_plain e : mild e = true -> about_elements e = false.
Proof. destruct e; cbn; congruence. Qed.
Definition quietly := logged (fun e => about_elements e = false).
Lemma fr_quiet : frame quietly quietly. Proof. apply frame_logged. Qed.
Lemma quiet_leafs : leafs quietly.
Proof. apply logged_leafs; [exact mild_plain|reflexivity]. Qed.
Lemma quiet_dtd f : keeps quietly quietly (upd_dtd f). Proof. apply logged_dtd. Qed.
Lemma quiet_ns p u : keeps quietly quietly (call (EvStartNs p u)). Proof. apply logged_call. reflexivity. Qed.
Lemma quiet_endns p : keeps quietly quietly (call (EvEndNs p)). Proof. apply logged_call. reflexivity. Qed.
Lemma quiet_bindings l : keeps quietly quietly (upd (set_bindings l)).
Proof. intros s. apply logged_same. reflexivity. Qed.
Ltac wk x := walk fr_quiet ltac:(idtac; first [x | apply quiet_dtd | apply quiet_ns | apply quiet_endns | apply quiet_bindings | lw_all quiet_leafs]).
Lemma qw_bind p a u bs : keeps quietly quietly (addBinding p a u bs).
Proof. unfold addBinding, emit, bind_prefix. wk nope. Qed.
Lemma qw_append fuel prolog : forall t cd b acc, keeps quietly quietly (appendAttributeValue fuel prolog t cd b acc).
Proof. apply logged_append; [exact mild_plain|reflexivity]. Qed.
Lemma qw_value fuel p t cd b : keeps quietly quietly (storeAttributeValue fuel p t cd b).
Proof. unfold storeAttributeValue. wk ltac:(apply qw_append). Qed.
Lemma qw_free bs : keeps quietly quietly (freeBindings bs).
Proof. induction bs as [|b bs IH]; cbn [freeBindings]; unfold emit, bind_prefix; wk ltac:(apply IH). Qed.
Lemma qw_declare p i v : keeps quietly quietly (declare p i v).
Proof. unfold declare. wk ltac:(apply qw_bind). Qed.
Lemma qw_specified_att f t el x st : keeps quietly quietly (specified_att f t el x st).
Proof. unfold specified_att. wk ltac:(first [apply qw_declare|apply qw_value]). Qed.
Lemma qw_specified_atts f t el xs : forall st, keeps quietly quietly (specified_atts f t el xs st).
Proof. induction xs as [|x xs IH]; intros st; cbn [specified_atts]; wk ltac:(first [apply IH|apply qw_specified_att]). Qed.
Lemma qw_default_att d st : keeps quietly quietly (default_att d st).
Proof. unfold default_att. wk ltac:(apply qw_declare). Qed.
Lemma qw_default_atts ds : forall st, keeps quietly quietly (default_atts ds st).
Proof. induction ds as [|x xs IH]; intros st; cbn [default_atts]; wk ltac:(first [apply IH|apply qw_default_att]). Qed.
Lemma qw_storeAtts f t b el : keeps quietly quietly (storeAtts f t b el).
Proof. unfold storeAtts. wk ltac:(first [apply qw_specified_atts|apply qw_default_atts]). Qed.

Lemma quietly_filter s s' : quietly s s' -> exists new, s_log s' = new ++ s_log s /\ filter about_elements (map snd new) = [].
Proof.
  intros (new & E & F). exists new. split; [exact E|]. clear E. induction F as [|x l Hx F IH]; [reflexivity|].
  cbn [map filter]. rewrite Hx. exact IH.
Qed.
Lemma storeAtts_log f t b el s x s' : storeAtts f t b el s = Ret x s' ->
  exists new, s_log s' = new ++ s_log s /\ filter about_elements (map snd new) = [].
Proof. intros E. apply quietly_filter. pose proof (qw_storeAtts f t b el s) as H. rewrite E in H. exact H. Qed.
Lemma free_log_quiet bs s s' : freeBindings bs s = Ret tt s' ->
  exists new, s_log s' = new ++ s_log s /\ filter about_elements (map snd new) = [].
Proof. intros E. apply quietly_filter. pose proof (qw_free bs s) as H. rewrite E in H. exact H. Qed.
