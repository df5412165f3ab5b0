(* What a computation of the parser keeps: [R] relates the state before to the state after it if it returns, [F] if it
   fails.  A failure always has an error code. *)
From Coq Require Import List NArith ZArith Bool.
From Verif Require Import Base Encoding Status Role State.
Import ListNotations.

Definition keeps (R F : st -> st -> Prop) {A} (m : P A) : Prop :=
  forall s, match m s with Ret _ s' => R s s' | Fail e s' => e <> XE_NONE /\ F s s' | Die _ => True end.

Record frame (R F : st -> st -> Prop) : Prop := {
  f_refl : forall s, R s s;
  f_trans : forall a b c, R a b -> R b c -> R a c;
  f_fail : forall a b c, R a b -> F b c -> F a c;
  f_weak : forall a b, R a b -> F a b
}.

Section Keeps.
Variables R F : st -> st -> Prop.
Hypothesis fr : frame R F.

Lemma keeps_ret {A} (a : A) : keeps R F (pret a).
Proof. intros s. apply (f_refl _ _ fr). Qed.
Lemma keeps_fail {A} e : e <> XE_NONE -> keeps R F (@fail A e).
Proof. intros H s. split; [exact H|]. apply (f_weak _ _ fr), (f_refl _ _ fr). Qed.
Lemma keeps_die {A} e : keeps R F (@die A e).
Proof. intros s. exact I. Qed.
Lemma keeps_get {A} (f : st -> A) : keeps R F (get f).
Proof. intros s. apply (f_refl _ _ fr). Qed.
Lemma keeps_getd {A} (f : dtd -> A) : keeps R F (getd f).
Proof. apply keeps_get. Qed.
Lemma keeps_handler f : keeps R F (handler f).
Proof. apply keeps_get. Qed.
Lemma keeps_encoding t : keeps R F (encoding t).
Proof. intros s. apply (f_refl _ _ fr). Qed.
Lemma keeps_lift {A} (r : res A) : keeps R F (lift r).
Proof. intros s. unfold lift. destruct r; [apply (f_refl _ _ fr)|exact I]. Qed.
Lemma keeps_bind {A B} (m : P A) (k : A -> P B) : keeps R F m -> (forall a, keeps R F (k a)) -> keeps R F (pbind m k).
Proof.
  intros Hm Hk s. specialize (Hm s). unfold pbind. destruct (m s) as [a s'|e s'|e]; [|assumption|exact I].
  specialize (Hk a s'). destruct (k a s') as [b s2|e s2|e]; [eapply (f_trans _ _ fr); eauto| |exact I].
  destruct Hk as [He Hf]. split; [exact He|]. eapply (f_fail _ _ fr); eauto.
Qed.
Lemma keeps_upd f : (forall s, R s (f s)) -> keeps R F (upd f).
Proof. intros H s. apply H. Qed.
Lemma keeps_when b m : keeps R F m -> keeps R F (when b m).
Proof. intros H. destruct b; [assumption|apply keeps_ret]. Qed.
Lemma keeps_imp (R' F' : st -> st -> Prop) {A} (m : P A) :
  (forall a b, R' a b -> R a b) -> (forall a b, F' a b -> F a b) -> keeps R' F' m -> keeps R F m.
Proof. intros H1 H2 H s. specialize (H s). destruct (m s); auto. destruct H; auto. Qed.
End Keeps.

Lemma keeps_try R {A} (m : P A) : keeps R R m -> keeps R R (try m).
Proof. intros H s. specialize (H s). unfold try. destruct (m s); [assumption|apply H|exact I]. Qed.
Lemma keeps_try_bind R F {A B} (fr : frame R F) (m : P A) (k : XML_Error + A -> P B) : keeps R R m ->
  (forall e, e <> XE_NONE -> keeps R F (k (inl e))) -> (forall a, keeps R F (k (inr a))) -> keeps R F (pbind (try m) k).
Proof.
  intros Hm H1 H2 s. specialize (Hm s). unfold pbind, try. destruct (m s) as [a s'|e s'|e]; [| |exact I].
  - specialize (H2 a s'). destruct (k (inr a) s'); [eapply (f_trans _ _ fr); eauto| |exact I].
    destruct H2; split; [assumption|]. eapply (f_fail _ _ fr); eauto.
  - destruct Hm as [He Hm]. specialize (H1 e He s'). destruct (k (inl e) s'); [eapply (f_trans _ _ fr); eauto| |exact I].
    destruct H1; split; [assumption|]. eapply (f_fail _ _ fr); eauto.
Qed.

Create HintDb codes.
Ltac nope := fail.
(* walks through a computation; [lf] closes what is left: updates and calls *)
Ltac walk fr lf :=
  repeat first
    [ lf
    | match goal with
      | |- keeps _ _ (pbind (try _) _) => apply (keeps_try_bind _ _ fr); [|intros ? ?|intros ?]; cbv beta iota
      | |- keeps _ _ (pbind _ _) => apply (keeps_bind _ _ fr); [|intros]
      | |- keeps _ _ (pret _) => apply (keeps_ret _ _ fr)
      | |- keeps _ _ (fail _) => apply (keeps_fail _ _ fr); first [discriminate|assumption|solve [eauto 2 with codes nocore]|match goal with |- (if ?b then _ else _) <> _ => destruct b; discriminate end]
      | |- keeps _ _ (die _) => apply keeps_die
      | |- keeps _ _ (get _) => apply (keeps_get _ _ fr)
      | |- keeps _ _ (getd _) => apply (keeps_getd _ _ fr)
      | |- keeps _ _ (handler _) => apply (keeps_handler _ _ fr)
      | |- keeps _ _ (encoding _) => apply (keeps_encoding _ _ fr)
      | |- keeps _ _ (lift _) => apply (keeps_lift _ _ fr)
      | |- keeps _ _ (when _ _) => apply (keeps_when _ _ fr)
      | |- keeps _ _ (let '(_, _) := ?x in _) => destruct x
      | |- keeps _ _ (match ?x with _ => _ end) =>
          match type of x with option XML_Error => destruct x eqn:? | _ => destruct x end
      | |- keeps _ _ (if ?x then _ else _) => destruct x
      | |- keeps _ _ (let _ := _ in _) => cbv zeta
      end ].
