(* C72: an element begins and ends in the same entity. *)
From Coq Require Import List NArith ZArith Bool Arith Lia.
From Verif Require Import Base Encoding Tok TokMisc Norm XmlDecl Status Role State AttVal Bind Atts Scaf Content Prolog Core Keep TagFrame.
From Verif Require Phase PhaseCont.
Import ListNotations.
Local Open Scope nat_scope.
Notation pw := Phase.pw.

Lemma pwG {A} (m : P A) s (Q : A -> st -> Prop) : keeps G G m -> (forall a s', G s s' -> Q a s') -> pw m s Q.
Proof. intros H K. specialize (H s). unfold Phase.pw. destruct (m s); auto. Qed.
Lemma ext_G r a b c d : keeps G G (ext r a b c d).
Proof.
  intros s0. unfold ext, pbind. set (ev := EvExternalEntityRef a b c d).
  pose proof (tg_call ev s0) as Hcall. destruct (call ev s0) as [re s|e s|e]; [|apply Hcall|exact I].
  destruct (child_plan re) as [[enc chunks]|]; [|exact Hcall].
  destruct (child_parser a enc s) as [[ch|]|]; [|exact Hcall|exact I].
  destruct (parse_all r chunks (new_parser ch)) as [[a' l]|]; [|exact I].
  eapply (f_trans _ _ frame_G); [exact Hcall|]. destruct a; split; reflexivity.
Qed.
Lemma knot_ext_G n a b c d : keeps G G (rc_ext (knot n) a b c d).
Proof. destruct n; [apply keeps_die|apply ext_G]. Qed.

(* the elements that were open when the text began are still open, and above them those that the text has opened *)
Definition above (level : nat) (bs : list tag) (s : st) : Prop := exists top, s_tags s = top ++ bs /\ s_tagLevel s = level + length top.
Definition level_with (level : nat) (bs : list tag) (s : st) : Prop := s_tags s = bs /\ s_tagLevel s = level.
Definition kept (level : nat) (bs : list tag) (more : bool) (s : st) : Prop :=
  above level bs s /\ (more = false -> level_with level bs s \/ s_parsing s = SUSPENDED).
Lemma above_G level bs s s' : G s s' -> above level bs s -> above level bs s'.
Proof. intros [E1 E2] (top & A & B). exists top. split; congruence. Qed.
Lemma level_above level bs s : level_with level bs s -> above level bs s.
Proof. intros [A B]. exists []. split; [exact A|cbn [length]; lia]. Qed.
Lemma above_level level bs s : above level bs s -> s_tagLevel s = level -> level_with level bs s.
Proof. intros (top & A & B) E. assert (length top = 0) by lia. destruct top; [|discriminate]. split; [exact A|exact E]. Qed.

(* the state of parsing *)
Definition Q (s s' : st) : Prop := s_parsing s' = s_parsing s.
Lemma frame_Q : frame Q Q. Proof. unfold Q. split; auto; intros; congruence. Qed.
Lemma Q_leave ent o n b : keeps Q Q (leave_entity ent o n b).
Proof. unfold leave_entity, upd_entity, upd_dtd. walk frame_Q ltac:(apply (keeps_upd Q Q); intros; reflexivity). Qed.
Lemma G_leave ent o n b : keeps G G (leave_entity ent o n b).
Proof. unfold leave_entity. wk. Qed.
Lemma after_stops t rest s : pw (after_token t rest) s (fun ret s' => G s s' /\ s_parsing s' = s_parsing s /\ (if ret then s_parsing s = SUSPENDED else s_parsing s <> SUSPENDED)).
Proof.
  eapply Phase.pw_imp; [apply Phase.pw_and; [apply (pwG _ _ (fun _ s' => G s s')); [apply tg_after_token|auto]|apply PhaseCont.pw_after_token]|].
  intros ret s' (A & _ & B & C). split; [exact A|]. split; [exact B|]. destruct ret; [exact C|]. intros E. apply C. left. exact E.
Qed.
Lemma end_of_text_level level bs s : above level bs s -> pw (end_of_text level) s (fun _ s' => level_with level bs s').
Proof.
  intros A. unfold end_of_text. destruct (level =? 0); [exact I|]. apply Phase.pw_bind, Phase.pw_get. destruct (s_tagLevel s =? level) eqn:E; cbn [negb]; [|exact I].
  apply above_level; [exact A|]. apply Nat.eqb_eq, E.
Qed.

Section R.
Variable r : recs.
Hypothesis HG : forall a b c d, keeps G G (rc_ext r a b c d).
Hypothesis HC : forall level t buf more s bs, above level bs s -> pw (rc_content r level t buf more) s (fun _ s' => kept level bs more s').
#[local] Hint Resolve HG : tg.

(* an entity leaves the elements alone, unless it is suspended *)
Definition same_or_held (s s' : st) : Prop := above (s_tagLevel s) (s_tags s) s' /\ (level_with (s_tagLevel s) (s_tags s) s' \/ s_parsing s' = SUSPENDED).
Lemma same_held s s' : G s s' -> same_or_held s s'.
Proof. intros [A B]. assert (L : level_with (s_tagLevel s) (s_tags s) s') by (split; congruence). split; [apply level_above, L|left; exact L]. Qed.
Lemma held_G s s1 s2 : G s s1 -> same_or_held s1 s2 -> same_or_held s s2.
Proof. intros [A B]. unfold same_or_held. rewrite A, B. auto. Qed.
Lemma held_after s s1 s2 : same_or_held s s1 -> G s1 s2 -> Q s1 s2 -> same_or_held s s2.
Proof. intros [A B] [C1 C2] D. split; [eapply above_G; [split; eassumption|exact A]|]. destruct B as [[B1 B2]|B]; [left; split; congruence|right; unfold Q in D; congruence]. Qed.
Lemma entity_held name text bd s : pw (processInternalEntity r (false, name) text bd) s (fun _ s' => same_or_held s s').
Proof.
  unfold processInternalEntity. apply Phase.pw_bind. eapply pwG; [wk|]. intros _ s1 G1. apply Phase.pw_bind. eapply pwG; [wk|]. intros _ s2 G2.
  apply Phase.pw_bind, Phase.pw_get. apply Phase.pw_bind, Phase.pw_get. apply Phase.pw_bind. eapply pwG; [wk|]. intros _ s3 G3. cbn [fst].
  assert (G13 : G s s3) by (eapply (f_trans _ _ frame_G); [exact G1|]; eapply (f_trans _ _ frame_G); eassumption).
  assert (Lv : s_tagLevel s2 = s_tagLevel s3) by (symmetry; apply G3). rewrite Lv. apply Phase.pw_bind.
  eapply Phase.pw_imp; [apply (HC _ _ _ _ _ (s_tags s3)); apply level_above; split; reflexivity|]. intros rest s4 [K1 K2].
  assert (H4 : same_or_held s s4) by (eapply held_G; [exact G13|]; split; [exact K1|apply K2; reflexivity]).
  apply Phase.pw_bind. eapply Phase.pw_imp; [apply Phase.pw_and; [apply (pwG _ _ (fun _ s' => G s4 s')); [apply G_leave|auto]|apply (Phase.pw_keeps Q Q), Q_leave]|].
  intros x s5 [A5 B5]. pose proof (held_after _ _ _ H4 A5 B5) as H5. destruct x; cbn [when]; [|exact H5].
  eapply held_after; [exact H5|split; reflexivity|reflexivity].
Qed.
Lemma reference_held t e b n s : pw (content_entity r t e b n) s (fun _ s' => same_or_held s s').
Proof.
  unfold content_entity.
  repeat match goal with
  | |- pw (fail _) _ _ => exact I
  | |- pw (processInternalEntity _ _ _ _) ?s1 (fun _ s' => same_or_held ?s s') => eapply Phase.pw_imp; [apply entity_held|]; intros ? ? ?; eapply held_G; eassumption
  | |- pw (if ?c then _ else _) _ _ => destruct c
  | |- pw (match ?c with _ => _ end) _ _ => destruct c
  | |- pw (let _ := _ in _) _ _ => cbv zeta
  | G0 : G ?s ?s1 |- pw (pbind _ _) ?s1 _ => apply Phase.pw_bind; eapply pwG; [solve [wk]|]; let s2 := fresh "s" in let G2 := fresh in intros ? s2 G2; pose proof (f_trans _ _ frame_G _ _ _ G0 G2); clear G0 G2
  | G0 : G ?s ?s1 |- pw _ ?s1 _ => eapply pwG; [solve [wk]|]; let s2 := fresh "s" in let G2 := fresh in intros ? s2 G2; apply same_held; exact (f_trans _ _ frame_G _ _ _ G0 G2)
  | |- pw _ ?s (fun _ s' => same_or_held ?s s') => assert (G s s) by (apply (f_refl _ _ frame_G))
  end.
Qed.
Lemma start_above level bs t e b n s : above level bs s -> pw (start_tag r t e b n) s (fun _ s' => above level bs s').
Proof.
  intros (top & A & B). unfold start_tag. apply Phase.pw_bind. eapply pwG; [wk|]. intros raw s1 [G1 G1'].
  apply Phase.pw_bind. unfold upd at 1, Phase.pw at 1. set (s2 := set_tagLevel _ _).
  apply Phase.pw_bind. eapply pwG; [wk|]. intros nm s3 [G3 G3']. apply Phase.pw_bind. eapply pwG; [wk|]. intros so s4 [G4 G4'].
  apply Phase.pw_bind, Phase.pw_get. apply Phase.pw_bind. eapply pwG; [wk|]. intros on s5 [G5 G5'].
  apply Phase.pw_bind. eapply pwG; [wk|]. intros _ s6 [G6 G6']. unfold upd, Phase.pw.
  eexists (_ :: top). cbn [app length]. change (s_tags s2) with (s_tags s1) in G3. change (s_tagLevel s2) with (S (s_tagLevel s1)) in G3'.
  split.
  - match goal with |- s_tags (set_tags ?l _) = _ => change (s_tags (set_tags l s6)) with l end. do 2 f_equal. congruence.
  - change (s_tagLevel (set_tags ?l s6)) with (s_tagLevel s6). rewrite G6', G5', G4', G3', G1', B. lia.
Qed.
Lemma end_above level bs t e b n s : above level bs s -> s_tagLevel s <> level -> pw (end_tag t e b n) s (fun _ s' => above level bs s').
Proof.
  intros (top & A & B) Ne. destruct top as [|tg top]; [cbn [length] in B; lia|]. unfold end_tag. apply Phase.pw_bind, Phase.pw_get. rewrite A. cbn [app].
  apply Phase.pw_bind. unfold upd at 1, Phase.pw at 1. set (s1 := set_tags _ _). apply Phase.pw_bind. eapply pwG; [wk|]. intros b' s2 [G2 G2'].
  apply Phase.pw_bind. eapply pwG; [wk|]. intros raw s3 [G3 G3']. destruct (negb _); [apply Phase.pw_bind; apply PhaseCont.pw_any; intros; exact I|].
  apply Phase.pw_bind. unfold upd at 1, Phase.pw at 1. set (s4 := set_tagLevel _ _). apply Phase.pw_bind. eapply pwG; [wk|]. intros on s5 [G5 G5'].
  apply Phase.pw_bind. eapply pwG; [wk|]. intros _ s6 [G6 G6']. eapply pwG; [wk|]. intros _ s7 [G7 G7']. exists top.
  change (s_tags s4) with (s_tags s3) in G5. change (s_tagLevel s4) with (Init.Nat.pred (s_tagLevel s3)) in G5'. change (s_tags s1) with (top ++ bs) in G2. change (s_tagLevel s1) with (s_tagLevel s) in G2'.
  cbn [length] in B. split; [congruence|]. rewrite G7', G6', G5', G3', G2', B. lia.
Qed.
Lemma G_empty t e b n : keeps G G (empty_tag r t e b n).
Proof. unfold empty_tag. wk. Qed.
Lemma content_kept level t buf more s bs : above level bs s -> pw (doContent r level t buf more) s (fun _ s' => kept level bs more s').
Proof.
  intros A. unfold doContent. set (post := fun (_ : bytes) s' => kept level bs more s').
  apply Phase.pw_bind. eapply pwG; [wk|]. intros _ s1 G1. apply Phase.pw_bind. eapply pwG; [wk|]. intros e s2 G2.
  apply Phase.pw_bind. eapply pwG; [wk|]. intros [tok n] s3 G3. apply Phase.pw_bind. eapply pwG; [wk|]. intros _ s4 G4.
  assert (A4 : above level bs s4) by (eapply above_G; [exact G4|]; eapply above_G; [exact G3|]; eapply above_G; [exact G2|]; eapply above_G; eassumption).
  clear s A s1 G1 s2 G2 s3 G3 G4. rename s4 into s, A4 into A. cbv zeta.
  assert (Hcont : forall rest s, above level bs s -> pw (do ret <- after_token t rest; if ret then pret rest else rc_content r level t rest more) s post).
  { intros rest s0 A0. apply Phase.pw_bind. eapply Phase.pw_imp; [apply after_stops|]. intros ret s1 (G1 & P1 & K). destruct ret.
    - split; [eapply above_G; eassumption|]. intros _. right. congruence.
    - apply HC. eapply above_G; eassumption. }
  assert (Hn : forall n0 (m : P unit) s, pw m s (fun _ s' => above level bs s') -> pw (m ;;; do rest <- inc n0 buf; do ret <- after_token t rest; if ret then pret rest else rc_content r level t rest more) s post).
  { intros n0 m s0 H. apply Phase.pw_bind. eapply Phase.pw_imp; [exact H|]. intros ? s1 A1. cbv beta in A1. apply Phase.pw_bind. eapply pwG; [wk|]. intros rest s2 G2. apply Hcont. eapply above_G; eassumption. }
  assert (Hl : forall n0 (m : P unit) s, above level bs s -> keeps G G m -> pw (m ;;; do rest <- inc n0 buf; do ret <- after_token t rest; if ret then pret rest else rc_content r level t rest more) s post).
  { intros n0 m s0 A0 H. apply Hn. eapply pwG; [exact H|]. intros _ s1 G1. eapply above_G; eassumption. }
  assert (Hc : forall n0 (m : P unit) s, pw m s (fun _ s' => above level bs s') ->
    pw (m ;;; do rest <- inc n0 buf; do x <- maybe_epilog r rest; match x with Some y => pret y | None => do ret <- after_token t rest; if ret then pret rest else rc_content r level t rest more end) s post).
  { intros n0 m s0 H. apply Phase.pw_bind. eapply Phase.pw_imp; [exact H|]. intros ? s1 A1. cbv beta in A1. apply Phase.pw_bind. eapply pwG; [wk|]. intros rest s2 G2. pose proof (above_G _ _ _ _ G2 A1) as A2.
    apply Phase.pw_bind. unfold maybe_epilog. apply Phase.pw_bind, Phase.pw_get. apply Phase.pw_bind, Phase.pw_get. destruct (s_tagLevel s2 =? 0) eqn:E0; cbn [andb]; [|apply Hcont; exact A2].
    destruct (negb (parsing_eqb (s_parsing s2) FINISHED)); [|apply Hcont; exact A2]. destruct (parsing_eqb (s_parsing s2) SUSPENDED).
    - apply Phase.pw_bind. unfold upd at 1, Phase.pw at 1. apply Hcont. eapply above_G; [|exact A2]. split; reflexivity.
    - apply Phase.pw_bind. unfold epilogProcessor. eapply pwG; [wk|]. intros x s3 G3. pose proof (above_G _ _ _ _ G3 A2) as A3. unfold pret, Phase.pw. split; [exact A3|]. intros _. left.
      apply above_level; [exact A3|]. destruct G3 as [_ G3]. apply Nat.eqb_eq in E0. destruct A3 as (top & _ & A3). lia. }
  assert (Hmore : more = true -> forall s, above level bs s -> post buf s) by (intros -> s0 A0; split; [exact A0|discriminate]).
  assert (Hend : forall s (x : bytes), level_with level bs s -> post x s) by (intros s0 x L; split; [apply level_above, L|intros _; left; exact L]).
  assert (Hm : forall (m : P bytes) s, above level bs s -> pw m s post -> pw (if more then pret buf else m) s post).
  { intros m s0 A0 H. revert Hmore H. generalize post. intros po Hmore H. destruct more; [apply Hmore; auto|exact H]. }
  destruct tok; try (apply Hm; [exact A|]); try exact I;
    try (apply Phase.pw_bind; eapply pwG; [solve [wk]|]; intros ? s1 G1; pose proof (above_G _ _ _ _ G1 A) as A1;
      first [apply Hl; [exact A1|solve [wk]]|apply Hn; apply start_above; exact A1
            |apply Hc; eapply pwG; [apply G_empty|]; intros _ s2 G2; eapply above_G; eassumption]; fail).
  - apply Phase.pw_bind. eapply pwG; [solve [wk]|]. intros _ s1 G1. apply Phase.pw_bind. eapply pwG; [solve [wk]|]. intros _ s2 G2.
    eapply Phase.pw_imp; [apply (end_of_text_level level bs); eapply above_G; [exact G2|]; eapply above_G; eassumption|]. intros x s3 L. apply (Hend s3 x), L.
  - destruct (level =? 0); [exact I|]. apply Phase.pw_bind, Phase.pw_get. destruct (s_tagLevel s =? level) eqn:E; cbn [negb]; [|exact I]. apply (Hend s buf). apply above_level; [exact A|]. apply Nat.eqb_eq, E.
  - apply Phase.pw_bind. eapply pwG; [solve [wk]|]. intros _ s1 G1. apply Phase.pw_bind. eapply pwG; [solve [wk]|]. intros _ s2 G2.
    eapply Phase.pw_imp; [apply (end_of_text_level level bs); eapply above_G; [exact G2|]; eapply above_G; eassumption|]. intros x s3 L. apply (Hend s3 x), L.
  - apply Phase.pw_bind, PhaseCont.pw_any. intros. exact I.
  - apply Phase.pw_bind. eapply pwG; [solve [wk]|]. intros n0 s1 G1. apply Phase.pw_bind, Phase.pw_get. destruct (s_tagLevel s1 =? level) eqn:E; [exact I|].
    apply Hc, end_above; [eapply above_G; eassumption|]. apply Nat.eqb_neq, E.
  - apply Phase.pw_bind. eapply pwG; [solve [wk]|]. intros n0 s1 G1. apply Phase.pw_bind. eapply pwG; [solve [wk]|]. intros on s2 G2. apply Phase.pw_bind. eapply pwG; [solve [wk]|]. intros _ s3 G3.
    apply Phase.pw_bind. eapply pwG; [solve [wk]|]. intros rest s4 G4. apply Phase.pw_bind.
    assert (A4 : above level bs s4) by (eapply above_G; [exact G4|]; eapply above_G; [exact G3|]; eapply above_G; [exact G2|]; eapply above_G; eassumption).
    eapply Phase.pw_imp; [apply Phase.pw_and; [apply (pwG _ _ (fun _ s' => G s4 s')); [apply tg_doCdataSection|auto]|apply PhaseCont.pw_cdata_stop]|].
    intros x s5 [G5 K5]. pose proof (above_G _ _ _ _ G5 A4) as A5. destruct x as [x|x]; [|apply Hcont; exact A5].
    apply Phase.pw_bind. unfold upd, Phase.pw, pret. split; [eapply above_G; [|exact A5]; split; reflexivity|]. intros Em. destruct K5 as [K5|K5]; [congruence|]. right. exact K5.
  - apply Phase.pw_bind. eapply pwG; [solve [wk]|]. intros n0 s1 G1. pose proof (above_G _ _ _ _ G1 A) as A1. apply Hn.
    eapply Phase.pw_imp; [apply reference_held|]. intros ? s2 [(top & B1 & B2) _]. destruct A1 as (top1 & C1 & C2). exists (top ++ top1). rewrite <- app_assoc, <- C1, app_length. split; [exact B1|lia].
  - apply Phase.pw_bind. eapply pwG; [solve [wk]|]. intros n0 s1 G1. pose proof (above_G _ _ _ _ G1 A) as A1. apply Phase.pw_bind. eapply pwG; [solve [wk]|]. intros c s2 G2.
    destruct (c <? 0)%Z; [exact I|]. apply Hl; [eapply above_G; eassumption|solve [wk]].
Qed.
End R.

Theorem content_balanced n : forall level t buf more s bs, above level bs s -> pw (rc_content (knot n) level t buf more) s (fun _ s' => kept level bs more s').
Proof.
  induction n as [|n IH]; intros level t buf more s bs A; [exact I|]. apply content_kept; [apply knot_ext_G|exact IH|exact A].
Qed.
Theorem entity_balanced n name text bd s : pw (processInternalEntity (knot n) (false, name) text bd) s (fun _ s' => same_or_held s s').
Proof. apply entity_held. apply content_balanced. Qed.
Theorem reference_balanced n t e b k s : pw (content_entity (knot n) t e b k) s (fun _ s' => same_or_held s s').
Proof. apply reference_held; [apply knot_ext_G|apply content_balanced]. Qed.
