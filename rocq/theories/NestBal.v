(* C72: the events of the elements in a text are balanced by themselves. *)
From Coq Require Import List NArith ZArith Bool Arith Lia.
From Verif Require Import Base Encoding Tok TokMisc Norm XmlDecl Status Role State AttVal Bind Atts Scaf Content Prolog Core Keep SpecNest.
From Verif Require Nest NestTop TagFrame TagLaws Phase PhaseCont.
Import ListNotations.
Local Open Scope nat_scope.
Import Nest TagFrame.
Notation pw := Phase.pw.
Notation mine := Nest.mine.
Notation stack := Nest.stack.
Notation inv := Nest.inv.
Notation Q := TagLaws.Q.

Definition E (s s' : st) : Prop := TagFrame.G s s' /\ Nest.N s s'.
Lemma frame_E : frame E E.
Proof.
  destruct TagFrame.frame_G as [A1 A2 A3 A4], Nest.frame_N as [B1 B2 B3 B4]. unfold E. split.
  - intros s. split; [apply A1|apply B1].
  - intros a b c [X1 X2] [Y1 Y2]. split; [eapply A2; eassumption|eapply B2; eassumption].
  - intros a b c [X1 X2] [Y1 Y2]. split; [eapply A3; eassumption|eapply B3; eassumption].
  - auto.
Qed.
Definition both {A} (m : P A) : Prop := keeps TagFrame.G TagFrame.G m /\ keeps Nest.N Nest.N m.
Lemma pwE {A} (m : P A) s (Q : A -> st -> Prop) : both m -> (forall a s', E s s' -> Q a s') -> pw m s Q.
Proof. intros [H1 H2] K. specialize (H1 s). specialize (H2 s). unfold Phase.pw. destruct (m s); auto. apply K. split; assumption. Qed.
Ltac wb := split; [solve [TagFrame.wk]|solve [Nest.wk]].

(* [s] is above the elements [bs], with the events [base] before them and balanced events of its own *)
Definition up (pid : nat) (base : list tagev) (level : nat) (bs : list tag) (s : st) : Prop :=
  inv s /\ s_pid s = pid /\ exists top evs, s_tags s = top ++ bs /\ s_tagLevel s = level + length top /\ mine s = base ++ evs /\ stack [] evs = Some (map t_name top).
Definition at_start (pid : nat) (base : list tagev) (level : nat) (bs : list tag) (s : st) : Prop :=
  inv s /\ s_pid s = pid /\ s_tags s = bs /\ s_tagLevel s = level /\ exists evs, mine s = base ++ evs /\ balanced evs.
Lemma inv_N s s' : Nest.N s s' -> inv s -> inv s' /\ s_pid s' = s_pid s /\ mine s' = mine s.
Proof. intros H [Hs Hk]. destruct (H Hs) as (A & B & C & D). split; [split; [exact A|rewrite D, C; exact Hk]|]. split; [apply B|exact D]. Qed.
Lemma up_E pid base level bs s s' : E s s' -> up pid base level bs s -> up pid base level bs s'.
Proof.
  intros [[E1 E2] HN] (I & Hp & top & evs & A & B & C & D). destruct (inv_N _ _ HN I) as (I' & P' & M'). split; [exact I'|]. split; [congruence|]. exists top, evs. repeat split; congruence.
Qed.
Lemma at_up pid base level bs s : at_start pid base level bs s -> up pid base level bs s.
Proof. intros (I & Hp & A & B & evs & C & D). split; [exact I|]. split; [exact Hp|]. exists [], evs. split; [exact A|]. split; [cbn [length]; lia|]. split; [exact C|]. apply Nest.stack_balanced, D. Qed.
Lemma up_level pid base level bs s : up pid base level bs s -> s_tagLevel s = level -> at_start pid base level bs s.
Proof.
  intros (I & Hp & top & evs & A & B & C & D) L. assert (length top = 0) by lia. destruct top; [|discriminate]. split; [exact I|]. split; [exact Hp|]. split; [exact A|]. split; [exact L|].
  exists evs. split; [exact C|]. apply Nest.stack_nil, D.
Qed.
Lemma up_refl s : inv s -> at_start (s_pid s) (mine s) (s_tagLevel s) (s_tags s) s.
Proof. intros I. split; [exact I|]. do 3 (split; [reflexivity|]). exists []. rewrite app_nil_r. split; [reflexivity|constructor]. Qed.
Lemma stack_under l : forall k k' r, stack k l = Some k' -> stack (k ++ r) l = Some (k' ++ r).
Proof.
  induction l as [|[n|n] l IH]; intros k k' r H; cbn [Nest.stack] in *; [injection H as <-; reflexivity|apply (IH (n :: k)), H|].
  destruct k as [|m k]; [discriminate|]. cbn [app]. destruct (beqb m n); [apply IH, H|discriminate].
Qed.
Definition keptE pid base (level : nat) (bs : list tag) (more : bool) (s : st) : Prop :=
  up pid base level bs s /\ (more = false -> at_start pid base level bs s \/ s_parsing s = SUSPENDED).
Lemma up_up pid base level bs s1 s2 : up pid base level bs s1 -> up (s_pid s1) (mine s1) (s_tagLevel s1) (s_tags s1) s2 -> up pid base level bs s2.
Proof.
  intros (I1 & P1 & top1 & ev1 & A1 & B1 & C1 & D1) (I2 & P2 & top2 & ev2 & A2 & B2 & C2 & D2). split; [exact I2|]. split; [congruence|].
  exists (top2 ++ top1), (ev1 ++ ev2). split; [rewrite A2, A1, app_assoc; reflexivity|]. split; [rewrite app_length; lia|]. split; [rewrite C2, C1, app_assoc; reflexivity|].
  rewrite Nest.stack_app, D1, map_app. apply (stack_under _ []), D2.
Qed.

Lemma call_E ev : tagev_of ev = [] -> both (call ev).
Proof. intros H. split; [apply tg_call|apply Nest.keeps_call, H]. Qed.
Lemma end_of_text_up pid base level bs s : up pid base level bs s -> pw (end_of_text level) s (fun _ s' => at_start pid base level bs s').
Proof.
  intros A. unfold end_of_text. destruct (level =? 0); [exact I|]. apply Phase.pw_bind, Phase.pw_get. destruct (s_tagLevel s =? level) eqn:E0; cbn [negb]; [|exact I].
  apply up_level; [exact A|]. apply Nat.eqb_eq, E0.
Qed.
Lemma after_stops t rest s : pw (after_token t rest) s (fun ret s' => E s s' /\ s_parsing s' = s_parsing s /\ (if ret then s_parsing s = SUSPENDED else s_parsing s <> SUSPENDED)).
Proof.
  eapply Phase.pw_imp; [apply Phase.pw_and; [apply TagLaws.after_stops|apply (pwE _ _ (fun _ s' => E s s')); [split; [apply tg_after_token|apply Nest.kp_after_token]|auto]]|].
  intros ret s' ((A & B & C) & D). auto.
Qed.

(* the three kinds of tags *)
Import Nest.
Ltac gow l := apply wp_bind; eapply wp_after; [l|eassumption| |intros; exact Logic.I].
Lemma start_after r t e b n s : inv s -> wp (start_tag r t e b n) s (fun _ s' => exists tg, after (mine s ++ [Open (t_name tg)]) (tg :: s_tags s) s s') (fun _ _ => True).
Proof.
  intros [Hs Hk]. set (l := mine s) in *. set (tags := s_tags s) in *.
  pose proof (after_refl s Hs) as Ha. fold l tags in Ha. unfold start_tag.
  gow ltac:(apply kp_tag_raw). intros raw s1 H1.
  gow same. intros _ s2 H2.
  gow ltac:(apply (keeps_lift _ _ frame_N)). intros name s3 H3.
  gow ltac:(apply kp_storeAtts). intros so s4 H4.
  gow ltac:(apply (keeps_get _ _ frame_N)). intros ix s5 H5.
  apply wp_bind. eapply wp_emit_elem; [eapply after_start; exact H5|eexists; rewrite stack_app, Hk; reflexivity|exact H5|]. intros s6 H6.
  cbn [negb when]. apply wp_bind. unfold wp, pret, upd.
  exists {| t_raw := raw; t_name := so_name so; t_bindings := so_bindings so |}. cbn [t_name].
  eapply (after_set _ _ _ (fun s => set_tags _ s)); [intros; repeat split|cbn|exact H6]. destruct H6 as (_ & _ & X & _). cbn. rewrite X. reflexivity.
Qed.
Lemma empty_after r t e b n s : inv s -> wp (empty_tag r t e b n) s (fun _ s' => exists nm, after (mine s ++ [Open nm; Close nm]) (s_tags s) s s') (fun _ _ => True).
Proof.
  intros [Hs Hk]. set (l := mine s) in *. set (tags := s_tags s) in *.
  pose proof (after_refl s Hs) as Ha. fold l tags in Ha. unfold empty_tag.
  gow ltac:(apply kp_tag_raw). intros raw s1 H1.
  gow ltac:(apply (keeps_lift _ _ frame_N)). intros name s3 H3.
  apply wp_bind. eapply wp_try; [apply kp_storeAtts|exact H3| |].
  { intros err s4 He H4. apply wp_bind. unfold wp at 1, get. apply wp_bind. eapply wp_after; [apply kp_freeBindings|exact H4| |intros; exact Logic.I]. intros. split; [exact He|exact Logic.I]. }
  intros so s4 H4.
  gow ltac:(apply (keeps_get _ _ frame_N)). intros ix s5 H5.
  assert (Hf' : nestable (l ++ tagev_of (EvStartElement (so_name so) (so_atts so) (so_spec so) ix))).
  { eexists. rewrite stack_app, Hk. reflexivity. }
  apply wp_bind. eapply wp_emit_elem; [eapply after_start; exact H5|exact Hf'|exact H5|]. intros s6 H6.
  cbn [negb when]. apply wp_bind. eapply wp_after; [Nest.wk|exact H6| |intros; exact Logic.I]. intros _ s7 H7.
  assert (Hk' : stack [] ((l ++ [Open (so_name so)]) ++ [Close (so_name so)]) = Some (map t_name tags)).
  { rewrite !stack_app, Hk. cbn [stack]. rewrite beqb_refl. reflexivity. }
  apply wp_bind. eapply wp_emit_elem; [eapply after_end; exact H7|eexists; exact Hk'|exact H7|]. intros s8 H8.
  cbn [negb andb when]. apply wp_bind. unfold wp at 1, pret.
  eapply wp_after; [apply kp_freeBindings|exact H8| |intros; exact Logic.I]. intros _ s9 H9. exists (so_name so). cbn [tagev_of] in H9. rewrite <- app_assoc in H9. exact H9.
Qed.
Lemma end_after t e b n s : inv s -> wp (end_tag t e b n) s (fun _ s' => exists tg tags, s_tags s = tg :: tags /\ after (mine s ++ [Close (t_name tg)]) tags s s') (fun _ _ => True).
Proof.
  intros [Hs Hk]. set (l := mine s) in *.
  pose proof (after_refl s Hs) as Ha. fold l in Ha. unfold end_tag.
  apply wp_bind. unfold wp at 1, get. destruct (s_tags s) as [|tg tags] eqn:Et; [exact Logic.I|].
  apply wp_bind. unfold wp at 1, upd.
  assert (H1 : after l tags s (set_tags tags s)).
  { apply (after_set _ (tg :: tags) _ (fun s => set_tags tags s)); [intros; repeat split|reflexivity|exact Ha]. }
  set (s1 := set_tags tags s) in *. clearbody s1.
  gow ltac:(apply kp_inc). intros b1 s2 H2.
  gow ltac:(apply kp_tag_raw). intros raw s3 H3.
  destruct (negb (beqb raw (t_raw tg))).
  { apply wp_bind. eapply wp_after; [apply kp_set_event|eassumption| |]; intros; [split; [discriminate|]|]; exact Logic.I. }
  gow same. intros _ s4 H4.
  assert (Hk' : stack [] (l ++ [Close (t_name tg)]) = Some (map t_name tags)).
  { rewrite !stack_app, Hk. cbn [stack map]. rewrite beqb_refl. reflexivity. }
  apply wp_bind. eapply wp_emit_elem; [eapply after_end; exact H4|eexists; exact Hk'|exact H4|]. intros s5 H5.
  cbn [negb when]. apply wp_bind. unfold wp at 1, pret.
  eapply wp_after; [apply kp_freeBindings|exact H5| |intros; exact Logic.I]. intros _ s6 H6. exists tg, tags. split; [reflexivity|exact H6].
Qed.
Lemma wp_pw {A} (m : P A) s (Qr : A -> st -> Prop) : wp m s Qr (fun _ _ => True) -> pw m s Qr.
Proof. unfold wp, Phase.pw. destruct (m s); auto. Qed.
Lemma after_inv l tags s s' : after l tags s s' -> stack [] l = Some (map t_name tags) -> inv s' /\ s_pid s' = s_pid s /\ s_tags s' = tags /\ mine s' = l.
Proof. intros A H. destruct (after_G _ _ _ _ H A) as [I' G']. destruct A as (_ & _ & B & C). split; [exact I'|]. split; [apply G'|]. auto. Qed.

Section R.
Variable r : recs.
Hypothesis HG : forall a b c d, keeps TagFrame.G TagFrame.G (rc_ext r a b c d).
Hypothesis HN : forall a b c d, keeps Nest.N Nest.N (rc_ext r a b c d).
Hypothesis HC : forall pid base level t buf more s bs, up pid base level bs s -> pw (rc_content r level t buf more) s (fun _ s' => keptE pid base level bs more s').
Hypothesis HT : forall level t buf more s bs, TagLaws.above level bs s -> pw (rc_content r level t buf more) s (fun _ s' => TagLaws.kept level bs more s').
#[local] Hint Resolve HG : tg.
#[local] Hint Resolve HN : kp.
Lemma N_leave ent o n b : keeps Nest.N Nest.N (leave_entity ent o n b). Proof. unfold leave_entity. Nest.wk. Qed.
Lemma E_leave ent o n b : both (leave_entity ent o n b). Proof. split; [apply TagLaws.G_leave|apply N_leave]. Qed.
Lemma E_cdata f t b m : both (doCdataSection f t b m). Proof. split; [apply tg_doCdataSection|apply kp_doCdataSection]. Qed.

Definition heldE (s s' : st) : Prop := inv s -> up (s_pid s) (mine s) (s_tagLevel s) (s_tags s) s' /\ (at_start (s_pid s) (mine s) (s_tagLevel s) (s_tags s) s' \/ s_parsing s' = SUSPENDED).
Lemma held_E s s1 s2 : E s s1 -> heldE s1 s2 -> heldE s s2.
Proof. intros [[A B] C] H I. destruct (inv_N _ _ C I) as (I1 & P1 & M1). specialize (H I1). rewrite A, B, P1, M1 in H. exact H. Qed.
Lemma same_heldE s s' : E s s' -> heldE s s'.
Proof. intros H I. pose proof (up_E _ _ _ _ _ _ H (at_up _ _ _ _ _ (up_refl s I))) as U. split; [exact U|]. left. apply up_level; [exact U|]. apply H. Qed.
Lemma held_afterE s s1 s2 : heldE s s1 -> E s1 s2 -> Q s1 s2 -> heldE s s2.
Proof.
  intros H H2 D I. destruct (H I) as [A B]. pose proof (up_E _ _ _ _ _ _ H2 A) as U. split; [exact U|].
  destruct B as [B|B]; [left|right; unfold TagLaws.Q in D; congruence]. apply up_level; [exact U|]. destruct H2 as [[_ X] _]. destruct B as (_ & _ & _ & Y & _). congruence.
Qed.
Lemma pw_pre {A} (m : P A) s (X : Prop) (Qr : A -> st -> Prop) : (X -> pw m s Qr) -> pw m s (fun a s' => X -> Qr a s').
Proof. unfold Phase.pw. destruct (m s); auto. Qed.
Lemma entity_heldE name text bd s : pw (processInternalEntity r (false, name) text bd) s (fun _ s' => heldE s s').
Proof.
  unfold heldE. apply pw_pre. intros I0.
  unfold processInternalEntity. apply Phase.pw_bind. eapply pwE; [wb|]. intros _ s1 G1. apply Phase.pw_bind. eapply pwE; [wb|]. intros _ s2 G2.
  apply Phase.pw_bind, Phase.pw_get. apply Phase.pw_bind, Phase.pw_get. apply Phase.pw_bind. eapply pwE; [wb|]. intros _ s3 G3. cbn [fst].
  assert (G13 : E s s3) by (eapply (f_trans _ _ frame_E); [exact G1|]; eapply (f_trans _ _ frame_E); eassumption).
  assert (Lv : s_tagLevel s2 = s_tagLevel s3) by (symmetry; apply G3). rewrite Lv. apply Phase.pw_bind.
  assert (I3 : inv s3) by (apply (inv_N s s3); [apply G13|exact I0]).
  eapply Phase.pw_imp; [apply (HC (s_pid s3) (mine s3) _ _ _ _ _ (s_tags s3)); apply at_up, up_refl; exact I3|]. intros rest s4 [K1 K2].
  assert (H4 : heldE s s4) by (eapply held_E; [exact G13|]; intros _; split; [exact K1|apply K2; reflexivity]).
  apply Phase.pw_bind. eapply Phase.pw_imp; [apply Phase.pw_and; [apply (pwE _ _ (fun _ s' => E s4 s')); [apply E_leave|auto]|apply (Phase.pw_keeps TagLaws.Q TagLaws.Q), TagLaws.Q_leave]|].
  intros x s5 [A5 B5]. pose proof (held_afterE _ _ _ H4 A5 B5) as H5. destruct x; cbn [when]; [|exact (H5 I0)].
  refine (held_afterE _ _ _ H5 _ _ I0); [split; [split; reflexivity|apply Nest.N_same; reflexivity]|reflexivity].
Qed.
Lemma reference_heldE t e b n s : pw (content_entity r t e b n) s (fun _ s' => heldE s s').
Proof.
  unfold content_entity.
  repeat match goal with
  | |- pw (fail _) _ _ => exact I
  | |- pw (processInternalEntity _ _ _ _) ?s1 (fun _ s' => heldE ?s s') => eapply Phase.pw_imp; [apply entity_heldE|]; intros ? ? ?; eapply held_E; eassumption
  | |- pw (if ?c then _ else _) _ _ => destruct c
  | |- pw (match ?c with _ => _ end) _ _ => destruct c
  | |- pw (let _ := _ in _) _ _ => cbv zeta
  | G0 : E ?s ?s1 |- pw (pbind _ _) ?s1 _ => apply Phase.pw_bind; eapply pwE; [solve [wb]|]; let s2 := fresh "s" in let G2 := fresh in intros ? s2 G2; pose proof (f_trans _ _ frame_E _ _ _ G0 G2); clear G0 G2
  | G0 : E ?s ?s1 |- pw _ ?s1 _ => eapply pwE; [solve [wb]|]; let s2 := fresh "s" in let G2 := fresh in intros ? s2 G2; apply same_heldE; exact (f_trans _ _ frame_E _ _ _ G0 G2)
  | |- pw _ ?s (fun _ s' => heldE ?s s') => assert (E s s) by (apply (f_refl _ _ frame_E))
  end.
Qed.
Lemma start_up pid base level bs t e b n s : up pid base level bs s -> pw (start_tag r t e b n) s (fun _ s' => up pid base level bs s').
Proof.
  intros (I & Hp & top & evs & A & B & C & D). assert (X : TagLaws.above level bs s) by (exists top; auto).
  eapply Phase.pw_imp; [apply Phase.pw_and; [apply (TagLaws.start_above r HT level bs t e b n s X)|apply wp_pw, (start_after r t e b n s I)]|].
  intros _ s' ((top' & A' & B') & tg & Af). destruct (after_inv _ _ _ _ Af ltac:(destruct I as [_ Hk]; rewrite Nest.stack_app, Hk; reflexivity)) as (I' & P' & T' & M').
  split; [exact I'|]. split; [congruence|]. assert (top' = tg :: top) by (apply (app_inv_tail bs); cbn [app]; congruence). subst top'.
  exists (tg :: top), (evs ++ [Open (t_name tg)]). split; [exact A'|]. split; [exact B'|]. split; [rewrite M', C, <- app_assoc; reflexivity|]. rewrite Nest.stack_app, D. reflexivity.
Qed.
Lemma end_up pid base level bs t e b n s : up pid base level bs s -> s_tagLevel s <> level -> pw (end_tag t e b n) s (fun _ s' => up pid base level bs s').
Proof.
  intros (I & Hp & top & evs & A & B & C & D) Ne. assert (X : TagLaws.above level bs s) by (exists top; auto).
  eapply Phase.pw_imp; [apply Phase.pw_and; [apply (TagLaws.end_above r HT level bs t e b n s X Ne)|apply wp_pw, (end_after t e b n s I)]|].
  intros _ s' ((top' & A' & B') & tg & tags & Et & Af).
  destruct (after_inv _ _ _ _ Af ltac:(destruct I as [_ Hk]; rewrite Nest.stack_app, Hk, Et; cbn [map Nest.stack]; rewrite Nest.beqb_refl; reflexivity)) as (I' & P' & T' & M').
  destruct top as [|tg0 top]; [cbn [length] in B; lia|]. rewrite A in Et. cbn [app] in Et. injection Et as -> Et.
  assert (top' = top) by (apply (app_inv_tail bs); congruence). subst top'.
  split; [exact I'|]. split; [congruence|]. exists top, (evs ++ [Close (t_name tg)]). split; [exact A'|]. split; [exact B'|]. split; [rewrite M', C, <- app_assoc; reflexivity|].
  rewrite Nest.stack_app, D. cbn [map Nest.stack]. rewrite Nest.beqb_refl. reflexivity.
Qed.
Lemma empty_up pid base level bs t e b n s : up pid base level bs s -> pw (empty_tag r t e b n) s (fun _ s' => up pid base level bs s').
Proof.
  intros (I & Hp & top & evs & A & B & C & D).
  eapply Phase.pw_imp; [apply Phase.pw_and; [apply (TagLaws.pwG _ s (fun _ s' => TagFrame.G s s')); [apply TagLaws.G_empty|auto]|apply wp_pw, (empty_after r t e b n s I)]|].
  intros _ s' ([G1 G2] & nm & Af).
  destruct (after_inv _ _ _ _ Af ltac:(destruct I as [_ Hk]; rewrite Nest.stack_app, Hk; cbn [Nest.stack]; rewrite Nest.beqb_refl; reflexivity)) as (I' & P' & T' & M').
  split; [exact I'|]. split; [congruence|]. exists top, (evs ++ [Open nm; Close nm]). split; [congruence|]. split; [congruence|]. split; [rewrite M', C, <- app_assoc; reflexivity|].
  rewrite Nest.stack_app, D. cbn [Nest.stack]. rewrite Nest.beqb_refl. reflexivity.
Qed.
Lemma content_keptE pid base level t buf more s bs : up pid base level bs s -> pw (doContent r level t buf more) s (fun _ s' => keptE pid base level bs more s').
Proof.
  intros A. unfold doContent. set (post := fun (_ : bytes) s' => keptE pid base level bs more s').
  apply Phase.pw_bind. eapply pwE; [wb|]. intros _ s1 G1. apply Phase.pw_bind. eapply pwE; [wb|]. intros e s2 G2.
  apply Phase.pw_bind. eapply pwE; [wb|]. intros [tok n] s3 G3. apply Phase.pw_bind. eapply pwE; [wb|]. intros _ s4 G4.
  assert (A4 : up pid base level bs s4) by (eapply up_E; [exact G4|]; eapply up_E; [exact G3|]; eapply up_E; [exact G2|]; eapply up_E; eassumption).
  clear s A s1 G1 s2 G2 s3 G3 G4. rename s4 into s, A4 into A. cbv zeta.
  assert (Hcont : forall rest s, up pid base level bs s -> pw (do ret <- after_token t rest; if ret then pret rest else rc_content r level t rest more) s post).
  { intros rest s0 A0. apply Phase.pw_bind. eapply Phase.pw_imp; [apply after_stops|]. intros ret s1 (G1 & P1 & K). destruct ret.
    - split; [eapply up_E; eassumption|]. intros _. right. congruence.
    - apply HC. eapply up_E; eassumption. }
  assert (Hn : forall n0 (m : P unit) s, pw m s (fun _ s' => up pid base level bs s') -> pw (m ;;; do rest <- inc n0 buf; do ret <- after_token t rest; if ret then pret rest else rc_content r level t rest more) s post).
  { intros n0 m s0 H. apply Phase.pw_bind. eapply Phase.pw_imp; [exact H|]. intros ? s1 A1. cbv beta in A1. apply Phase.pw_bind. eapply pwE; [wb|]. intros rest s2 G2. apply Hcont. eapply up_E; eassumption. }
  assert (Hl : forall n0 (m : P unit) s, up pid base level bs s -> both m -> pw (m ;;; do rest <- inc n0 buf; do ret <- after_token t rest; if ret then pret rest else rc_content r level t rest more) s post).
  { intros n0 m s0 A0 H. apply Hn. eapply pwE; [exact H|]. intros _ s1 G1. eapply up_E; eassumption. }
  assert (Hc : forall n0 (m : P unit) s, pw m s (fun _ s' => up pid base level bs s') ->
    pw (m ;;; do rest <- inc n0 buf; do x <- maybe_epilog r rest; match x with Some y => pret y | None => do ret <- after_token t rest; if ret then pret rest else rc_content r level t rest more end) s post).
  { intros n0 m s0 H. apply Phase.pw_bind. eapply Phase.pw_imp; [exact H|]. intros ? s1 A1. cbv beta in A1. apply Phase.pw_bind. eapply pwE; [wb|]. intros rest s2 G2. pose proof (up_E _ _ _ _ _ _ G2 A1) as A2.
    apply Phase.pw_bind. unfold maybe_epilog. apply Phase.pw_bind, Phase.pw_get. apply Phase.pw_bind, Phase.pw_get. destruct (s_tagLevel s2 =? 0) eqn:E0; cbn [andb]; [|apply Hcont; exact A2].
    destruct (negb (parsing_eqb (s_parsing s2) FINISHED)); [|apply Hcont; exact A2]. destruct (parsing_eqb (s_parsing s2) SUSPENDED).
    - apply Phase.pw_bind. unfold upd at 1, Phase.pw at 1. apply Hcont. eapply up_E; [|exact A2]. split; [split; reflexivity|apply Nest.N_same; reflexivity].
    - apply Phase.pw_bind. unfold epilogProcessor. eapply pwE; [wb|]. intros x s3 G3. pose proof (up_E _ _ _ _ _ _ G3 A2) as A3. unfold pret, Phase.pw. split; [exact A3|]. intros _. left.
      apply up_level; [exact A3|]. destruct G3 as [[_ G3] _]. apply Nat.eqb_eq in E0. destruct A3 as (_ & _ & top & evs & _ & A3 & _). lia. }
  assert (Hmore : more = true -> forall s, up pid base level bs s -> post buf s) by (intros -> s0 A0; split; [exact A0|discriminate]).
  assert (Hend : forall s (x : bytes), at_start pid base level bs s -> post x s) by (intros s0 x L; split; [apply at_up, L|intros _; left; exact L]).
  assert (Hm : forall (m : P bytes) s, up pid base level bs s -> pw m s post -> pw (if more then pret buf else m) s post).
  { intros m s0 A0 H. revert Hmore H. generalize post. intros po Hmore H. destruct more; [apply Hmore; auto|exact H]. }
  destruct tok; try (apply Hm; [exact A|]); try exact I;
    try (apply Phase.pw_bind; eapply pwE; [solve [wb]|]; intros ? s1 G1; pose proof (up_E _ _ _ _ _ _ G1 A) as A1;
      first [apply Hl; [exact A1|solve [wb]]|apply Hn; apply start_up; exact A1
            |apply Hc; apply empty_up; exact A1]; fail).
  - apply Phase.pw_bind. eapply pwE; [solve [wb]|]. intros _ s1 G1. apply Phase.pw_bind. eapply pwE; [solve [wb]|]. intros _ s2 G2.
    eapply Phase.pw_imp; [apply (end_of_text_up pid base level bs); eapply up_E; [exact G2|]; eapply up_E; eassumption|]. intros x s3 L. apply (Hend s3 x), L.
  - destruct (level =? 0); [exact I|]. apply Phase.pw_bind, Phase.pw_get. destruct (s_tagLevel s =? level) eqn:E; cbn [negb]; [|exact I]. apply (Hend s buf). apply up_level; [exact A|]. apply Nat.eqb_eq, E.
  - apply Phase.pw_bind. eapply pwE; [solve [wb]|]. intros _ s1 G1. apply Phase.pw_bind. eapply pwE; [solve [wb]|]. intros _ s2 G2.
    eapply Phase.pw_imp; [apply (end_of_text_up pid base level bs); eapply up_E; [exact G2|]; eapply up_E; eassumption|]. intros x s3 L. apply (Hend s3 x), L.
  - apply Phase.pw_bind, PhaseCont.pw_any. intros. exact I.
  - apply Phase.pw_bind. eapply pwE; [solve [wb]|]. intros n0 s1 G1. apply Phase.pw_bind, Phase.pw_get. destruct (s_tagLevel s1 =? level) eqn:E; [exact I|].
    apply Hc, end_up; [eapply up_E; eassumption|]. apply Nat.eqb_neq, E.
  - apply Phase.pw_bind. eapply pwE; [solve [wb]|]. intros n0 s1 G1. apply Phase.pw_bind. eapply pwE; [solve [wb]|]. intros on s2 G2. apply Phase.pw_bind. eapply pwE; [solve [wb]|]. intros _ s3 G3.
    apply Phase.pw_bind. eapply pwE; [solve [wb]|]. intros rest s4 G4. apply Phase.pw_bind.
    assert (A4 : up pid base level bs s4) by (eapply up_E; [exact G4|]; eapply up_E; [exact G3|]; eapply up_E; [exact G2|]; eapply up_E; eassumption).
    eapply Phase.pw_imp; [apply Phase.pw_and; [apply (pwE _ _ (fun _ s' => E s4 s')); [apply E_cdata|auto]|apply PhaseCont.pw_cdata_stop]|].
    intros x s5 [G5 K5]. pose proof (up_E _ _ _ _ _ _ G5 A4) as A5. destruct x as [x|x]; [|apply Hcont; exact A5].
    apply Phase.pw_bind. unfold upd, Phase.pw, pret. split; [eapply up_E; [|exact A5]; split; [split; reflexivity|apply Nest.N_same; reflexivity]|]. intros Em. destruct K5 as [K5|K5]; [congruence|]. right. exact K5.
  - apply Phase.pw_bind. eapply pwE; [solve [wb]|]. intros n0 s1 G1. pose proof (up_E _ _ _ _ _ _ G1 A) as A1. apply Hn.
    eapply Phase.pw_imp; [apply reference_heldE|]. intros ? s2 H2. cbv beta in H2. destruct (H2 (proj1 A1)) as [U _]. eapply up_up; eassumption.
  - apply Phase.pw_bind. eapply pwE; [solve [wb]|]. intros n0 s1 G1. pose proof (up_E _ _ _ _ _ _ G1 A) as A1. apply Phase.pw_bind. eapply pwE; [solve [wb]|]. intros c s2 G2.
    destruct (c <? 0)%Z; [exact I|]. apply Hl; [eapply up_E; eassumption|solve [wb]].
Qed.
End R.

Theorem content_up n : forall pid base level t buf more s bs, up pid base level bs s -> pw (rc_content (knot n) level t buf more) s (fun _ s' => keptE pid base level bs more s').
Proof.
  induction n as [|n IH]; intros pid base level t buf more s bs A; [exact Logic.I|]. apply content_keptE; [apply TagLaws.knot_ext_G|apply (NestTop.good_knot n)|exact IH|apply TagLaws.content_balanced|exact A].
Qed.
Theorem entity_up n name text bd s : pw (processInternalEntity (knot n) (false, name) text bd) s (fun _ s' => heldE s s').
Proof. apply entity_heldE. apply content_up. Qed.
Theorem reference_up n t e b k s : pw (content_entity (knot n) t e b k) s (fun _ s' => heldE s s').
Proof. apply reference_heldE; [apply TagLaws.knot_ext_G|apply (NestTop.good_knot n)|apply content_up]. Qed.
