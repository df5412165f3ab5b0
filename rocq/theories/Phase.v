(* Where the parser of a document is: before, in and after the document element.  What its element events look like
   there, and what the functions for content do to it. *)
From Coq Require Import List NArith ZArith Bool Arith Lia.
From Verif Require Import Base Encoding Tok TokMisc Norm XmlDecl Status Role State AttVal Bind Atts Scaf Content Prolog Core.
From Verif Require Import Keep SpecNest EncLaws TokInst Nest PhaseLeaf PhaseRole.
Import ListNotations.
Local Open Scope nat_scope.

(* one element has begun and is not complete *)
Definition live (l : list tagev) : Prop :=
  exists n l', l = Open n :: l' /\ forall a b, l' = a ++ b -> stack [n] a <> Some [].
Lemma live_one n : live [Open n].
Proof. exists n, []. split; [reflexivity|]. intros a b E. destruct a; [|discriminate]. discriminate. Qed.
Lemma app_snoc {A} (l : list A) x a b : l ++ [x] = a ++ b -> (exists b', b = b' ++ [x] /\ l = a ++ b') \/ (b = [] /\ a = l ++ [x]).
Proof.
  intros E. destruct b as [|y b] using rev_ind; [right; rewrite app_nil_r in E; auto|left].
  rewrite app_assoc in E. apply app_inj_tail in E as [-> ->]. exists b. auto.
Qed.
Lemma live_snoc l x k : live l -> stack [] (l ++ [x]) = Some k -> k <> [] -> live (l ++ [x]).
Proof.
  intros (n & l' & -> & H) E Hk. exists n, (l' ++ [x]). split; [reflexivity|]. intros a b Ea.
  apply app_snoc in Ea as [(b' & -> & Ea)|[-> ->]]; [eapply H, Ea|]. cbn [app stack] in E. rewrite E. congruence.
Qed.
Lemma live_done l x : live l -> stack [] (l ++ [x]) = Some [] -> one_element (l ++ [x]).
Proof.
  intros (n & l' & -> & H) E. cbn [app stack] in *. apply stack_one; [exact E| |destruct l'; discriminate].
  intros a b Ea Hb. apply app_snoc in Ea as [(b' & -> & Ea)|[-> ->]]; [eapply H, Ea|]. elim Hb. reflexivity.
Qed.
Lemma live_open l k : live l -> stack [] l = Some k -> k <> [].
Proof. intros (n & l' & -> & H) E. cbn [stack] in E. specialize (H l' [] (eq_sym (app_nil_r _))). congruence. Qed.

(* what returns *)
Definition pw {A} (m : P A) (s : st) (Q : A -> st -> Prop) : Prop := match m s with Ret a s' => Q a s' | _ => True end.
Lemma pw_bind {A B} (m : P A) (k : A -> P B) s Q : pw m s (fun a s' => pw (k a) s' Q) -> pw (pbind m k) s Q.
Proof. unfold pw, pbind. destruct (m s); auto. Qed.
Lemma pw_imp {A} (m : P A) s (Q Q' : A -> st -> Prop) : pw m s Q -> (forall a s', Q a s' -> Q' a s') -> pw m s Q'.
Proof. unfold pw. destruct (m s); auto. Qed.
Lemma pw_and {A} (m : P A) s (Q Q' : A -> st -> Prop) : pw m s Q -> pw m s Q' -> pw m s (fun a s' => Q a s' /\ Q' a s').
Proof. unfold pw. destruct (m s); auto. Qed.
Lemma pw_true {A} (m : P A) s : pw m s (fun _ _ => True).
Proof. unfold pw. destruct (m s); auto. Qed.
Lemma pw_keeps R F {A} (m : P A) s : keeps R F m -> pw m s (fun _ s' => R s s').
Proof. intros H. specialize (H s). unfold pw. destruct (m s); auto. Qed.
Lemma pw_of_wp {A} (m : P A) s Q F : wp m s Q F -> pw m s Q.
Proof. unfold wp, pw. destruct (m s); auto. Qed.
Lemma pw_get {A} (f : st -> A) s (Q : A -> st -> Prop) : Q (f s) s -> pw (get f) s Q.
Proof. exact (fun H => H). Qed.

(* steps that leave the place alone *)
Definition S (s s' : st) : Prop := N s s' /\ Z s s'.
Definition leaf {A} (m : P A) : Prop := keeps N N m /\ keeps Z Z m.
Lemma pw_leaf {A} (m : P A) s (Q : A -> st -> Prop) : leaf m -> (forall a s', S s s' -> Q a s') -> pw m s Q.
Proof. intros [H1 H2] H. specialize (H1 s). specialize (H2 s). unfold pw. destruct (m s); auto. apply H. split; assumption. Qed.
Lemma leaf_S {A} (m : P A) s : leaf m -> match m s with Ret _ s' | Fail _ s' => S s s' | Die _ => True end.
Proof. intros [H1 H2]. specialize (H1 s). specialize (H2 s). destruct (m s); auto; split; auto; tauto. Qed.
Lemma S_refl s : S s s.
Proof. split; [apply (f_refl _ _ frame_N)|apply (f_refl _ _ frame_Z)]. Qed.
Lemma S_trans a b c : S a b -> S b c -> S a c.
Proof. intros [] []. split; [eapply (f_trans _ _ frame_N)|eapply (f_trans _ _ frame_Z)]; eassumption. Qed.

(* places *)
Record base (s : st) : Prop := {
  b_inv : inv s; b_child : s_child s = false; b_param : s_isParam s = false; b_len : length (s_tags s) = s_tagLevel s;
  b_rok : rok (s_role s) = true; b_enc : enc_good s
}.
Definition Afresh (s : st) : Prop := base s /\ s_tags s = [] /\ mine s = [].
Definition Aliv (s : st) : Prop := base s /\ live (mine s).
Definition Adone (s : st) : Prop := base s /\ s_tags s = [] /\ one_element (mine s).
Definition H (s : st) : Prop := halted s /\ enc_good s.
Lemma base_S s s' : S s s' -> base s -> base s' /\ s_tags s' = s_tags s /\ mine s' = mine s /\ flds s s'.
Proof.
  intros [HN HZ] [A B C D E F]. destruct (N_G _ _ HN A) as [A' _]. destruct A as [Sa Ka]. apply HN in Sa as (Sa & g & T1 & M1).
  apply HZ in F as [F f]. split; [|auto]. destruct f. split; try assumption; try congruence.
Qed.
Lemma fresh_S s s' : S s s' -> Afresh s -> Afresh s' /\ flds s s'.
Proof. intros HS (B & T & M). destruct (base_S _ _ HS B) as (B' & T' & M' & f). split; [|exact f]. split; [exact B'|]. split; congruence. Qed.
Lemma liv_S s s' : S s s' -> Aliv s -> Aliv s' /\ flds s s'.
Proof. intros HS (B & M). destruct (base_S _ _ HS B) as (B' & T' & M' & f). split; [|exact f]. split; [exact B'|]. congruence. Qed.
Lemma done_S s s' : S s s' -> Adone s -> Adone s' /\ flds s s'.
Proof. intros HS (B & T & M). destruct (base_S _ _ HS B) as (B' & T' & M' & f). split; [|exact f]. split; [exact B'|]. split; congruence. Qed.
Lemma H_S s s' : S s s' -> H s -> H s'.
Proof. intros [_ HZ] [h e]. apply HZ in e as [e f]. split; [apply f, h|exact e]. Qed.
Lemma liv_level s : Aliv s -> 1 <= s_tagLevel s.
Proof.
  intros [[A _ _ D _ _] L]. destruct A as [_ K]. pose proof (live_open _ _ L K) as Hk. rewrite <- D.
  destruct (s_tags s); [elim Hk; reflexivity|cbn; lia].
Qed.

(* a change of other fields *)
Lemma base_same s s' : s_cfg s' = s_cfg s -> s_pid s' = s_pid s -> s_tags s' = s_tags s -> s_log s' = s_log s ->
  s_child s' = s_child s -> s_isParam s' = s_isParam s -> s_tagLevel s' = s_tagLevel s -> rok (s_role s') = true ->
  s_enc s' = s_enc s -> base s -> base s' /\ mine s' = mine s.
Proof.
  intros E1 E2 E3 E4 E5 E6 E7 E8 E9 [A B C D E F].
  assert (HN : N s s') by (apply N_same; assumption). destruct (N_G _ _ HN A) as [A' _]. destruct A as [Sa Ka]. apply HN in Sa as (Sa & g & T1 & M1).
  split; [|exact M1]. split; try assumption; try congruence. unfold enc_good. rewrite E9. exact F.
Qed.
Lemma fresh_same s s' : s_cfg s' = s_cfg s -> s_pid s' = s_pid s -> s_tags s' = s_tags s -> s_log s' = s_log s ->
  s_child s' = s_child s -> s_isParam s' = s_isParam s -> s_tagLevel s' = s_tagLevel s -> rok (s_role s') = true ->
  s_enc s' = s_enc s -> Afresh s -> Afresh s'.
Proof. intros E1 E2 E3 E4 E5 E6 E7 E8 E9 (B & T & M). destruct (base_same s s') as [B' M']; auto. split; [exact B'|]. split; congruence. Qed.
Lemma liv_same s s' : s_cfg s' = s_cfg s -> s_pid s' = s_pid s -> s_tags s' = s_tags s -> s_log s' = s_log s ->
  s_child s' = s_child s -> s_isParam s' = s_isParam s -> s_tagLevel s' = s_tagLevel s -> s_role s' = s_role s ->
  s_enc s' = s_enc s -> Aliv s -> Aliv s'.
Proof. intros E1 E2 E3 E4 E5 E6 E7 E8 E9 (B & M). destruct (base_same s s') as [B' M']; auto; [rewrite E8; apply B|]. split; [exact B'|]. congruence. Qed.
Lemma done_same s s' : s_cfg s' = s_cfg s -> s_pid s' = s_pid s -> s_tags s' = s_tags s -> s_log s' = s_log s ->
  s_child s' = s_child s -> s_isParam s' = s_isParam s -> s_tagLevel s' = s_tagLevel s -> s_role s' = s_role s ->
  s_enc s' = s_enc s -> Adone s -> Adone s'.
Proof. intros E1 E2 E3 E4 E5 E6 E7 E8 E9 (B & T & M). destruct (base_same s s') as [B' M']; auto; [rewrite E8; apply B|]. split; [exact B'|]. split; congruence. Qed.

(* the tags: since [s], the element events have become [l], with [tags] open *)
Record tr (l : list tagev) (tags : list tag) (lev : nat) (s s1 : st) : Prop := {
  r_after : after l tags s s1; r_enc : enc_good s1; r_child : s_child s1 = s_child s; r_param : s_isParam s1 = s_isParam s;
  r_proc : s_processor s1 = s_processor s; r_role : s_role s1 = s_role s; r_final : s_final s1 = s_final s;
  r_level : s_tagLevel s1 = lev; r_halted : halted s -> halted s1
}.
Lemma tr_S l tags lev s s1 s2 : tr l tags lev s s1 -> S s1 s2 -> tr l tags lev s s2.
Proof.
  intros [A B C D E F G I J] [HN HZ]. apply HZ in B as [B []]. split; try congruence; [|auto]. eapply after_N; eassumption.
Qed.
Lemma tr_refl s : base s -> tr (mine s) (s_tags s) (s_tagLevel s) s s.
Proof. intros [[A _] B C D E F]. split; auto. apply after_refl, A. Qed.
Lemma tr_leaf {A} (m : P A) l tags lev s s1 (Q : A -> st -> Prop) : leaf m -> tr l tags lev s s1 ->
  (forall a s', tr l tags lev s s' -> Q a s') -> pw m s1 Q.
Proof. intros Hm Ht HQ. apply pw_leaf; [exact Hm|]. intros a s' HS. apply HQ. eapply tr_S; eassumption. Qed.
Lemma tr_try {A} (m : P A) l tags lev s s1 (Q : XML_Error + A -> st -> Prop) : leaf m -> tr l tags lev s s1 ->
  (forall a s', tr l tags lev s s' -> Q a s') -> pw (try m) s1 Q.
Proof.
  intros Hm Ht HQ. pose proof (leaf_S m s1 Hm) as HS. unfold pw, try. destruct (m s1); auto; apply HQ; eapply tr_S; eassumption.
Qed.
Lemma tr_emit h ev l tags lev s s1 (Q : bool -> st -> Prop) : h (c_h (s_cfg s1)) = true -> nestable (l ++ tagev_of ev) -> tr l tags lev s s1 ->
  (forall s', tr (l ++ tagev_of ev) tags lev s s' -> Q true s') -> pw (emit h ev) s1 Q.
Proof.
  intros Hh Hn Ht HQ.
  assert (H1 : pw (emit h ev) s1 (fun b s' => b = true /\ after (l ++ tagev_of ev) tags s s')).
  { eapply pw_of_wp. eapply (wp_emit_elem _ _ _ _ _ _ _ (fun _ _ => True)); [exact Hh|exact Hn|apply Ht|]. auto. }
  pose proof (pw_keeps _ _ _ s1 (zp_emit h ev)) as H2. eapply pw_imp; [apply (pw_and _ _ _ _ H1 H2)|].
  intros b s' [[-> HA] HZ]. apply HQ. destruct Ht as [A B C D E F G I J]. apply HZ in B as [B []].
  split; try congruence; auto.
Qed.
Lemma tr_set l tags tags' lev lev' f s s1 : (forall s, s_cfg (f s) = s_cfg s /\ s_pid (f s) = s_pid s /\ s_log (f s) = s_log s) ->
  (forall s, s_child (f s) = s_child s /\ s_isParam (f s) = s_isParam s /\ s_processor (f s) = s_processor s /\ s_role (f s) = s_role s /\
   s_final (f s) = s_final s /\ s_parsing (f s) = s_parsing s /\ s_enc (f s) = s_enc s) ->
  s_tags (f s1) = tags' -> s_tagLevel (f s1) = lev' -> tr l tags lev s s1 -> tr l tags' lev' s (f s1).
Proof.
  intros H1 H2 E1 E2 [A B C D E F G I J]. destruct (H2 s1) as (F1 & F2 & F3 & F4 & F5 & F6 & F7).
  split; try congruence.
  - eapply after_set; eassumption.
  - unfold enc_good. rewrite F7. exact B.
  - unfold halted. rewrite F6. exact J.
Qed.
Lemma tr_base l tags lev s s1 : base s -> tr l tags lev s s1 -> stack [] l = Some (map t_name tags) -> length tags = lev -> base s1 /\ s_tags s1 = tags /\ mine s1 = l.
Proof.
  intros [A B C D E F] [A1 B1 C1 D1 E1 F1 G1 I1 J1] Hs Hl. destruct A1 as (Sa & g & T1 & M1). split; [|auto].
  split; try congruence. split; [exact Sa|]. rewrite M1, T1. exact Hs.
Qed.

Ltac lfs := split; [solve [eauto 3 with kp nocore | Nest.wk]|solve [eauto 3 with zp nocore | PhaseLeaf.wk]].
Ltac go Ht := apply pw_bind; eapply tr_leaf; [lfs|exact Ht|].
Lemma leaf_same {A} (m : P A) : keeps N N m -> keeps Z Z m -> leaf m. Proof. split; assumption. Qed.

Definition moved (s s' : st) : Prop := s_processor s' = s_processor s /\ s_final s' = s_final s.
Lemma tr_moved l tags lev s s1 : tr l tags lev s s1 -> moved s s1.
Proof. intros []. split; assumption. Qed.
Lemma pw_start_tag r t e b n s : Afresh s \/ Aliv s ->
  pw (start_tag r t e b n) s (fun _ s' => Aliv s' /\ s_tagLevel s' = Datatypes.S (s_tagLevel s) /\ moved s s').
Proof.
  intros Hs. assert (Hb : base s) by (destruct Hs as [[]|[]]; assumption).
  pose proof (tr_refl s Hb) as H0. unfold start_tag.
  go H0. intros raw s1 H1.
  apply pw_bind. unfold pw at 1, upd.
  eapply (tr_set _ _ (s_tags s) _ (Datatypes.S (s_tagLevel s)) (fun s => set_tagLevel (Datatypes.S (s_tagLevel s)) s)) in H1;
    [|intros; repeat split|intros; repeat split|apply H1|cbn; f_equal; apply H1]. cbv beta in H1.
  set (s2 := set_tagLevel _ s1) in *. clearbody s2. clear s1.
  go H1. intros name s3 H3. go H3. intros so s4 H4. go H4. intros ix s5 H5.
  destruct (b_inv s Hb) as [Sa Ka].
  assert (Hst : stack [] (mine s ++ [Open (so_name so)]) = Some (so_name so :: map t_name (s_tags s))) by (rewrite stack_app, Ka; reflexivity).
  apply pw_bind. eapply tr_emit; [|eexists; exact Hst|exact H5|].
  { destruct (r_after _ _ _ _ _ H5) as (X & _). apply X. }
  intros s6 H6. cbn [negb when]. apply pw_bind. unfold pw, pret, upd. cbn [tagev_of] in H6.
  eapply (tr_set _ _ ({| t_raw := raw; t_name := so_name so; t_bindings := so_bindings so |} :: s_tags s) _ (Datatypes.S (s_tagLevel s))
     (fun s => set_tags ({| t_raw := raw; t_name := so_name so; t_bindings := so_bindings so |} :: s_tags s) s)) in H6;
    [|intros; repeat split|intros; repeat split|cbn; f_equal; apply (r_after _ _ _ _ _ H6)|apply H6].
  cbv beta in H6. set (s7 := set_tags _ s6) in *. clearbody s7.
  destruct (tr_base _ _ _ _ _ Hb H6 Hst) as (B & T & M); [cbn [length]; f_equal; apply Hb|].
  split; [split; [exact B|]|split; [apply H6|eapply tr_moved, H6]].
  rewrite M. destruct Hs as [(_ & _ & Em)|(_ & L)]; [rewrite Em; apply live_one|]. eapply live_snoc; [exact L|exact Hst|discriminate].
Qed.
Lemma pw_empty_tag r t e b n s : Afresh s \/ Aliv s ->
  pw (empty_tag r t e b n) s (fun _ s' => (Afresh s -> Adone s') /\ (Aliv s -> Aliv s') /\ s_tagLevel s' = s_tagLevel s /\ moved s s').
Proof.
  intros Hs. assert (Hb : base s) by (destruct Hs as [[]|[]]; assumption).
  pose proof (tr_refl s Hb) as H0. unfold empty_tag.
  go H0. intros raw s1 H1. go H1. intros name s3 H3.
  apply pw_bind. eapply tr_try; [lfs|exact H3|]. intros [err|so] s4 H4.
  { apply pw_bind. eapply tr_leaf; [lfs|exact H4|]. intros. apply pw_bind. eapply pw_imp; [apply pw_true|]. intros. exact I. }
  go H4. intros ix s5 H5.
  destruct (b_inv s Hb) as [Sa Ka].
  assert (Hst : stack [] (mine s ++ [Open (so_name so)]) = Some (so_name so :: map t_name (s_tags s))) by (rewrite stack_app, Ka; reflexivity).
  assert (Hst' : stack [] ((mine s ++ [Open (so_name so)]) ++ [Close (so_name so)]) = Some (map t_name (s_tags s))).
  { rewrite stack_app, Hst. cbn [stack]. rewrite beqb_refl. reflexivity. }
  apply pw_bind. eapply tr_emit; [|eexists; exact Hst|exact H5|].
  { destruct (r_after _ _ _ _ _ H5) as (X & _). apply X. }
  intros s6 H6. cbn [negb when tagev_of] in *. go H6. intros _ s7 H7.
  apply pw_bind. eapply tr_emit; [|eexists; exact Hst'|exact H7|].
  { destruct (r_after _ _ _ _ _ H7) as (X & _). apply X. }
  intros s8 H8. cbn [negb when tagev_of andb] in *. apply pw_bind. unfold pw at 1, pret.
  eapply tr_leaf; [lfs|exact H8|]. intros _ s9 H9.
  destruct (tr_base _ _ _ _ _ Hb H9 Hst') as (B & T & M); [apply Hb|].
  split; [|split; [|split; [apply H9|eapply tr_moved, H9]]].
  - intros (_ & Et & Em). split; [exact B|]. split; [congruence|]. rewrite M, Em. exists (so_name so), []. split; [reflexivity|constructor].
  - intros (_ & L). split; [exact B|]. rewrite M. pose proof (live_open _ _ L Ka) as Hk.
    eapply live_snoc; [eapply live_snoc; [exact L|exact Hst|discriminate]|exact Hst'|exact Hk].
Qed.
Lemma pw_end_tag t e b n s : Aliv s ->
  pw (end_tag t e b n) s (fun _ s' => s_tagLevel s = Datatypes.S (s_tagLevel s') /\ (if s_tagLevel s' =? 0 then Adone s' else Aliv s') /\ moved s s').
Proof.
  intros Hs. assert (Hb : base s) by (destruct Hs; assumption).
  pose proof (tr_refl s Hb) as H0. unfold end_tag. apply pw_bind, pw_get. cbv beta.
  destruct (s_tags s) as [|tg tags] eqn:Et; [exact I|].
  apply pw_bind. unfold pw at 1, upd.
  eapply (tr_set _ _ tags _ (s_tagLevel s) (fun s => set_tags tags s)) in H0; [|intros; repeat split|intros; repeat split|reflexivity|reflexivity].
  cbv beta in H0. set (s1 := set_tags _ s) in *. clearbody s1.
  go H0. intros b1 s2 H2. go H2. intros raw s3 H3.
  destruct (negb (beqb raw (t_raw tg))).
  { apply pw_bind. eapply tr_leaf; [lfs|exact H3|]. intros. exact I. }
  apply pw_bind. unfold pw at 1, upd.
  eapply (tr_set _ _ tags _ (pred (s_tagLevel s)) (fun s => set_tagLevel (pred (s_tagLevel s)) s)) in H3;
    [|intros; repeat split|intros; repeat split|apply (r_after _ _ _ _ _ H3)|cbn; f_equal; apply H3]. cbv beta in H3.
  set (s4 := set_tagLevel _ s3) in *. clearbody s4. clear s3.
  destruct (b_inv s Hb) as [Sa Ka]. rewrite Et in Ka.
  assert (Hst : stack [] (mine s ++ [Close (t_name tg)]) = Some (map t_name tags)).
  { rewrite stack_app, Ka. cbn [stack map]. rewrite beqb_refl. reflexivity. }
  apply pw_bind. eapply tr_emit; [|eexists; exact Hst|exact H3|].
  { destruct (r_after _ _ _ _ _ H3) as (X & _). apply X. }
  intros s5 H5. cbn [negb when tagev_of] in *. apply pw_bind. unfold pw at 1, pret.
  eapply tr_leaf; [lfs|exact H5|]. intros _ s6 H6.
  pose proof (b_len s Hb) as Hl. rewrite Et in Hl. cbn [length] in Hl.
  destruct (tr_base _ _ _ _ _ Hb H6 Hst) as (B & T & M); [lia|].
  pose proof (r_level _ _ _ _ _ H6) as Elv.
  split; [lia|]. split; [|eapply tr_moved, H6].
  destruct Hs as [_ L]. destruct (s_tagLevel s6 =? 0) eqn:E0.
  - apply Nat.eqb_eq in E0. assert (Ht : tags = []) by (destruct tags; [reflexivity|cbn in Hl; lia]).
    split; [exact B|]. split; [rewrite T; exact Ht|]. rewrite M. apply live_done; [exact L|rewrite Hst, Ht; reflexivity].
  - apply Nat.eqb_neq in E0. split; [exact B|]. rewrite M. eapply live_snoc; [exact L|exact Hst|].
    destruct tags; [cbn in Hl; lia|discriminate].
Qed.
