(* Every scanner agrees with itself on the code points of the text. *)
From Coq Require Import List NArith ZArith Bool Lia Arith.
From Verif Require Import Base Encoding SpecUnicode Tok EncLaws TokWp TokSafe Charset Sim.
Import ListNotations.

Definition eqv {A} (P : list N -> Prop) (a a' : A) (cs : list N) : Prop := a = a' /\ P cs.

Ltac nonnil :=
  match goal with
  | H : ?cs <> [] |- ?cs <> [] => exact H
  | H : narrow _ _ _ ?cs |- ?cs <> [] => destruct H as (? & ? & -> & _); discriminate
  end.
Ltac tyr R :=
  let Hn := fresh "Hn" in let Hl := fresh "Hl" in
  inversion R as [? Hn ? Hl ?|? ? ? ? ? ? Hl ? ? ? ?]; subst;
  [ clear R; match goal with |- sim _ _ (match ?t with _ => _ end) _ _ _ => idtac | _ => idtac end
  | match type of Hl with lead_len ?t = Some _ => destruct t; try discriminate Hl end;
    unfold wide_type; match goal with |- context [is_xml_char ?c] => destruct (is_xml_char c) eqn:? end ].

Ltac simple_bt := repeat match goal with |- context [bt_eqb ?a ?b] => let v := eval vm_compute in (bt_eqb a b) in change (bt_eqb a b) with v end; cbv iota.

Ltac sstep :=
  lazymatch goal with CS : charset ?e ?enc ?dom ?k |- _ =>
  lazymatch goal with
  | |- sim _ _ (mbind _ _) (mbind _ _) _ _ => apply (sim_bind enc dom); [assumption|]
  | |- _ -> sim _ _ _ _ _ _ => intro
  | |- sim _ _ (ret _) (ret _) _ _ => apply sim_ret
  | |- sim _ _ (stop_here _) (stop_here _) _ _ => apply sim_stop_here
  | |- sim _ _ (stop_after _ _) (stop_after _ _) _ _ => eapply sim_stop_after; eassumption
  | |- sim _ _ (require_char _) (require_char _) _ _ => apply (sim_require_char _ _ _ _ CS); [assumption|intro]
  | |- sim _ _ (require_chars _ 1) (require_chars _ 1) _ _ => apply (sim_require _ _ _ _ CS); [assumption|intro]
  | |- sim _ _ (require_or _ 1 _) (require_or _ 1 _) _ _ => apply (sim_require _ _ _ _ CS); [assumption|intro]
  | |- sim _ _ (require_chars _ 2) (require_chars _ 2) _ _ => apply (sim_require2 _ _ _ _ CS); [assumption|assumption|intro]
  | |- sim _ _ (require_or _ 2 _) (require_or _ 2 _) _ _ => apply (sim_require2 _ _ _ _ CS); [assumption|assumption|intro]
  | |- sim _ _ (bt _) (bt _) _ _ => apply (sim_bt _ _ _ _ CS); [assumption|nonnil|intros]
  | |- sim _ _ (bt_at _ 1) (bt_at _ 1) _ _ => apply (sim_bt_at _ _ _ _ CS); [assumption|assumption|assumption|intros]
  | |- sim _ _ (matches _ _) (matches _ _) _ _ =>
      apply (sim_matches _ _ _ _ CS); [assumption|first [assumption|reflexivity]|nonnil|];
      let b := fresh "b" in let Hb := fresh "Hb" in intros b Hb;
      destruct b; [destruct (Hb eq_refl); clear Hb|clear Hb]; cbn [negb]
  | |- sim _ _ (matches_at _ 1 _) (matches_at _ 1 _) _ _ =>
      apply (sim_matches_at _ _ _ _ CS); [assumption|reflexivity|assumption|assumption|];
      let b := fresh "b" in let Hb := fresh "Hb" in intros b Hb;
      destruct b; [specialize (Hb eq_refl)|clear Hb]; cbn [negb]
  | |- sim _ _ (adv1 _) (adv1 _) _ _ => apply (sim_adv1 _ _ dom _); [assumption|]
  | |- sim _ _ (match_invalid _ _ _ _) (match_invalid _ _ _ _) _ _ =>
      apply (sim_match_invalid e enc dom k); [assumption|assumption|intro| |intros ? ? ? ?; subst];
        [|let H := fresh in intros H ?; subst; repeat match goal with
          | H : ?l <> [] |- _ => is_var l; destruct l; [congruence|clear H] end; cbn [tl]; reflexivity|]
  | |- sim _ _ (check_name _ _ _ _) (check_name _ _ _ _) _ _ =>
      apply (sim_check_name _ _ _ _ CS); [assumption|assumption|intro| |intros ? ? ? ?; subst];
        [|let H := fresh in intros H ?; subst; first [reflexivity|exfalso; eauto]|]
  | |- sim _ _ (check_nmstrt _ _ _ _) (check_nmstrt _ _ _ _) _ _ =>
      apply (sim_check_nmstrt _ _ _ _ CS); [assumption|assumption|intro| |intros ? ? ? ?; subst];
        [|let H := fresh in intros H ?; subst; first [reflexivity|exfalso; eauto]|]
  | |- sim _ _ (if ?c then _ else _) (if ?c then _ else _) _ _ => destruct c
  | |- sim _ _ (match ?t with _ => _ end) (match ?t with _ => _ end) _ _ => destruct t; try discriminate
  | R : tyrel _ _ _ _ _ ?t ?t' |- sim _ _ (if bt_eqb ?t ?x then _ else _) (if bt_eqb ?t' ?x then _ else _) _ _ =>
      tyr R; [|simple_bt|simple_bt|simple_bt|simple_bt|simple_bt|simple_bt]
  | R : tyrel _ _ _ _ _ ?t ?t' |- sim _ _ (match ?t with _ => _ end) (match ?t' with _ => _ end) _ _ => tyr R
  | |- eqv _ _ _ _ => split; [reflexivity|]
  | |- match _ with inl _ => _ | inr _ => _ end => cbv beta iota
  | |- (fun _ => _) _ => cbv beta iota
  | |- _ /\ _ => split
  | |- _ = _ => reflexivity
  | |- True => exact I
  | |- narrow _ _ _ _ => assumption
  end end.

Section Sims.
Variable e : EncImpl.
Variable enc : N -> bytes.
Variable dom : N -> bool.
Variable k : cls.
Hypothesis CS : charset e enc dom k.
Notation ce := (cp_enc k).
Notation T := (flat_map enc).
Notation doms := (doms dom).
Notation sim := (@sim enc _ _).
Notation narrow := (narrow e enc dom).
Definition none {A B : Type} (a : A) (b : B) (cs : list N) : Prop := False.
Definition simple {B B'} (m : M B) (m' : M B') : Prop := forall cs, doms cs -> sim false m m' cs none.

Lemma simple_use {B B'} (m : M B) (m' : M B') D cs QC : simple m m' -> doms cs -> sim D m m' cs QC.
Proof.
  intros H Hd. apply sim_weak. eapply sim_mono; eauto. intros ? ? ? ? ? [].
Qed.
Ltac whl I := unfold while_partial; apply (sim_while _ _ _ _ CS _ _ _ _ I); [intros ? ? ? ? ?| assumption | try exact Logic.I].
Ltac lp I := apply (sim_loopb _ _ _ _ CS _ _ _ I); [intros ? ? ? ? | assumption | try exact Logic.I].
Notation noinv := (fun _ _ => True).


Ltac go := repeat sstep.

Lemma sim_scanComment B B' : simple (@scanComment e B) (@scanComment ce B').
Proof. intros cs Hd. unfold scanComment. go. whl (fun (_ : unit) (_ : list N) => True). go. Qed.
Lemma sim_scanDecl B B' : simple (@scanDecl e B) (@scanDecl ce B').
Proof.
  intros cs Hd. unfold scanDecl. go; try (apply simple_use; [apply sim_scanComment|assumption]);
    whl (fun (_ : unit) (_ : list N) => True); go.
Qed.

Lemma wide_or_narrow c : dom c = true -> length (enc c) = minbpc e \/ (128 <= c)%N.
Proof.
  intros H. destruct (N.lt_ge_cases c 128) as [L|L]; [left; apply (ch_narrow_len _ _ _ _ CS); auto|auto].
Qed.
Lemma head_ascii c r : dom c = true -> exists a, byte_to_ascii e (enc c ++ r) = Ok a /\
  ((c < 128)%N /\ a = c \/ (128 <= c)%N /\ (128 <= a)%N).
Proof.
  intros H. destruct (N.lt_ge_cases c 128) as [L|L].
  - exists c. split; [apply (ch_ascii _ _ _ _ CS); auto|auto].
  - destruct (ch_wide_ascii _ _ _ _ CS c r H L) as (a & ? & ?). eauto.
Qed.
Lemma big_ne a x y : (128 <= a)%N -> (x < 128)%N -> (y < 128)%N -> ((a =? x) || (a =? y))%N = false.
Proof. intros. rewrite (proj2 (N.eqb_neq a x)), (proj2 (N.eqb_neq a y)) by lia. reflexivity. Qed.

Lemma sim_checkPiTarget cs : doms cs -> checkPiTarget e (T cs) = checkPiTarget ce cs.
Proof.
  intros Hd. pose proof (min_pos _ _ _ _ CS) as Hm.
  assert (Lens : forall l, doms l -> length l * minbpc e <= length (T l)) by apply (T_len _ _ _ _ CS).
  destruct (length (T cs) =? minbpc e * 3) eqn:E1.
  - apply Nat.eqb_eq in E1. unfold checkPiTarget. rewrite E1, Nat.eqb_refl. cbn [negb].
    destruct cs as [|c cs]; [cbn [flat_map length] in E1; lia|]. pose proof (Forall_inv Hd) as H1. cbn beta in H1. apply Forall_inv_tail in Hd.
    cbn [flat_map] in *. destruct (head_ascii c (T cs) H1) as (a & -> & Ha). change (minbpc ce * 3) with 3. change (minbpc ce) with 1. cbn [bind].
    destruct Ha as [[L ->]|[L La]].
    2:{ rewrite (big_ne a) by (auto; reflexivity). cbn [negb]. destruct (length (c :: cs) =? 3); cbn [negb]; auto.
        cbn [byte_to_ascii cp_enc peek nth_error bind]. rewrite (proj2 (N.ltb_ge c 128)) by auto. reflexivity. }
    pose proof (ch_narrow_len _ _ _ _ CS c L) as Lc. rewrite app_length in E1.
    cbn [byte_to_ascii cp_enc peek nth_error bind]. rewrite (proj2 (N.ltb_lt c 128)) by auto.
    destruct cs as [|d cs]; [cbn [flat_map length] in E1; lia|]. pose proof (Forall_inv Hd) as H2. cbn beta in H2. apply Forall_inv_tail in Hd.
    cbn [flat_map] in *. rewrite inc_app by auto. cbn [bind].
    destruct (head_ascii d (T cs) H2) as (b & -> & Hb). cbn [bind].
    destruct Hb as [[L2 ->]|[L2 Lb]].
    2:{ rewrite (big_ne b) by (auto; reflexivity). cbn [negb]. destruct (length (c :: d :: cs) =? 3); cbn [negb]; [|now destruct (_ || _)%N].
        cbn [inc_start byte_to_ascii cp_enc peek nth_error bind].
        rewrite (proj2 (N.ltb_ge d 128)) by auto. now destruct (_ || _)%N. }
    pose proof (ch_narrow_len _ _ _ _ CS d L2) as Ld. rewrite app_length in E1.
    cbn [inc_start byte_to_ascii cp_enc peek nth_error bind]. rewrite (proj2 (N.ltb_lt d 128)) by auto.
    destruct cs as [|f cs]; [cbn [flat_map length] in E1; lia|]. pose proof (Forall_inv Hd) as H3. cbn beta in H3. apply Forall_inv_tail in Hd.
    cbn [flat_map] in *. rewrite inc_app by auto. cbn [bind].
    rewrite app_length in E1. pose proof (enc_len _ _ _ _ CS f H3). pose proof (Lens cs Hd).
    destruct cs; [|cbn [length] in *; lia].
    destruct (head_ascii f (T []) H3) as (g & -> & Hg). cbn [inc_start byte_to_ascii cp_enc peek nth_error bind length Nat.eqb negb].
    destruct Hg as [[L3 ->]|[L3 Lg]].
    + rewrite (proj2 (N.ltb_lt f 128)) by auto. reflexivity.
    + rewrite (proj2 (N.ltb_ge f 128)) by auto. rewrite (big_ne g) by (auto; reflexivity). reflexivity.
  - unfold checkPiTarget at 1. rewrite E1. cbn [negb]. apply Nat.eqb_neq in E1. unfold checkPiTarget. change (minbpc ce * 3) with 3. change (minbpc ce) with 1.
    destruct (length cs =? _) eqn:E2; cbn [negb]; auto. apply Nat.eqb_eq in E2. cbn in E2.
    destruct cs as [|c [|d [|f [|]]]]; try discriminate E2. inversion_clear Hd as [|? ? H1 Hd']. inversion_clear Hd' as [|? ? H2 Hd''].
    inversion_clear Hd'' as [|? ? H3 _].
    cbn [inc_start byte_to_ascii cp_enc peek nth_error bind flat_map length Nat.add] in *. rewrite !app_length in E1. cbn [length] in E1.
    destruct (c <? 128)%N eqn:L1; [|reflexivity]. destruct ((c =? 120) || (c =? 88))%N; [|reflexivity]. cbn [negb].
    destruct (d <? 128)%N eqn:L2; [|reflexivity]. destruct ((d =? 109) || (d =? 77))%N; [|reflexivity]. cbn [negb].
    destruct (f <? 128)%N eqn:L3; [|reflexivity].
    apply N.ltb_lt in L1, L2, L3. rewrite !(ch_narrow_len _ _ _ _ CS) in E1 by auto. lia.
Qed.

Lemma sim_check_pi D pre cs (QC : _ -> _ -> _ -> Prop) : doms pre -> (forall r, QC r r cs) ->
  sim D (check_pi_target e (T pre)) (check_pi_target ce pre) cs QC.
Proof.
  intros Hp H. unfold Sim.sim, check_pi_target. rewrite sim_checkPiTarget by auto.
  destruct (checkPiTarget ce pre); [|exact Logic.I]. cbn [bind]. eexists. split; [reflexivity|]. split; [apply suffix_refl|auto].
Qed.

Lemma sim_pi_name cs : doms cs ->
  sim false (pi_name e) (pi_name ce) cs (eqv narrow).
Proof.
  intros Hd. unfold pi_name. go. lp (fun (_ : unit) (_ : list N) => True). go.
Qed.
Lemma sim_pi_text B B' tok : simple (@pi_text e B tok) (@pi_text ce B' tok).
Proof. intros cs Hd. unfold pi_text. whl (fun (_ : unit) (_ : list N) => True). go. Qed.
Lemma sim_scanPi B B' : simple (@scanPi e B) (@scanPi ce B').
Proof.
  intros cs Hd. unfold scanPi. sstep. apply sim_capture.
  eapply sim_mono; [eassumption|apply sim_pi_name; auto|]. intros t t' cs' Hd' _ [-> Hn] pre -> Hd2. cbn [fst snd].
  assert (doms pre) as Hp by (apply Forall_app in Hd; tauto).
  go; (apply sim_check_pi; [assumption|intros r]); go.
  all: apply simple_use; [apply sim_pi_text|assumption].
Qed.

Lemma sim_match_string {A A'} s (m : M A) (m' : M A') QC : Forall (fun c => (c < 128)%N) s ->
  (forall cs, doms cs -> sim true m m' cs QC) ->
  forall cs, doms cs -> length s <= length cs ->
  sim true (match_string e s m) (match_string ce s m') cs QC.
Proof.
  intros Hs Hk. induction Hs as [|c s Hc Hs IH]; cbn [match_string]; intros cs Hd Hl; auto.
  assert (cs <> []) by (destruct cs; [cbn [length] in Hl; lia|discriminate]).
  go. apply IH; auto. destruct cs; cbn [tl length] in *; lia.
Qed.
Lemma match_string_short s (m : M Empty_set) b : Forall (fun c => (c < 128)%N) s -> forall cs, doms cs -> length cs < length s ->
  length s * minbpc e <= length (T cs) -> exists p, @match_string e b s (stop_here T_CDATA_SECT_OPEN) (T cs) = Ok (Stop T_INVALID (Some p)).
Proof.
  intros Hs. induction Hs as [|c s Hc Hs IH]; cbn [match_string length]; intros cs Hd Hl Hb; [lia|].
  pose proof (min_pos _ _ _ _ CS).
  destruct cs as [|d cs]; [cbn [flat_map length] in Hb; lia|]. pose proof (Forall_inv Hd) as H1. cbn beta in H1. apply Forall_inv_tail in Hd.
  unfold mbind, matches. cbn [flat_map] in *. rewrite (ch_match _ _ _ _ CS) by auto. cbn [bind].
  destruct (d =? c)%N eqn:E; cbn [negb]; [|eexists; reflexivity].
  apply N.eqb_eq in E as ->. pose proof (ch_narrow_len _ _ _ _ CS c Hc) as Lc.
  unfold adv1, adv. rewrite inc_app by auto. cbn [bind]. cbn [length] in Hl. rewrite app_length in Hb. apply IH; auto; lia.
Qed.
Lemma sim_scanCdata B B' cs : doms cs -> sim true (@scanCdataSection e B) (@scanCdataSection ce B') cs none.
Proof.
  intros Hd. destruct (Nat.leb_spec 6 (length cs)) as [L|L].
  - unfold scanCdataSection. apply (sim_bind enc dom); auto. unfold require_chars, require_or, Sim.sim, has_chars.
    replace (has (6 * minbpc ce) cs) with true by (symmetry; apply has_length; exact L).
    replace (has (6 * minbpc e) (T cs)) with true.
    2:{ symmetry. apply has_length. pose proof (T_len _ _ _ _ CS cs Hd). nia. }
    exists tt. split; [reflexivity|]. split; [apply suffix_refl|]. intros _.
    apply sim_match_string; auto.
    + repeat (apply Forall_cons; [reflexivity|]). apply Forall_nil.
    + intros. apply sim_stop_here.
  - unfold scanCdataSection, Sim.sim, mbind, require_chars, require_or, has_chars.
    replace (has (6 * minbpc ce) cs) with false.
    2:{ symmetry. apply not_true_iff_false. rewrite has_length. cbn [cp_enc minbpc Nat.mul]. lia. }
    destruct (has (6 * minbpc e) (T cs)) eqn:E; [right|left; reflexivity]. apply has_length in E.
    split; [reflexivity|]. split; [reflexivity|].
    apply (match_string_short CDATA_LSQB (stop_here T_CDATA_SECT_OPEN)); auto.
    repeat (apply Forall_cons; [reflexivity|]). apply Forall_nil.
Qed.

Lemma sim_scanEndTag B B' : simple (@scanEndTag e B) (@scanEndTag ce B').
Proof. intros cs Hd. unfold scanEndTag. go. whl (fun (_ : unit) (_ : list N) => True). go; whl (fun (_ : unit) (_ : list N) => True); go. Qed.
Lemma sim_scanHexCharRef B B' : simple (@scanHexCharRef e B) (@scanHexCharRef ce B').
Proof. intros cs Hd. unfold scanHexCharRef. go; whl (fun (_ : unit) (_ : list N) => True); go. Qed.
Lemma sim_scanCharRef B B' : simple (@scanCharRef e B) (@scanCharRef ce B').
Proof.
  intros cs Hd. unfold scanCharRef. go; try (apply simple_use; [apply sim_scanHexCharRef|assumption]); whl (fun (_ : unit) (_ : list N) => True); go.
Qed.
Lemma sim_scanRef B B' : simple (@scanRef e B) (@scanRef ce B').
Proof.
  intros cs Hd. unfold scanRef. go; try (apply simple_use; [apply sim_scanCharRef|assumption]); whl (fun (_ : unit) (_ : list N) => True); go.
Qed.
Notation sameP P := (fun a a' cs' => a = a' /\ P cs').
Lemma sim_atts_ref cs : doms cs -> narrow cs ->
  sim false (atts_ref e) (atts_ref ce) cs (fun a a' _ => a = a').
Proof.
  intros Hd (c & r & -> & Hc & Hl). apply Forall_inv_tail in Hd.
  pose proof (sim_scanRef Empty_set Empty_set r Hd) as S.
  pose proof (scanRef_safe ce (cp_enc_ok k) Empty_set r (all_true r)) as W. unfold wp in W.
  unfold Sim.sim, atts_ref in *. cbn [cp_enc minbpc inc_start bind flat_map]. rewrite inc_app by auto. cbn [bind].
  destruct (@scanRef ce Empty_set r) as [[t [p|]|[] ?]|] eqn:E; auto.
  - rewrite S. destruct (tok_is_error t); [destruct (tok_eqb t T_INVALID); auto|].
    exists tt. split; [reflexivity|]. split; [|reflexivity].
    cbn [safe_stop] in W. eapply suffix_trans; [apply W|exists [c]; reflexivity].
  - destruct S as [->|[H _]]; [|discriminate]. destruct (tok_is_error t); [destruct (tok_eqb t T_INVALID); auto|].
    exists tt. split; [reflexivity|]. split; [apply suffix_refl|reflexivity].
Qed.

Lemma sim_atts_open cs : doms cs -> narrow cs ->
  sim false (atts_open e) (atts_open ce) cs (fun a a' cs' => a = a' /\ (a = BT_QUOT \/ a = BT_APOS) /\ narrow cs').
Proof.
  intros Hd Hn. unfold atts_open.
  apply (sim_loopb _ _ _ _ CS _ _ _ (fun (_ : unit) cs => narrow cs)); auto. intros; go; auto.
Qed.
Lemma sim_atts_in_value open cs : doms cs -> open = BT_QUOT \/ open = BT_APOS ->
  sim false (atts_in_value e open) (atts_in_value ce open) cs (fun _ _ cs' => narrow cs').
Proof.
  intros Hd Ho. unfold atts_in_value.
  apply (sim_loopb _ _ _ _ CS _ _ _ (fun (_ : unit) (cs : list N) => True)); auto. intros s cs1 Hd1 _. do 5 sstep.
  match goal with R : tyrel _ _ _ _ _ _ _ |- _ => rename R into R0 end.
  assert (E : bt_eqb t open = bt_eqb t' open /\ (bt_eqb t open = true -> narrow cs1)).
  { destruct R0 as [t Hn Ht Hl Hm|t c r -> Hc Hw Hl Ht _ _ Hnm]; [auto|].
    unfold wide_type. destruct Ho as [->| ->]; destruct (is_xml_char c);
      destruct t; try discriminate Hl; split; (reflexivity || discriminate). }
  destruct E as [-> E]. destruct (bt_eqb t' open); [go; auto|].
  go. eapply sim_mono; [eassumption|apply sim_atts_ref; auto|]. intros ? ? ? ? ? _ _. go.
Qed.
Definition labelP (l : atts_label) (cs : list N) : Prop := match l with L_None => True | _ => narrow cs end.
Lemma sim_atts_after cs : doms cs -> narrow cs ->
  sim false (atts_after e) (atts_after ce) cs (fun a a' cs' => a = a' /\ labelP a cs').
Proof.
  intros Hd Hn. unfold atts_after. go; unfold labelP; go.
  all: apply (sim_loopb _ _ _ _ CS _ _ _ (fun (_ : unit) cs => narrow cs)); auto; intros; go; unfold labelP; go.
Qed.
Lemma sim_scanAtts_value cs : doms cs -> narrow cs ->
  sim false (scanAtts_value e) (scanAtts_value ce) cs (fun a a' cs' => a = a').
Proof.
  intros Hd Hn. unfold scanAtts_value. sstep.
  eapply sim_mono; [eassumption|apply sim_atts_open; auto|]. intros ? a cs1 H1 _ (-> & Ho & N1) _.
  do 2 sstep. intros D2. sstep.
  eapply sim_mono; [eassumption|apply sim_atts_in_value; auto|]. intros ? ? cs2 H2 _ N2 _. sstep.
  eapply sim_mono; [eassumption|apply sim_atts_after; auto|]. intros ? l cs3 H3 _ (-> & N3) _.
  destruct l; cbn [labelP] in N3; go.
Qed.
Lemma sim_atts_eq cs : doms cs -> narrow cs ->
  sim false (atts_eq e) (atts_eq ce) cs (fun a a' cs' => a = a' /\ narrow cs').
Proof.
  intros Hd Hn. unfold atts_eq.
  apply (sim_loopb _ _ _ _ CS _ _ _ (fun (_ : unit) cs => narrow cs)); auto. intros; go; auto.
Qed.
Lemma sim_scanAtts B B' : simple (@scanAtts e B) (@scanAtts ce B').
Proof.
  intros cs Hd. unfold scanAtts. apply (sim_while _ _ _ _ CS _ _ _ _ (fun (_ : bool) (_ : list N) => True)); auto.
  intros s cs1 H1 Hne _. unfold scanAtts_body.
  assert (V : forall cs2, doms cs2 -> narrow cs2 -> sim false (scanAtts_value e) (scanAtts_value ce) cs2 (fun a a' _ => a = a' /\ True)).
  { intros cs2 Hd2 Hn2. eapply sim_mono; [eassumption|apply sim_scanAtts_value; auto|]. auto. }
  go; try (apply V; assumption).
  all: eapply sim_mono; [eassumption|apply sim_atts_eq; auto|]; intros ? ? ? ? ? [-> ?] ?; apply V; assumption.
Qed.

Lemma sim_scanLtHelper B B' cs QC : doms cs -> narrow cs -> sim true (@scanLtHelper e B) (@scanLtHelper ce B') cs QC.
Proof. intros Hd Hn. unfold scanLtHelper. go. Qed.
Lemma sim_lt_space cs : doms cs -> sim true (lt_space e) (lt_space ce) cs (fun _ _ _ => True).
Proof.
  intros Hd. unfold lt_space. lp (fun (_ : unit) (_ : list N) => True). go; apply sim_scanLtHelper; assumption.
Qed.
Lemma sim_scanLt B B' cs : doms cs -> sim true (@scanLt e B) (@scanLt ce B') cs none.
Proof.
  intros Hd. unfold scanLt. go;
    try (apply simple_use; [apply sim_scanComment|assumption]);
    try (apply simple_use; [apply sim_scanPi|assumption]);
    try (apply simple_use; [apply sim_scanEndTag|assumption]);
    try (eapply sim_mono; [eassumption|apply sim_scanCdata; auto|intros ? ? ? ? ? []]).
  all: apply (sim_while _ _ _ _ CS _ _ _ _ (fun (_ : bool) (_ : list N) => True)); auto;
    intros s cs1 H1' Hne _; unfold lt_name_body; go; try (apply sim_scanLtHelper; assumption);
    (eapply sim_mono; [eassumption|apply sim_lt_space; assumption|]; intros ? ? ? ? ? _ ?;
     apply simple_use; [apply sim_scanAtts|assumption]).
Qed.
Lemma sim_scanPercent B B' : simple (@scanPercent e B) (@scanPercent ce B').
Proof. intros cs Hd. unfold scanPercent. go; whl (fun (_ : unit) (_ : list N) => True); go. Qed.
Lemma sim_scanPoundName B B' : simple (@scanPoundName e B) (@scanPoundName ce B').
Proof. intros cs Hd. unfold scanPoundName. go; whl (fun (_ : unit) (_ : list N) => True); go. Qed.
Lemma sim_scanLit B B' open : open = BT_QUOT \/ open = BT_APOS -> simple (@scanLit e B open) (@scanLit ce B' open).
Proof. intros Ho cs Hd. unfold scanLit. whl (fun (_ : unit) (_ : list N) => True); go. Qed.
End Sims.
