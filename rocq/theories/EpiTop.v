(* C73: nothing but comments, processing instructions and white space is accepted after the root element. *)
From Coq Require Import List NArith ZArith Bool Arith Lia.
From Verif Require Import Base Encoding SpecText SpecUnicode SpecNames SpecLex SpecProlog SpecMisc SpecDoc Tok TokMisc Status State AttVal Bind Content SpecNote SpecEpi EncLaws Keep Charset CharsetLaws TextEnc CpTag CpProlog CpDtd TokNone Prolog Core.
From Verif Require Api.
From Verif Require Phase PhaseCont UniConv.
Import ListNotations.
Local Open Scope nat_scope.
Notation pw := Phase.pw.

(* what stays as it is *)
Definition F (s s' : st) : Prop := s_enc s' = s_enc s /\ s_final s' = s_final s.
Lemma frame_F : frame F F.
Proof. unfold F. split; auto; intros a b c [] []; split; congruence. Qed.
Lemma f_call ev : keeps F F (call ev). Proof. intros s. split; reflexivity. Qed.
Ltac lf := first [apply f_call | apply (keeps_upd F F); intros; split; reflexivity].
Ltac wf := walk frame_F lf.
Lemma f_emit h ev : keeps F F (emit h ev). Proof. unfold emit. wf. Qed.
Lemma f_send_chunks mk fuel t e after : forall b, keeps F F (send_chunks fuel mk t e b after).
Proof. induction fuel as [|fuel IH]; intros b; cbn [send_chunks]; unfold set_event_n, set_event_end_n; wf; apply IH. Qed.
Lemma f_default t b n : keeps F F (reportDefault t b n).
Proof. unfold reportDefault, send, set_event_n, set_event_end_n. wf; apply f_send_chunks. Qed.
Lemma f_pi t b n : keeps F F (reportPI t b n).
Proof. unfold reportPI, inc, dec, store. wf; apply f_default. Qed.
Lemma f_comment t b n : keeps F F (reportComment t b n).
Proof. unfold reportComment, inc, dec, store. wf; apply f_default. Qed.
Lemma f_after t b : keeps F F (after_token t b).
Proof. unfold after_token, set_event. wf. Qed.
Lemma pwF {A} (m : P A) s (Q : A -> st -> Prop) : keeps F F m -> (forall a s', F s s' -> Q a s') -> pw m s Q.
Proof. intros H K. specialize (H s). unfold Phase.pw. destruct (m s); auto. Qed.

Section TE.
Context (e : EncImpl) (enc : N -> list N) (dom : N -> bool) (lat ns : bool) (TE : text_encoding e enc dom lat ns).
Notation T := (flat_map enc).
Definition fits (cs : list N) : Prop := all_in dom cs /\ (forall c, In c cs -> (128 <= c)%N -> is_xml_char c = true).
Lemma fits_app a b : fits (a ++ b) -> fits b.
Proof. intros [H1 H2]. split; [unfold all_in in *; rewrite Forall_app in H1; tauto|]. intros c Hc. apply H2, in_or_app. auto. Qed.
Lemma T_empty cs : all_in dom cs -> T cs = [] -> cs = [].
Proof.
  destruct cs as [|c cs]; [reflexivity|]. intros H E. exfalso. inversion H; subst. cbn [flat_map] in E. apply app_eq_nil in E as [E _].
  destruct (text_encoding_std _ _ _ _ _ TE) as (k & CS & _). destruct (ch_whole _ _ _ _ CS c ltac:(assumption)) as (j & L). rewrite E in L. cbn [length] in L.
  destruct (ch_min _ _ _ _ CS) as [M|M]; rewrite M in L; lia.
Qed.
Definition accepted (cs : list N) (s : st) (rest : bytes) (s' : st) : Prop :=
  exists a b, cs = a ++ b /\ misc lat ns a /\ rest = T b /\ (s_final s = true -> s_parsing s' <> SUSPENDED -> b = []).
Lemma misc_spaces sp rest : spaces sp -> misc lat ns rest -> misc lat ns (sp ++ rest).
Proof. induction 1; intros; cbn [app]; [assumption|]. constructor; auto. Qed.
Lemma misc_token t l r rest : prolog_token lat ns t l r -> t = T_PROLOG_S \/ t = T_PI \/ t = T_COMMENT \/ t = T_PROLOG_S_NEG -> misc lat ns rest -> misc lat ns (l ++ rest).
Proof.
  intros P Ht M. inversion P; subst; try (exfalso; intuition discriminate).
  - match goal with H : content_token _ _ _ _ _ |- _ => inversion H; subst end; try (unfold tag_token in *; destruct atts, empty; discriminate).
    apply (misc_note _ _ _ _ _ (note_comment lat ns body ltac:(assumption)) M).
  - match goal with H : content_token _ _ _ _ _ |- _ => inversion H; subst end; try (unfold tag_token in *; destruct atts, empty; discriminate).
    apply (misc_note _ _ _ _ _ (note_pi lat ns name d ltac:(assumption) ltac:(assumption) ltac:(assumption)) M).
  - apply misc_spaces; assumption.
  - apply (misc_spaces [13%N]); [repeat constructor|assumption].
Qed.
Theorem epilog_only fuel : forall s cs, s_enc s = EKnown e -> fits cs -> pw (epilog_loop fuel (T cs)) s (accepted cs s).
Proof.
  induction fuel as [|fuel IH]; intros s cs He Fc; [exact I|]. cbn [epilog_loop].
  apply Phase.pw_bind. eapply pwF; [unfold set_event; wf|]. intros _ s1 F1. apply Phase.pw_bind. unfold scan at 1, Phase.pw at 1. destruct F1 as [E1 E2]. rewrite E1, He. unfold lift.
  destruct (prologTok e (T cs)) as [[tok n]|] eqn:Tk; [|exact I]. cbv beta iota.
  apply Phase.pw_bind. eapply pwF; [unfold set_event_end_tok; wf|]. intros _ s2 [E3 E4]. apply Phase.pw_bind, Phase.pw_get. cbv zeta.
  assert (Stay : forall s', s_final s2 = false -> accepted cs s (T cs) s').
  { intros s' Fi. exists [], cs. split; [reflexivity|]. split; [constructor|]. split; [reflexivity|]. intros Fs. congruence. }
  assert (Lex : forall k, n = Some k -> tok = T_PROLOG_S \/ tok = T_PI \/ tok = T_COMMENT \/ tok = T_PROLOG_S_NEG ->
    exists l r, cs = l ++ r /\ k = length (T l) /\ prolog_token lat ns tok l r).
  { intros k -> Ht. apply (prologTok_tokens e enc dom lat ns cs tok k TE (proj1 Fc) (proj2 Fc)) in Tk; [|intuition (subst; discriminate)..]. destruct Tk as (l & r & A & B & C). eauto. }
  assert (Next : forall m : bytes -> nat -> P unit, (forall b k, keeps F F (m b k)) -> tok = T_PROLOG_S \/ tok = T_PI \/ tok = T_COMMENT \/ tok = T_PROLOG_S_NEG ->
    pw (do n <- need n; m (firstn n (T cs)) (length (T cs) - n) ;;; do rest <- inc n (T cs); do ret <- after_token ENormal rest; if ret then pret rest else epilog_loop fuel rest) s2 (accepted cs s)).
  { intros m Hm Ht. destruct n as [k|]; [|exact I]. apply Phase.pw_bind. unfold need, pret, Phase.pw at 1. destruct (Lex k eq_refl Ht) as (l & r & -> & -> & Pt).
    apply Phase.pw_bind. eapply pwF; [apply Hm|]. intros _ s3 [E5 E6]. apply Phase.pw_bind. unfold inc, lift, Phase.pw at 1. rewrite flat_map_app, UniConv.inc_start_app_len.
    apply Phase.pw_bind. eapply Phase.pw_imp; [apply Phase.pw_and; [apply (pwF _ _ (fun _ s' => F s3 s')); [apply f_after|auto]|apply PhaseCont.pw_after_token]|].
    intros ret s4 ([E7 E8] & _ & E9 & K). destruct ret.
    - exists l, r. split; [reflexivity|]. split; [rewrite <- (app_nil_r l); eapply misc_token; [exact Pt|exact Ht|constructor]|]. split; [reflexivity|]. intros _ Ne. elim Ne. congruence.
    - eapply Phase.pw_imp; [apply IH; [congruence|exact (fits_app _ _ Fc)]|]. intros rest s5 (a & b & -> & Ma & Er & Eb).
      exists (l ++ a), b. split; [apply app_assoc|]. split; [eapply misc_token; eassumption|]. split; [exact Er|]. intros Fi. apply Eb. congruence. }
  destruct tok; try exact I; try (apply Next; [intros; first [apply f_default|apply f_pi|apply f_comment]|tauto]; fail).
  all: try (destruct (s_final s2) eqn:Fi; [exact I|apply Stay; reflexivity]; fail).
  - unfold pret, Phase.pw. pose proof (T_empty cs (proj1 Fc) (no_text _ _ _ Tk)) as ->. exists [], []. repeat split; constructor.
  - apply Phase.pw_bind. eapply pwF; [unfold set_event_opt, set_event, inc; wf|]. intros; exact I.
  - destruct n as [k|]; [|exact I]. apply Phase.pw_bind. unfold need, pret, Phase.pw at 1. destruct (Lex k eq_refl ltac:(tauto)) as (l & r & -> & -> & Pt).
    assert (Er : r = []) by (inversion Pt; subst; try reflexivity;
      match goal with H : content_token _ _ _ _ _ |- _ => inversion H; subst; unfold tag_token in *; destruct atts, empty; discriminate end). subst r.
    apply Phase.pw_bind. eapply pwF; [apply f_default|]. intros _ s3 _. apply Phase.pw_bind. unfold handler. apply Phase.pw_get. apply Phase.pw_bind, Phase.pw_get.
    assert (Last : pw (inc (length (T l)) (T (l ++ []))) s3 (accepted (l ++ []) s)).
    { unfold inc, lift, Phase.pw. rewrite flat_map_app, UniConv.inc_start_app_len. exists l, []. split; [reflexivity|]. split; [|split; auto].
      rewrite <- (app_nil_r l). eapply misc_token; [exact Pt|tauto|constructor]. }
    destruct (h_default (c_h (s_cfg s3))); [|exact Last]. destruct (s_parsing s3); first [exact Last|exact I].
Qed.
Theorem epilog_accepts fuel s cs rest s' : s_enc s = EKnown e -> all_in dom cs -> (forall c, In c cs -> (128 <= c)%N -> is_xml_char c = true) ->
  epilogProcessor fuel (T cs) s = Ret rest s' ->
  exists read left, cs = read ++ left /\ misc lat ns read /\ rest = T left /\ (s_final s = true -> s_parsing s' <> SUSPENDED -> left = []).
Proof.
  intros He D1 D2 E. unfold epilogProcessor, pbind at 1, upd at 1 in E. pose proof (epilog_only fuel (set_processor PrEpilog s) cs He (conj D1 D2)) as H.
  unfold Phase.pw in H. rewrite E in H. exact H.
Qed.
End TE.

(* what is reported *)
Definition R (s s' : st) : Prop := s_processor s' = s_processor s /\ exists evs, s_log s' = evs ++ s_log s /\ Forall (fun x => misc_event (snd x)) evs.
Lemma frame_R : frame R R.
Proof.
  assert (RR : forall s, R s s) by (intros s; unfold R; split; [reflexivity|]; exists []; split; [reflexivity|constructor]).
  assert (RT : forall a b c, R a b -> R b c -> R a c).
  2: split; eauto.
  - unfold R.
    intros a b c [P1 (x & E1 & F1)] [P2 (y & E2 & F2)]. split; [congruence|]. exists (y ++ x). split; [rewrite E2, E1; apply app_assoc|apply Forall_app; auto].
Qed.
Lemma r_call ev : misc_event ev -> keeps R R (call ev).
Proof. intros H s. split; [reflexivity|]. exists [(s_pid s, ev)]. split; [reflexivity|]. constructor; [exact H|constructor]. Qed.
Ltac lr := first [apply r_call; constructor | apply (keeps_upd R R); intros; split; [reflexivity|exists []; split; [reflexivity|constructor]]].
Ltac wr := walk frame_R lr.
Lemma r_send_chunks fuel t e after : forall b, keeps R R (send_chunks fuel EvDefault t e b after).
Proof. induction fuel as [|fuel IH]; intros b; cbn [send_chunks]; unfold set_event_n, set_event_end_n; wr; apply IH. Qed.
Lemma r_default t b n : keeps R R (reportDefault t b n).
Proof. unfold reportDefault, send, set_event_n, set_event_end_n. wr; apply r_send_chunks. Qed.
Lemma r_pi t b n : keeps R R (reportPI t b n).
Proof. unfold reportPI, inc, dec, store. wr; apply r_default. Qed.
Lemma r_comment t b n : keeps R R (reportComment t b n).
Proof. unfold reportComment, inc, dec, store. wr; apply r_default. Qed.
Lemma r_epilog fuel : forall b, keeps R R (epilog_loop fuel b).
Proof.
  induction fuel as [|fuel IH]; intros b; cbn [epilog_loop]; unfold scan, set_event, set_event_opt, set_event_end_tok, after_token, need, inc, set_event;
    wr; first [apply r_default|apply r_pi|apply r_comment|apply IH|idtac].
  assert (RR : forall s s', s_processor s' = s_processor s -> s_log s' = s_log s -> R s s') by (intros s s' H1 H2; split; [exact H1|exists []; split; [exact H2|constructor]]).
  intros s. unfold lift. destruct (s_enc s) as [i|e].
  - destruct (XmlDecl.initScan (c_ns (s_cfg s)) i false b) as [[[t n] [e|]]|x]; try exact I; apply RR; reflexivity.
  - destruct (prologTok e b); try exact I; apply RR; reflexivity.
Qed.
Theorem epilog_reports fuel buf s : match epilogProcessor fuel buf s with
  | Ret _ s' | Fail _ s' => s_processor s' = PrEpilog /\ exists evs, s_log s' = evs ++ s_log s /\ Forall (fun x => misc_event (snd x)) evs
  | Die _ => True
  end.
Proof.
  unfold epilogProcessor, pbind at 1, upd at 1. pose proof (r_epilog fuel buf (set_processor PrEpilog s)) as H. destruct (epilog_loop fuel buf (set_processor PrEpilog s)); exact H || exact (proj2 H) || exact I.
Qed.
(* the same for a piece of the document that is given to the parser *)
Theorem piece_accepted e enc dom lat ns : text_encoding e enc dom lat ns -> forall r c p final cs out,
  s_processor c = PrEpilog -> s_enc c = EKnown e -> all_in dom cs -> (forall x, In x cs -> (128 <= x)%N -> is_xml_char x = true) ->
  run r c p final (flat_map enc cs) = Ok out -> Api.r_err out = XE_NONE ->
  exists read left, cs = read ++ left /\ misc lat ns read /\ Api.r_next out = length (flat_map enc read) /\
    (final = true -> Api.r_parsing out <> SUSPENDED -> left = []).
Proof.
  intros TE r c p final cs out Hp He D1 D2 E Ne. unfold run, process in E. unfold pbind at 1, get at 1 in E.
  change (s_processor (set_evEnd None (set_ev None (set_final final (set_parsing p c))))) with (s_processor c) in E. rewrite Hp in E. cbv iota in E.
  set (s := set_evEnd None (set_ev None (set_final final (set_parsing p c)))) in E.
  pose proof (epilog_accepts e enc dom lat ns TE (rc_fuel r) s cs) as A. pose proof (r_epilog (rc_fuel r) (flat_map enc cs) (set_processor PrEpilog s)) as H.
  change (epilogProcessor (rc_fuel r) (flat_map enc cs) s) with (epilog_loop (rc_fuel r) (flat_map enc cs) (set_processor PrEpilog s)) in *.
  destruct (epilog_loop (rc_fuel r) (flat_map enc cs) (set_processor PrEpilog s)) as [rest s'|x s'|x]; [|injection E as <-; destruct H as [H _]; elim H; exact Ne|discriminate].
  injection E as <-. destruct (A rest s' He D1 D2 eq_refl) as (a & b & -> & M & -> & L). exists a, b. split; [reflexivity|]. split; [exact M|]. split; [cbn; rewrite flat_map_app, app_length; lia|exact L].
Qed.
Theorem piece_reports r c p final buf out : s_processor c = PrEpilog -> run r c p final buf = Ok out ->
  s_processor (Api.r_core out) = PrEpilog /\
  exists evs, s_log (Api.r_core out) = evs ++ s_log c /\ Forall (fun x => misc_event (snd x)) evs.
Proof.
  intros Hp E. unfold run, process in E. unfold pbind at 1, get at 1 in E.
  change (s_processor (set_evEnd None (set_ev None (set_final final (set_parsing p c))))) with (s_processor c) in E. rewrite Hp in E. cbv iota in E.
  set (s := set_evEnd None (set_ev None (set_final final (set_parsing p c)))) in E.
  pose proof (epilog_reports (rc_fuel r) buf s) as H.
  destruct (epilogProcessor (rc_fuel r) buf s) as [rest s'|x s'|x]; [| |discriminate]; injection E as <-; exact H.
Qed.
