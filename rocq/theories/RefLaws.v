(* C68: what a reference in content does. *)
From Coq Require Import String List NArith ZArith Bool Lia Arith.
From Coq Require Import ZifyBool ZifyNat ZifyN.
From Verif Require Import Base Tables Encoding SpecText SpecUnicode SpecNames SpecLex SpecMisc EncLaws Tok TokMisc UniLaws UniConv SpecConv Charset CharsetLaws CpTag CpContent MiscTop DeclFinal AttCp Role Status State AttVal SpecAttVal CtxLaws AttNorm AttTop Bind Content Prolog SpecEnt SpecRef Core SpecSend.
From Verif Require Import AttsText.
From Verif Require SendLaws EntInv.
From Coq Require Import List.
Import ListNotations.
Local Open Scope N_scope.

Theorem meaning_exists s n : exists m, means s n m.
Proof.
  destruct (in_dec (list_eq_dec N.eq_dec) n (map fst predefined)) as [I|I].
  { apply in_map_iff in I as ([n' c] & <- & I). eexists. apply mn_predefined, I. }
  assert (Np : not_predefined n) by (intros x Hx; apply I, in_map_iff; exists (n, x); auto). clear I.
  assert (K : {all_known s} + {~ all_known s}).
  { unfold all_known. destruct (d_hasPE (s_dtd s)), (d_standalone (s_dtd s)); [left; auto|right; intros [|]; discriminate|left; auto|left; auto]. }
  destruct (look (utf8 n) (d_gents (s_dtd s))) as [e|] eqn:L; [|destruct K; eexists; [now apply mn_undefined|now apply mn_unknown]].
  assert (D : declared_as s n e) by (split; assumption).
  destruct (e_is_internal e) eqn:In; [|destruct K as [K|K]; [eexists; now apply (mn_elsewhere _ _ e)|]].
  all: assert (U : all_known s -> e_is_internal e = true) by (intros; congruence || contradiction).
  all: destruct (e_open e) eqn:Op; [eexists; now apply (mn_recursive _ _ e)|]; assert (Us : usable s e) by (split; assumption).
  all: destruct (e_notation e) eqn:No; [eexists; apply (mn_unparsed _ _ e); auto; congruence|].
  all: destruct (e_text e) as [text|] eqn:Tx.
  1,3: destruct (c_expand (s_cfg s)) eqn:Ex; eexists; [eapply mn_internal; eauto|eapply mn_unexpanded; eauto].
  all: destruct (h_external (c_h (s_cfg s))) eqn:Ex; eexists; [eapply mn_external; eauto|eapply mn_unread; eauto].
Qed.

Lemma opened_closed n x s : look n (d_gents (s_dtd s)) = Some x -> e_open x = false ->
  upd_entity (false, n) (set_e_open true) s = Ret tt (opening n x s).
Proof. intros L O. unfold upd_entity, upd_dtd, upd, look_entity, put_entity, opening. cbn [fst snd entity_table]. rewrite L. reflexivity. Qed.

Section Step.
Variables (e : EncImpl) (enc : N -> bytes) (dom : N -> bool) (lat ns : bool).
Hypothesis TE : text_encoding e enc dom lat ns.
Notation T := (flat_map enc).

Lemma ref_tok n rest : is_name lat ns n -> all_in dom (ref_to n ++ rest) ->
  contentTok e (T (ref_to n ++ rest)) = Ok (T_ENTITY_REF, Some (length (T (ref_to n)))).
Proof.
  intros Hn Hd. apply (contentTok_exact e enc dom lat ns _ T_ENTITY_REF _ TE Hd); [discriminate|].
  exists (ref_to n), rest. split; [reflexivity|]. split; [|reflexivity]. constructor. exists n. auto.
Qed.
Lemma step r level more s n rest : s_enc s = EKnown e -> is_name lat ns n -> all_in dom (ref_to n ++ rest) ->
  exists s0, positions_only s s0 /\ s0 = set_evEnd (Some (length (T rest))) (set_ev (Some (length (T (ref_to n ++ rest)))) s) /\
  doContent r level ENormal (T (ref_to n ++ rest)) more s =
    (content_entity r ENormal e (T (ref_to n ++ rest)) (length (T (ref_to n))) ;;; goes_on r level more (T rest)) s0.
Proof.
  intros He Hn Hd. eexists. split; [|split; [reflexivity|]]; [destruct s; reflexivity|].
  unfold doContent. unfold set_event at 1. cbn [is_internal]. unfold pbind at 1, upd at 1. unfold pbind at 1, encoding at 1.
  change (s_enc (set_ev ?a s)) with (s_enc s). rewrite He. cbn [known]. unfold pbind at 1, scan_as at 1, scan at 1. change (s_enc (set_ev ?a s)) with (s_enc s). rewrite He.
  unfold lift at 1. rewrite (ref_tok n rest Hn Hd). cbv beta iota. unfold pbind at 1, set_event_end_tok at 1. cbn [is_internal]. unfold upd at 1.
  unfold pbind at 1, need at 1, pret at 1.
  replace (length (T (ref_to n ++ rest)) - length (T (ref_to n)))%nat with (length (T rest)) by (rewrite flat_map_app, app_length; lia).
  unfold pbind. match goal with |- match ?m with Ret _ _ => _ | Fail _ _ => _ | Die _ => _ end = _ => destruct m as [[] s1|x s1|x]; [|reflexivity|reflexivity] end.
  unfold inc, lift. rewrite flat_map_app, inc_start_app_len. reflexivity.
Qed.
Definition call_of (ev : event) (s : st) : st := set_parsing (stopped (c_app (s_cfg s) ((s_pid s, ev) :: s_log s)) (s_isParam s) (s_parsing s)) (set_log ((s_pid s, ev) :: s_log s) s).
Lemma known_b s : negb (d_hasPE (s_dtd s)) || d_standalone (s_dtd s) = true <-> all_known s.
Proof. unfold all_known. destruct (d_hasPE (s_dtd s)), (d_standalone (s_dtd s)); cbn; intuition discriminate. Qed.
Theorem reference_told r level more s n rest m : s_enc s = EKnown e -> c_ns (s_cfg s) = ns -> is_name lat ns n -> all_in dom (ref_to n ++ rest) ->
  means s n m -> exists s0, positions_only s s0 /\
  let run := doContent r level ENormal (T (ref_to n ++ rest)) more s in
  match m with
  | Refused x => run = Fail x s0
  | Stands c => h_charData (c_h (s_cfg s)) = true -> exists re s1, call (EvCharData [c]) s0 = Ret re s1 /\ run = goes_on r level more (T rest) s1
  | Skipped => h_skipped (c_h (s_cfg s)) = true -> exists re s1, call (EvSkippedEntity (utf8 n) false) s0 = Ret re s1 /\ run = goes_on r level more (T rest) s1
  | Unread => h_default (c_h (s_cfg s)) = false -> run = goes_on r level more (T rest) s0
  | Asked y => run = match rc_ext r (Some (getContext (while_open n y s0))) (e_base y) (e_sys y) (e_pub y) s0 with
                     | Ret true s1 => goes_on r level more (T rest) s1
                     | Ret false s1 => Fail XE_EXTERNAL_ENTITY_HANDLING s1
                     | Fail x s1 => Fail x s1
                     | Die x => Die x
                     end
  | Replaced text => run = (processInternalEntity r (false, utf8 n) text false ;;; goes_on r level more (T rest)) s0
  end.
Proof.
  intros He Hns Hn Hd M. destruct (step r level more s n rest He Hn Hd) as (s0 & P0 & E0 & R). exists s0. split; [exact P0|]. cbv zeta. rewrite R. clear R.
  assert (C0 : s_cfg s0 = s_cfg s) by (subst; reflexivity). assert (D0 : s_dtd s0 = s_dtd s) by (subst; reflexivity). clear E0 P0.
  assert (Hdn : all_in dom n) by (unfold ref_to in Hd; unfold all_in in *; rewrite !Forall_app in Hd; tauto).
  assert (Hdw : all_in dom (ref_to n)) by (unfold all_in in *; rewrite Forall_app in Hd; tauto).
  change (ref_to n) with (written n) in *.
  assert (Pr : (exists c, m = Stands c /\ In (n, c) predefined) \/ (not_predefined n /\ forall c, m <> Stands c)).
  { destruct M; eauto; right; (split; [auto|discriminate]); match goal with H : declared_as _ _ _ |- _ => apply H end. }
  destruct Pr as [(c & -> & I)|[Np Nm]].
  { destruct (predefined_name e enc dom lat ns false (te_reader _ _ _ _ _ TE) n c I) as (_ & H0 & _ & _). intros H. unfold pbind at 1, content_entity at 1. unfold pbind at 1. rewrite (name_of e enc dom lat ns false (te_reader _ _ _ _ _ TE) n rest s0 Hdw). unfold pbind at 1, lift at 1.
    rewrite (proj2 (te_predef e enc dom lat ns TE n c Hdn H0) I). replace (c =? 0) with false by lia. cbn [negb].
    unfold char_data, pbind at 1, handler, get. rewrite C0, H. eexists _, (call_of (EvCharData [c]) s0). split; reflexivity. }
  destruct M as [c I|Q L K|Q L K|y [_ L] K I|y [_ L] K O|y [_ L] [K O] No|y text [_ L] [K O] No Tx Ex|y text [_ L] [K O] No Tx Ex|y [_ L] [K O] No Tx Ex|y [_ L] [K O] No Tx Ex];
    [exfalso; exact (Nm c eq_refl)|..]; try intros H; unfold pbind at 1, content_entity at 1; unfold pbind at 1; rewrite (name_of e enc dom lat ns false (te_reader _ _ _ _ _ TE) n rest s0 Hdw); unfold pbind at 1, lift at 1;
    rewrite (te_predef_none e enc dom lat ns TE n Hdn Np); cbn [N.eqb negb]; unfold pbind at 1, lift at 1; rewrite (te_conv e enc dom lat ns TE n Hdn); unfold pbind at 1, get at 1; rewrite D0; rewrite L.
  - apply known_b in K. rewrite K. reflexivity.
  - destruct (negb (d_hasPE (s_dtd s)) || d_standalone (s_dtd s)) eqn:X; [apply known_b in X; contradiction|].
    unfold emit, pbind, handler, get. rewrite C0, H. eexists _, (call_of _ s0). split; reflexivity.
  - apply known_b in K. rewrite K, I. reflexivity.
  - replace (_ && negb (e_is_internal y)) with false; [rewrite O; reflexivity|]. destruct (negb _ || _) eqn:X; [apply known_b in X; rewrite (K X)|]; reflexivity.
  - replace (_ && negb (e_is_internal y)) with false; [rewrite O; destruct (e_notation y); [reflexivity|congruence]|]. destruct (negb _ || _) eqn:X; [apply known_b in X; rewrite (K X)|]; reflexivity.
  - replace (_ && negb (e_is_internal y)) with false; [rewrite O, No, Tx; unfold pbind, get; rewrite C0, Ex; reflexivity|]. destruct (negb _ || _) eqn:X; [apply known_b in X; rewrite (K X)|]; reflexivity.
  - replace (_ && negb (e_is_internal y)) with false; [|destruct (negb _ || _) eqn:X; [apply known_b in X; rewrite (K X)|]; reflexivity].
    rewrite O, No, Tx. unfold pbind at 1, get at 1. rewrite C0, Ex. unfold emit, pbind, handler, get. rewrite C0, H. eexists _, (call_of _ s0). split; reflexivity.
  - replace (_ && negb (e_is_internal y)) with false; [|destruct (negb _ || _) eqn:X; [apply known_b in X; rewrite (K X)|]; reflexivity].
    rewrite O, No, Tx. unfold pbind at 1, handler at 1, get at 1. rewrite C0, Ex. unfold pbind at 1. rewrite <- D0 in L. rewrite (opened_closed _ _ _ L O).
    unfold pbind at 1, get at 1. unfold pbind at 1. rewrite (reclose _ _ _ L O). unfold pbind at 1. change (while_open n y s0) with (opening (utf8 n) y s0).
    destruct (rc_ext r _ _ _ _ s0) as [[|] s1|x s1|x]; reflexivity.
  - replace (_ && negb (e_is_internal y)) with false; [|destruct (negb _ || _) eqn:X; [apply known_b in X; rewrite (K X)|]; reflexivity].
    rewrite O, No, Tx. unfold pbind at 1, handler at 1, get at 1. rewrite C0, Ex. unfold reportDefault, pbind at 1, handler, get. rewrite C0, H. reflexivity.
Qed.
End Step.
