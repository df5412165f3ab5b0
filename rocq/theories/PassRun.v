(* The default handler gets what is consumed: from the first call to the last. *)
From Coq Require Import String List NArith ZArith Bool Lia Arith.
From Coq Require Import ZifyBool ZifyNat ZifyN.
From Verif Require Import Base Encoding Tok TokMisc Norm XmlDecl Status Role State AttVal Bind Atts Scaf Content Prolog Core.
From Verif Require Import Keep SpecEnc SpecPass PassTok Pass PassTop PassPro.
From Verif Require Api SpecApi ApiLaws DocRun Walk EntInv.
From Coq Require Import List.
Import ListNotations.
Local Open Scope nat_scope.

(* ---- before the encoding is settled ---- *)
Record wait (s : st) : Prop := {
  wa_h : c_h (s_cfg s) = only_default;
  wa_expand : c_expand (s_cfg s) = false;
  wa_pep : s_pep s = PEP_NEVER;
  wa_protocol : s_protocol s = Some (ascii "UTF-8");
  wa_not : s_notName s = None;
  wa_doctype : s_doctypeName s = None;
  wa_param : s_isParam s = false;
  wa_child : s_child s = false;
  wa_role : s_role s = prolog_init prolog_default;
  wa_gave : gave s = [];
  wa_at : s_processor s = PrPrologInit \/ (s_processor s = PrProlog /\ s_enc s = EInit UTF_8_ENC)
}.
Lemma wait_lone s : wait s -> s_processor s = PrProlog -> lone (s_final s) (set_enc (EKnown (utf8_for (c_ns (s_cfg s)))) s).
Proof. intros [] P. constructor; try assumption; try reflexivity; cbn; try congruence. rewrite P. reflexivity. Qed.
(* the byte order mark is there or will not come *)
Definition settled (b : bytes) : Prop := forall d, without_bom (b ++ d) = without_bom b ++ d.
Lemma bom_false b0 b1 b2 : (b0 =? 239)%N && (b1 =? 187)%N && (b2 =? 191)%N = false -> forall r, without_bom (b0 :: b1 :: b2 :: r) = b0 :: b1 :: b2 :: r.
Proof. intros H r. cbn [without_bom]. now rewrite H. Qed.
Lemma first_scan ns buf t n e : not_utf16 buf -> initScan ns UTF_8_ENC false buf = Ok (t, n, e) ->
  (e = None /\ (t = T_NONE \/ t = T_PARTIAL)) \/
  (exists r, buf = [239; 187; 191]%N ++ r /\ t = T_BOM /\ n = Some 3 /\ e = Some (utf8_for ns)) \/
  (settled buf /\ without_bom buf = buf /\ e = Some (utf8_for ns) /\ prologTok (utf8_for ns) buf = Ok (t, n)).
Proof.
  assert (X : forall x, index (enc_table ns) UTF_8_ENC = Ok x -> x = utf8_for ns) by (intros x; destruct ns; cbn; intros [= <-]; reflexivity).
  assert (Ix : index (enc_table ns) UTF_8_ENC = Ok (utf8_for ns)) by (destruct ns; reflexivity).
  assert (Sc : forall b, (let* e := index (enc_table ns) UTF_8_ENC in let* (t, n) := prologTok e b in Ok (t, n, Some e)) = Ok (t, n, e) ->
     e = Some (utf8_for ns) /\ prologTok (utf8_for ns) b = Ok (t, n)).
  { intros b. rewrite Ix. cbn [bind]. destruct (prologTok _ _) as [[t' n']|]; cbn [bind]; intros E; [|discriminate]. injection E as <- <- <-. auto. }
  destruct buf as [|b0 [|b1 r]]; intros U E.
  - left. injection E as <- <- <-. auto.
  - unfold initScan in E. change ((UTF_8_ENC =? UTF_16_ENC) || (UTF_8_ENC =? UTF_16LE_ENC) || (UTF_8_ENC =? UTF_16BE_ENC))%N with false in E. cbn iota in E.
    destruct ((b0 =? 254)%N || (b0 =? 255)%N || (b0 =? 239)%N) eqn:E1; [left; cbn in E; injection E as <- <- <-; auto|].
    destruct ((b0 =? 0)%N || (b0 =? 60)%N); [left; injection E as <- <- <-; auto|].
    right. right. apply Sc in E as [E2 E3]. assert (N0 : (b0 =? 239)%N = false) by lia. split; [|split; [reflexivity|auto]].
    intros d. cbn [List.app]. destruct d as [|d0 [|d1 d]]; cbn [without_bom]; rewrite ?N0; reflexivity.
  - cbn [not_utf16] in U. destruct U as (U1 & U2 & U3 & U4). unfold initScan in E. cbn [negb andb orb] in E. rewrite !andb_false_r in E. cbn [negb] in E.
    replace ((b0 =? 254)%N && (b1 =? 255)%N) with false in E by lia. replace ((b0 =? 60)%N && (b1 =? 0)%N) with false in E by lia.
    replace ((b0 =? 255)%N && (b1 =? 254)%N) with false in E by lia. replace (b0 =? 0)%N with false in E by lia. replace (b1 =? 0)%N with false in E by lia.
    destruct ((b0 =? 239)%N && (b1 =? 187)%N) eqn:E1.
    + destruct r as [|b2 r]; [left; injection E as <- <- <-; auto|]. destruct (b2 =? 191)%N eqn:E2.
      * right. left. rewrite Ix in E. cbn [bind] in E. injection E as <- <- <-. exists r. split; [|auto]. apply andb_true_iff in E1 as [->%N.eqb_eq ->%N.eqb_eq]. apply N.eqb_eq in E2 as ->. reflexivity.
      * right. right. apply Sc in E as [E3 E4]. assert (B : (b0 =? 239)%N && (b1 =? 187)%N && (b2 =? 191)%N = false) by lia.
        split; [|split; [apply bom_false; exact B|auto]]. intros d. cbn [List.app]. now rewrite !bom_false.
    + right. right. apply Sc in E as [E3 E4].
      assert (Q : forall r, without_bom (b0 :: b1 :: r) = b0 :: b1 :: r) by (intros q; destruct q; [reflexivity|]; apply bom_false; lia).
      split; [|split; [apply Q|auto]]. intros d. cbn [List.app]. now rewrite !Q.
Qed.

(* ---- the first token ---- *)
Definition begun (f : bool) (buf rest : bytes) (s : st) : Prop :=
  (rest = buf /\ f = false /\ wait s) \/ (settled buf /\ goes_on f [] (without_bom buf) rest s).
Definition tried (buf : bytes) (s : st) : Prop := gave s = [] \/ settled buf /\ some_of [] (without_bom buf) s.
Lemma first_token r f e buf ac s : prolog_passes f (rc_prolog r) -> lone f s -> gave s = [] -> s_role s = prolog_init prolog_default ->
  W (some_of [] buf) (one_token r e ([239; 187; 191]%N ++ buf) (negb f) ac T_BOM buf) s (goes_on f [] buf).
Proof.
  intros IP L E R. unfold one_token. cbv zeta. apply W_bind.
  unfold role_of. apply W_bind, W_get. rewrite R. apply W_bind, W_lift. intros [p role] H. 
  assert (Hr : role = R_NONE) by (cbn in H; injection H as <- <-; reflexivity). subst role. clear H.
  repeat w4. unfold role_step, role_action. cbn [tok_eqb negb]. repeat w4.
  1-2: apply IP; [assumption|congruence|];
    match goal with H : prologTok _ _ = _ |- _ => apply prolog_plain_tok in H; [|apply one_byte]; destruct H as [[-> _]|[[? _]|[-> _]]]; [discriminate|assumption|discriminate] end.
  split; [assumption|]. split; [exists []; split; [reflexivity|cbn [List.app]; congruence]|auto].
Qed.
Lemma W_set (F : st -> Prop) g s (Q : unit -> st -> Prop) : Q tt (g s) -> W F (upd g) s Q.
Proof. intros H. exact H. Qed.
Lemma wait_ev x s : wait s -> wait (set_ev x s).
Proof. intros []. constructor; assumption. Qed.
Lemma wait_evEnd x s : wait s -> wait (set_evEnd x s).
Proof. intros []. constructor; assumption. Qed.
Lemma first_prolog n f buf s : not_utf16 buf -> wait s -> s_processor s = PrProlog -> s_enc s = EInit UTF_8_ENC -> s_final s = f ->
  W (tried buf) (prologProcessor (knot n) buf) s (begun f buf).
Proof.
  intros U Wa P En Fi. unfold prologProcessor. apply W_bind. unfold W at 1. unfold scan. rewrite En.
  destruct (initScan _ _ _ _) as [[[t k] e]|] eqn:Ei; [|exact I]. apply (first_scan _ _ _ _ _ U) in Ei.
  destruct Ei as [(-> & Ht)|[(r & -> & -> & -> & ->)|(S1 & S2 & -> & Et)]].
  - apply W_bind, W_get. rewrite Fi. destruct n as [|n]; [exact I|]. cbn [knot rc_prolog]. unfold doProlog.
    apply W_bind. unfold set_event. cbn [is_internal]. apply W_set. apply W_bind. unfold set_event_end_tok. cbn [is_internal].
    assert (X : exists x, W (tried buf) (match k with Some n0 => upd (set_evEnd (Some (length buf - n0))) | None => upd (set_evEnd (Some (length buf))) end) (set_ev (Some (length buf)) s)
       (fun _ s' => s' = set_evEnd x (set_ev (Some (length buf)) s))) by (destruct k; eexists; reflexivity).
    destruct X as (x & X). eapply W_imp; [exact X|]. clear X. intros ? s1 ->.
    assert (Wb : wait (set_evEnd x (set_ev (Some (length buf)) s))) by (apply wait_evEnd, wait_ev; exact Wa). set (s1 := set_evEnd x _) in *. clearbody s1.
    apply W_bind. unfold encoding. unfold W at 1. cbv zeta. assert (G : tried buf s1) by (left; apply (wa_gave _ Wb)).
    destruct Ht as [-> | ->]; cbn [tok_is_error tok_eqb negb].
    + destruct f; cbn [negb andb]; [|left; auto]. apply W_bind, W_get. apply W_bind, W_get. rewrite (wa_param _ Wb). cbn [is_internal andb orb]. exact G.
    + destruct f; cbn [negb andb]; [|left; auto]. exact G.
  - set (s1 := set_enc _ s). assert (L : lone f s1) by (subst f; apply wait_lone; assumption).
    assert (G : gave s1 = []) by exact (wa_gave _ Wa). assert (R : s_role s1 = prolog_init prolog_default) by exact (wa_role _ Wa). clearbody s1.
    apply W_bind, W_get. rewrite (lo_final _ _ L). destruct n as [|n]; [exact I|]. cbn [knot rc_prolog]. unfold doProlog.
    assert (St : settled ([239; 187; 191]%N ++ r)) by (intros d; reflexivity).
    assert (Hr : forall s x, s_role (set_evEnd x s) = s_role s) by reflexivity.
    apply W_bind. unfold set_event. cbn [is_internal]. apply W_set. apply W_bind. unfold set_event_end_tok. cbn [is_internal]. apply W_set.
    set (s2 := set_evEnd _ _). assert (L2 : lone f s2) by (destruct L; constructor; assumption).
    assert (G2 : gave s2 = []) by exact G. assert (R2 : s_role s2 = prolog_init prolog_default) by exact R. clearbody s2.
    apply W_bind. unfold encoding. unfold W at 1. cbv zeta. cbn [tok_is_error]. apply W_bind. unfold W at 1, rest_after, inc, lift. cbn [inc_start List.app].
    eapply W_impF; [apply (first_token (knot n) f _ r true s2); [apply knot_pass|assumption..]|intros s3 Hy; right; split; [exact St|exact Hy]|]. intros y s3 Hy. right. split; [exact St|exact Hy].
  - set (s1 := set_enc _ s). assert (L : lone f s1) by (subst f; apply wait_lone; assumption).
    assert (G : gave s1 = []) by exact (wa_gave _ Wa). clearbody s1.
    apply W_bind, W_get. rewrite (lo_final _ _ L). eapply W_impF; [apply knot_pass; [exact L|exact G|]|intros s3 Hy; right; rewrite S2; split; [exact S1|exact Hy]|].
    + apply prolog_plain_tok in Et; [|apply one_byte]. destruct Et as [[-> _]|[[? _]|[-> _]]]; [discriminate|assumption|discriminate].
    + intros y s3 Hy. right. rewrite S2. split; [exact S1|exact Hy].
Qed.
Lemma first_process n f buf s : not_utf16 buf -> wait s -> s_final s = f -> W (tried buf) (process (knot n) buf) s (begun f buf).
Proof.
  intros U Wa Fi. unfold process. apply W_bind, W_get. destruct (wa_at _ Wa) as [P|[P En]]; rewrite P.
  - unfold prologInitProcessor, initializeEncoding. apply W_bind, W_bind, W_get. rewrite (wa_protocol _ Wa). apply W_bind, W_lift. intros x Hx.
    assert (x = Some UTF_8_ENC) by (vm_compute in Hx; injection Hx as <-; reflexivity). subst x. apply W_set. apply W_bind, W_set.
    apply first_prolog; [exact U| |reflexivity|reflexivity|exact Fi]. destruct Wa. constructor; try assumption. right. auto.
  - apply first_prolog; auto.
Qed.

(* ---- the calls ---- *)
Lemma process_code n b s e s' : process (knot n) b s = Fail e s' -> e <> XE_NONE.
Proof. intros H. pose proof (Walk.wk_process _ _ _ _ _ EntInv.walker_N _ (EntInv.N_knot n) b s) as K. rewrite H in K. exact (proj1 K). Qed.
Definition still (s s' : st) : Prop := (wait s -> wait s') /\ hush s s' /\ gave s' = gave s.
Lemma fr_still : frame still still.
Proof.
  destruct fr_hush as [R1 R2 T1 T2]. constructor; unfold still; intuition eauto; congruence.
Qed.
Lemma still_context fuel : forall acc s, keeps still still (setContext_loop fuel acc s).
Proof.
  induction fuel as [|fuel IH]; intros acc tx; [apply keeps_die|]. cbn [setContext_loop]; unfold addBinding; sm. destruct tx as [|c tx].
  all: walk fr_still ltac:(idtac; first [apply IH | apply keeps_upd; split; [intros []; constructor; first [assumption|reflexivity] | split; [intros ? q; split; [destruct q; constructor; first [assumption|reflexivity]|reflexivity]|reflexivity]]]).
Qed.
Lemma still_start c c' : start c = Ok (Some c') -> still c c'.
Proof.
  unfold start. destruct (c_ns (s_cfg c)).
  - pose proof (still_context (2 + length implicitContext) [] implicitContext c) as K. unfold setContext. unfold keeps in K.
    destruct (setContext_loop _ _ _ c) as [[] s|e s|e]; intros E; try discriminate E. injection E as <-. exact K.
  - intros E. injection E as <-. apply (f_refl _ _ fr_still).
Qed.
Record passing (m : SpecApi.machine st) : Prop := {
  ps_some : gave (SpecApi.m_core m) = [] \/ settled (SpecApi.m_doc m) /\ exists rest, without_bom (SpecApi.m_doc m) = gave (SpecApi.m_core m) ++ rest;
  ps_run : SpecApi.m_failed m = false ->
    (wait (SpecApi.m_core m) /\ SpecApi.m_used m = 0) \/
    (settled (SpecApi.m_doc m) /\ (exists f, lone f (SpecApi.m_core m)) /\
     without_bom (SpecApi.m_doc m) = gave (SpecApi.m_core m) ++ skipn (SpecApi.m_used m) (SpecApi.m_doc m))
}.
Lemma passing_begins m m' : SpecApi.begins start false m m' -> passing m -> passing m' /\ SpecApi.m_doc m' = SpecApi.m_doc m /\ SpecApi.m_used m' = SpecApi.m_used m.
Proof.
  intros B [P1 P2]. inversion B as [? S|? S C|? c S C E]; subst.
  - split; [constructor; assumption|auto].
  - discriminate C.
  - apply still_start in E as (E1 & E2 & E3). split; [|auto]. constructor; cbn [SpecApi.with_status SpecApi.with_core SpecApi.m_doc SpecApi.m_core SpecApi.m_used SpecApi.m_failed].
    + rewrite E3. exact P1.
    + intros F. destruct (P2 F) as [[A B']|(A & [f L] & D)]; [left; auto|right]. rewrite E3. split; [exact A|]. split; [exists f; apply E2; exact L|exact D].
Qed.
Lemma lone_entered f g p s : lone g s -> lone f (set_evEnd None (set_ev None (set_final f (set_parsing p s)))).
Proof. intros []. constructor; try assumption. reflexivity. Qed.
Lemma wait_entered f p s : wait s -> wait (set_evEnd None (set_ev None (set_final f (set_parsing p s)))).
Proof. intros []. constructor; assumption. Qed.
Definition whole (m : SpecApi.machine st) : Prop := gave (SpecApi.m_core m) = without_bom (SpecApi.m_doc m).
Lemma passing_advances n d f m m' s : SpecApi.advances (run (knot n)) d f m m' s -> not_utf16 (SpecApi.m_doc m ++ d) -> SpecApi.m_used m <= length (SpecApi.m_doc m) -> passing m ->
  passing m' /\ SpecApi.m_doc m' = SpecApi.m_doc m ++ d /\ (s = ST_OK -> f = true -> whole m').
Proof.
  intros A U Hu [P1 P2]. unfold whole. inversion A as [? Ff|? r Ff R]; subst; cbn [SpecApi.m_doc SpecApi.m_core SpecApi.m_used SpecApi.m_failed].
  - split; [|split; [reflexivity|intros; discriminate]]. constructor; cbn [SpecApi.m_doc SpecApi.m_core SpecApi.m_used SpecApi.m_failed]; [|intros; discriminate].
    destruct P1 as [P1|(S & rest & P1)]; [left; exact P1|right]. split.
    + intros x. rewrite <- app_assoc, !S, app_assoc. reflexivity.
    + exists (rest ++ d). rewrite S, P1, app_assoc. reflexivity.
  - set (doc := SpecApi.m_doc m) in *. set (c := SpecApi.m_core m) in *. set (u := SpecApi.m_used m) in *.
    unfold run in R. set (s1 := set_evEnd None _) in R. destruct (P2 Ff) as [[Wa Z]|(St & (g & L) & D)].
    + assert (Wb : wait s1) by (apply wait_entered; exact Wa). pose proof (first_process n f (skipn u (doc ++ d)) s1) as FP. rewrite Z in *. change (skipn 0 (doc ++ d)) with (doc ++ d) in *.
      specialize (FP U Wb eq_refl). unfold W in FP. destruct (process (knot n) (doc ++ d) s1) as [rest s'|e s'|e] eqn:Ep; [| |discriminate R]; injection R as <-; cbn [Api.r_core Api.r_err Api.r_next Api.r_parsing Api.is_none negb].
      * destruct FP as [(-> & -> & Wc)|(St & Lo & (q & Eq & Eg) & Hf)].
        -- split; [|split; [reflexivity|intros; discriminate]]. constructor; cbn [SpecApi.m_doc SpecApi.m_core SpecApi.m_used SpecApi.m_failed]; [left; apply (wa_gave _ Wc)|]. intros _. left. split; [exact Wc|]. lia.
        -- cbn [List.app] in Eg. split; [|split; [reflexivity|]].
           ++ constructor; cbn [SpecApi.m_doc SpecApi.m_core SpecApi.m_used SpecApi.m_failed]; [right; split; [exact St|exists rest; congruence]|]. intros _. right. split; [exact St|]. split; [eauto|]. rewrite Eg, Eq. f_equal.
              assert (Hl : exists h, doc ++ d = h ++ rest).
              { clear -Eq. unfold without_bom in Eq. destruct (doc ++ d) as [|b0 [|b1 [|b2 x]]]; eauto. destruct (_ && _ && _); [|eauto]. exists (b0 :: b1 :: b2 :: q). cbn [List.app]. now rewrite Eq. }
              destruct Hl as [h Hl]. rewrite Hl, app_length. replace (0 + (length h + length rest - length rest)) with (length h) by lia. now rewrite skipn_app, skipn_all, Nat.sub_diag.
           ++ intros Eo ->. destruct (Hf eq_refl) as [Hs|Hr]; [rewrite Hs in Eo; discriminate Eo|]. rewrite Hr, app_nil_r in Eq. congruence.
      * pose proof (process_code _ _ _ _ _ Ep) as Ne. split; [|split; [reflexivity|]].
        -- constructor; cbn [SpecApi.m_doc SpecApi.m_core SpecApi.m_used SpecApi.m_failed].
           ++ destruct FP as [FP|(St & q & y & Eq & Eg)]; [left; exact FP|right]. split; [exact St|]. exists y. rewrite Eq, Eg. reflexivity.
           ++ intros F. destruct e; try discriminate F. congruence.
        -- intros Eo. destruct e; try (destruct (s_parsing s'); discriminate Eo). congruence.
    + assert (Lb : lone f s1) by (eapply lone_entered; exact L).
      assert (Sk : skipn u (doc ++ d) = skipn u doc ++ d) by (rewrite skipn_app; replace (u - length doc) with 0 by lia; reflexivity).
      assert (Dd : without_bom (doc ++ d) = gave c ++ skipn u (doc ++ d)) by (rewrite St, D, Sk, app_assoc; reflexivity).
      assert (St' : settled (doc ++ d)) by (intros x; rewrite <- app_assoc, !St, app_assoc; reflexivity).
      pose proof (process_pass f n (gave c) (skipn u (doc ++ d)) s1 Lb eq_refl) as FP. unfold pass, W in FP.
      set (buf := skipn u (doc ++ d)) in *.
      destruct (process (knot n) buf s1) as [rest s'|e s'|e] eqn:Ep; [| |discriminate R]; injection R as <-; cbn [Api.r_core Api.r_err Api.r_next Api.r_parsing Api.is_none negb].
      * destruct FP as (Lo & (q & Eq & Eg) & Hf). split; [|split; [reflexivity|]].
        -- assert (Ew : without_bom (doc ++ d) = gave s' ++ rest) by (rewrite Dd, Eg, Eq, app_assoc; reflexivity).
           constructor; cbn [SpecApi.m_doc SpecApi.m_core SpecApi.m_used SpecApi.m_failed]; [right; split; [exact St'|eauto]|]. intros _. right. split; [exact St'|]. split; [eauto|]. rewrite Ew. f_equal.
           rewrite <- ApiLaws.skipn_skipn. fold buf. rewrite Eq, app_length. replace (length q + length rest - length rest) with (length q) by lia. now rewrite skipn_app, skipn_all, Nat.sub_diag.
        -- intros Eo ->. destruct (Hf eq_refl) as [Hs|Hr]; [rewrite Hs in Eo; discriminate Eo|]. rewrite Hr, app_nil_r in Eq. rewrite Dd, Eg, Eq. reflexivity.
      * pose proof (process_code _ _ _ _ _ Ep) as Ne. destruct FP as (q & y & Eq & Eg). split; [|split; [reflexivity|]].
        -- constructor; cbn [SpecApi.m_doc SpecApi.m_core SpecApi.m_used SpecApi.m_failed].
           ++ right. split; [exact St'|]. exists y. rewrite Dd, Eg, Eq, app_assoc. reflexivity.
           ++ intros F. destruct e; try discriminate F. congruence.
        -- intros Eo. destruct e; try (destruct (s_parsing s'); discriminate Eo). congruence.
Qed.
Lemma not_utf16_app a b : not_utf16 (a ++ b) -> not_utf16 a.
Proof. destruct a as [|x [|y a]]; cbn; auto. Qed.
Lemma passing_call n d f a m a' s : ApiLaws.view false false a m -> passing m -> not_utf16 (SpecApi.m_doc m ++ d) -> (Z.of_nat (length d) <= Api.i32_max)%Z ->
  XML_Parse n d f a = Ok (a', s) -> exists m', ApiLaws.view false false a' m' /\ passing m' /\ (SpecApi.m_doc m' = SpecApi.m_doc m \/ SpecApi.m_doc m' = SpecApi.m_doc m ++ d) /\
    (s = ST_OK -> SpecApi.m_doc m' = SpecApi.m_doc m ++ d /\ (f = true -> whole m')).
Proof.
  intros V P U L H. destruct (ApiLaws.parse_sim (run (knot n)) start position false false (DocRun.run_bounds n) d f true a m a' s V L H) as (m' & C & V'). exists m'. split; [exact V'|].
  inversion C; subst.
  - match goal with B : SpecApi.begins _ _ _ ?m1, A : SpecApi.advances _ _ _ _ _ _ |- _ => destruct (passing_begins _ _ B P) as (P1 & E1 & E2);
      apply passing_advances in A; [|rewrite E1; exact U|pose proof (ApiLaws.v_arith _ _ _ _ V); rewrite E1, E2; lia|exact P1]; destruct A as (A1 & A2 & A3) end.
    rewrite E1 in *. split; [exact A1|]. rewrite A2. auto.
  - match goal with B : SpecApi.begins _ _ _ _ |- _ => destruct (passing_begins _ _ B P) as ([P1 P2] & E1 & E2) end.
    split; [constructor; assumption|]. cbn [SpecApi.with_final SpecApi.m_doc]. rewrite app_nil_r. split; [auto|]. intros _. split; [auto|discriminate].
  - split; [destruct P; constructor; assumption|]. split; [left; reflexivity|discriminate].
  - match goal with B : SpecApi.begins _ _ _ _ |- _ => destruct (passing_begins _ _ B P) as ([P1 P2] & E1 & E2) end.
    split; [constructor; assumption|]. split; [left; exact E1|discriminate].
Qed.
Lemma passing_all n : forall chunks a m a' l, ApiLaws.view false false a m -> passing m -> not_utf16 (SpecApi.m_doc m ++ flat_map fst chunks) ->
  Forall (fun c => (Z.of_nat (length (fst c)) <= Api.i32_max)%Z) chunks -> parse_all (knot n) chunks a = Ok (a', l) ->
  exists m' rest, ApiLaws.view false false a' m' /\ passing m' /\ SpecApi.m_doc m ++ flat_map fst chunks = SpecApi.m_doc m' ++ rest /\
    (l = map (fun _ => ST_OK) chunks -> rest = [] /\ (chunks <> [] -> last (map snd chunks) false = true -> whole m')).
Proof.
  induction chunks as [|[b f] chunks IH]; intros a m a' l V P U L E; cbn [parse_all] in E.
  - injection E as <- <-. exists m, []. cbn. rewrite app_nil_r. repeat (split; auto). congruence.
  - inversion L as [|? ? Lb Ll]; subst. cbn [flat_map fst] in *. rewrite app_assoc in U.
    destruct (Api.parse (run (knot n)) start position b f true a) as [[a1 s]|] eqn:Ep; [|discriminate]. cbn [bind] in E.
    destruct (passing_call n b f a m a1 s V P (not_utf16_app _ _ U) Lb Ep) as (m1 & V1 & P1 & D1 & K1).
    assert (Z : s <> ST_OK -> Ok (a1, [s]) = Ok (a', l) -> exists m' rest, ApiLaws.view false false a' m' /\ passing m' /\ SpecApi.m_doc m ++ b ++ flat_map fst chunks = SpecApi.m_doc m' ++ rest /\
       (l = map (fun _ => ST_OK) ((b, f) :: chunks) -> rest = [] /\ ((b, f) :: chunks <> [] -> last (map snd ((b, f) :: chunks)) false = true -> whole m'))).
    { intros N F. injection F as <- <-. exists m1. destruct D1 as [D1|D1]; rewrite D1; [exists (b ++ flat_map fst chunks)|exists (flat_map fst chunks)]; rewrite <- ?app_assoc; (repeat (split; [assumption || reflexivity|])); intros X; cbn [map] in X; congruence. }
    destruct s; try (apply Z; [discriminate|exact E]). clear Z D1. destruct (K1 eq_refl) as (D1 & W1).
    destruct (parse_all (knot n) chunks a1) as [[a2 l2]|] eqn:Er; [|discriminate]. cbn [bind] in E. injection E as <- <-.
    destruct (IH a1 m1 a2 l2 V1 P1) as (m2 & rest & V2 & P2 & D2 & K2); [rewrite D1; exact U|exact Ll|exact Er|].
    exists m2, rest. split; [exact V2|]. split; [exact P2|]. split; [rewrite app_assoc, <- D1; exact D2|]. intros X. cbn [map] in X. injection X as X. destruct (K2 X) as (K3 & K4). split; [exact K3|].
    intros _ F. destruct chunks as [|c chunks]; [|apply K4; [discriminate|exact F]]. cbn in Er. injection Er as <- <-.
    subst rest. cbn [flat_map] in D2. rewrite !app_nil_r in D2. unfold whole. rewrite <- D2, <- (ApiLaws.v_core _ _ _ _ V2), (ApiLaws.v_core _ _ _ _ V1). apply W1. exact F.
Qed.
Lemma passthrough c foreign base n chunks a l :
  defaults_only c -> not_utf16 (flat_map fst chunks) -> Forall (fun x => (Z.of_nat (length (fst x)) <= 2147483647)%Z) chunks ->
  parse_all (knot n) chunks (new_parser (root c (Some (ascii "UTF-8")) PEP_NEVER foreign base)) = Ok (a, l) ->
  (exists rest, without_bom (flat_map fst chunks) = passed (s_log (Api.core a)) ++ rest) /\
  (l = map (fun _ => ST_OK) chunks -> last (map snd chunks) false = true -> passed (s_log (Api.core a)) = without_bom (flat_map fst chunks)).
Proof.
  intros [Hh He] U L E. set (s := root _ _ _ _ _) in *.
  assert (Wa : wait s) by (constructor; try assumption; try reflexivity; left; reflexivity).
  destruct (passing_all n chunks _ (SpecApi.machine0 s) a l (ApiLaws.view_fresh false false s)) as (m & rest & V & P & D & K); [|exact U|exact L|exact E|].
  - constructor; [left; exact (wa_gave _ Wa)|]. intros _. left. split; [exact Wa|reflexivity].
  - cbn [SpecApi.machine0 SpecApi.m_doc List.app] in D. rewrite (ApiLaws.v_core _ _ _ _ V). change (passed (s_log (SpecApi.m_core m))) with (gave (SpecApi.m_core m)). split.
    + destruct (ps_some _ P) as [G|(S & r & G)]; [rewrite G; eexists; reflexivity|]. exists (r ++ rest). rewrite D, S, G, app_assoc. reflexivity.
    + intros O F. destruct (K O) as (-> & W). rewrite app_nil_r in D. rewrite D. apply W; [|exact F]. intros ->. discriminate F.
Qed.
