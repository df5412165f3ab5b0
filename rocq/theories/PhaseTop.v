(* The places of a document between calls, and what its end means. *)
From Coq Require Import List NArith ZArith Bool Arith Lia.
From Verif Require Import Base Encoding Tok TokMisc Norm XmlDecl Status Role State AttVal Bind Atts Scaf Content Prolog Core.
From Verif Require Import Keep SpecNest EncLaws TokInst Nest NestTop PhaseLeaf PhaseRole Phase PhaseCont.
From Verif Require Api ApiInv SpecApi ApiTop.
Import ListNotations.
Local Open Scope nat_scope.

(* ---- the external entity handler ---- *)
Lemma ext_Z r a b c d : keeps Z Z (ext r a b c d).
Proof.
  intros s0. unfold ext, pbind. set (ev := EvExternalEntityRef a b c d).
  pose proof (zp_call ev s0) as Hcall. destruct (call ev s0) as [re s|e s|e]; [|apply Hcall|exact I].
  destruct (child_plan re) as [[enc chunks]|]; [|exact Hcall].
  destruct (child_parser a enc s) as [[ch|]|]; [|exact Hcall|exact I].
  destruct (parse_all r chunks (new_parser ch)) as [[a' l]|]; [|exact I].
  eapply (f_trans _ _ frame_Z); [exact Hcall|]. destruct a; apply Z_same; reflexivity.
Qed.
Lemma ext_E r a b c d s : pw (ext r a b c d) s (fun _ s' => s_enc s' = s_enc s).
Proof.
  unfold pw, ext, pbind, call. set (s1 := set_parsing _ _). assert (E1 : s_enc s1 = s_enc s) by reflexivity. clearbody s1.
  destruct (child_plan _) as [[enc chunks]|]; [|exact E1].
  destruct (child_parser a enc s1) as [[ch|]|]; [|exact E1|exact I].
  destruct (parse_all r chunks (new_parser ch)) as [[a' l]|]; [|exact I]. destruct a; exact E1.
Qed.

Record ph (r : recs) : Prop := {
  p_good : good r;
  p_Z : forall a b c d, keeps Z Z (rc_ext r a b c d);
  p_E : forall a b c d s, pw (rc_ext r a b c d) s (fun _ s' => s_enc s' = s_enc s);
  p_C : forall l t b h s, Cpre l t b h s -> pw (rc_content r l t b h) s (Cpost t l (s_processor s) (s_final s) b (Afresh s));
  p_P : forall t b k n h a s, Ppre t b k h a s -> pw (rc_prolog r t b k n h a) s (Ppost t (s_processor s) (s_final s) b)
}.
Lemma ph_knot n : ph (knot n).
Proof.
  induction n as [|n [A B C D E]].
  - split; [apply (good_knot 0)|..]; cbn; intros; first [exact I|apply keeps_die].
  - split; [apply good_knot|..]; cbn [knot rc_content rc_prolog rc_ext]; intros.
    + apply ext_Z.
    + apply ext_E.
    + apply doContent_phase; auto. apply (g_ext _ A).
    + apply doProlog_phase; auto. apply (g_ext _ A).
Qed.

(* ---- between calls ---- *)
Definition Ph (s : st) (u : bytes) : Prop :=
  match s_processor s with
  | PrPrologInit | PrProlog => Afresh s
  | PrContent => Aliv s \/ (Afresh s /\ ahead s u)
  | PrCdata => Aliv s
  | PrEpilog => Adone s
  | _ => False
  end.
Lemma Ph_more s u x : Ph s u -> Ph s (u ++ x).
Proof.
  unfold Ph. destruct (s_processor s); auto. intros [Ha|[Ha (e & E & Ht)]]; [left; exact Ha|right]. split; [exact Ha|].
  exists e. split; [exact E|]. apply tag_ahead_more; [|exact Ht]. apply fresh_enc in Ha. unfold enc_good in Ha. rewrite E in Ha. exact Ha.
Qed.
Definition after (b rest : bytes) (f : bool) (s' : st) : Prop :=
  s_parsing s' = SUSPENDED \/ (Adone s' /\ s_processor s' = PrEpilog) \/
  (f = false /\ (s_parsing s' = FINISHED \/ (forall u, Ph s' u) \/ (suffix rest b /\ Ph s' rest))).
Lemma Cpost_after b f F rest s' : Cpost ENormal 0 PrContent f b F rest s' -> after b rest f s'.
Proof.
  intros [E H]. unfold after, Ph. destruct H as [H|[H|[H [H1|[[H1 [H2|H2]]|(H1 & H2 & H3 & -> & _)]]]]]; auto; right; right; (split; [exact H|]); right.
  - left. intros u. rewrite H2. auto.
  - left. intros u. rewrite H2. auto.
  - right. split; [apply suffix_refl|]. rewrite H3. auto.
Qed.
Lemma Cpost_liv b b0 f (F : Prop) rest s' : ~ F -> Cpost ENormal 0 PrContent f b F rest s' -> after b0 rest f s'.
Proof.
  intros HF [E H]. unfold after, Ph. destruct H as [H|[H|[H [H1|[[H1 [H2|H2]]|(_ & _ & _ & _ & H1)]]]]]; auto; [| |contradiction]; right; right; (split; [exact H|]); right; left; intros u; rewrite H2; auto.
Qed.
Lemma Ppost_after b f rest s' : Ppost ENormal PrProlog f b rest s' -> after b rest f s'.
Proof.
  intros [E H]. unfold after, Ph. destruct H as [H|[H|[H [H1|[[H1 [H2|H2]]|[(H1 & H2 & H3 & H4)|[H1 H2]]]]]]]; auto; right; right; (split; [exact H|]); right.
  - left. intros u. rewrite H2. auto.
  - left. intros u. rewrite H2. auto.
  - right. split; [exact H4|]. rewrite H3. auto.
  - left. intros u. rewrite H2. auto.
Qed.
Section R.
Variable r : recs.
Hypothesis Hr : ph r.
Let HxN := g_ext r (p_good r Hr).
Let HxZ := p_Z r Hr.
Lemma content_after b s : s_processor s = PrContent -> Aliv s \/ (Afresh s /\ ahead s b) -> pw (contentProcessor r b) s (fun rest s' => after b rest (s_final s) s').
Proof.
  intros Ep Hs. unfold contentProcessor. apply pw_bind, pw_get. eapply pw_imp; [apply (p_C r Hr)|].
  - split; [discriminate|]. split; [intros _; split; [reflexivity|]; destruct (s_final s); [discriminate|reflexivity]|].
    destruct Hs as [Hs|Hs]; [left; split; [exact Hs|lia]|right; split; [reflexivity|exact Hs]].
  - intros rest s' H. rewrite Ep in H. eapply Cpost_after, H.
Qed.
Lemma prolog_after b s : s_processor s = PrProlog -> Afresh s -> pw (prologProcessor r b) s (fun rest s' => after b rest (s_final s) s').
Proof.
  intros Ep Hs. unfold prologProcessor. apply pw_bind.
  eapply (pw_imp _ _ (fun x s1 => Jf PrProlog (s_final s) s1 /\ (fst x = T_INSTANCE_START -> ahead s1 b))).
  { apply pw_and; [|apply pw_scan_start, fresh_enc, Hs]. eapply pwJ; [apply Jf_c|split; [apply kp_scan|apply zp_scan]|split; [exact Hs|split; [exact Ep|reflexivity]]|auto]. }
  intros [k n] s1 [(A & B & C) Hk]. apply pw_bind, pw_get. eapply pw_imp; [apply (p_P r Hr)|].
  - split; [exact A|]. split; [discriminate|]. intros _. split; [reflexivity|exact Hk].
  - intros rest s' H. rewrite B, C in H. apply Ppost_after, H.
Qed.
Lemma process_phase b s : Ph s b -> pw (process r b) s (fun rest s' => after b rest (s_final s) s').
Proof.
  unfold Ph, process. intros Hs. apply pw_bind, pw_get. destruct (s_processor s) eqn:Ep; try contradiction.
  - unfold prologInitProcessor. apply pw_bind.
    eapply (pwJ (Jf PrPrologInit (s_final s))); [apply Jf_c|split; [apply kg_initializeEncoding|apply zg_initializeEncoding]|split; [exact Hs|auto]|].
    intros _ s1 (A & B & C). apply pw_bind. unfold upd at 1. unfold pw at 1. rewrite <- C.
    apply (prolog_after b (set_processor PrProlog s1)); [reflexivity|]. eapply fresh_same; [..|exact A]; try reflexivity. apply A.
  - apply prolog_after; assumption.
  - apply content_after; assumption.
  - unfold cdataSectionProcessor. apply pw_bind, pw_get. apply pw_bind.
    eapply (pw_imp _ _ (fun x s1 => (Aliv s1 /\ flds s s1) /\ match x with inl _ => negb (s_final s) = true \/ s_parsing s1 = SUSPENDED | inr _ => True end)).
    { apply pw_and; [|apply pw_cdata_stop]. apply pw_leaf; [split; [apply kp_doCdataSection|apply zp_doCdataSection]|]. intros a s1 HS. exact (liv_S _ _ HS Hs). }
    intros [rest|rest] s1 [[A F] Hstop]; cbv beta iota.
    + unfold pw, pret, after, Ph. destruct Hstop as [Hst|Hst]; [|auto]. right; right. split; [destruct (s_final s); [discriminate Hst|reflexivity]|].
      right; left. intros u. destruct F as [_ _ _ F4 _ _ _]. rewrite F4, Ep. exact A.
    + apply pw_bind, pw_get. assert (Ec : s_child s1 = false) by (destruct A as [[] _]; assumption). rewrite Ec.
      apply pw_bind. unfold upd at 1. unfold pw at 1.
      set (s2 := set_processor PrContent s1). assert (A2 : Aliv s2) by (revert A; apply liv_same; reflexivity).
      unfold contentProcessor. apply pw_bind, pw_get. eapply pw_imp; [apply (p_C r Hr)|].
      * split; [discriminate|]. split; [intros _; split; [reflexivity|]; destruct (s_final s2); [discriminate|reflexivity]|]. left. split; [exact A2|lia].
      * intros x s3 H3. assert (Ef : s_final s2 = s_final s) by apply F. rewrite Ef in H3. eapply Cpost_liv; [|exact H3]. intros Hf. eapply liv_fresh; eassumption.
  - eapply pw_imp; [apply pw_epilog with (f := s_final s); [exact Hs|reflexivity]|]. intros x s1 (A & B & C). right; left. auto.
Qed.
Lemma Ph_same s s' u : s_cfg s' = s_cfg s -> s_pid s' = s_pid s -> s_tags s' = s_tags s -> s_log s' = s_log s ->
  s_child s' = s_child s -> s_isParam s' = s_isParam s -> s_tagLevel s' = s_tagLevel s -> s_role s' = s_role s ->
  s_enc s' = s_enc s -> s_processor s' = s_processor s -> Ph s u -> Ph s' u.
Proof.
  intros E1 E2 E3 E4 E5 E6 E7 E8 E9 E10. unfold Ph. rewrite E10.
  assert (Hf : Afresh s -> Afresh s') by (intros A; eapply fresh_same; [..|exact A]; try assumption; rewrite E8; apply A).
  assert (Hl : Aliv s -> Aliv s') by (apply liv_same; assumption).
  assert (Hd : Adone s -> Adone s') by (apply done_same; assumption).
  destruct (s_processor s); auto. intros [A|[A B]]; [auto|right]. split; [auto|]. eapply ahead_enc; eassumption.
Qed.
Lemma suffix_skip x b : suffix x b -> skipn (length b - length x) b = x.
Proof.
  intros [k ->]. rewrite skipn_length. destruct (le_lt_dec k (length b)) as [L|L].
  - replace (length b - (length b - k)) with k by lia. reflexivity.
  - rewrite !skipn_all2 by lia. reflexivity.
Qed.
Lemma run_phase c p f b x : Ph c b -> run r c p f b = Ok x -> Api.is_none (Api.r_err x) = true ->
  Api.r_parsing x = SUSPENDED \/
  ((f = true -> Adone (Api.r_core x)) /\ (Api.r_parsing x = FINISHED \/ Ph (Api.r_core x) (skipn (Api.r_next x) b))).
Proof.
  intros Hc E. unfold run in E. set (c1 := set_evEnd None _) in E.
  assert (Hc1 : Ph c1 b) by (revert Hc; apply Ph_same; reflexivity).
  pose proof (process_phase b c1 Hc1) as Hp. change (s_final c1) with f in Hp. clearbody c1. unfold pw in Hp.
  destruct (process r b c1) as [rest s'|e s'|e] eqn:Ep; [| |discriminate].
  2:{ injection E as <-. cbn. pose proof (kg_process r (p_good r Hr) b c1) as Hg. rewrite Ep in Hg. destruct Hg as [Hg _].
      intros Hn. destruct e; try discriminate Hn. elim Hg. reflexivity. }
  injection E as <-. cbn. intros _. destruct Hp as [H|[[H1 H2]|[H [H1|[H1|[H1 H2]]]]]]; [left; exact H|right..].
  - split; [auto|]. right. unfold Ph. rewrite H2. exact H1.
  - split; [congruence|]. left. exact H1.
  - split; [congruence|]. right. apply H1.
  - split; [congruence|]. right. rewrite suffix_skip by exact H1. exact H2.
Qed.
End R.

Lemma frame_E : frame Ex Ex.
Proof. unfold Ex. split; intros; congruence. Qed.
Lemma E_call ev : keeps Ex Ex (call ev). Proof. intros s. reflexivity. Qed.
Lemma E_addBinding p a u bs : keeps Ex Ex (addBinding p a u bs).
Proof. unfold addBinding, upd_dtd, emit. walk frame_E ltac:(first [apply E_call|intros ?; reflexivity]). Qed.
Lemma Ex_setContext_loop fuel : forall acc s, keeps Ex Ex (setContext_loop fuel acc s).
Proof. induction fuel as [|fuel IH]; intros acc s; cbn [setContext_loop]; unfold upd_entity, upd_dtd; walk frame_E ltac:(first [apply IH|apply E_addBinding|intros ?; reflexivity]). Qed.

Lemma start_SE c c' : start c = Ok (Some c') -> SE c c'.
Proof.
  intros E. unfold start in E. destruct (c_ns (s_cfg c)); [|injection E as <-; apply SE_refl].
  pose proof (kp_setContext implicitContext c) as H1. pose proof (zp_setContext implicitContext c) as H2.
  pose proof (Ex_setContext_loop (2 + length implicitContext) [] implicitContext c) as H3. change (setContext_loop _ _ _ c) with (setContext implicitContext c) in H3.
  destruct (setContext implicitContext c) as [[] s|e s|e]; try discriminate. injection E as <-. split; [split; assumption|exact H3].
Qed.
Lemma Ph_SE s s' u : SE s s' -> Ph s u -> Ph s' u.
Proof.
  intros [HS HE]. unfold Ph. intros Hp.
  assert (He : enc_good s).
  { destruct (s_processor s); try contradiction; try (now apply fresh_enc); try (now apply liv_enc); try (now apply done_enc).
    destruct Hp as [Hp|[Hp _]]; [now apply liv_enc|now apply fresh_enc]. }
  assert (Ep : s_processor s' = s_processor s) by (destruct HS as [_ HZ]; apply HZ in He as [_ []]; assumption). rewrite Ep.
  destruct (s_processor s); try contradiction; try (apply (fresh_S _ _ HS Hp)); try (apply (liv_S _ _ HS Hp)); try (apply (done_S _ _ HS Hp)).
  destruct Hp as [Hp|[Hp Ha]]; [left; apply (liv_S _ _ HS Hp)|right]. split; [apply (fresh_S _ _ HS Hp)|]. eapply ahead_enc; eassumption.
Qed.

(* ---- histories ---- *)
Section Hist.
Variable n : nat.
Notation calls1 := (SpecApi.calls (run (knot n)) start false false).
Notation call1 := (SpecApi.call (run (knot n)) start false false).
Import SpecApi.
Definition MI (m : machine st) : Prop :=
  m_used m <= length (m_doc m) /\
  (m_failed m = false -> m_status m = INITIALIZED \/ m_status m = PARSING -> Ph (m_core m) (skipn (m_used m) (m_doc m))).
Lemma begins_MI m m1 : MI m -> begins start false m m1 -> MI m1 /\ m_status m1 = PARSING.
Proof.
  intros [Hu Hm] Hb. destruct Hb as [m E|m E Ec|m c E Ec Es]; [|discriminate Ec|].
  - split; [split; assumption|exact E].
  - split; [|reflexivity]. split; [exact Hu|]. cbn. intros Hf _. eapply Ph_SE; [eapply start_SE; exact Es|]. apply Hm; auto.
Qed.
Lemma advances_MI d f m m' s : MI m -> m_status m = PARSING -> advances (run (knot n)) d f m m' s ->
  MI m' /\ (f = true -> s = ST_OK -> Adone (m_core m')).
Proof.
  intros [Hu Hm] Hst Ha. destruct Ha as [m Hf|m x Hf Er].
  - split; [|discriminate]. split; [cbn; rewrite app_length; lia|]. cbn. discriminate.
  - assert (Hb : skipn (m_used m) (m_doc m ++ d) = skipn (m_used m) (m_doc m) ++ d).
    { rewrite skipn_app. replace (m_used m - length (m_doc m)) with 0 by lia. reflexivity. }
    assert (Hp : Ph (m_core m) (skipn (m_used m) (m_doc m ++ d))) by (rewrite Hb; apply Ph_more, Hm; auto).
    pose proof (run_phase (knot n) (ph_knot n) _ _ _ _ _ Hp Er) as Hx.
    assert (Hn : Api.r_next x <= length (skipn (m_used m) (m_doc m ++ d))).
    { unfold run in Er. destruct (process _ _ _); try discriminate; injection Er as <-; cbn; lia. }
    split.
    + split; [cbn; rewrite skipn_length in Hn; rewrite app_length in *; lia|]. cbn. intros Hnf Hs.
      apply negb_false_iff in Hnf. specialize (Hx Hnf). destruct (Api.r_err x); try discriminate Hnf.
      rewrite <- skipn_add. destruct Hx as [Hx|[_ [Hx|Hx]]]; [rewrite Hx in Hs; destruct Hs; discriminate|rewrite Hx in Hs; destruct Hs; discriminate|exact Hx].
    + cbn. intros -> Hs. destruct (Api.r_err x); try discriminate Hs. specialize (Hx eq_refl).
      destruct Hx as [Hx|[Hx _]]; [rewrite Hx in Hs; discriminate|auto].
Qed.
Definition final_call (o : Api.op (C := st)) : Prop := match o with Api.OpParse _ true _ | Api.OpParseBuffer _ true => True | _ => False end.
Lemma call_MI m o m' x : ApiInv.plain o -> MI m -> call1 m o m' x ->
  MI m' /\ (final_call o -> x = Api.A_status ST_OK -> Adone (m_core m')).
Proof.
  intros Hpl Hm Hc. pose proof Hm as [Hu Hp]. destruct Hc; try contradiction;
    try (match goal with K : begins _ _ _ ?m1, A : advances _ _ _ ?m1 _ _ |- _ =>
        let H3 := fresh in let H4 := fresh in let H5 := fresh in let H6 := fresh in
        destruct (begins_MI _ _ Hm K) as [H3 H4]; destruct (advances_MI _ _ _ _ _ H3 H4 A) as [H5 H6]; split; [exact H5|];
        intros Hf Hx; injection Hx as ->; destruct f; [|contradiction]; auto
      end);
    try (match goal with K : begins _ _ _ ?m1 |- _ =>
        let H3 := fresh in let H4 := fresh in let H5 := fresh in
        destruct (begins_MI _ _ Hm K) as [[H3 H4] H5]; split; [split; [exact H3|exact H4]|first [discriminate|intros []]]
      end);
    try (split; [exact Hm|first [discriminate|intros []]]);
    (split; [|intros []]; split; [exact Hu|]; cbn; intros _ [E|E]; discriminate).
Qed.
Lemma calls_snoc os o : forall m m' l, calls1 m (os ++ [o]) m' l -> exists m1 l1 x, calls1 m os m1 l1 /\ call1 m1 o m' x /\ l = l1 ++ [x].
Proof.
  induction os as [|o1 os IH]; intros m m' l Hc; cbn [app] in Hc; inversion Hc as [|? ? m1 x ? ? l1 K1 K2]; subst.
  - inversion K2; subst. exists m, [], x. split; [constructor|]. split; [exact K1|reflexivity].
  - apply IH in K2 as (m2 & l2 & y & A & B & ->). exists m2, (x :: l2), y. split; [econstructor; eassumption|]. split; [exact B|reflexivity].
Qed.
Lemma calls_MI os : forall m m' l, Forall ApiInv.plain os -> MI m -> calls1 m os m' l -> MI m'.
Proof.
  induction os as [|o1 os IH]; intros m m' l Ho Hm Hc; inversion Hc as [|? ? m1 x ? ? l1 K1 K2]; subst; [exact Hm|].
  inversion Ho; subst. destruct (call_MI _ _ _ _ H1 Hm K1) as [Hm1 _]. eapply IH; eassumption.
Qed.
Lemma calls_done os o m m' l : Forall ApiInv.plain (os ++ [o]) -> MI m -> calls1 m (os ++ [o]) m' (l ++ [Api.A_status ST_OK]) -> final_call o -> Adone (m_core m').
Proof.
  intros Ho Hm Hc Hf. apply calls_snoc in Hc as (m1 & l1 & x & Hc & H1 & E). apply Forall_app in Ho as [Ho Ho1]. inversion Ho1; subst.
  apply app_inj_tail in E as [-> <-]. destruct (call_MI _ _ _ _ H2 (calls_MI _ _ _ _ Ho Hm Hc) H1) as [_ Hd]. auto.
Qed.
End Hist.

Lemma root_fresh cfg enc pep foreign base : h_startElement (c_h cfg) = true -> h_endElement (c_h cfg) = true ->
  Ph (root cfg enc pep foreign base) [].
Proof.
  intros H1 H2. pose proof (root_inv cfg enc pep foreign base H1 H2) as Hi.
  unfold Ph. cbn. split; [|split; reflexivity]. split; try reflexivity. exact Hi.
Qed.

Lemma complete cfg enc pep foreign base n os o a l :
  h_startElement (c_h cfg) = true -> h_endElement (c_h cfg) = true -> Forall ApiInv.plain (os ++ [o]) -> Forall SpecApi.small (os ++ [o]) ->
  Api.steps (run (knot n)) start position (os ++ [o]) (new_parser (root cfg enc pep foreign base)) = Ok (a, l ++ [Api.A_status ST_OK]) ->
  SpecApi.disciplined 0 0 (os ++ [o]) (l ++ [Api.A_status ST_OK]) -> final_call o ->
  one_element (elements 0 (s_log (Api.core a))).
Proof.
  intros H1 H2 Hp Hs E Hd Ho.
  assert (Hb : SpecApi.in_bounds (run (knot n))).
  { intros c p f b x Er. unfold run in Er. destruct (process _ _ _) as [rest s'|e s'|e]; try discriminate; injection Er as <-; cbn; (split; [lia|]);
      intros k; destruct (s_ev s'); intros Ek; try discriminate; injection Ek as <-; lia. }
  destruct (ApiTop.stream (run (knot n)) start position false false Hb (root cfg enc pep foreign base) (os ++ [o]) a (l ++ [Api.A_status ST_OK]) Hs E Hd) as (m & Hc & Em & _).
  eapply calls_done in Hc; [|exact Hp| |exact Ho].
  2:{ split; [cbn; lia|]. cbn. intros _ _. apply root_fresh; assumption. }
  rewrite <- Em in Hc. destruct Hc as (_ & _ & Hone). unfold mine in Hone.
  assert (Ha : ApiInv.holds (I0 (root cfg enc pep foreign base)) (W0 (root cfg enc pep foreign base)) a).
  { eapply (ApiInv.steps_inv (run (knot n)) start position); [apply I0_W0|intros; eapply run_inv; [apply good_knot|eassumption|eassumption]
      |intros; eapply start_inv; eassumption|intros; eapply start_invW; eassumption|exact Hp| |exact E].
    split; [apply root_inv; assumption|apply grown_refl]. }
  assert (Ep : s_pid (Api.core a) = 0).
  { unfold ApiInv.holds in Ha. destruct (Api.failed a); destruct Ha as [_ Hg]; rewrite (gr_pid _ _ Hg); reflexivity. }
  rewrite Ep in Hone. exact Hone.
Qed.
