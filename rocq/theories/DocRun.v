(* A document from the first call of XML_Parse to the last. *)
From Coq Require Import String List NArith ZArith Bool Lia Arith.
From Coq Require Import ZifyBool ZifyNat ZifyN.
From Verif Require Import Base Encoding SpecText SpecUnicode SpecNames SpecLex SpecMisc Tok TokMisc UniLaws CpBase CpMisc MiscTop XmlDecl.
From Verif Require Import Status Role State AttVal Bind Atts Content Prolog Core SpecAttVal SpecAtts AttNorm AttsLaws.
From Verif Require Import SpecDoc DocLaws DocTok DocItem DocAct DocTop.
From Verif Require Api SpecApi ApiLaws DocApi.
From Coq Require Import List.
Import ListNotations.
Local Open Scope nat_scope.

(* ---- the first two bytes ---- *)
Definition starts (t : ByteType) : bool :=
  match t with BT_NMSTRT | BT_HEX | BT_NONASCII | BT_LEAD2 | BT_LEAD3 | BT_LEAD4 => true | _ => false end.
Lemma start_tok b1 r t : byte_type u8 (b1 :: r) = Ok t -> starts t = true -> prologTok u8 (60%N :: b1 :: r) = Ok (T_INSTANCE_START, Some 0).
Proof.
  intros B S. unfold prologTok. change (is_nil (60%N :: b1 :: r)) with false. change (round_down u8 (60%N :: b1 :: r)) with (60%N :: b1 :: r). change (is_nil (60%N :: b1 :: r)) with false. cbn iota.
  assert (Bt : bt_at u8 1 (60%N :: b1 :: r) = Ok (Cont t (60%N :: b1 :: r))).
  { unfold bt_at. change (inc_start (1 * minbpc u8) (60%N :: b1 :: r)) with (Ok (b1 :: r)). unfold bind at 1. rewrite B. reflexivity. }
  assert (E : @prologScan u8 Empty_set (60%N :: b1 :: r) = Ok (Stop T_INSTANCE_START (Some (60%N :: b1 :: r)))).
  { unfold prologScan, mbind. change (bt u8 (60%N :: b1 :: r)) with (Ok (Cont BT_LT (60%N :: b1 :: r))). cbn iota. change (lead_len BT_LT) with (@None nat). cbn iota.
    cbv beta. change (require_chars u8 2 (60%N :: b1 :: r)) with (Ok (Cont tt (60%N :: b1 :: r))). cbn iota.
    rewrite Bt. destruct t; try discriminate S; reflexivity. }
  unfold Tok.run. rewrite E. cbn [option_map]. rewrite Nat.sub_diag. reflexivity.
Qed.
Definition first_byte (b : N) : bool := match byte_type u8 [b] with Ok t => starts t | Err _ => false end.
Lemma start_first c : start_char false false c = true -> is_scalar c = true -> exists b1 q, utf8_encode c = b1 :: q /\ first_byte b1 = true /\ b1 <> 0%N.
Proof.
  intros Hs Hc. destruct (c <? 128)%N eqn:E.
  - exists c, []. unfold utf8_encode. rewrite E. split; [reflexivity|]. split.
    + assert (Hlt : (c < 128)%N) by lia. clear -Hs Hlt.
      assert (G : forallb (fun i => implb (start_char false false (N.of_nat i)) (first_byte (N.of_nat i))) (seq 0 128) = true) by (vm_compute; reflexivity).
      rewrite forallb_forall in G. specialize (G (N.to_nat c)). rewrite N2Nat.id, Hs in G. apply G. apply in_seq. lia.
    + intros ->. discriminate Hs.
  - assert (G : forallb (fun i => first_byte (N.of_nat i)) (seq 192 53) = true) by (vm_compute; reflexivity).
    assert (B : forall b, (192 <= b < 245)%N -> first_byte b = true).
    { intros b Hb. rewrite forallb_forall in G. specialize (G (N.to_nat b)). rewrite N2Nat.id in G. apply G. apply in_seq. lia. }
    pose proof (scalar_max c Hc). unfold utf8_encode. rewrite E. destruct (c <? 2048)%N eqn:E2; [|destruct (c <? 65536)%N eqn:E3]; eexists _, _; (split; [reflexivity|]).
    + assert ((c / 64 < 32)%N) by (apply N.div_lt_upper_bound; lia). split; [apply B|]; lia.
    + assert ((c / 4096 < 16)%N) by (apply N.div_lt_upper_bound; lia). split; [apply B|]; lia.
    + assert ((c / 262144 < 5)%N) by (apply N.div_lt_upper_bound; lia). split; [apply B|]; lia.
Qed.
Lemma root_start l : inside [] l -> l <> [] -> all_in is_scalar (text l) -> exists b1 q, utf8 (text l) = 60%N :: b1 :: q /\ first_byte b1 = true /\ b1 <> 0%N.
Proof.
  intros H Hl Hs. assert (X : exists name tl, text l = txt "<" ++ name ++ tl /\ is_name false false name).
  { inversion H; subst; try congruence; cbn [text flat_map item_text piece_text]; unfold tag_text; rewrite <- !app_assoc; eexists _, _; (split; [reflexivity|]);
      apply qname_name; match goal with H : tag_good _ _ _ _ |- _ => apply H end. }
  destruct X as (name & tl & E & c & r & -> & Hc & _). rewrite E in *. apply scalar_app in Hs as [_ Hs]. inversion Hs; subst.
  destruct (start_first c Hc) as (b1 & q & Eq & F & Z); [assumption|]. rewrite utf8_app. change (utf8 (txt "<")) with [60%N]. cbn [List.app]. rewrite utf8_cons, Eq. cbn [List.app]. eauto.
Qed.

(* ---- up to the root element ---- *)
Section Run.
Variables (cfg : config) (pep : pe_parsing) (base : option bytes).
Hypothesis AT : attentive cfg.
Definition s0 : st := root cfg None pep false base.
Definition prolog1 : pstate := match token_role u8 (prolog_init prolog_default) T_INSTANCE_START [] with Ok (p, _) => p | Err _ => prolog_default end.
Definition sref : st := set_enc (EKnown u8) (set_role prolog1 s0).
Lemma EV : docenv sref.
Proof. destruct AT as (A1 & A2 & A3). constructor; [exact A1|reflexivity|exact A2|exact A3|reflexivity|reflexivity]. Qed.
Record early (s : st) : Prop := {
  ea_cfg : s_cfg s = cfg;
  ea_protocol : s_protocol s = None;
  ea_role : s_role s = prolog_init prolog_default;
  ea_dtd : s_dtd s = dtd0;
  ea_open : s_open s = [];
  ea_level : s_tagLevel s = 0;
  ea_tags : s_tags s = [];
  ea_child : s_child s = false;
  ea_foreign : s_foreign s = false;
  ea_log : s_log s = [];
  ea_at : s_processor s = PrPrologInit \/ (s_processor s = PrProlog /\ s_enc s = EInit NO_ENC)
}.
Lemma early_new : early s0.
Proof. constructor; try reflexivity. left. reflexivity. Qed.
Lemma tame0 s : s_cfg s = cfg -> s_dtd s = dtd0 -> tame s.
Proof.
  intros E1 E2. split.
  - constructor; rewrite ?E2; cbn; try discriminate; try (intros; contradiction); auto. intros p b H. destruct p; discriminate H.
  - intros el. unfold declarations. rewrite E2. reflexivity.
Qed.
Lemma prolog_goes n k l b x s f : early s -> s_processor s = PrProlog -> s_enc s = EInit NO_ENC -> s_parsing s = PARSING -> s_final s = f ->
  inside [] l -> l <> [] -> Forall (item_reads sref k) l -> all_in is_scalar (text l) -> b ++ x = utf8 (text l) -> b <> [] -> (f = true -> x = []) -> k + length b + 4 <= n ->
  (b = [60%N] /\ exists s', prologProcessor (knot n) b s = Ret b s' /\ early s' /\ s_parsing s' = PARSING /\ s_enc s' = EInit NO_ENC) \/ lands sref k x (text l) (ireports l) (prologProcessor (knot n) b s).
Proof.
  intros Ea Pr En Pa Fi G Ln Rd Sc E Hb Hf L. destruct (root_start l G Ln Sc) as (b1 & q & Eu & Fb & Z). rewrite Eu in E. destruct AT as (A1 & A2 & A3).
  destruct b as [|b0 b]; [congruence|]. cbn [List.app] in E. injection E as -> E. destruct n as [|n]; [lia|]. unfold prologProcessor, pbind at 1, scan at 1. rewrite En, (ea_cfg _ Ea), A1. destruct b as [|b2 b].
  - left. split; [reflexivity|]. cbn [List.app] in E. assert (f = false) by (destruct f; [rewrite (Hf eq_refl) in E; discriminate E|reflexivity]). subst f.
    change (initScan false NO_ENC false [60%N]) with (@Ok (XML_TOK * option nat * option EncImpl) (T_PARTIAL, None, None)). cbn iota. unfold pbind at 1, get at 1. rewrite H. cbn [negb].
    cbn [knot rc_prolog]. unfold doProlog. unfold pbind at 1, set_event at 1, upd at 1. unfold pbind at 1, set_event_end_tok at 1, upd at 1. unfold pbind at 1, encoding at 1.
    cbn [is_internal]. eexists. split; [reflexivity|]. split; [|split; [exact Pa|exact En]]. destruct Ea. constructor; try assumption.
  - right. cbn [List.app] in E. injection E as -> E.
    assert (Ei : initScan false NO_ENC false (60%N :: b1 :: b) = Ok (T_INSTANCE_START, Some 0, Some u8)).
    { destruct (byte_type u8 [b1]) as [t|] eqn:Bt; unfold first_byte in Fb; rewrite Bt in Fb; [|discriminate].
      assert (Bt' : byte_type u8 (b1 :: b) = Ok t) by exact Bt.
      unfold initScan. change ((60 =? 254)%N && (b1 =? 255)%N) with false. change ((60 =? 60)%N && (b1 =? 0)%N) with (b1 =? 0)%N. replace (b1 =? 0)%N with false by lia.
      change ((60 =? 255)%N && (b1 =? 254)%N) with false. change ((60 =? 239)%N && (b1 =? 187)%N) with false. change (60 =? 0)%N with false. cbn iota.
      change (index (enc_table false) NO_ENC) with (@Ok EncImpl u8). unfold bind at 1. rewrite (start_tok b1 b t Bt' Fb). reflexivity. }
    unfold prologProcessor, pbind at 1, scan at 1. rewrite En, (ea_cfg _ Ea), A1, Ei. unfold pbind at 1, get at 1. set (s1 := set_enc (EKnown u8) s). change (s_final s1) with (s_final s). rewrite Fi.
    change (rc_prolog (knot (S n)) ENormal (60%N :: b1 :: b) T_INSTANCE_START (Some 0) (negb f) true s1) with (doProlog (knot n) ENormal (60%N :: b1 :: b) T_INSTANCE_START (Some 0) (negb f) true s1).
    unfold doProlog. unfold pbind at 1, set_event at 1, upd at 1. unfold pbind at 1, set_event_end_tok at 1, upd at 1. cbn [is_internal].
    unfold pbind at 1, encoding at 1. cbv zeta. change (tok_is_error T_INSTANCE_START) with false. cbv iota.
    match goal with |- context [set_evEnd ?e ?y] => set (s2 := set_evEnd e y) end. change (known (c_ns (s_cfg s2)) (s_enc s2)) with u8.
    unfold pbind at 1, rest_after at 1, inc at 1, lift at 1. cbn [inc_start].
    unfold pbind at 1, role_of at 1. unfold pbind at 1, get at 1. unfold pbind at 1, lift at 1. change (s_role s2) with (s_role s). rewrite (ea_role _ Ea).
    assert (Eb : before (60%N :: b1 :: b) (60%N :: b1 :: b) = []) by (unfold before; rewrite Nat.sub_diag; reflexivity). rewrite Eb.
    change (token_role u8 (prolog_init prolog_default) T_INSTANCE_START []) with (@Ok (pstate * ROLE) (prolog1, R_INSTANCE_START)). cbn iota. unfold pbind at 1, upd at 1, pret at 1.
    unfold pbind at 1, role_step at 1. unfold pbind at 1, get at 1. change (s_foreign (set_role prolog1 s2)) with (s_foreign s). rewrite (ea_foreign _ Ea). unfold pbind at 1, when at 1, pret at 1.
    unfold pbind at 1, upd at 1. set (s3 := set_processor PrContent (set_role prolog1 s2)). unfold pbind at 1.
    assert (T : stand sref k [] (Content l) s3).
    { constructor; [|exact G|exact Rd|exact Sc]. destruct Ea. constructor; try assumption; [|apply tame0; assumption].
      unfold same. change (s_cfg s3) with (s_cfg s). change (s_dtd s3) with (s_dtd s). change (s_open s3) with (s_open s). rewrite ea_cfg0, ea_dtd0, ea_open0. repeat split; reflexivity. }
    destruct (contentProcessor_goes sref EV k n l [] (60%N :: b1 :: b) x s3 f Ln T) as (rest & s' & stk' & p' & H1 & H2 & H3 & H4 & H5 & H6 & H7); [reflexivity|exact Fi|rewrite Eu; cbn [List.app]; rewrite E; reflexivity|exact Hf|lia|].
    rewrite H1. exists rest, s', stk', p'. split; [reflexivity|]. repeat (split; [assumption|]). assert (Ss : said s3 = []) by (unfold said; change (s_log s3) with (s_log s); rewrite (ea_log _ Ea); reflexivity).
    rewrite Ss in H7. exact H7.
Qed.
Lemma early_goes n k l b x s f : early s -> s_parsing s = PARSING -> s_final s = f ->
  inside [] l -> l <> [] -> Forall (item_reads sref k) l -> all_in is_scalar (text l) -> b ++ x = utf8 (text l) -> b <> [] -> (f = true -> x = []) -> k + length b + 4 <= n ->
  (b = [60%N] /\ exists s', process (knot n) b s = Ret b s' /\ early s' /\ s_parsing s' = PARSING /\ s_enc s' = EInit NO_ENC) \/ lands sref k x (text l) (ireports l) (process (knot n) b s).
Proof.
  intros Ea Pa Fi G Ln Rd Sc E Hb Hf L. unfold process, pbind, get. destruct (ea_at _ Ea) as [Pr|[Pr En]]; rewrite Pr.
  - unfold prologInitProcessor, pbind, initializeEncoding, pbind, get. rewrite (ea_protocol _ Ea). unfold lift. change (getEncodingIndex None) with (@Ok (option N) (Some NO_ENC)). unfold upd. cbn iota.
    set (s1 := set_processor PrProlog (set_enc (EInit NO_ENC) s)).
    assert (Ea1 : early s1) by (destruct Ea; constructor; try assumption; right; split; reflexivity).
    apply (prolog_goes n k l b x s1 f Ea1); auto.
  - apply (prolog_goes n k l b x s f Ea); auto.
Qed.

(* ---- one call ---- *)
Lemma run_bounds n : SpecApi.in_bounds (run (knot n)).
Proof.
  intros c p f b r. unfold run. destruct (process _ _ _); intros E; try discriminate; injection E as <-; cbn [Api.r_next Api.r_event]; (split; [lia|]);
    intros q; match goal with |- context [s_ev ?s] => destruct (s_ev s) end; intros E; try discriminate; injection E as <-; lia.
Qed.
Lemma Forall2_impl {A B} (P Q : A -> B -> Prop) a b : (forall x y, P x y -> Q x y) -> Forall2 P a b -> Forall2 Q a b.
Proof. intros H. induction 1; auto. Qed.
Lemma reads_uniform l : forall stk, inside stk l -> all_in is_scalar (text l) -> exists k, Forall (item_reads sref k) l.
Proof.
  assert (M : forall k k' i, item_reads sref k i -> k <= k' -> item_reads sref k' i).
  { intros k k' i H L. unfold item_reads, reads_all in *. destruct i as [| |[]]; auto; (eapply Forall2_impl; [|exact H]); intros a y R; exact (reads_more _ _ _ _ _ R L). }
  assert (V : forall name atts given sp, tag_good name atts given sp -> all_in is_scalar (flat_map att_text atts) -> exists k, reads_all sref k atts given).
  { intros name atts given sp (_ & _ & H) Hs. clear name sp. induction H as [|a y atts given [_ Ha] _ IH]; [exists 0; constructor|].
    cbn [flat_map] in Hs. apply scalar_app in Hs as [Hs1 Hs2]. destruct (IH Hs2) as (k1 & K1).
    destruct (value_reads sref EV a y) as (k2 & K2); [|exact Ha|].
    { unfold att_text in Hs1. unfold all_in in *. rewrite !Forall_app in Hs1. tauto. }
    exists (k1 + k2). constructor; [eapply reads_more; [exact K2|lia]|]. eapply Forall2_impl; [|exact K1]. intros u w R. eapply reads_more; [exact R|lia]. }
  assert (C : forall i l k, Forall (item_reads sref k) l -> (exists k', item_reads sref k' i) -> exists k, Forall (item_reads sref k) (i :: l)).
  { intros i l' k F (k' & R). exists (k + k'). constructor; [eapply M; [exact R|lia]|]. eapply Forall_impl; [|exact F]. intros a Ha. eapply M; [exact Ha|lia]. }
  induction l as [|i l IH]; intros stk H Hs; [exists 0; constructor|]. change (text (i :: l)) with (item_text i ++ text l) in Hs. apply scalar_app in Hs as [Hs1 Hs2].
  assert (X : exists k, Forall (item_reads sref k) l).
  { inversion H; subst; try (eapply IH; eauto; fail). exists 0. constructor. }
  destruct X as (k & K). apply (C i l k K). inversion H; subst; cbn [item_reads].
  - apply (V name atts given sp); [assumption|]. cbn [item_text] in Hs1. apply tag_scalars in Hs1. apply Hs1.
  - exists 0. exact I.
  - destruct p; try (exists 0; exact I). apply (V name atts given sp); [assumption|]. cbn [item_text piece_text] in Hs1. apply tag_scalars in Hs1. apply Hs1.
  - apply (V name atts given sp); [assumption|]. cbn [item_text piece_text] in Hs1. apply tag_scalars in Hs1. apply Hs1.
Qed.
Lemma position_ok s a p : s_cfg s = cfg -> s_enc s = EKnown u8 -> all_in is_scalar a -> exists q, position s (utf8 a) p = Ok q.
Proof.
  intros E1 E2 Hs. unfold position. rewrite E1, E2. destruct AT as (A1 & _). rewrite A1. cbn [known]. destruct u8_charset as (k & CS & ST). eexists. unfold utf8.
  rewrite (pos_exact _ _ _ _ CS (te_ascii_dom _ _ _ _ _ te_utf8)); [reflexivity| |exact Hs].
  intros c Hc. assert (Dc : is_scalar c = true) by (apply (te_ascii_dom _ _ _ _ _ te_utf8); exact Hc). split.
  - now apply (type_char_iff _ _ _ _ ST c BT_CR 13).
  - now apply (type_char_iff _ _ _ _ ST c BT_LF 10).
Qed.
Variables (k : nat) (l : list item).
Hypothesis G : inside [] l.
Hypothesis Ln : l <> [].
Hypothesis Rd : Forall (item_reads sref k) l.
Hypothesis Sc : all_in is_scalar (text l).
Hypothesis Sz : (Z.of_nat (length (utf8 (text l))) + 1024 <= 1073741824)%Z.
Record goes (x : bytes) (m : SpecApi.machine st) : Prop := {
  go_failed : SpecApi.m_failed m = false;
  go_doc : SpecApi.m_doc m ++ x = utf8 (text l);
  go_phase : (SpecApi.m_status m = INITIALIZED \/ SpecApi.m_status m = PARSING) /\ early (SpecApi.m_core m) /\ SpecApi.m_used m = 0 \/
    SpecApi.m_status m = PARSING /\ exists stk p, stand sref k stk p (SpecApi.m_core m) /\ s_processor (SpecApi.m_core m) = proc_of p /\
      skipn (SpecApi.m_used m) (SpecApi.m_doc m) ++ x = utf8 (place_text p) /\ merged (said (SpecApi.m_core m) ++ preports p) = merged (ireports l)
}.
Definition entered (f : bool) (c : st) : st := set_evEnd None (set_ev None (set_final f (set_parsing PARSING c))).
Lemma early_entered f c : early c -> early (entered f c).
Proof. intros []. constructor; assumption. Qed.
Lemma stand_entered f stk p c : stand sref k stk p c -> stand sref k stk p (entered f c).
Proof. intros [[A1 A2 A3 A4 A5 A6] B C D]. constructor; try assumption. constructor; try assumption; [|reflexivity]. apply (tame_like c); [reflexivity|reflexivity|exact A2]. Qed.
Lemma starts_here c : s_cfg c = cfg -> start c = Ok (Some c).
Proof. intros E. unfold start. rewrite E. destruct AT as (-> & _). reflexivity. Qed.
Lemma goes_start x m : goes x m -> s_cfg (SpecApi.m_core m) = cfg /\
  (SpecApi.m_status m = PARSING /\ SpecApi.m_core m = SpecApi.m_core m \/ SpecApi.m_status m = INITIALIZED /\ start (SpecApi.m_core m) = Ok (Some (SpecApi.m_core m))).
Proof.
  intros [_ _ Hp]. assert (Cc : s_cfg (SpecApi.m_core m) = cfg).
  { destruct Hp as [(_ & E & _)|(_ & stk & p & S & _)]; [apply E|]. destruct (rd_same _ _ _ (sd_ready _ _ _ _ _ S)) as (E & _). exact E. }
  split; [exact Cc|]. destruct Hp as [([E|E] & _)|(E & _)]; auto. right. split; [exact E|]. apply starts_here. exact Cc.
Qed.
Definition after (x : bytes) (f : bool) (m' : SpecApi.machine st) : Prop :=
  if f then SpecApi.m_status m' = FINISHED /\ merged (said (SpecApi.m_core m')) = merged (ireports l) else goes x m'.
Lemma call_some n d x f a m : k + length (utf8 (text l)) + 4 <= n -> ApiLaws.view false false a m -> goes (d ++ x) m -> (f = true -> x = []) -> (d <> [] \/ f = true) ->
  exists a' m', XML_Parse n d f a = Ok (a', ST_OK) /\ ApiLaws.view false false a' m' /\ after x f m'.
Proof.
  intros L V Go Fx Nd. destruct (goes_start _ _ Go) as (Cc & St). destruct Go as [Hf Hd Hp].
  assert (Bl : SpecApi.m_used m <= length (SpecApi.m_doc m)) by (pose proof (ApiLaws.v_arith _ _ _ _ V); lia).
  assert (Ld : length d <= length (utf8 (text l))) by (rewrite <- Hd, !app_length; lia).
  assert (Li : (Z.of_nat (length d) <= Api.i32_max)%Z) by (unfold Api.i32_max; lia).
  set (b := skipn (SpecApi.m_used m) (SpecApi.m_doc m) ++ d).
  assert (Lb : length b <= length (utf8 (text l))) by (unfold b; rewrite app_length, skipn_length, <- Hd, !app_length; lia).
  assert (Fin : forall rest s', process (knot n) b (entered f (SpecApi.m_core m)) = Ret rest s' -> s_parsing s' = PARSING ->
    (forall p, exists q, position s' (firstn (length b - length rest) b) p = Ok q) ->
    exists a' m', XML_Parse n d f a = Ok (a', ST_OK) /\ ApiLaws.view false false a' m' /\ SpecApi.m_doc m' = SpecApi.m_doc m ++ d /\
      SpecApi.m_used m' = SpecApi.m_used m + (length b - length rest) /\ SpecApi.m_core m' = s' /\ SpecApi.m_failed m' = false /\
      SpecApi.m_status m' = if f then FINISHED else PARSING).
  { intros rest s' Er Pa Up. unfold XML_Parse.
    set (r := {| Api.r_core := s'; Api.r_err := XE_NONE; Api.r_next := length b - length rest; Api.r_event := match s_ev s' with Some n => Some (length b - n) | None => None end;
              Api.r_event_end := match s_evEnd s' with Some n => Some (length b - n) | None => None end; Api.r_parsing := s_parsing s' |}).
    apply (DocApi.parse_runs (run (knot n)) start position false (run_bounds n) r b eq_refl Pa Up d f a m _ V Li Hf St Nd eq_refl); [|lia].
    unfold run. fold (entered f (SpecApi.m_core m)). rewrite Er. reflexivity. }
  assert (Land : forall tx, all_in is_scalar tx -> b ++ x = utf8 tx ->
      lands sref k x tx (ireports l) (process (knot n) b (entered f (SpecApi.m_core m))) ->
      exists a' m', XML_Parse n d f a = Ok (a', ST_OK) /\ ApiLaws.view false false a' m' /\ after x f m').
  { intros tx Stx Eb (rest & s' & stk' & p' & E1 & E2 & E3 & E4 & E5 & (u & E6) & E7).
    pose proof (rd_same _ _ _ (sd_ready _ _ _ _ _ E2)) as SM.
    assert (Ec : b = utf8 u ++ rest) by (apply (app_inv_tail x); rewrite Eb, E6, utf8_app, <- app_assoc, E4; reflexivity).
    assert (Nx : length b - length rest = length (utf8 u)) by (rewrite Ec, app_length; lia).
    destruct (Fin rest s' E1 (rd_parsing _ _ _ (sd_ready _ _ _ _ _ E2))) as (a' & m' & H1 & H2 & H3 & H4 & H5 & H6 & H7).
    { intros q. rewrite Nx, Ec, firstn_app, firstn_all, Nat.sub_diag. cbn [firstn]. rewrite app_nil_r. apply position_ok; [apply SM|apply SM|]. rewrite E6 in Stx. apply scalar_app in Stx. apply Stx. }
    exists a', m'. split; [exact H1|]. split; [exact H2|]. unfold after. destruct f.
    - split; [exact H7|]. rewrite H5, <- E7, (E5 (Fx eq_refl)). cbn [preports ireports flat_map]. rewrite app_nil_r. reflexivity.
    - constructor; [exact H6|rewrite H3, <- app_assoc; exact Hd|]. right. rewrite H7, H5, H3, H4. split; [reflexivity|]. exists stk', p'. split; [exact E2|]. split; [exact E3|]. split; [|exact E7].
      rewrite Nx, <- ApiLaws.skipn_skipn, (skipn_app (SpecApi.m_used m)). replace (SpecApi.m_used m - length (SpecApi.m_doc m)) with 0 by lia. cbn [skipn]. fold b. rewrite Ec, skipn_app, skipn_all, Nat.sub_diag. exact E4. }
  destruct Hp as [(Hst & Ea & U)|(Hst & stk & p & S & Pr & Eu & Em)].
  - assert (Eb : b ++ x = utf8 (text l)) by (unfold b; rewrite U; cbn [skipn]; rewrite <- app_assoc; exact Hd).
    assert (Nb : b <> []).
    { destruct (root_start l G Ln Sc) as (b1 & q & Eq & _). intros Z. destruct Nd as [Nd|Nd]; [apply (app_eq_nil (skipn (SpecApi.m_used m) (SpecApi.m_doc m)) d) in Z; tauto|rewrite Z, (Fx Nd), Eq in Eb; discriminate]. }
    destruct (early_goes n k l b x (entered f (SpecApi.m_core m)) f (early_entered f _ Ea) eq_refl eq_refl G Ln Rd Sc Eb Nb Fx ltac:(lia)) as [(Hb & s' & Er & Ea' & Pa & En)|La].
    2:{ exact (Land _ Sc Eb La). }
    destruct (Fin b s' Er Pa) as (a' & m' & H1 & H2 & H3 & H4 & H5 & H6 & H7); [intros q; rewrite Nat.sub_diag; exists q; unfold position; rewrite En, (ea_cfg _ Ea'); destruct AT as (-> & _); reflexivity|].
    exists a', m'. split; [exact H1|]. split; [exact H2|]. unfold after. destruct f.
    + exfalso. rewrite (Fx eq_refl), Hb in Eb. destruct (root_start l G Ln Sc) as (b1 & q & Eq & _). rewrite Eq in Eb. discriminate.
    + constructor; [exact H6|rewrite H3, <- app_assoc; exact Hd|]. left. rewrite H7, H5, H4, U, Nat.sub_diag. auto.
  - apply (Land (place_text p) (sd_scalar _ _ _ _ _ S)); [unfold b; rewrite <- app_assoc; exact Eu|].
    destruct (process_goes sref EV k n p stk b x (entered f (SpecApi.m_core m)) f) as (rest & s' & stk' & p' & E1 & E2 & E3 & E4 & E5 & E6 & E7);
      [apply stand_entered; exact S|exact Pr|reflexivity|unfold b; rewrite <- app_assoc; exact Eu|exact Fx|lia|].
    exists rest, s', stk', p'. repeat (split; [assumption|]). rewrite E7. exact Em.
Qed.
Lemma call n d x f a m : k + length (utf8 (text l)) + 4 <= n -> ApiLaws.view false false a m -> goes (d ++ x) m -> (f = true -> x = []) ->
  exists a' m', XML_Parse n d f a = Ok (a', ST_OK) /\ ApiLaws.view false false a' m' /\ after x f m'.
Proof.
  intros L V Go Fx. destruct d as [|d0 d]; [destruct f|].
  - apply (call_some n [] x true a m); auto.
  - destruct (goes_start _ _ Go) as (_ & St). destruct (DocApi.parse_nothing (run (knot n)) start position false a m _ V St) as (a' & m' & H1 & H2 & H3 & H4 & H5 & H6 & H7).
    destruct Go as [Hf Hd Hp]. exists a', m'. split; [exact H1|]. split; [exact H2|]. constructor; [congruence|rewrite H3; exact Hd|]. rewrite H3, H4, H5, H7. destruct Hp as [(_ & E & U)|(_ & E)]; auto.
  - apply (call_some n (d0 :: d) x f a m); auto. left. discriminate.
Qed.
Lemma calls n chunks : k + length (utf8 (text l)) + 4 <= n -> chunks <> [] -> forall a m, ApiLaws.view false false a m -> goes (concat chunks) m ->
  exists a', give n chunks a = Ok (map (fun _ => ST_OK) chunks, a') /\ Api.parsing a' = FINISHED /\ merged (told a') = merged (ireports l).
Proof.
  intros L. induction chunks as [|d chunks IH]; intros Nc a m V Go; [congruence|]. cbn [concat] in Go. cbn [give map].
  destruct (call n d (concat chunks) (match chunks with [] => true | _ => false end) a m L V Go) as (a' & m' & H1 & H2 & H3); [destruct chunks; [reflexivity|discriminate]|].
  destruct chunks as [|d2 chunks]; rewrite H1; cbn [bind].
  - exists a'. cbn [give bind map]. destruct H3 as [H3 H4]. split; [reflexivity|]. split; [rewrite (ApiLaws.v_status _ _ _ _ H2); exact H3|].
    unfold told. rewrite (ApiLaws.v_core _ _ _ _ H2). exact H4.
  - destruct (IH ltac:(discriminate) a' m' H2 H3) as (a2 & E & R). rewrite E. exists a2. split; [reflexivity|exact R].
Qed.
End Run.

Lemma round_trip cfg pep base doc chunks : attentive cfg -> good doc -> is_element doc = true -> all_in is_scalar (source doc) ->
  chunks <> [] -> concat chunks = utf8 (source doc) -> (Z.of_nat (length (utf8 (source doc))) + 1024 <= 2 ^ 30)%Z ->
  exists n0, forall n, n0 <= n -> exists a, give n chunks (new_parser (root cfg None pep false base)) = Ok (map (fun _ => ST_OK) chunks, a) /\
    Api.parsing a = FINISHED /\ merged (told a) = merged (reports doc).
Proof.
  intros AT G El Sc Nc Ec Sz. rewrite <- items_text in *. rewrite <- items_reports. pose proof (root_inside doc G El) as I.
  destruct (reads_uniform cfg pep base AT (items doc) [] I Sc) as (k & Rd).
  exists (k + length (utf8 (text (items doc))) + 4). intros n L.
  apply (calls cfg pep base AT k (items doc) I (items_ne doc) Rd Sc Sz n chunks L Nc _ (SpecApi.machine0 (s0 cfg pep base))).
  - apply (ApiLaws.view_fresh false false (s0 cfg pep base)).
  - constructor; [reflexivity|exact Ec|]. left. split; [left; reflexivity|]. split; [apply early_new; exact AT|reflexivity].
Qed.
Lemma chunking cfg pep base doc one two : attentive cfg -> good doc -> is_element doc = true -> all_in is_scalar (source doc) ->
  one <> [] -> two <> [] -> concat one = utf8 (source doc) -> concat two = concat one -> (Z.of_nat (length (utf8 (source doc))) + 1024 <= 2 ^ 30)%Z ->
  exists n0, forall n, n0 <= n -> exists a b,
    give n one (new_parser (root cfg None pep false base)) = Ok (map (fun _ => ST_OK) one, a) /\
    give n two (new_parser (root cfg None pep false base)) = Ok (map (fun _ => ST_OK) two, b) /\
    Api.parsing a = Api.parsing b /\ merged (told a) = merged (told b).
Proof.
  intros AT G El Sc N1 N2 E1 E2 Sz. rewrite E1 in E2.
  destruct (round_trip cfg pep base doc one AT G El Sc N1 E1 Sz) as (n1 & H1). destruct (round_trip cfg pep base doc two AT G El Sc N2 E2 Sz) as (n2 & H2).
  exists (n1 + n2). intros n L. destruct (H1 n ltac:(lia)) as (a & A1 & A2 & A3). destruct (H2 n ltac:(lia)) as (b & B1 & B2 & B3). exists a, b. repeat split; congruence.
Qed.
