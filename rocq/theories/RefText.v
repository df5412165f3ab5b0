(* C68: the replacement text of an entity, without markup, is delivered in place of the reference. *)
From Coq Require Import String List NArith ZArith Bool Lia Arith.
From Coq Require Import ZifyBool ZifyNat ZifyN.
From Verif Require Import Base Tables Encoding SpecText SpecUnicode SpecNames SpecLex SpecMisc EncLaws Tok TokMisc UniLaws UniConv SpecConv Charset CharsetLaws SimTop TextEnc CpBase CpTag CpContent MiscTop DeclFinal AttCp Role Status State AttVal SpecAttVal CtxLaws AttNorm AttTop Bind Content Prolog SpecEnt SpecRef Core SpecSend AttsText RefLaws.
From Verif Require SendLaws EntInv.
From Coq Require Import List.
Import ListNotations.
Local Open Scope N_scope.

Section Inner.
Variable ns : bool.
Notation k := (table_cls (inner_types ns) 128).
Notation k0 := (table_cls (ascii_table ns) 128).
Notation ce := (cp_enc k).
Definition plain (c : N) : bool := plain_char c && negb (c =? 10).
Lemma scalar_of c : plain_char c = true -> is_scalar c = true.
Proof. unfold plain_char, is_xml_char, is_scalar. lia. Qed.
Lemma plain_ty c : plain c = true -> lead_len (ty k c) = None /\ ~ In (ty k c) [BT_RSQB; BT_AMP; BT_LT; BT_NONXML; BT_MALFORM; BT_TRAIL; BT_CR; BT_LF].
Proof.
  intros H. unfold plain in H. apply andb_prop in H as [Hp H10]. pose proof (scalar_of c Hp) as Hs. rewrite inner_ty. destruct (c =? 13) eqn:E; [split; [reflexivity|cbn; intuition discriminate]|].
  pose proof (utf8_std ns) as ST. split; [exact (no_lead _ _ _ _ ST c Hs)|].
  destruct (no_trail _ _ _ _ ST c Hs) as [T1 T2]. pose proof (rs_t _ _ _ _ ST c Hs) as R. pose proof (lt_t _ _ _ _ ST c Hs) as L. pose proof (am_t _ _ _ _ ST c Hs) as A.
  pose proof (cr_t _ _ _ _ ST c Hs) as C. pose proof (lf_t _ _ _ _ ST c Hs) as F. pose proof (xml_t _ _ _ _ ST c Hs) as X.
  unfold plain_char in Hp. apply andb_prop in Hp as [Hx Hp]. rewrite Hx in X. change (txt "<&]") with [60; 38; 93] in Hp. cbn [existsb] in Hp.
  replace (c =? 93) with false in R by lia. replace (c =? 60) with false in L by lia. replace (c =? 38) with false in A by lia. rewrite E in C. replace (c =? 10) with false in F by lia. cbn [negb] in X.
  cbn [In]. intros [Q|[Q|[Q|[Q|[Q|[Q|[Q|[Q|[]]]]]]]]]; rewrite <- Q in *; try discriminate; congruence.
Qed.
Definition line_end (q : list N) : Prop := q = [] \/ exists r, q = 10 :: r.
Lemma run_plain B q : line_end q -> forall p fuel, all_in plain p -> (length (p ++ q) < fuel)%nat -> @content_run ce B fuel (p ++ q) = CpTag.stop T_DATA_CHARS q.
Proof.
  intros Hq. induction p as [|c p IH]; intros fuel Hp Hf.
  - destruct Hq as [->|(r & ->)]; [destruct fuel; reflexivity|]. destruct fuel as [|f]; [cbn in Hf; lia|]. cbn [List.app content_run].
    rewrite (has1_cons k), (byte_type_cons k). replace (ty k 10) with BT_LF by (destruct ns; reflexivity). reflexivity.
  - inversion Hp; subst. destruct fuel as [|f]; [cbn in Hf; lia|]. cbn [List.app length] in Hf. cbn [List.app content_run]. rewrite (has1_cons k), (byte_type_cons k). cbn [bind].
    destruct (plain_ty c) as [N1 N2]; [assumption|]. rewrite N1. specialize (IH f H2 ltac:(lia)). rewrite (tk_adv1 k). cbn [bind].
    destruct (ty k c); try exact IH; exfalso; apply N2; cbn; tauto.
Qed.
Lemma inner_scan B c p q : line_end q -> all_in plain (c :: p) -> @contentScan ce B (c :: p ++ q) = CpTag.stop T_DATA_CHARS q.
Proof.
  intros Hq Hp. inversion Hp; subst. destruct (plain_ty c) as [N1 N2]; [assumption|]. unfold contentScan. cps.
  assert (R : content_run ce (S (length (p ++ q))) (p ++ q) = @CpTag.stop B T_DATA_CHARS q) by (apply run_plain; auto).
  unfold mbind at 1. unfold match_invalid. rewrite N1.
  destruct (ty k c); try (exfalso; apply N2; cbn; tauto); cps; exact R.
Qed.
Lemma inner_charset : charset (inner_enc ns) utf8_encode is_scalar k.
Proof. destruct ns; apply utf8_charset; unfold utf8_types; auto. Qed.
Lemma inner_data c p q : line_end q -> all_in plain (c :: p) -> all_in is_scalar q ->
  contentTok (inner_enc ns) (utf8 (c :: p ++ q)) = Ok (T_DATA_CHARS, Some (length (utf8 (c :: p)))).
Proof.
  intros Hq Hp Hs. assert (Hd : all_in is_scalar (c :: p ++ q)).
  { change (c :: p ++ q) with ((c :: p) ++ q). apply Forall_app. split; [|exact Hs]. eapply Forall_impl; [|exact Hp]. intros x Hx. apply scalar_of. unfold plain in Hx. apply andb_prop in Hx. tauto. }
  apply (lift_tok utf8_encode true _ _ _ T_DATA_CHARS _ (contentTok_sim _ _ _ _ inner_charset _ Hd) (fun _ => ltac:(discriminate))).
  exists (length (c :: p)). split.
  - unfold contentTok. cbn [is_nil]. change (round_down ce (c :: p ++ q)) with (c :: p ++ q). cbn [is_nil]. unfold Tok.run. rewrite inner_scan by auto.
    unfold CpTag.stop. do 3 f_equal. cbn [length]. rewrite app_length. cbn [option_map]. f_equal. lia.
  - symmetry. apply (at_char_app utf8_encode (c :: p) q).
Qed.
Lemma inner_newline q : all_in is_scalar q -> contentTok (inner_enc ns) (utf8 (10 :: q)) = Ok (T_DATA_NEWLINE, Some 1%nat).
Proof.
  intros Hs. assert (Hd : all_in is_scalar (10 :: q)) by (constructor; [reflexivity|exact Hs]).
  apply (lift_tok utf8_encode true _ _ _ T_DATA_NEWLINE _ (contentTok_sim _ _ _ _ inner_charset _ Hd) (fun _ => ltac:(discriminate))).
  exists 1%nat. split; [|symmetry; apply (at_char_app utf8_encode [10] q)].
  unfold contentTok. cbn [is_nil]. change (round_down ce (10 :: q)) with (10 :: q). cbn [is_nil]. unfold Tok.run, contentScan. cps. replace (ty k 10) with BT_LF by (destruct ns; reflexivity).
  unfold mbind at 1. cbn [match_invalid lead_len]. cps. cbn [option_map]. do 3 f_equal. cbn [length]. lia.
Qed.
End Inner.

Definition heard (parts : list bytes) (s : st) : st := set_log (rev (map (fun t => (s_pid s, EvCharData t)) parts) ++ s_log s) s.
Lemma heard_nil s : heard [] s = s. Proof. destruct s; reflexivity. Qed.
Lemma heard_more a b s : heard b (heard a s) = heard (a ++ b) s.
Proof. unfold heard. change (s_pid (set_log ?x s)) with (s_pid s). change (s_log (set_log ?x s)) with x. rewrite map_app, rev_app_distr, <- app_assoc. destruct s; reflexivity. Qed.
Lemma told t s : never_stops s -> call (EvCharData t) s = Ret (c_app (s_cfg s) ((s_pid s, EvCharData t) :: s_log s)) (heard [t] s).
Proof. intros N. unfold call. cbv zeta. f_equal. unfold stopped. rewrite (N _). unfold heard. cbn [map rev List.app]. destruct s; reflexivity. Qed.

Section Loop.
Variable ns : bool.
Record quiet (s : st) : Prop := { q_ns : c_ns (s_cfg s) = ns; q_never : never_stops s; q_parsing : s_parsing s = PARSING; q_text : h_charData (c_h (s_cfg s)) = true }.
Lemma quiet_heard parts s : quiet s -> quiet (heard parts s). Proof. intros [A B C D]. constructor; assumption. Qed.
Lemma inner_step r lv s tok a q : quiet s -> contentTok (inner_enc ns) (a ++ q) = Ok (tok, Some (length a)) ->
  (tok = T_DATA_NEWLINE \/ tok = T_DATA_CHARS) ->
  doContent r lv EInternal (a ++ q) false s = rc_content r lv EInternal q false (heard [if tok_eqb tok T_DATA_NEWLINE then [10] else a] s).
Proof.
  intros [Q1 Q2 Q3 Q4] Tk Ht. unfold doContent. unfold set_event at 1. cbn [is_internal]. unfold pbind at 1, pret at 1. unfold pbind at 1, encoding at 1. cbv zeta. rewrite Q1.
  change (if ns then internal_utf8_encoding_ns else internal_utf8_encoding) with (inner_enc ns). unfold pbind at 1, scan_as at 1, pbind at 1, encoding at 1. cbv zeta. rewrite Q1.
  change (if ns then internal_utf8_encoding_ns else internal_utf8_encoding) with (inner_enc ns). unfold lift at 1. rewrite Tk. cbv beta iota.
  unfold set_event_end_tok. cbn [is_internal]. unfold pbind at 1, pret at 1.
  assert (I : forall s1, inc (length a) (a ++ q) s1 = Ret q s1) by (intros s1; unfold inc, lift; rewrite inc_start_app_len; reflexivity).
  assert (U : isUtf8 (inner_enc ns) = true) by (destruct ns; reflexivity).
  assert (G : forall t, pbind (call (EvCharData t) ;;; pret tt) (fun _ => do rest <- inc (length a) (a ++ q); do ret <- after_token EInternal rest; if ret then pret rest else rc_content r lv EInternal rest false) s =
    rc_content r lv EInternal q false (heard [t] s)).
  { intros t. unfold pbind at 1, pbind at 1. rewrite (told t s Q2). unfold pret at 1. unfold pbind at 1. rewrite I. unfold pbind at 1, after_token, set_event. cbn [is_internal]. unfold pbind at 1, pret at 1. unfold pbind at 1, get at 1.
    change (s_parsing (heard [t] s)) with (s_parsing s). rewrite Q3. reflexivity. }
  destruct Ht as [-> | ->]; unfold pbind at 1, need, pret at 1.
  - change (tok_eqb T_DATA_NEWLINE T_DATA_NEWLINE) with true. rewrite <- G. unfold char_data, pbind at 1 2, handler at 1, get at 1. rewrite Q4. reflexivity.
  - change (tok_eqb T_DATA_CHARS T_DATA_NEWLINE) with false. rewrite <- G. unfold char_data_text, pbind at 1 2, handler at 1, get at 1. rewrite Q4. unfold send, pbind at 1, encoding. rewrite Q1.
    change (if ns then internal_utf8_encoding_ns else internal_utf8_encoding) with (inner_enc ns). rewrite U, firstn_app_len. reflexivity.
Qed.
Lemma inner_end r lv s : quiet s -> s_tagLevel s = S lv -> doContent r (S lv) EInternal [] false s = Ret [] s.
Proof.
  intros [Q1 Q2 Q3 Q4] L. unfold doContent. unfold set_event at 1. cbn [is_internal]. unfold pbind at 1, pret at 1. unfold pbind at 1, encoding at 1. unfold pbind at 1, scan_as at 1, pbind at 1, encoding at 1. cbv zeta.
  unfold lift at 1, contentTok at 1. cbn [is_nil]. unfold set_event_end_tok. cbn [is_internal]. unfold pbind at 1, pret at 1. cbn [Nat.eqb]. unfold pbind, get. rewrite L, Nat.eqb_refl. reflexivity.
Qed.
Definition texty (c : N) : bool := plain_char c.
Lemma split_line p : all_in texty p -> p <> [] -> (exists r, p = 10 :: r /\ all_in texty r) \/ exists c a q, p = c :: a ++ q /\ all_in plain (c :: a) /\ line_end q /\ all_in texty q.
Proof.
  intros Hp Np. assert (K : exists a q, p = a ++ q /\ all_in plain a /\ line_end q /\ all_in texty q).
  { clear Np. induction p as [|c p IH]; [exists [], []; split; [reflexivity|]; split; [constructor|]; split; [left; reflexivity|constructor]|].
    inversion Hp; subst. destruct (N.eq_dec c 10) as [->|Hc].
    - exists [], (10 :: p). split; [reflexivity|]. split; [constructor|]. split; [right; eauto|exact Hp].
    - destruct (IH H2) as (a & q & -> & A & B & C). exists (c :: a), q. split; [reflexivity|]. split; [|auto]. constructor; [|exact A]. unfold plain. unfold texty in H1. rewrite H1. cbn. lia. }
  destruct K as ([|c a] & q & -> & A & B & C); [|right; exists c, a, q; auto].
  destruct B as [->|(r & ->)]; [exfalso; apply Np; reflexivity|]. left. exists r. split; [reflexivity|]. now inversion C.
Qed.
Lemma scalars_of p : all_in texty p -> all_in is_scalar p.
Proof. intros H. eapply Forall_impl; [|exact H]. intros c Hc. now apply scalar_of. Qed.
Theorem inner_text lv : forall l p k s, (length p <= l)%nat -> (length p < k)%nat -> all_in texty p -> quiet s -> s_tagLevel s = S lv ->
  exists parts, doContent (knot k) (S lv) EInternal (utf8 p) false s = Ret [] (heard parts s) /\ concat parts = utf8 p.
Proof.
  induction l as [|l IH]; intros p k s Hl Hk Hp Q L.
  - destruct p; [|cbn in Hl; lia]. exists []. rewrite heard_nil. split; [now apply inner_end|reflexivity].
  - destruct p as [|c0 p0]; [exists []; rewrite heard_nil; split; [now apply inner_end|reflexivity]|]. remember (c0 :: p0) as p eqn:Ep.
    destruct k as [|k]; [lia|]. destruct (split_line p Hp) as [(r & E & Hr)|(c & a & q & E & Ha & Hq & Hr)]; [subst; discriminate| |]; clear Ep; subst p.
    + destruct (IH r k (heard [[10]] s)) as (parts & R & C); [cbn in Hl; lia|cbn in Hk; lia|exact Hr|now apply quiet_heard|exact L|].
      exists ([[10]] ++ parts). split; [|cbn [concat List.app]; rewrite C; reflexivity].
      change (utf8 (10 :: r)) with ([10] ++ utf8 r). rewrite (inner_step _ _ _ T_DATA_NEWLINE); [|exact Q|apply (inner_newline ns r), scalars_of, Hr|auto].
      change (tok_eqb T_DATA_NEWLINE T_DATA_NEWLINE) with true. cbn [knot rc_content]. rewrite R, heard_more. reflexivity.
    + destruct (IH q k (heard [utf8 (c :: a)] s)) as (parts & R & C); [cbn in Hl; rewrite app_length in Hl; lia|cbn in Hk; rewrite app_length in Hk; lia|exact Hr|now apply quiet_heard|exact L|].
      exists ([utf8 (c :: a)] ++ parts). assert (X : utf8 (c :: a ++ q) = utf8 (c :: a) ++ utf8 q) by (change (c :: a ++ q) with ((c :: a) ++ q); apply flat_map_app).
      split; [|cbn [concat List.app]; rewrite C, X; reflexivity].
      pose proof (inner_data ns c a q Hq Ha (scalars_of q Hr)) as Tk. rewrite X in *. rewrite (inner_step _ _ _ T_DATA_CHARS); [|exact Q|exact Tk|auto].
      change (tok_eqb T_DATA_CHARS T_DATA_NEWLINE) with false. cbn [knot rc_content]. rewrite R, heard_more. reflexivity.
Qed.
End Loop.
Lemma entity_put ref f s ref' : entity_of (EntInv.put_in ref f s) ref' = if EntInv.entref_dec ref' ref then option_map f (entity_of s ref') else entity_of s ref'.
Proof.
  unfold entity_of. fold (EntInv.ent (EntInv.put_in ref f s) ref'). fold (EntInv.ent s ref'). destruct (EntInv.entref_dec ref' ref) as [->|H]; [apply EntInv.ent_put_same|now apply EntInv.ent_put_other].
Qed.
Lemma put_in_rest ref f s : s_cfg (EntInv.put_in ref f s) = s_cfg s /\ s_tags (EntInv.put_in ref f s) = s_tags s /\ s_tagLevel (EntInv.put_in ref f s) = s_tagLevel s /\ s_open (EntInv.put_in ref f s) = s_open s /\
  s_parsing (EntInv.put_in ref f s) = s_parsing s /\ s_enc (EntInv.put_in ref f s) = s_enc s /\ s_processor (EntInv.put_in ref f s) = s_processor s /\ s_log (EntInv.put_in ref f s) = s_log s /\ s_pid (EntInv.put_in ref f s) = s_pid s.
Proof. repeat split. Qed.
Theorem reference_text e enc dom lat ns : text_encoding e enc dom lat ns -> forall level more s n rest p k,
  s_enc s = EKnown e -> c_ns (s_cfg s) = ns -> is_name lat ns n -> all_in dom (ref_to n ++ rest) ->
  means s n (Replaced (utf8 p)) -> all_in plain_char p ->
  never_stops s -> s_parsing s = PARSING -> h_charData (c_h (s_cfg s)) = true -> (0 < s_tagLevel s)%nat -> (length p < k)%nat ->
  exists s', doContent (knot (S k)) level ENormal (flat_map enc (ref_to n ++ rest)) more s = doContent (knot k) level ENormal (flat_map enc rest) more s' /\
    delivered EvCharData (utf8 p) s s' /\ as_before s s'.
Proof.
  intros TE level more s n rest p k He Hns Hn Hd M Hp Ns Pa Hc Lv Hk.
  destruct (reference_told e enc dom lat ns TE (knot (S k)) level more s n rest _ He Hns Hn Hd M) as (s0 & P0 & R). cbv zeta in R. rewrite R. clear R.
  assert (F : s_cfg s0 = s_cfg s /\ s_tags s0 = s_tags s /\ s_tagLevel s0 = s_tagLevel s /\ s_open s0 = s_open s /\ s_parsing s0 = s_parsing s /\ s_enc s0 = s_enc s /\ s_processor s0 = s_processor s /\ s_log s0 = s_log s /\ s_dtd s0 = s_dtd s /\ s_pid s0 = s_pid s).
  { unfold positions_only in P0. repeat split; match goal with |- ?f s0 = ?f s => exact (f_equal f P0) end. }
  destruct F as (F1 & F2 & F3 & F4 & F5 & F6 & F7 & F8 & F9 & F10). clear P0.
  assert (O0 : exists y, entity_of s0 (false, utf8 n) = Some y /\ e_open y = false).
  { remember (Replaced (utf8 p)) as m eqn:Em. destruct M; try discriminate. destruct H as [_ L], H0 as [_ O]. exists e0. split; [|exact O]. unfold entity_of, look_entity. cbn [fst snd]. rewrite F9. exact L. }
  destruct O0 as (y & Y & Yo). set (ref := (false, utf8 n)) in *.
  set (s1 := EntInv.put_in ref (set_e_processed 0) (EntInv.put_in ref (set_e_open true) s0)).
  set (s2 := set_open ({| oe_ent := ref; oe_level := s_tagLevel s0; oe_between := false |} :: s_open s0) s1).
  destruct (s_tagLevel s) as [|lv] eqn:El; [lia|].
  destruct (inner_text ns lv (length p) p k s2) as (parts & R & C); auto.
  { constructor; [change (c_ns (s_cfg s0) = ns); rewrite F1; exact Hns|intros log; change (s_cfg s2) with (s_cfg s0); rewrite F1; apply Ns|change (s_parsing s0 = PARSING); rewrite F5; exact Pa|change (h_charData (c_h (s_cfg s0)) = true); rewrite F1; exact Hc]. }
  set (s4 := set_open (s_open s0) (EntInv.put_in ref (set_e_open false) (heard parts s2))).
  assert (Run : processInternalEntity (knot (S k)) ref (utf8 p) false s0 = Ret tt s4).
  { unfold processInternalEntity. unfold pbind at 1. change (upd_entity ref (set_e_open true) s0) with (Ret tt (EntInv.put_in ref (set_e_open true) s0)). cbv iota.
    unfold pbind at 1. change (upd_entity ref (set_e_processed 0) (EntInv.put_in ref (set_e_open true) s0)) with (Ret tt s1). cbv iota.
    unfold pbind at 1, get at 1. unfold pbind at 1, get at 1. unfold pbind at 1, upd at 1. change (s_open s1) with (s_open s0). change (s_tagLevel s1) with (s_tagLevel s0). fold s2.
    unfold pbind at 1. change (fst ref) with false. cbv iota. change (rc_content (knot (S k))) with (doContent (knot k)). rewrite F3, R. unfold pbind at 1, leave_entity, pbind at 1, get at 1. cbn [is_nil negb andb].
    unfold pbind at 1. change (upd_entity ref (set_e_open false) (heard parts s2)) with (Ret tt (EntInv.put_in ref (set_e_open false) (heard parts s2))). reflexivity. }
  unfold pbind at 1. rewrite Run. unfold goes_on, pbind at 1, after_token, set_event. cbn [is_internal]. unfold pbind at 1, upd at 1. unfold pbind at 1, get at 1.
  change (s_parsing (set_ev (Some (length (flat_map enc rest))) s4)) with (s_parsing s0). rewrite F5, Pa. unfold pret at 1.
  eexists. split; [reflexivity|]. split.
  - exists parts. split; [|exact C]. change (s_log (set_ev ?z s4)) with (rev (map (fun t => (s_pid s2, EvCharData t)) parts) ++ s_log s0). rewrite F8, rev_app_distr, rev_involutive, map_app, map_map. reflexivity.
  - constructor; try assumption; try (rewrite El; assumption).
    intros ref'. change (entity_of (set_ev ?z s4) ref') with (entity_of (EntInv.put_in ref (set_e_open false) (heard parts s2)) ref'). rewrite entity_put. change (entity_of (heard parts s2) ref') with (entity_of s1 ref').
    unfold s1. rewrite !entity_put. replace (entity_of s ref') with (entity_of s0 ref') by (unfold entity_of; rewrite F9; reflexivity).
    destruct (EntInv.entref_dec ref' ref) as [->|]; [|reflexivity]. rewrite Y. cbn [option_map]. unfold definition. rewrite Yo. reflexivity.
Qed.
Theorem reference_asked e enc dom lat ns : text_encoding e enc dom lat ns -> forall k level more s n rest y,
  s_enc s = EKnown e -> c_ns (s_cfg s) = ns -> is_name lat ns n -> all_in dom (ref_to n ++ rest) -> means s n (Asked y) ->
  exists s0 re s1, positions_only s s0 /\
    call (EvExternalEntityRef (Some (getContext (while_open n y s0))) (e_base y) (e_sys y) (e_pub y)) s0 = Ret re s1 /\
    (child_plan re = None ->
     doContent (knot (S k)) level ENormal (flat_map enc (ref_to n ++ rest)) more s =
     if answer re [] then goes_on (knot (S k)) level more (flat_map enc rest) s1 else Fail XE_EXTERNAL_ENTITY_HANDLING s1).
Proof.
  intros TE k level more s n rest y H1 H2 H3 H4 M. destruct (reference_told e enc dom lat ns TE (knot (S k)) level more s n rest _ H1 H2 H3 H4 M) as (s0 & P & R).
  cbv zeta in R. eexists s0, _, _. split; [exact P|]. split; [reflexivity|]. intros Hc. rewrite R. change (rc_ext (knot (S k))) with (ext (knot k)). unfold ext. unfold pbind at 1, call at 1. cbv zeta.
  rewrite Hc. unfold pret at 1. destruct (answer _ []); reflexivity.
Qed.
Theorem reference_short : forall e enc dom lat ns, text_encoding e enc dom lat ns -> forall r level more s n rest m,
  s_enc s = EKnown e -> c_ns (s_cfg s) = ns -> is_name lat ns n -> all_in dom (ref_to n ++ rest) ->
  means s n m -> exists s0, positions_only s s0 /\
  let run := doContent r level ENormal (flat_map enc (ref_to n ++ rest)) more s in
  match m with
  | Refused x => run = Fail x s0
  | Stands c => h_charData (c_h (s_cfg s)) = true ->
      exists re s1, call (EvCharData [c]) s0 = Ret re s1 /\ run = goes_on r level more (flat_map enc rest) s1
  | Skipped => h_skipped (c_h (s_cfg s)) = true ->
      exists re s1, call (EvSkippedEntity (utf8 n) false) s0 = Ret re s1 /\ run = goes_on r level more (flat_map enc rest) s1
  | Unread => h_default (c_h (s_cfg s)) = false -> run = goes_on r level more (flat_map enc rest) s0
  | Asked _ | Replaced _ => True
  end.
Proof.
  intros e enc dom lat ns TE r level more s n rest m H1 H2 H3 H4 M. destruct (reference_told e enc dom lat ns TE r level more s n rest m H1 H2 H3 H4 M) as (s0 & P & R).
  exists s0. split; [exact P|]. destruct m; try exact R; exact I.
Qed.
