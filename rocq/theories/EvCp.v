(* The tokens of entity values over code points. *)
From Coq Require Import String List NArith ZArith Bool Lia Arith.
From Coq Require Import ZifyBool ZifyNat ZifyN.
From Verif Require Import Base Tables Encoding SpecText SpecUnicode SpecNames SpecLex SpecMisc EncLaws Tok TokMisc TokWp TokSafe UniLaws UniConv SpecConv Charset CharsetLaws Sim SimTop TextEnc CpBase CpComment CpTag CpMisc CpNames CpDtd MiscTop DeclFinal Status State AttVal SpecAttVal AttCp SpecEntVal.
From Coq Require Import List.
Import ListNotations.
Local Open Scope N_scope.

Record evcls (lat ns inner : bool) (dom : N -> bool) (k : cls) : Prop := {
  vc_att : attcls lat ns inner dom k;
  vc_pct_ty : forall c, dom c = true -> (ty k c = BT_PERCNT <-> c = 37);
  vc_pct : forall B cs, all_in dom cs -> @scanPercent (cp_enc k) B cs = pct lat ns cs }.
Lemma std_evcls lat ns dom k : std lat ns dom k -> evcls lat ns false dom k.
Proof.
  intros ST. constructor; [now apply std_attcls| |].
  - intros. now apply (type_char_iff _ _ _ _ ST).
  - intros. now apply (pct_eq _ _ _ _ ST).
Qed.
Lemma scanPercent_alike k k' B : alike k k' -> forall cs, @scanPercent (cp_enc k) B cs = scanPercent (cp_enc k') cs.
Proof.
  intros (Es & En & Ht) cs. unfold scanPercent, while_partial, while_.
  apply bind_cong; [destruct cs; reflexivity|]. intros _ [|c b]; [reflexivity|].
  rewrite !b_bt. apply bind_cong.
  - unfold check_nmstrt. destruct (Ht c) as [-> |[-> ->]]; [|reflexivity]. destruct (lead_len (ty k' c)); [reflexivity|].
    destruct (ty k' c); try reflexivity; ev; rewrite Es; reflexivity.
  - intros _ b1. apply while_cong. clear -Ht En. intros _ [|c b]; [reflexivity|]. rewrite !b_bt. unfold check_name. destruct (Ht c) as [-> |[-> ->]]; [|reflexivity].
    destruct (lead_len (ty k' c)); [reflexivity|]. destruct (ty k' c); try reflexivity. ev. rewrite En. reflexivity.
Qed.
Lemma inner_evcls ns : evcls false ns true is_scalar (table_cls (inner_types ns) 128).
Proof.
  pose proof (std_evcls _ _ _ _ (utf8_std ns)) as A. constructor; [apply inner_attcls| |].
  - intros c Hc. rewrite inner_ty. destruct (c =? 13) eqn:E; [split; [discriminate|lia]|]. now apply (vc_pct_ty _ _ _ _ _ A).
  - intros B cs Hd. rewrite <- (vc_pct _ _ _ _ _ A) by auto. apply scanPercent_alike. split; [reflexivity|]. split; [reflexivity|]. intros c. rewrite inner_ty.
    destruct (c =? 13) eqn:E; [|auto]. right. split; [reflexivity|]. apply N.eqb_eq in E. subst c. destruct ns; reflexivity.
Qed.
Lemma pct_name lat ns {B} n p : is_name lat ns n -> @pct lat ns B (n ++ [59] ++ p) = CpTag.stop T_PARAM_ENTITY_REF p.
Proof.
  intros (c & r & -> & Hc & Hr). cbn [List.app pct]. rewrite Hc. apply pe_spec; [discriminate|]. split; [reflexivity|]. exists r. auto.
Qed.
Lemma pct_else lat ns {B} cs : no_parameter lat ns (37 :: cs) ->
  @pct lat ns B cs = partial \/ exists t p, @pct lat ns B cs = CpTag.stop t p /\ (t = T_INVALID \/ t = T_PERCENT).
Proof.
  intros H. destruct cs as [|c r]; [left; reflexivity|]. cbn [pct]. destruct (start_char lat ns c) eqn:Es.
  2:{ right. destruct (is_space c || (c =? 37)); eauto. }
  assert (K : @pe lat ns B r = partial \/ exists t p, @pe lat ns B r = CpTag.stop t p).
  { clear. induction r as [|c r IH]; [left; reflexivity|]. cbn [pe]. destruct (name_char lat ns c); [exact IH|]. right. destruct (c =? 59); eauto. }
  destruct K as [K|(t & p & K)]; [left; exact K|]. right. exists t, p. split; [exact K|].
  destruct (tok_eqb t T_INVALID) eqn:Et; [left; destruct t; try discriminate Et; reflexivity|]. exfalso.
  apply pe_spec in K; [|intros ->; discriminate Et]. destruct K as (_ & n & -> & Hn). apply (H (c :: n) p); [reflexivity|]. exists c, n. auto.
Qed.

Section Toks.
Variables (lat ns inner : bool) (dom : N -> bool) (k : cls).
Hypothesis VC : evcls lat ns inner dom k.
Notation ce := (cp_enc k).
Notation AC := (vc_att _ _ _ _ _ VC).
Definition vlit (c : N) : bool := negb ((c =? 38) || (c =? 37) || (c =? 10) || ((c =? 13) && negb inner)).
Definition vhalts (cs : list N) : Prop := match cs with [] => True | c :: _ => vlit c = false end.
Lemma vlit_ty c : dom c = true -> vlit c = true -> lead_len (ty k c) = None /\ ~ In (ty k c) [BT_AMP; BT_PERCNT; BT_LF; BT_CR].
Proof.
  intros Hd Hl. split; [now apply (ac_lead _ _ _ _ _ AC)|]. unfold vlit in Hl. cbn [In].
  intros [E|[E|[E|[E|[]]]]]; symmetry in E.
  - apply (ac_amp _ _ _ _ _ AC) in E; auto. lia.
  - apply (vc_pct_ty _ _ _ _ _ VC) in E; auto. lia.
  - apply (ac_lf _ _ _ _ _ AC) in E; auto. lia.
  - apply (ac_cr _ _ _ _ _ AC) in E; auto. destruct inner; lia.
Qed.
Lemma vrun_lit B f first c r : dom c = true -> vlit c = true -> @entityValue_run ce B (S f) first (c :: r) = entityValue_run ce f false r.
Proof.
  intros Hd Hl. destruct (vlit_ty c Hd Hl) as [E I]. cbn [entityValue_run]. change (has_chars ce 1 (c :: r)) with true. cbv iota.
  change (byte_type ce (c :: r)) with (Ok (ty k c)). cbn [bind]. rewrite E.
  destruct (ty k c); cbn [In] in I; try tauto; reflexivity.
Qed.
Lemma vrun_lits B p rest : all_in dom p -> all_in vlit p -> forall f, (length p <= f)%nat -> p <> [] ->
  forall first, @entityValue_run ce B f first (p ++ rest) = entityValue_run ce (f - length p) false rest.
Proof.
  intros Hd Hl. revert Hd. induction Hl as [|c p Hc Hl IH]; intros Hd f Hf Hn first; [congruence|].
  inversion Hd; subst. destruct f as [|f]; [cbn in Hf; lia|]. cbn [List.app length] in *. rewrite vrun_lit by auto.
  destruct p as [|d p]; [cbn [List.app length]; replace (S f - 1)%nat with f by lia; reflexivity|].
  rewrite IH; [|assumption|cbn in *; lia|discriminate]. reflexivity.
Qed.
Lemma vrun_halt B f cs : all_in dom cs -> vhalts cs -> (length cs < f)%nat -> @entityValue_run ce B f false cs = Ok (Stop T_DATA_CHARS (Some cs)).
Proof.
  intros Hd Hl Hf. destruct f as [|f]; [lia|]. destruct cs as [|c r]; [reflexivity|]. inversion Hd; subst. cbn [vhalts] in Hl.
  cbn [entityValue_run]. change (has_chars ce 1 (c :: r)) with true. cbv iota.
  change (byte_type ce (c :: r)) with (Ok (ty k c)). cbn [bind]. rewrite (ac_lead _ _ _ _ _ AC) by auto.
  assert (ty k c = BT_AMP \/ ty k c = BT_PERCNT \/ ty k c = BT_LF \/ ty k c = BT_CR) as K.
  { rewrite (ac_amp _ _ _ _ _ AC), (vc_pct_ty _ _ _ _ _ VC), (ac_lf _ _ _ _ _ AC), (ac_cr _ _ _ _ _ AC) by auto. unfold vlit in Hl. destruct inner; lia. }
  destruct K as [->|[->|[->| ->]]]; reflexivity.
Qed.
Lemma vtok_run p cs : all_in dom (p ++ cs) -> all_in vlit p -> p <> [] -> vhalts cs ->
  entityValueTok ce (p ++ cs) = Ok (T_DATA_CHARS, Some (length p)).
Proof.
  intros Hd Hl Hn Hh. apply Forall_app in Hd as [Hd1 Hd2]. unfold entityValueTok. destruct p as [|c p]; [congruence|].
  cbn [List.app is_nil]. change (negb (has_chars ce 1 (c :: p ++ cs))) with false. cbv iota. unfold run.
  change (c :: p ++ cs) with ((c :: p) ++ cs).
  rewrite vrun_lits; [|assumption|assumption|rewrite app_length; lia|discriminate].
  rewrite vrun_halt; [|assumption|assumption|rewrite app_length; cbn [length]; lia]. cbn [option_map]. rewrite app_length. do 3 f_equal. lia.
Qed.
Lemma vtok_first c r : entityValueTok ce (c :: r) = run (entityValue_run ce (S (S (length r))) true) (c :: r).
Proof. reflexivity. Qed.
Lemma vfirst_eq B f c r : dom c = true -> @entityValue_run ce B (S f) true (c :: r) =
  match ty k c with
  | BT_AMP => scanRef ce r
  | BT_PERCNT => percent_as_invalid (scanPercent ce) r
  | BT_LF => Ok (Stop T_DATA_NEWLINE (Some r))
  | BT_CR => match r with [] => Ok (Stop T_TRAILING_CR None) | d :: r' => Ok (Stop T_DATA_NEWLINE (Some (if bt_eqb (ty k d) BT_LF then r' else r))) end
  | _ => entityValue_run ce f false r
  end.
Proof.
  intros Hd. cbn [entityValue_run]. change (has_chars ce 1 (c :: r)) with true. cbv iota.
  change (byte_type ce (c :: r)) with (Ok (ty k c)). cbn [bind]. rewrite (ac_lead _ _ _ _ _ AC) by auto.
  destruct (ty k c); try reflexivity. destruct r as [|d r]; [reflexivity|].
  unfold stop_after, stop_here. rewrite b_adv1. unfold require_or, mbind at 1. change (has_chars ce 1 (d :: r)) with true. cbv iota. rewrite b_bt.
  destruct (bt_eqb (ty k d) BT_LF); reflexivity.
Qed.
Lemma vtok_lf r : dom 10 = true -> entityValueTok ce (10 :: r) = Ok (T_DATA_NEWLINE, Some 1%nat).
Proof.
  intros Hd. rewrite vtok_first. unfold run. rewrite vfirst_eq by auto. rewrite (proj2 (ac_lf _ _ _ _ _ AC 10 Hd)) by auto.
  cbn [option_map length]. do 3 f_equal. lia.
Qed.
Lemma vtok_crlf r : dom 13 = true -> dom 10 = true -> inner = false -> entityValueTok ce (13 :: 10 :: r) = Ok (T_DATA_NEWLINE, Some 2%nat).
Proof.
  intros D1 D2 Hi. rewrite vtok_first. unfold run. rewrite vfirst_eq by auto.
  rewrite (proj2 (ac_cr _ _ _ _ _ AC 13 D1)) by auto. rewrite (proj2 (ac_lf _ _ _ _ _ AC 10 D2)) by auto.
  change (bt_eqb BT_LF BT_LF) with true. cbn [option_map length]. do 3 f_equal. lia.
Qed.
Lemma vtok_cr r : all_in dom (13 :: r) -> inner = false -> ~ (exists q, r = 10 :: q) ->
  entityValueTok ce (13 :: r) = match r with [] => Ok (T_TRAILING_CR, None) | _ => Ok (T_DATA_NEWLINE, Some 1%nat) end.
Proof.
  intros Hd Hi Hn. inversion Hd as [|x l H1 H2]; subst x l. rewrite vtok_first. unfold run. rewrite vfirst_eq by auto.
  rewrite (proj2 (ac_cr _ _ _ _ _ AC 13 H1)) by auto. destruct r as [|d r]; [reflexivity|]. inversion H2 as [|x l H3 H4]; subst x l.
  replace (bt_eqb (ty k d) BT_LF) with false.
  - cbn [option_map length]. do 3 f_equal. lia.
  - symmetry. apply not_true_is_false. intros E. apply bt_eqb_eq in E. apply (ac_lf _ _ _ _ _ AC) in E; auto. subst. eauto.
Qed.
(* after an ampersand the two kinds of value have the same tokens *)
Lemma vtok_ref cs : all_in dom (38 :: cs) -> entityValueTok ce (38 :: cs) = attributeValueTok ce (38 :: cs).
Proof.
  intros Hd. rewrite (tok_ref _ _ _ _ _ AC cs Hd). inversion Hd; subst. rewrite vtok_first. unfold run. rewrite vfirst_eq by auto.
  rewrite (proj2 (ac_amp _ _ _ _ _ AC 38 H1) eq_refl). rewrite (ac_ref _ _ _ _ _ AC) by auto. reflexivity.
Qed.
Lemma vtok_percent cs : all_in dom (37 :: cs) -> entityValueTok ce (37 :: cs) = run (fun _ => percent_as_invalid (pct lat ns) cs) (37 :: cs).
Proof.
  intros Hd. inversion Hd; subst. rewrite vtok_first. unfold run. rewrite vfirst_eq by auto.
  rewrite (proj2 (vc_pct_ty _ _ _ _ _ VC 37 H1) eq_refl). unfold percent_as_invalid. rewrite (vc_pct _ _ _ _ _ VC) by auto. reflexivity.
Qed.
Lemma vtok_parameter n cs : all_in dom (txt "%" ++ n ++ txt ";" ++ cs) -> is_name lat ns n ->
  entityValueTok ce (txt "%" ++ n ++ txt ";" ++ cs) = Ok (T_PARAM_ENTITY_REF, Some (length (txt "%" ++ n ++ txt ";"))).
Proof.
  intros Hd Hn. change (txt "%" ++ n ++ txt ";" ++ cs) with (37 :: n ++ [59] ++ cs) in *. rewrite vtok_percent by auto. unfold run, percent_as_invalid.
  rewrite pct_name by auto. cbn [CpTag.stop tok_eqb option_map]. change (txt "%") with [37]. change (txt ";") with [59].
  change (tok_eqb T_PARAM_ENTITY_REF T_PERCENT) with false. cbv iota. apply (f_equal (fun n => Ok (_, Some n))). repeat (rewrite app_length || cbn [length List.app]). lia.
Qed.
Lemma vtok_wrong cs : all_in dom (37 :: cs) -> no_parameter lat ns (37 :: cs) ->
  (exists n, entityValueTok ce (37 :: cs) = Ok (T_INVALID, Some n)) \/ entityValueTok ce (37 :: cs) = Ok (T_PARTIAL, None).
Proof.
  intros Hd Hn. rewrite vtok_percent by auto. unfold run, percent_as_invalid. destruct (@pct_else lat ns Empty_set cs Hn) as [->|(t & p & -> & Ht)].
  - right. reflexivity.
  - left. unfold CpTag.stop. destruct Ht as [-> | ->]; eexists; reflexivity.
Qed.
End Toks.
