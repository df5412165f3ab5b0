(* C69: comments, processing instructions and character references are reported. *)
From Coq Require Import String List NArith ZArith Bool Lia Arith.
From Coq Require Import ZifyBool ZifyNat ZifyN.
From Verif Require Import Base Tables Encoding SpecText SpecUnicode SpecNames SpecLex SpecMisc SpecDoc EncLaws Tok TokMisc UniLaws UniConv SpecConv Charset CharsetLaws TextEnc CpTag CpContent CpProlog MiscTop DeclFinal Role Status State AttVal CtxLaws Bind Content Prolog SpecRef Core SpecNote.
From Verif Require Import AttsText.
From Verif Require Norm AttNorm DocAct SimTop RefLaws.
From Verif Require Import SpecDoc SpecNote.
From Coq Require Import List.
Import ListNotations.
Local Open Scope N_scope.

Lemma xml_scalar cs : xml_text cs -> all_in is_scalar cs.
Proof. apply Forall_impl. intros c. unfold is_xml_char, is_scalar. lia. Qed.

Section TE.
Variables (e : EncImpl) (enc : N -> bytes) (dom : N -> bool) (lat ns : bool).
Hypothesis TE : text_encoding e enc dom lat ns.
Notation T := (flat_map enc).

Lemma ascii_len cs : all_in (fun c => c <? 128) cs -> length (T cs) = (minbpc e * length cs)%nat.
Proof.
  destruct (text_encoding_std _ _ _ _ _ TE) as (k & CS & ST). induction 1 as [|c r H F IH]; [cbn; lia|].
  cbn [flat_map length]. rewrite app_length, IH, (ch_narrow_len _ _ _ _ CS c) by lia. lia.
Qed.
Lemma T_long cs : all_in dom cs -> (length cs <= length (T cs))%nat.
Proof.
  destruct (text_encoding_std _ _ _ _ _ TE) as (k & CS & ST). induction 1 as [|c r H F IH]; [cbn; lia|].
  cbn [flat_map length]. rewrite app_length. destruct (ch_whole _ _ _ _ CS c H) as (j & ->). destruct (ch_min _ _ _ _ CS) as [-> | ->]; lia.
Qed.
Lemma drop_dom cs : all_in dom cs -> all_in dom (drop_spaces cs).
Proof. apply DocAct.drop_all. Qed.
Lemma skip_loop f : forall cs, all_in dom cs -> drop_spaces cs <> [] -> (length cs < f)%nat -> skipS_loop e f (T cs) = Ok (T (drop_spaces cs)).
Proof.
  destruct (text_encoding_std _ _ _ _ _ TE) as (k & CS & ST). induction f as [|f IH]; intros cs Hd Hn L; [lia|]. destruct cs as [|c r]; [elim Hn; reflexivity|].
  cbn [skipS_loop]. pose proof (SimTop.view e enc dom k CS c r Hd) as V. inversion Hd as [|? ? Hc Hr]; subst. cbn [drop_spaces] in Hn |- *. cbn [length] in L.
  assert (K : is_space c = true -> match ty k c with BT_LF | BT_CR | BT_S => true | _ => false end = true /\ c < 128).
  { intros Hs. unfold is_space in Hs. assert (Q : c < 128) by lia. split; [|exact Q]. rewrite (st_ascii _ _ _ _ ST c Q).
    assert (c = 32 \/ c = 9 \/ c = 13 \/ c = 10) as [-> |[-> |[-> | ->]]] by lia; destruct ns; reflexivity. }
  assert (K' : is_space c = false -> match ty k c with BT_LF | BT_CR | BT_S => true | _ => false end = false).
  { intros Hs. destruct (N.lt_ge_cases c 128) as [Q|Q].
    - rewrite (st_ascii _ _ _ _ ST c Q). clear -Hs Q. revert Hs. assert (H : forall c, c < 128 -> (is_space c || negb (match nth (N.to_nat c) (ascii_table ns) BT_NONXML with BT_LF | BT_CR | BT_S => true | _ => false end)) = true) by (destruct ns; apply below128; vm_compute; reflexivity).
      specialize (H c Q). intros Hs. rewrite Hs in H. cbn [orb] in H. apply negb_true_iff in H. exact H.
    - pose proof (st_wide _ _ _ _ ST c Hc Q) as W. cbn [In] in W. destruct W as [<-|[<-|[<-|[<-|[<-|[]]]]]]; reflexivity. }
  destruct V as [t Et Ek Hl Hi _|t n Et Hl Ek _ _ _]; rewrite Et; cbn [bind].
  - subst t. destruct (is_space c) eqn:Es.
    + destruct (K eq_refl) as [K1 _]. assert (K2 : forall X Y : res bytes, match ty k c with BT_LF | BT_CR | BT_S => X | _ => Y end = X) by (intros; destruct (ty k c); try discriminate K1; reflexivity). rewrite K2.
      assert (P : ptr_offset (minbpc e) (T (c :: r)) = Ok (T r)).
      { apply EncLaws.inc_start_skipn in Hi as [Hi Hle]. unfold ptr_offset. apply has_length in Hle. rewrite Hle, Hi. reflexivity. }
      rewrite P. cbn [bind]. apply IH; auto. lia.
    + assert (K2 : forall X Y : res bytes, match ty k c with BT_LF | BT_CR | BT_S => X | _ => Y end = Y) by (intros; specialize (K' eq_refl); destruct (ty k c); try discriminate K'; reflexivity). rewrite K2. reflexivity.
  - assert (Es : is_space c = false).
    { destruct (is_space c) eqn:Es; [|reflexivity]. destruct (K eq_refl) as [K1 _]. rewrite Ek in K1. unfold wide_type in K1. destruct (is_xml_char c); discriminate K1. }
    rewrite Es. destruct t; try discriminate Hl; reflexivity.
Qed.
Lemma skip_eq cs : all_in dom cs -> drop_spaces cs <> [] -> skipS e (T cs) = Ok (T (drop_spaces cs)).
Proof. intros Hd Hn. apply skip_loop; auto. pose proof (T_long cs Hd). lia. Qed.

Lemma comment_told body after s : s_enc s = EKnown e -> h_comment (c_h (s_cfg s)) = true -> comment_body body -> all_in dom body ->
  reportComment ENormal (T (comment_text body)) after s = (call (EvComment (utf8 (norm_eol body))) ;;; pret tt) s.
Proof.
  intros He H [Hx _] Hd. unfold reportComment, pbind at 1, handler, get. rewrite H. cbn [negb]. unfold pbind at 1, encoding. rewrite He. cbn [known].
  unfold comment_text. rewrite !flat_map_app.
  replace (minbpc e * 4)%nat with (length (T (txt "<!--"))) by (rewrite ascii_len; [reflexivity|repeat constructor]).
  replace (minbpc e * 3)%nat with (length (T (txt "-->"))) by (rewrite ascii_len; [reflexivity|repeat constructor]).
  unfold pbind at 1. rewrite DocAct.inc_p. unfold pbind at 1. rewrite DocAct.dec_app. unfold pbind at 1, lift at 1. rewrite (te_conv e enc dom lat ns TE body Hd).
  unfold pbind at 1, lift at 1. destruct (DocAct.lines body (xml_scalar _ Hx) Hx) as (a & -> & ->). reflexivity.
Qed.
Lemma drop_end d : drop_spaces (d ++ txt "?>") = drop_spaces d ++ txt "?>".
Proof. induction d as [|c d IH]; [reflexivity|]. cbn [app drop_spaces]. rewrite IH. destruct (is_space c); reflexivity. Qed.
Lemma pi_told target data after s : s_enc s = EKnown e -> h_pi (c_h (s_cfg s)) = true -> is_name lat ns target -> pi_data data ->
  all_in dom (pi_text target data) ->
  reportPI ENormal (T (pi_text target data)) after s = (call (EvPI (utf8 target) (utf8 (norm_eol (drop_spaces data)))) ;;; pret tt) s.
Proof.
  intros He H Hn Hp Hdd. assert (Hda : all_in dom target /\ all_in dom (data ++ txt "?>") /\ all_in dom data).
  { unfold pi_text, all_in in *. rewrite !Forall_app in *. tauto. }
  destruct Hda as (Ht & Hde & Hd). unfold reportPI, pbind at 1, handler, get. rewrite H. cbn [negb]. unfold pbind at 1, encoding. rewrite He. cbn [known].
  unfold pi_text.
  assert (NL : nameLength e (T (target ++ data ++ txt "?>")) = Ok (length (T target))).
  { destruct data as [|c d].
    - apply (te_nameLength e enc dom lat ns TE target 63 (txt ">")); auto; [left; exact Hn|]. right. cbn. tauto.
    - apply (te_nameLength e enc dom lat ns TE target c (d ++ txt "?>")); auto; [left; exact Hn|]. left.
      destruct Hp as [Hp|(c' & d' & Hp & Hc & _)]; [discriminate|]. injection Hp as -> ->. exact Hc. }
  rewrite flat_map_app. replace (minbpc e * 2)%nat with (length (T (txt "<?"))) at 1 by (rewrite ascii_len; [reflexivity|repeat constructor]).
  unfold pbind at 1. rewrite DocAct.inc_p. unfold pbind at 1, lift at 1. rewrite NL. rewrite flat_map_app. unfold pbind at 1. rewrite DocAct.inc_p.
  unfold pbind at 1, lift at 1. rewrite DocAct.with_len_first. unfold pbind at 1, lift at 1. rewrite (te_conv e enc dom lat ns TE target Ht).
  unfold pbind at 1, lift at 1. rewrite skip_eq; [|exact Hde|rewrite drop_end; destruct (drop_spaces data); discriminate]. rewrite drop_end, flat_map_app.
  replace (minbpc e * 2)%nat with (length (T (txt "?>"))) by (rewrite ascii_len; [reflexivity|repeat constructor]).
  unfold pbind at 1. rewrite DocAct.dec_app. unfold pbind at 1, lift at 1. rewrite (te_conv e enc dom lat ns TE _ (drop_dom _ Hd)).
  unfold pbind at 1, lift at 1. pose proof (DocAct.drop_all _ _ (DocAct.pi_xml _ Hp)) as Hx. destruct (DocAct.lines _ (xml_scalar _ Hx) Hx) as (a & -> & ->). reflexivity.
Qed.

(* the token *)
Definition note_tok (ev : event) : XML_TOK := match ev with EvComment _ => T_COMMENT | _ => T_PI end.
Definition report_of (ev : event) : enctype -> bytes -> nat -> P unit := match ev with EvComment _ => reportComment | _ => reportPI end.
Lemma note_token cs ev rest : note lat ns cs ev -> content_token lat ns (note_tok ev) cs rest.
Proof. intros [body H|target data H1 H2 H3]; constructor; auto. Qed.
Lemma note_told cs ev after s : note lat ns cs ev -> s_enc s = EKnown e -> heard (c_h (s_cfg s)) ev = true -> all_in dom cs ->
  report_of ev ENormal (T cs) after s = (call ev ;;; pret tt) s.
Proof.
  intros H He Hh Hd. destruct H as [body H|target data H1 H2 H3]; cbn [report_of heard] in *.
  - apply comment_told; auto. unfold comment_text, all_in in *. rewrite !Forall_app in Hd. tauto.
  - apply pi_told; auto.
Qed.

Theorem note_in_content r level more s cs ev rest : note lat ns cs ev -> s_enc s = EKnown e -> heard (c_h (s_cfg s)) ev = true -> all_in dom (cs ++ rest) ->
  exists s0 re s1, positions_only s s0 /\ call ev s0 = Ret re s1 /\
    doContent r level ENormal (T (cs ++ rest)) more s = goes_on r level more (T rest) s1.
Proof.
  intros Hn He Hh Hd. eexists (set_evEnd (Some (length (T rest))) (set_ev (Some (length (T (cs ++ rest)))) s)), _, _. split; [destruct s; reflexivity|]. split; [reflexivity|].
  unfold doContent. unfold set_event at 1. cbn [is_internal]. unfold pbind at 1, upd at 1. unfold pbind at 1, encoding at 1.
  change (s_enc (set_ev ?a s)) with (s_enc s). rewrite He. cbn [known]. unfold pbind at 1, scan_as at 1, scan at 1. change (s_enc (set_ev ?a s)) with (s_enc s). rewrite He.
  assert (Ct : contentTok e (T (cs ++ rest)) = Ok (note_tok ev, Some (length (T cs)))).
  { apply (contentTok_exact e enc dom lat ns _ (note_tok ev) _ TE Hd); [destruct ev; discriminate|]. exists cs, rest. split; [reflexivity|]. split; [apply note_token, Hn|reflexivity]. }
  unfold lift at 1. rewrite Ct. cbv beta iota. unfold pbind at 1, set_event_end_tok at 1. cbn [is_internal]. unfold upd at 1.
  replace (length (T (cs ++ rest)) - length (T cs))%nat with (length (T rest)) by (rewrite flat_map_app, app_length; lia).
  set (s0 := set_evEnd _ _).
  assert (Hd1 : all_in dom cs) by (unfold all_in in *; rewrite Forall_app in Hd; tauto).
  pose proof (note_told cs ev (length (T rest)) s0 Hn He Hh Hd1) as K.
  assert (F : firstn (length (T cs)) (T (cs ++ rest)) = T cs) by (rewrite flat_map_app; apply AttNorm.firstn_app_len).
  destruct Hn as [body Hb|target data Hb1 Hb2 Hb3]; cbn [note_tok report_of] in *; unfold pbind at 1, need at 1, pret at 1; rewrite F;
    replace (length (T (_ ++ rest)) - length (T _))%nat with (length (T rest)) by (rewrite flat_map_app, app_length; lia);
    unfold pbind at 1; rewrite K; unfold pbind at 1, call at 1, pret at 1; unfold pbind at 1, inc, lift; rewrite flat_map_app, inc_start_app_len; reflexivity.
Qed.

Theorem number_in_content r level more s cs v rest : number cs v -> s_enc s = EKnown e -> all_in dom (cs ++ rest) ->
  exists s0, positions_only s s0 /\
    let run := doContent r level ENormal (T (cs ++ rest)) more s in
    if is_xml_char v then h_charData (c_h (s_cfg s)) = true -> exists re s1, call (EvCharData (utf8 [v])) s0 = Ret re s1 /\ run = goes_on r level more (T rest) s1
    else run = Fail XE_BAD_CHAR_REF s0.
Proof.
  intros Hn He Hd. exists (set_evEnd (Some (length (T rest))) (set_ev (Some (length (T (cs ++ rest)))) s)). split; [destruct s; reflexivity|]. cbv zeta.
  assert (Ct : contentTok e (T (cs ++ rest)) = Ok (T_CHAR_REF, Some (length (T cs)))).
  { apply (contentTok_exact e enc dom lat ns _ T_CHAR_REF _ TE Hd); [discriminate|]. exists cs, rest. split; [reflexivity|]. split; [|reflexivity]. constructor.
    destruct Hn as [ds H1 H2|ds H1 H2]; [left|right]; exists ds; auto. }
  assert (Cr : charRefNumber e (T cs ++ T rest) = Ok (if is_xml_char v then Z.of_N v else -1)%Z).
  { destruct Hn as [ds H1 H2|ds H1 H2]; [apply (te_charref_dec e enc dom lat ns TE ds (T rest) H1 H2)|apply (te_charref_hex e enc dom lat ns TE ds (T rest) H1 H2)]. }
  destruct (is_xml_char v) eqn:X; [intros H; eexists _, _; split; [reflexivity|]|].
  all: unfold doContent; unfold set_event at 1; cbn [is_internal]; unfold pbind at 1, upd at 1; unfold pbind at 1, encoding at 1;
  change (s_enc (set_ev ?a s)) with (s_enc s); rewrite He; cbn [known]; unfold pbind at 1, scan_as at 1, scan at 1; change (s_enc (set_ev ?a s)) with (s_enc s); rewrite He;
  unfold lift at 1; rewrite Ct; cbv beta iota; unfold pbind at 1, set_event_end_tok at 1; cbn [is_internal]; unfold upd at 1;
  assert (F : firstn (length (T cs)) (T (cs ++ rest)) = T cs) by (rewrite flat_map_app; apply AttNorm.firstn_app_len);
  assert (L : (length (T (cs ++ rest)) - length (T cs))%nat = length (T rest)) by (rewrite flat_map_app, app_length; lia).
  all: rewrite L; set (s0 := set_evEnd _ _); assert (C0 : s_cfg s0 = s_cfg s) by reflexivity; clearbody s0; unfold pbind at 1, need at 1, pret at 1; rewrite F, L;
    unfold pbind at 1, lift at 1; rewrite flat_map_app, Cr; cbv beta iota.
  - replace (Z.of_N v <? 0)%Z with false by lia. rewrite XmlUtf8Encode_spec by (unfold is_xml_char in X; lia).
    unfold pbind at 1, char_data, pbind at 1, handler, get. rewrite C0, H. cbn [utf8 flat_map]. rewrite app_nil_r.
    unfold pbind at 1, call at 1, pret at 1. unfold pbind at 1, inc, lift. rewrite inc_start_app_len, ?C0. reflexivity.
  - reflexivity.
Qed.

Lemma note_ptok cs ev rest : note lat ns cs ev -> all_in dom (cs ++ rest) -> (forall c, In c (cs ++ rest) -> 128 <= c -> is_xml_char c = true) ->
  prologTok e (T (cs ++ rest)) = Ok (note_tok ev, Some (length (T cs))).
Proof.
  intros Hn Hd Hx. apply (prologTok_exact e enc dom lat ns _ (note_tok ev) _ TE Hd Hx); [destruct ev; cbn; auto|].
  exists cs, rest. split; [reflexivity|]. split; [apply note_token, Hn|reflexivity].
Qed.
Theorem note_in_epilog fuel s cs ev rest : note lat ns cs ev -> s_enc s = EKnown e -> heard (c_h (s_cfg s)) ev = true -> all_in dom (cs ++ rest) ->
  (forall c, In c (cs ++ rest) -> 128 <= c -> is_xml_char c = true) ->
  exists s0 re s1, positions_only s s0 /\ call ev s0 = Ret re s1 /\ epilog_loop (S fuel) (T (cs ++ rest)) s = ends_with fuel (T rest) s1.
Proof.
  intros Hn He Hh Hd Hx. eexists (set_evEnd (Some (length (T rest))) (set_ev (Some (length (T (cs ++ rest)))) s)), _, _. split; [destruct s; reflexivity|]. split; [reflexivity|].
  cbn [epilog_loop]. unfold set_event at 1. cbn [is_internal]. unfold pbind at 1, upd at 1. unfold pbind at 1, scan at 1. change (s_enc (set_ev ?a s)) with (s_enc s). rewrite He.
  unfold lift at 1. rewrite (note_ptok cs ev rest Hn Hd Hx). cbv beta iota. unfold pbind at 1, set_event_end_tok at 1. cbn [is_internal]. unfold upd at 1.
  assert (F : firstn (length (T cs)) (T (cs ++ rest)) = T cs) by (rewrite flat_map_app; apply AttNorm.firstn_app_len).
  assert (L : (length (T (cs ++ rest)) - length (T cs))%nat = length (T rest)) by (rewrite flat_map_app, app_length; lia).
  rewrite L. set (s0 := set_evEnd _ _).
  assert (Hd1 : all_in dom cs) by (unfold all_in in *; rewrite Forall_app in Hd; tauto).
  pose proof (note_told cs ev (length (T rest)) s0 Hn He Hh Hd1) as K. unfold pbind at 1, get at 1.
  destruct Hn as [body Hb|target data Hb1 Hb2 Hb3]; cbn [note_tok report_of] in *; unfold pbind at 1, need at 1, pret at 1; rewrite F, L;
    unfold pbind at 1; rewrite K; unfold pbind at 1, call at 1, pret at 1; unfold pbind at 1, inc, lift; rewrite flat_map_app, inc_start_app_len; reflexivity.
Qed.
Lemma between_role p ev cs tok : note lat ns cs ev -> between p -> between (no_longer_first p) /\
  Role.token_role e p (note_tok ev) tok = Ok (no_longer_first p, match ev with EvComment _ => Role.R_COMMENT | _ => Role.R_PI end).
Proof.
  intros Hn B. unfold between, no_longer_first in *. destruct p; cbn [Role.hd In] in B.
  repeat (destruct B as [<-|B]; [split; [cbn; tauto|destruct Hn; reflexivity]|]). destruct B.
Qed.
Theorem note_in_prolog r more closing s cs ev rest : note lat ns cs ev -> s_enc s = EKnown e -> heard (c_h (s_cfg s)) ev = true -> all_in dom (cs ++ rest) ->
  (forall c, In c (cs ++ rest) -> 128 <= c -> is_xml_char c = true) -> between (s_role s) ->
  exists s0 re s1, between (no_longer_first (s_role s)) /\ positions_only (set_role (no_longer_first (s_role s)) s) s0 /\ call ev s0 = Ret re s1 /\
    (do (k, n) <- scan_as ENormal false (T (cs ++ rest)); doProlog r ENormal (T (cs ++ rest)) k n more closing) s = prolog_on r more closing (T rest) s1.
Proof.
  intros Hn He Hh Hd Hx B. destruct (between_role _ ev cs (T cs) Hn B) as [B' Rl].
  eexists (set_role (no_longer_first (s_role s)) (set_evEnd (Some (length (T rest))) (set_ev (Some (length (T (cs ++ rest)))) s))), _, _. split; [exact B'|]. split; [destruct s; reflexivity|]. split; [reflexivity|].
  unfold pbind at 1, scan_as at 1, scan at 1. rewrite He. unfold lift at 1. rewrite (note_ptok cs ev rest Hn Hd Hx). cbv beta iota. unfold doProlog. unfold set_event at 1. cbn [is_internal]. unfold pbind at 1, upd at 1.
  unfold pbind at 1, set_event_end_tok at 1. cbn [is_internal]. unfold upd at 1.
  assert (L : (length (T (cs ++ rest)) - length (T cs))%nat = length (T rest)) by (rewrite flat_map_app, app_length; lia).
  rewrite L. set (s0 := set_evEnd _ _). unfold pbind at 1, encoding at 1. change (s_enc s0) with (s_enc s). rewrite He. cbn [known].
  assert (Te : tok_is_error (note_tok ev) = false) by (destruct ev; reflexivity). rewrite Te.
  unfold pbind at 1, rest_after, inc, lift. rewrite flat_map_app, inc_start_app_len. cbv beta zeta.
  assert (Bf : before (T cs ++ T rest) (T rest) = T cs).
  { unfold before. rewrite app_length, Nat.add_sub. apply AttNorm.firstn_app_len. }
  rewrite Bf. unfold pbind at 1, role_of, pbind at 1, get at 1. change (s_role s0) with (s_role s). unfold pbind at 1, lift at 1. rewrite Rl. cbv beta iota. unfold pbind at 1, upd at 1, pret at 1.
  set (s1 := set_role _ s0). assert (Hd1 : all_in dom cs) by (unfold all_in in *; rewrite Forall_app in Hd; tauto).
  pose proof (note_told cs ev (length (T rest)) s1 Hn He Hh Hd1) as K.
  destruct Hn as [body Hb|target data Hb1 Hb2 Hb3]; cbn [note_tok report_of] in *; unfold pbind at 1, role_step, pbind at 1, role_action, pbind at 1; rewrite K; unfold pbind at 1, call at 1, pret at 1; reflexivity.
Qed.
End TE.
