(* What each piece of a document does to the parser. *)
From Coq Require Import String List NArith ZArith Bool Lia Arith.
From Coq Require Import ZifyBool ZifyNat ZifyN.
From Verif Require Import Base Tables Encoding SpecText SpecUnicode SpecNames SpecLex SpecMisc EncLaws Tok TokMisc Norm UniLaws UniConv SpecConv Charset CharsetLaws TextEnc CpBase CpTag CpAtts MiscTop DeclFinal AttCp.
From Verif Require Import Status Role State AttVal Bind Atts Content Keep SpecNs NsRules SpecCtx CtxLaws SpecAttVal AttNorm AttTop SpecAtts AttsLaws AttsTop.
From Verif Require Nest.
From Verif Require Import AttsLog AttsText SpecDoc DocLaws DocTok DocItem.
From Coq Require Import List.
Import ListNotations.
Local Open Scope N_scope.

(* ---- bytes ---- *)
Lemma wide_bytes c : is_scalar c = true -> 128 <= c -> forall x, In x (utf8_encode c) -> 128 <= x.
Proof.
  intros Hs H x I. assert (Hb : c < 1114112) by (apply scalar_max; exact Hs). destruct (utf8_encode_form c Hb); cbn [In] in I; lia.
Qed.
Lemma norm_skip a r : ~ In 13 a -> norm_eol (a ++ r) = a ++ norm_eol r. Proof. apply norm_data. Qed.
Lemma norm_utf8 cs : all_in is_scalar cs -> norm_eol (utf8 cs) = utf8 (norm_eol cs).
Proof.
  remember (length cs) as n eqn:En. revert cs En. induction n as [n IH] using lt_wf_ind. intros cs -> H. destruct cs as [|c r]; [reflexivity|].
  inversion H as [|? ? Hc Hr]; subst. rewrite utf8_cons. cbn [norm_eol]. destruct (c =? 13) eqn:E.
  - assert (c = 13) by lia. subst c. change (utf8_encode 13) with [13]. destruct r as [|d r']; [reflexivity|]. inversion Hr as [|? ? Hd Hr']; subst.
    destruct (d =? 10) eqn:E2.
    + assert (d = 10) by lia. subst d. rewrite utf8_cons. change (utf8_encode 10) with [10]. rewrite utf8_cons. cbn [List.app norm_eol]. change (13 =? 13) with true. cbn iota. change (10 =? 10) with true. cbn iota.
      change (utf8_encode 10) with [10]. cbn [List.app]. f_equal. eapply IH; [|reflexivity|exact Hr']. cbn. lia.
    + transitivity (10 :: norm_eol (utf8 (d :: r'))).
      * rewrite utf8_cons. cbn [List.app norm_eol]. change (13 =? 13) with true. cbn iota. f_equal.
        destruct (N.lt_ge_cases d 128) as [L|L]; [rewrite (narrow_enc d L)|].
        -- cbn [List.app]. rewrite E2. reflexivity.
        -- pose proof (wide_bytes d Hd L) as W. destruct (utf8_encode d) as [|y q] eqn:Eq; [assert (Hb : d < 1114112) by (apply scalar_max; exact Hd); destruct (utf8_encode_form d Hb); discriminate|].
           cbn [List.app]. replace (y =? 10) with false; [reflexivity|]. specialize (W y (or_introl eq_refl)). lia.
      * rewrite (utf8_cons 10). change (utf8_encode 10) with [10]. cbn [List.app]. f_equal. eapply IH; [|reflexivity|exact Hr]. cbn. lia.
  - rewrite norm_data; [rewrite utf8_cons; f_equal; eapply IH; [|reflexivity|exact Hr]; cbn; lia|].
    destruct (N.lt_ge_cases c 128) as [L|L]; [rewrite (narrow_enc c L); intros [X|[]]; lia|]. intros I. apply (wide_bytes c Hc L) in I. lia.
Qed.
Lemma xml_no_zero cs : all_in is_scalar cs -> xml_text cs -> ~ In 0 (utf8 cs).
Proof.
  intros Hs H I. unfold utf8 in I. apply in_flat_map in I as (c & Ic & I). unfold xml_text, all_in in *. rewrite Forall_forall in H, Hs. pose proof (H c Ic) as Hx. pose proof (Hs c Ic) as Hc.
  destruct (N.lt_ge_cases c 128) as [L|L]; [rewrite (narrow_enc c L) in I; destruct I as [->|[]]; discriminate|]. apply (wide_bytes c Hc L) in I. lia.
Qed.
Lemma c_str_cstr a : c_str a = cstr a. Proof. induction a as [|c a IH]; [reflexivity|]. cbn. rewrite IH. reflexivity. Qed.
Lemma lines cs : all_in is_scalar cs -> xml_text cs -> exists a, normalizeLines (utf8 cs ++ [0]) = Ok a /\ c_str a = utf8 (norm_eol cs).
Proof.
  intros Hs Hx. destruct (normalizeLines_in (utf8 cs) [] (xml_no_zero cs Hs Hx)) as (a & E & F & _). exists a. split; [exact E|]. rewrite c_str_cstr, F. now apply norm_utf8.
Qed.
Lemma u8_conv cs : all_in is_scalar cs -> conv u8 (utf8 cs) = Ok (utf8 cs).
Proof. apply (te_conv u8 utf8_encode is_scalar false false te_utf8). Qed.
Lemma skip_spaces f : forall cs q, all_in is_scalar cs -> (length cs < f)%nat -> skipS_loop u8 f (utf8 cs ++ 63 :: q) = Ok (utf8 (drop_spaces cs) ++ 63 :: q).
Proof.
  destruct u8_charset as (k & CS & ST). induction f as [|f IH]; intros cs q Hs L; [lia|]. cbn [skipS_loop]. destruct cs as [|c r].
  - cbn [utf8 flat_map List.app drop_spaces]. reflexivity.
  - pose proof (u8_ahead k (c :: r) (63 :: q) CS Hs) as A. inversion A as [E|c' r' E Hl Ht Hp|c' r' t E Hl Ht Hp Hi Hn Hh]; [discriminate| |]; injection E as <- <-.
    + inversion Hs as [|? ? Hc Hr]; subst. rewrite utf8_cons, (narrow_enc c Hl). cbn [List.app]. rewrite Ht. cbn [bind]. cbn [drop_spaces].
      assert (K : match ty k c with BT_LF | BT_CR | BT_S => true | _ => false end = is_space c).
      { rewrite (st_ascii _ _ _ _ ST c Hl). clear -Hl. revert c Hl. assert (H : forall c, c < 128 -> Bool.eqb (match nth (N.to_nat c) (ascii_table false) BT_NONXML with BT_LF | BT_CR | BT_S => true | _ => false end) (is_space c) = true) by (apply below128; vm_compute; reflexivity).
        intros c Hl. specialize (H c Hl). apply eqb_prop in H. exact H. }
      destruct (is_space c) eqn:Es.
      * assert (K2 : forall X Y : res bytes, match ty k c with BT_LF | BT_CR | BT_S => X | _ => Y end = X) by (intros; destruct (ty k c); try discriminate K; reflexivity). rewrite K2.
        change (ptr_offset (minbpc u8) (c :: utf8 r ++ 63 :: q)) with (Ok (utf8 r ++ 63 :: q)). cbn [bind]. apply IH; auto. cbn in L. lia.
      * assert (K2 : forall X Y : res bytes, match ty k c with BT_LF | BT_CR | BT_S => X | _ => Y end = Y) by (intros; destruct (ty k c); try discriminate K; reflexivity). rewrite K2.
        rewrite utf8_cons, (narrow_enc c Hl). reflexivity.
    + rewrite Ht. cbn [bind drop_spaces]. replace (is_space c) with false by (unfold is_space; lia).
      destruct t; try discriminate Hp; reflexivity.
Qed.

(* ---- the parser while it reads such a document ---- *)
Definition all_on (h : handlers) : Prop :=
  h_startElement h = true /\ h_endElement h = true /\ h_charData h = true /\ h_pi h = true /\ h_comment h = true /\ h_startCdata h = true /\ h_endCdata h = true.
Record docenv (s : st) : Prop := {
  dv_ns : c_ns (s_cfg s) = false;
  dv_enc : s_enc s = EKnown u8;
  dv_on : all_on (c_h (s_cfg s));
  dv_idle : idle s;
  dv_gents : d_gents (s_dtd s) = [];
  dv_pe : d_hasPE (s_dtd s) = false
}.
Definition tame (s : st) : Prop := tables s /\ forall el, declarations el s = [].
Record did (rs : list report) (s s' : st) : Prop := {
  did_fixed : fixed s' = fixed s;
  did_parsing : s_parsing s' = s_parsing s;
  did_same : same s s';
  did_tame : tame s -> tame s';
  did_said : said s' = said s ++ rs
}.
Lemma env_same s s' : same s s' -> docenv s -> docenv s'.
Proof.
  intros (E1 & E2 & _ & _ & E5 & E6 & _) [A1 A2 A3 A4 A5 A6]. constructor; try (unfold idle in *); rewrite ?E1, ?E2, ?E5, ?E6; assumption.
Qed.
Lemma did_env rs s s' : did rs s s' -> docenv s -> docenv s'. Proof. intros D. apply env_same, D. Qed.
Lemma did_trans a b s s1 s2 : did a s s1 -> did b s1 s2 -> did (a ++ b) s s2.
Proof.
  intros [A1 A2 A3 A4 A5] [B1 B2 B3 B4 B5]. constructor; try congruence; auto; [eapply same_trans; eauto|]. rewrite B5, A5, app_assoc. reflexivity.
Qed.
Lemma did_nil a s s1 s2 : did [] s s1 -> did a s1 s2 -> did a s s2. Proof. apply (did_trans [] a). Qed.
Lemma did_more a s s1 s2 : did a s s1 -> did [] s1 s2 -> did a s s2. Proof. intros A B. rewrite <- (app_nil_r a). eapply did_trans; eauto. Qed.
Lemma tame_like s s' : s_dtd s' = s_dtd s -> s_cfg s' = s_cfg s -> tame s -> tame s'.
Proof. intros E1 E2 [T D]. split; [exact (like_tables s s' E2 E1 T)|]. intros el. unfold declarations. rewrite E1. exact (D el). Qed.
Lemma did_ev x s : did [] s (set_ev x s).
Proof. constructor; [reflexivity|reflexivity|repeat split; reflexivity|apply tame_like; reflexivity|]. unfold said. cbn. now rewrite app_nil_r. Qed.
Lemma did_evEnd x s : did [] s (set_evEnd x s).
Proof. constructor; [reflexivity|reflexivity|repeat split; reflexivity|apply tame_like; reflexivity|]. unfold said. cbn. now rewrite app_nil_r. Qed.
Lemma did_refl s : did [] s s.
Proof. constructor; auto; [apply same_refl|]. now rewrite app_nil_r. Qed.
Lemma call_does ev s : docenv s -> exists r s', call ev s = Ret r s' /\ did (heard ev) s s'.
Proof.
  intros V. destruct (call_idle ev s (dv_idle s V)) as (r & s' & E & F & Pa & Dt & Sa). exists r, s'. split; [exact E|].
  assert (C : s_cfg s' = s_cfg s) by (apply fixed_cfg; exact F).
  constructor; auto.
  - unfold fixed in F. repeat split; congruence.
  - apply tame_like; auto.
Qed.
Lemma emit_does h ev s : docenv s -> h (c_h (s_cfg s)) = true -> exists s', emit h ev s = Ret true s' /\ did (heard ev) s s'.
Proof.
  intros V H. unfold emit, pbind, handler, get. rewrite H. destruct (call_does ev s V) as (r & s' & -> & D). exists s'. auto.
Qed.
Lemma charData_does data buf after s : docenv s -> exists s', char_data ENormal data buf after s = Ret tt s' /\ did [Text data] s s'.
Proof.
  intros V. unfold char_data, pbind, handler, get. assert (H : h_charData (c_h (s_cfg s)) = true) by apply (dv_on s V). rewrite H.
  destruct (call_does (EvCharData data) s V) as (r & s' & -> & D). exists s'. auto.
Qed.
Lemma u8_encoding s : docenv s -> encoding ENormal s = Ret u8 s.
Proof. intros V. unfold encoding. rewrite (dv_enc s V). reflexivity. Qed.
Lemma charText_does buf after s : docenv s -> exists s', char_data_text ENormal buf after s = Ret tt s' /\ did [Text buf] s s'.
Proof.
  intros V. unfold char_data_text, pbind, handler, get. assert (H : h_charData (c_h (s_cfg s)) = true) by apply (dv_on s V). rewrite H.
  unfold send, pbind. rewrite (u8_encoding s V). change (isUtf8 u8) with true. cbn iota. destruct (call_does (EvCharData buf) s V) as (r & s' & -> & D). exists s'. auto.
Qed.
Lemma firstn_app_all (a b : bytes) : firstn (length (a ++ b) - length b) (a ++ b) = a.
Proof. rewrite app_length, Nat.add_sub. apply firstn_app_len. Qed.
Lemma dec_app (a b : bytes) s : dec (length b) (a ++ b) s = Ret a s.
Proof. unfold dec. rewrite app_length. replace (length b <=? length a + length b)%nat with true by lia. rewrite Nat.add_sub, firstn_app_len. reflexivity. Qed.
Lemma inc_p (a b : bytes) s : inc (length a) (a ++ b) s = Ret b s.
Proof. unfold inc, lift. rewrite inc_app. reflexivity. Qed.
Lemma comment_does body after s : docenv s -> comment_body body -> all_in is_scalar body ->
  exists s', reportComment ENormal (utf8 (comment_text body)) after s = Ret tt s' /\ did [Remark (utf8 (norm_eol body))] s s'.
Proof.
  intros V [Hx _] Hs. unfold reportComment, pbind at 1, handler, get. assert (H : h_comment (c_h (s_cfg s)) = true) by apply (dv_on s V). rewrite H. cbn [negb].
  unfold pbind at 1. rewrite (u8_encoding s V). unfold comment_text. rewrite !utf8_app. change (utf8 (txt "<!--")) with (txt "<!--"). change (utf8 (txt "-->")) with (txt "-->").
  unfold pbind at 1. change (minbpc u8 * 4)%nat with (length (txt "<!--")). rewrite inc_p. unfold pbind at 1. change (minbpc u8 * 3)%nat with (length (txt "-->")). rewrite dec_app.
  unfold pbind at 1, lift at 1. rewrite (u8_conv body Hs). unfold pbind at 1, lift at 1. destruct (lines body Hs Hx) as (a & -> & E). unfold pbind at 1.
  destruct (call_does (EvComment (c_str a)) s V) as (r & s' & -> & D). exists s'. split; [reflexivity|]. rewrite <- E. exact D.
Qed.
Lemma with_len_first (a b : bytes) : with_len (length a) (a ++ b) = Ok a.
Proof. unfold with_len. rewrite app_length. replace (length a <=? length a + length b)%nat with true by lia. rewrite firstn_app_len. reflexivity. Qed.
Lemma drop_all f cs : all_in f cs -> all_in f (drop_spaces cs).
Proof. induction 1 as [|c r H F IH]; [constructor|]. cbn [drop_spaces]. destruct (is_space c); [exact IH|constructor; auto]. Qed.
Lemma pi_xml d : pi_data d -> xml_text d.
Proof. intros [-> |(c & d' & -> & Hc & Hd & _)]; [constructor|]. constructor; [|exact Hd]. unfold is_space in Hc. assert (c = 32 \/ c = 9 \/ c = 13 \/ c = 10) as [-> |[-> |[-> | ->]]] by lia; reflexivity. Qed.
Lemma pi_does target data after s : docenv s -> is_name false false target -> pi_data data -> all_in is_scalar target -> all_in is_scalar data ->
  exists s', reportPI ENormal (utf8 (pi_text target data)) after s = Ret tt s' /\ did [Order (utf8 target) (utf8 (norm_eol (drop_spaces data)))] s s'.
Proof.
  intros V Hn Hp Ht Hd. unfold reportPI, pbind at 1, handler, get. assert (H : h_pi (c_h (s_cfg s)) = true) by apply (dv_on s V). rewrite H. cbn [negb].
  unfold pbind at 1. rewrite (u8_encoding s V). unfold pi_text. rewrite !utf8_app. change (utf8 (txt "<?")) with (txt "<?"). change (utf8 (txt "?>")) with [63; 62].
  unfold pbind at 1. change (minbpc u8 * 2)%nat with (length (txt "<?")). rewrite inc_p. unfold pbind at 1, lift at 1.
  assert (NL : nameLength u8 (utf8 target ++ utf8 data ++ [63; 62]) = Ok (length (utf8 target))).
  { destruct data as [|c d].
    - change (utf8 target ++ utf8 [] ++ [63; 62]) with (utf8 target ++ utf8 (63 :: [62])). rewrite <- utf8_app. apply (te_nameLength u8 utf8_encode is_scalar false false te_utf8); auto; [left; exact Hn|]. right. cbn. tauto.
    - change [63; 62] with (utf8 [63; 62]). rewrite <- !utf8_app. rewrite <- app_comm_cons. apply (te_nameLength u8 utf8_encode is_scalar false false te_utf8); auto; [left; exact Hn|]. left.
      destruct Hp as [Hp|(c' & d' & Hp & Hc & _)]; [discriminate|]. injection Hp as -> ->. exact Hc. }
  rewrite NL. unfold pbind at 1. rewrite inc_p. unfold pbind at 1, lift at 1. rewrite with_len_first. unfold pbind at 1, lift at 1. rewrite (u8_conv target Ht).
  unfold pbind at 1, lift at 1. unfold skipS. rewrite (skip_spaces _ data [62] Hd).
  2:{ rewrite app_length. clear. assert (length data <= length (utf8 data))%nat; [|cbn; lia]. induction data as [|c d IH]; [cbn; lia|]. rewrite utf8_cons, app_length. cbn [length].
      assert (1 <= length (utf8_encode c))%nat; [|lia]. unfold utf8_encode. repeat match goal with |- context [if ?b then _ else _] => destruct b end; cbn; lia. }
  unfold pbind at 1. change (length (txt "<?")) with (length [63; 62]). rewrite dec_app. unfold pbind at 1, lift at 1. pose proof (drop_all _ _ Hd) as Hd'. rewrite (u8_conv _ Hd').
  unfold pbind at 1, lift at 1. destruct (lines _ Hd' (drop_all _ _ (pi_xml _ Hp))) as (a & -> & E). unfold pbind at 1.
  destruct (call_does (EvPI (utf8 target) (c_str a)) s V) as (r & s' & -> & D). exists s'. split; [reflexivity|]. rewrite <- E. exact D.
Qed.
Lemma predef_small n c : In (n, c) predefined -> utf8 n = n /\ utf8 [c] = [c] /\ c <> 0 /\ all_in is_scalar n.
Proof.
  unfold predefined. cbn [In]. intros H. repeat destruct H as [H|H]; try contradiction; injection H as <- <-; (split; [reflexivity|]); (split; [reflexivity|]); (split; [discriminate|]); repeat constructor.
Qed.
Lemma entity_does r n c rest s : docenv s -> In (n, c) predefined ->
  exists s', content_entity r ENormal u8 (utf8 (txt "&" ++ n ++ txt ";") ++ rest) (length (utf8 (txt "&" ++ n ++ txt ";"))) s = Ret tt s' /\ did [Text (utf8 [c])] s s'.
Proof.
  intros V H. destruct (predef_small n c H) as (E1 & E2 & Hc & Hs). unfold content_entity. rewrite firstn_app_len.
  rewrite !utf8_app. change (utf8 (txt "&")) with [38]. change (utf8 (txt ";")) with [59].
  unfold pbind at 1. unfold ref_name. rewrite firstn_app_len. change (minbpc u8) with (length [38]) at 1. unfold pbind at 1. rewrite inc_p. change (minbpc u8) with (length [59]). rewrite dec_app.
  unfold pbind at 1, lift at 1. assert (Ep : predefinedEntityName u8 (utf8 n) = Ok c) by (apply (te_predef u8 utf8_encode is_scalar false false te_utf8); auto). rewrite Ep.
  replace (c =? 0) with false by lia. cbn [negb]. rewrite E2. apply charData_does. exact V.
Qed.
Lemma charRef_reads ref c rest : char_ref ref -> refers ref c -> charRefNumber u8 (utf8 ref ++ rest) = Ok (Z.of_N c) /\ c < 1114112.
Proof.
  intros Hr H. assert (B : is_xml_char c = true -> c < 1114112) by (unfold is_xml_char; lia). inversion H; subst.
  - split; [|auto]. unfold utf8. rewrite (te_charref_dec u8 utf8_encode is_scalar false false te_utf8) by assumption. rewrite H2. reflexivity.
  - split; [|auto]. unfold utf8. rewrite (te_charref_hex u8 utf8_encode is_scalar false false te_utf8) by assumption. rewrite H2. reflexivity.
  - exfalso. clear -Hr H0. change (txt "&") with [38] in Hr. change (txt ";") with [59] in Hr. unfold predefined in H0. cbn [In] in H0. destruct Hr as [(d & _ & _ & E)|(d & _ & _ & E)]; change (txt "&#") with [38; 35] in E; change (txt "&#x") with [38; 35; 120] in E; cbn [List.app] in E;
      repeat destruct H0 as [H0|H0]; try contradiction; injection H0 as <- _; discriminate E.
Qed.

(* ---- tags ---- *)
Section Tags.
Variable sref : st.
Hypothesis EV : docenv sref.
Definition reads (k : nat) (a : att_src) (y : list N * list N) : Prop :=
  forall fuel, (k <= fuel)%nat -> storeAttributeValue fuel false ENormal true (utf8 (as_value a)) sref = Ret (utf8 (snd y)) sref.
Lemma reads_more k k' a y : reads k a y -> (k <= k')%nat -> reads k' a y. Proof. intros H L f Hf. apply H. lia. Qed.
Lemma value_reads a y : all_in is_scalar (as_value a) -> attval false true false false [] (as_value a) (Value (snd y)) -> exists k, reads k a y.
Proof.
  intros Hs H. pose proof (value_delivered u8 utf8_encode is_scalar false false false true sref (as_value a) (Value (snd y)) te_utf8) as K.
  destruct K as (n0 & K); [rewrite (dv_enc _ EV); reflexivity|apply (dv_ns _ EV)|exact Hs| |].
  - unfold must_be_declared. rewrite (dv_pe _ EV), (dv_gents _ EV). exact H.
  - exists n0. intros fuel Hf. exact (K fuel Hf).
Qed.
Definition shown (given : list (list N * list N)) : list (bytes * bytes) := map (fun y => (utf8 (fst y), utf8 (snd y))) given.
Definition reads_all (k : nat) (atts : list att_src) (given : list (list N * list N)) : Prop := Forall2 (reads k) atts given.
Lemma tag_scalars name atts sp empty : all_in is_scalar (tag_text name atts sp empty) -> all_in is_scalar name /\ all_in is_scalar (flat_map att_text atts).
Proof. unfold tag_text, all_in. rewrite !Forall_app. tauto. Qed.
Lemma utf8_inj a b : all_in is_scalar a -> all_in is_scalar b -> utf8 a = utf8 b -> a = b.
Proof.
  intros Ha. revert b. induction Ha as [|c a Hc Ha IH]; intros b Hb E.
  - destruct b as [|d b]; [reflexivity|]. inversion Hb; subst. rewrite utf8_cons in E. pose proof (scalar_max d H1) as L. destruct (utf8_encode_form d L); discriminate.
  - pose proof (scalar_max c Hc) as L. destruct Hb as [|d b Hd Hb]; [rewrite utf8_cons in E; destruct (utf8_encode_form c L); discriminate|].
    pose proof (scalar_max d Hd) as L'. rewrite !utf8_cons in E.
    assert (X : utf8_encode c = utf8_encode d /\ utf8 a = utf8 b).
    { revert E. destruct (utf8_encode_form c L); destruct (utf8_encode_form d L'); cbn [List.app]; intros E; repeat (apply cons_inj in E as [? E]); try (exfalso; lia); (split; [congruence|exact E]). }
    destruct X as [X1 X2]. f_equal; [apply utf8_encode_inj; assumption|apply IH; assumption].
Qed.

Lemma filter_all {A} (l : list A) : filter (fun _ => true) l = l.
Proof. induction l as [|x l IH]; [reflexivity|]. cbn. rewrite IH. reflexivity. Qed.
Lemma ordinary_off l : ordinary false l = l.
Proof. unfold ordinary. rewrite (filter_ext _ (fun _ => true)); [apply filter_all|]. intros [n v]. reflexivity. Qed.
Lemma declared_off l : declared false l = [].
Proof. unfold declared. induction l as [|[n v] l IH]; [reflexivity|]. cbn [filter]. exact IH. Qed.
Lemma attributes_none g el s : declarations el s = [] -> attributes g el s = g.
Proof. intros H. unfold attributes, defaults. rewrite H. cbn. apply app_nil_r. Qed.
Lemma no_dangling_off s : c_ns (s_cfg s) = false -> tables s -> no_dangling s.
Proof.
  intros Hn T n a L K. destruct (ta_id s T n a L) as [_ [H|(H & _)]]; [|congruence]. rewrite Hn in H. cbn in H. congruence.
Qed.
Lemma tag_reads s k fuel el atts given xs : same sref s -> tame s -> (k <= fuel)%nat ->
  Forall2 (fun a y => fst y = as_name a /\ attval false true false false [] (as_value a) (Value (snd y))) atts given ->
  reads_all k atts given -> all_in is_scalar (flat_map att_text atts) ->
  Forall2 (fun a x => a_value x = utf8 (as_value a) /\ (a_normalized x = true <-> already_normal (as_value a)) /\
    exists r, a_name x = Some (utf8 (as_name a) ++ r) /\ nameLength u8 (utf8 (as_name a) ++ r) = Ok (length (utf8 (as_name a)))) atts xs ->
  Forall2 (read s el fuel ENormal) xs (shown given).
Proof.
  intros S T L. pose proof (env_same _ _ S EV) as V. intros G. revert xs. induction G as [|a y atts given [G1 G2] G IH]; intros xs R D F.
  - inversion F; subst. constructor.
  - inversion F as [|? x ? xs' (X1 & X2 & r & X3 & X4) F']; subst. inversion R as [|? ? ? ? Ra R']; subst. cbn [flat_map] in D. apply Forall_app in D as [D1 D2].
    cbn [shown map]. constructor; [|apply IH; assumption].
    unfold att_text, all_in in D1. rewrite !Forall_app in D1. destruct D1 as (_ & Dn & _ & _ & _ & _ & Dv & _).
    assert (St : forall cs, all_in is_scalar cs -> store ENormal (utf8 cs) s = Ret (utf8 cs) s).
    { intros cs Hc. unfold store, pbind. rewrite (u8_encoding s V). unfold lift. rewrite (u8_conv cs Hc). reflexivity. }
    split; cbn [fst snd].
    + exists u8, (utf8 (as_name a) ++ r), (length (utf8 (as_name a))), (utf8 (as_name a)). split; [apply u8_encoding; exact V|]. split; [exact X3|]. split; [exact X4|]. split; [apply with_len_first|]. rewrite G1. apply St. exact Dn.
    + unfold value_of. destruct (a_normalized x) eqn:An.
      * rewrite X1, (St _ Dv). do 2 f_equal. symmetry. apply (normal_value _ _ _ _ _ _ true (proj1 X2 eq_refl)) in G2. exact G2.
      * unfold is_cdata. destruct T as [_ T]. rewrite (T el). cbn. rewrite X1. pose proof (value_same fuel false ENormal true (utf8 (as_value a)) sref s S) as K. unfold agree in K. rewrite (Ra fuel L) in K. apply K.
Qed.
Lemma shown_nodup given : Forall (fun y => all_in is_scalar (fst y)) given -> NoDup (map fst given) -> NoDup (map fst (shown given)).
Proof.
  intros H. induction H as [|y given Hy H IH]; intros Nd; [constructor|]. cbn [map shown] in *. inversion Nd as [|? ? Ni Nd']; subst. constructor; [|apply IH; exact Nd'].
  cbn [fst]. intros I. apply Ni. unfold shown in I. rewrite map_map in I. apply in_map_iff in I as (z & E & I). cbn [fst] in E. rewrite Forall_forall in H. apply utf8_inj in E; auto. rewrite <- E. apply in_map. exact I.
Qed.
Lemma given_scalars atts given (Q : att_src -> list N * list N -> Prop) : Forall2 (fun a y => fst y = as_name a /\ Q a y) atts given -> all_in is_scalar (flat_map att_text atts) -> Forall (fun y => all_in is_scalar (fst y)) given.
Proof.
  induction 1 as [|a y atts given [E _] F IH]; intros D; [constructor|]. cbn [flat_map] in D. apply Forall_app in D as [D1 D2]. constructor; [|apply IH; exact D2].
  rewrite E. unfold att_text, all_in in D1. rewrite !Forall_app in D1. apply D1.
Qed.
Lemma storeAtts_does k fuel name atts given sp empty rest s : same sref s -> tame s -> tag_good name atts given sp ->
  all_in is_scalar (tag_text name atts sp empty) -> reads_all k atts given -> (k <= fuel)%nat ->
  exists so s', storeAtts fuel ENormal (utf8 (tag_text name atts sp empty) ++ rest) (utf8 name) s = Ret so s' /\
    so_name so = utf8 name /\ so_atts so = shown given /\ so_bindings so = [] /\ did [] s s'.
Proof.
  intros S T (Hok & Nd & G) Hs R L. pose proof (env_same _ _ S EV) as V. pose proof (dv_ns s V) as Hn.
  destruct (te_getAtts u8 utf8_encode is_scalar false false te_utf8 name atts sp empty rest Hok Hs) as (xs & Hx & F).
  destruct (tag_scalars _ _ _ _ Hs) as [Sn Sa].
  pose proof (tag_reads s k fuel (utf8 name) atts given xs S T L G R Sa F) as Rd.
  pose proof (storeAtts_out fuel ENormal _ (utf8 name) s u8 xs (shown given) (proj1 T) (no_dangling_off s Hn (proj1 T)) (u8_encoding s V) Hx Rd) as O.
  pose proof (cm_storeAtts fuel ENormal (utf8 (tag_text name atts sp empty) ++ rest) (utf8 name) s) as C.
  change (flat_map utf8_encode (tag_text name atts sp empty)) with (utf8 (tag_text name atts sp empty)) in O. unfold runs in O.
  destruct (storeAtts fuel ENormal (utf8 (tag_text name atts sp empty) ++ rest) (utf8 name) s) as [so s'|x s'|x]; [| |destruct O].
  - exists so, s'. split; [reflexivity|]. pose proof (accepted_delivered _ _ _ _ _ O) as [D1 D2 D3]. rewrite Hn in D1, D3. rewrite ordinary_off, (attributes_none _ _ _ (proj2 T _)) in D1.
    split; [inversion D3; congruence|]. split.
    + clear -D1 Hn. induction D1 as [|y z l l' [A B] D IH]; [reflexivity|]. f_equal; [|exact IH]. inversion A; [|congruence]. destruct y, z; cbn [fst snd] in *; congruence.
    + split.
      * pose proof (ac_bindings _ _ _ _ _ O) as B. rewrite Hn, declared_off in B. cbn in B. destruct (so_bindings so); [reflexivity|discriminate].
      * destruct (C (dv_idle s V)) as (C1 & C2 & C3). constructor; auto.
        -- exact (ac_same _ _ _ _ _ O).
        -- intros _. split; [exact (ac_tables _ _ _ _ _ O)|]. intros el. rewrite (ac_decls _ _ _ _ _ O). apply T.
        -- rewrite app_nil_r. exact C3.
  - exfalso. pose proof (shown_nodup given (given_scalars _ _ _ G Sa) Nd) as Nd'. inversion O; congruence || contradiction.
Qed.
Definition tag_of (name : list N) : tag := {| t_raw := utf8 name; t_name := utf8 name; t_bindings := [] |}.
Lemma open_does k r name atts given sp rest n s : same sref s -> tame s -> tag_good name atts given sp ->
  all_in is_scalar (tag_text name atts sp false) -> reads_all k atts given -> (k <= rc_fuel r)%nat ->
  exists s', start_tag r ENormal u8 (utf8 (tag_text name atts sp false) ++ rest) n s = Ret tt s' /\
    did [begins name given] (set_tags (tag_of name :: s_tags s) (set_tagLevel (S (s_tagLevel s)) s)) s'.
Proof.
  intros S T G Hs R L. pose proof (env_same _ _ S EV) as V. set (s1 := set_tagLevel (Datatypes.S (s_tagLevel s)) s).
  assert (S1 : same sref s1) by exact S. assert (T1 : tame s1) by (apply (tame_like s); [reflexivity|reflexivity|exact T]).
  destruct (tag_scalars _ _ _ _ Hs) as [Sn _].
  destruct (storeAtts_does k (rc_fuel r) name atts given sp false rest s1 S1 T1 G Hs R L) as (so & s2 & E & E1 & E2 & E3 & D).
  pose proof (tag_raw_name u8 utf8_encode is_scalar false false s te_utf8 name atts sp false rest (proj1 G) Hs s eq_refl) as TR. change (flat_map utf8_encode) with utf8 in TR.
  unfold start_tag, pbind at 1. rewrite TR.
  unfold pbind at 1, upd at 1. fold s1. unfold pbind at 1, lift at 1. rewrite (u8_conv name Sn).
  unfold pbind at 1. rewrite E. unfold pbind at 1, get at 1. unfold pbind at 1.
  assert (V2 : docenv s2) by (eapply env_same; [exact (did_same _ _ _ D)|exact (env_same _ _ S1 EV)]).
  destruct (emit_does h_startElement (EvStartElement (so_name so) (so_atts so) (so_spec so) (s_idIx s2)) s2 V2) as (s3 & -> & D3); [apply (dv_on s2 V2)|].
  unfold pbind at 1, when at 1, pret at 1, upd at 1. cbn [negb]. eexists. split; [reflexivity|]. rewrite E1, E3. cbn [heard] in D3. rewrite E1, E2 in D3.
  pose proof (did_nil _ _ _ _ D D3) as [A1 A2 A3 A4 A5]. unfold fixed in A1. injection A1; intros.
  constructor.
  - unfold fixed. cbn. unfold tag_of. repeat match goal with H : ?a = _ |- context [?a] => rewrite H end. reflexivity.
  - exact A2.
  - exact A3.
  - intros _. apply (tame_like s3); [reflexivity|reflexivity|]. apply A4. exact T1.
  - exact A5.
Qed.
Lemma empty_does k r name atts given sp rest n s : same sref s -> tame s -> tag_good name atts given sp ->
  all_in is_scalar (tag_text name atts sp true) -> reads_all k atts given -> (k <= rc_fuel r)%nat ->
  exists s', empty_tag r ENormal u8 (utf8 (tag_text name atts sp true) ++ rest) n s = Ret tt s' /\ did [begins name given; Ends (utf8 name)] s s'.
Proof.
  intros S T G Hs R L. pose proof (env_same _ _ S EV) as V. destruct (tag_scalars _ _ _ _ Hs) as [Sn _].
  destruct (storeAtts_does k (rc_fuel r) name atts given sp true rest s S T G Hs R L) as (so & s2 & E & E1 & E2 & E3 & D).
  pose proof (tag_raw_name u8 utf8_encode is_scalar false false s te_utf8 name atts sp true rest (proj1 G) Hs s eq_refl) as TR. change (flat_map utf8_encode) with utf8 in TR.
  unfold empty_tag, pbind at 1. rewrite TR.
  unfold pbind at 1, lift at 1. rewrite (u8_conv name Sn).
  unfold pbind at 1, try at 1. rewrite E. unfold pbind at 1, get at 1. unfold pbind at 1. pose proof (did_env _ _ _ D V) as V2.
  destruct (emit_does h_startElement (EvStartElement (so_name so) (so_atts so) (so_spec so) (s_idIx s2)) s2 V2) as (s3 & -> & D3); [apply (dv_on s2 V2)|].
  unfold pbind at 1, when at 1, set_event_n, upd at 1. cbn [is_internal]. unfold pbind at 1.
  pose proof (did_env _ _ _ D3 V2) as V3. pose proof (did_ev (Some (length (utf8 (tag_text name atts sp true) ++ rest) - n)%nat) s3) as D4. pose proof (did_env _ _ _ D4 V3) as V4.
  destruct (emit_does h_endElement (EvEndElement (so_name so)) _ V4) as (s5 & -> & D5); [apply (dv_on _ V4)|].
  unfold pbind at 1, when at 1, pret at 1. cbn [negb andb]. rewrite E3. cbn [freeBindings]. exists s5. split; [reflexivity|]. rewrite E1 in *. cbn [heard] in D3, D5. rewrite E2 in D3.
  apply (did_nil _ _ _ _ D). apply (did_trans [_] [_] _ _ _ (did_more _ _ _ _ D3 D4) D5).
Qed.
Lemma close_does name sp rest n s tgs : docenv s -> s_tags s = tag_of name :: tgs -> is_name false false name -> spaces sp -> all_in is_scalar name ->
  exists s', end_tag ENormal u8 (utf8 (etag_text name sp) ++ rest) n s = Ret tt s' /\ did [Ends (utf8 name)] (set_tagLevel (pred (s_tagLevel s)) (set_tags tgs s)) s'.
Proof.
  intros V Et Hn Hsp Hs. unfold end_tag, pbind at 1, get at 1. rewrite Et. unfold pbind at 1, upd at 1. unfold etag_text. rewrite !utf8_app. change (utf8 (txt "</")) with [60; 47]. change (utf8 (txt ">")) with [62].
  rewrite <- !app_assoc. unfold pbind at 1. change (minbpc u8 * 2)%nat with (length [60; 47]) at 1. rewrite inc_p.
  unfold pbind at 1. unfold tag_raw. unfold pbind at 1. change (minbpc u8 * 2)%nat with (length [60; 47]) at 1. rewrite inc_p. unfold pbind at 1, lift at 1.
  assert (X : exists c q, utf8 sp ++ [62] ++ rest = utf8_encode c ++ q /\ (is_space c = true \/ c = 62)).
  { destruct sp as [|c sp]; [exists 62, rest; auto|]. inversion Hsp; subst. rewrite utf8_cons, <- app_assoc. eexists c, _. split; [reflexivity|auto]. }
  destruct X as (c & q & -> & Hc). destruct u8_charset as (k & CS & ST).
  assert (NL : nameLength u8 (flat_map utf8_encode name ++ utf8_encode c ++ q) = Ok (length (flat_map utf8_encode name))).
  { apply (nameLength_exact _ _ _ _ _ _ CS ST (te_ascii_dom _ _ _ _ _ te_utf8)); auto; [left; exact Hn|]. unfold name_end. destruct Hc as [Hc|Hc]; auto. }
  change (flat_map utf8_encode name) with (utf8 name) in NL. rewrite NL. unfold lift at 1. rewrite with_len_first. cbn [t_raw tag_of]. rewrite Nest.beqb_refl. cbn [negb].
  unfold pbind at 1, upd at 1. unfold pbind at 1.
  set (s1 := set_tagLevel _ _).
  assert (V1 : docenv s1) by (destruct V; constructor; assumption).
  destruct (emit_does h_endElement (EvEndElement (utf8 name)) s1 V1) as (s5 & Em & D5); [apply (dv_on _ V1)|]. cbn [t_name tag_of]. rewrite Em.
  unfold pbind at 1, when at 1, pret at 1. cbn [negb t_bindings tag_of freeBindings]. exists s5. split; [reflexivity|]. exact D5.
Qed.
End Tags.
