(* C70: character data and CDATA sections are delivered. *)
From Coq Require Import String List NArith ZArith Bool Lia Arith.
From Coq Require Import ZifyBool ZifyNat ZifyN.
From Verif Require Import Base Tables Encoding SpecText SpecUnicode SpecNames SpecLex SpecMisc EncLaws Tok TokMisc UniLaws UniConv SpecConv Charset CharsetLaws TextEnc CpTag CpContent CpProlog MiscTop DeclFinal Status State AttVal CtxLaws Content SpecRef Core SpecData.
From Verif Require AttNorm NoteLaws.
From Coq Require Import List.
Import ListNotations.
Local Open Scope N_scope.

Lemma told_nil s : told [] s s. Proof. exists (s_evEnd s), (s_ev s). destruct s; reflexivity. Qed.
Lemma told_pos x y s : told [] s (set_evEnd x (set_ev y s)). Proof. exists x, y. destruct s; reflexivity. Qed.
Lemma told_trans a b s1 s2 s3 : told a s1 s2 -> told b s2 s3 -> told (a ++ b) s1 s3.
Proof. intros (x & y & ->) (x' & y' & ->). exists x', y'. rewrite map_app, rev_app_distr, <- app_assoc. destruct s1; reflexivity. Qed.
Lemma told_ev x s : told [] s (set_ev x s). Proof. exists (s_evEnd s), x. destruct s; reflexivity. Qed.
Lemma told_evEnd x s : told [] s (set_evEnd x s). Proof. exists x, (s_ev s). destruct s; reflexivity. Qed.
Lemma told_call ev s : never_stops s -> exists re s', call ev s = Ret re s' /\ told [ev] s s'.
Proof.
  intros N. eexists _, _. split; [reflexivity|]. exists (s_evEnd s), (s_ev s). unfold stopped. rewrite (N _). cbn [map rev List.app]. destruct s; reflexivity.
Qed.
Lemma split_run (f : N -> bool) cs : exists a q, cs = a ++ q /\ all_in f a /\ stops f q.
Proof.
  induction cs as [|c cs (a & q & -> & H1 & H2)]; [exists [], []; repeat split; constructor|].
  destruct (f c) eqn:E; [exists (c :: a), q; split; [reflexivity|split; [constructor; auto|exact H2]]|exists [], (c :: a ++ q); split; [reflexivity|split; [constructor|exact E]]].
Qed.
Lemma occurs_tail w a b : occurs w b -> occurs w (a ++ b).
Proof. intros (x & y & ->). exists (a ++ x), y. rewrite <- app_assoc. reflexivity. Qed.
Lemma norm_plain a b : (forall c, In c a -> c <> 13) -> norm_eol (a ++ b) = a ++ norm_eol b.
Proof.
  induction a as [|c a IH]; intros H; [reflexivity|]. cbn [List.app norm_eol]. replace (c =? 13) with false by (assert (c <> 13) by (apply H; left; reflexivity); lia).
  rewrite IH; [reflexivity|]. intros x Hx. apply H. right. exact Hx.
Qed.

Section TE.
Variables (e : EncImpl) (enc : N -> bytes) (dom : N -> bool) (lat ns : bool).
Hypothesis TE : text_encoding e enc dom lat ns.
Notation T cs := (flat_map enc cs).
Record quiet (s : st) : Prop := { q_enc : s_enc s = EKnown e; q_never : never_stops s; q_parsing : s_parsing s = PARSING; q_text : h_charData (c_h (s_cfg s)) = true }.
Lemma quiet_told evs s s' : told evs s s' -> quiet s -> quiet s' /\ s_cfg s' = s_cfg s.
Proof. intros (x & y & ->) [A B C D]. split; [|reflexivity]. constructor; assumption. Qed.

Lemma chunks_told after : forall fuel cs s, all_in dom cs -> (length (T cs) < fuel)%nat -> quiet s ->
  exists parts s', send_chunks fuel EvCharData ENormal e (T cs) after s = Ret tt s' /\ told (map EvCharData parts) s s' /\ concat parts = utf8 cs.
Proof.
  induction fuel as [|fuel IH]; intros cs s D L Q; [lia|].
  destruct (te_transfers _ _ _ _ _ TE cs DATA_BUF D) as (done & left & E & Lc & M).
  assert (X : forall n, exists s', (set_event_end_n ENormal n ;;; call (EvCharData (utf8 done)) ;;; set_event_n ENormal n) s = Ret tt s' /\ told [EvCharData (utf8 done)] s s').
  { intros n. unfold set_event_end_n, set_event_n. cbn [is_internal]. unfold pbind, upd.
    pose proof (told_evEnd (Some n) s) as A1. destruct (quiet_told _ _ _ A1 Q) as [Q1 _].
    destruct (told_call (EvCharData (utf8 done)) _ (q_never _ Q1)) as (re & s2 & E2 & A2). rewrite E2. eexists. split; [reflexivity|].
    pose proof (told_trans _ _ _ _ _ A1 (told_trans _ _ _ _ _ A2 (told_ev (Some n) s2))) as A. exact A. }
  cbn [send_chunks]. destruct left as [|c left].
  - rewrite app_nil_r in E. subst done. destruct (X (length (@nil N) + after)%nat) as (s1 & E1 & D1). exists [utf8 cs], s1. split; [|split; [exact D1|cbn [concat]; apply app_nil_r]].
    unfold pbind at 1, lift at 1. rewrite M. unfold pbind in E1 |- *. destruct (set_event_end_n _ _ _) as [[] s2|? ?|?]; try discriminate E1. destruct (call _ _) as [? s3|? ?|?]; try discriminate E1. rewrite E1. reflexivity.
  - destruct M as [M Lx]. destruct (X (length (T (c :: left)) + after)%nat) as (s1 & E1 & D1). destruct (quiet_told _ _ _ D1 Q) as [Q1 _].
    assert (Dl : all_in dom (c :: left)) by (unfold all_in in *; rewrite E in D; apply Forall_app in D; tauto).
    assert (ND : done <> []).
    { intros ->. change (utf8 ([] ++ [c])) with (utf8_encode c ++ []) in Lx. rewrite app_nil_r in Lx. pose proof (utf8_encode_len c) as Ql. unfold DATA_BUF in Lx. lia. }
    assert (Ll : (length (T (c :: left)) < fuel)%nat).
    { rewrite E, flat_map_app, app_length in L. pose proof (NoteLaws.T_long e enc dom lat ns TE done) as Td.
      assert (all_in dom done) by (unfold all_in in *; rewrite E in D; apply Forall_app in D; tauto). destruct done; [congruence|]. cbn [length] in *. specialize (Td H). lia. }
    destruct (IH (c :: left) s1 Dl Ll Q1) as (parts & s2 & E2 & D2 & C2). exists (utf8 done :: parts), s2. split; [|split].
    + unfold pbind at 1, lift at 1. rewrite M. unfold pbind in E1 |- *. destruct (set_event_end_n _ _ _) as [[] s3|? ?|?]; try discriminate E1. destruct (call _ _) as [? s4|? ?|?]; try discriminate E1. rewrite E1. exact E2.
    + exact (told_trans _ _ _ _ _ D1 D2).
    + rewrite E, utf8_app. cbn [concat]. rewrite C2. reflexivity.
Qed.
Lemma is_utf8 cs : isUtf8 e = true -> all_in dom cs -> T cs = utf8 cs.
Proof.
  intros U D. unfold utf8. induction D as [|c cs Hc _ IH]; [reflexivity|]. cbn [flat_map]. rewrite IH. f_equal. clear IH.
  revert U Hc. clear -TE. induction TE; intros U Hc; try discriminate U; try reflexivity; unfold byte_encode, utf8_encode; replace (c <? 128) with true by lia; reflexivity.
Qed.
Lemma text_told cs after s : all_in dom cs -> quiet s ->
  exists parts s', char_data_text ENormal (T cs) after s = Ret tt s' /\ told (map EvCharData parts) s s' /\ concat parts = utf8 cs.
Proof.
  intros D Q. unfold char_data_text, pbind at 1, handler, get. rewrite (q_text _ Q). unfold send, pbind at 1, encoding. rewrite (q_enc _ Q). cbn [known].
  destruct (isUtf8 e) eqn:U.
  - rewrite (is_utf8 _ U D). destruct (told_call (EvCharData (utf8 cs)) s (q_never _ Q)) as (re & s' & E & A). exists [utf8 cs], s'. unfold pbind. rewrite E. split; [reflexivity|split; [exact A|apply app_nil_r]].
  - apply chunks_told; [exact D|lia|exact Q].
Qed.
Lemma newline_told buf after s : quiet s -> exists s', char_data ENormal [10] buf after s = Ret tt s' /\ told (map EvCharData [[10]]) s s'.
Proof.
  intros Q. unfold char_data, pbind at 1, handler, get. rewrite (q_text _ Q). destruct (told_call (EvCharData [10]) s (q_never _ Q)) as (re & s' & E & A). exists s'. unfold pbind. rewrite E. split; [reflexivity|exact A].
Qed.
Definition spelt (tok : XML_TOK) (a : list N) : bytes := if tok_eqb tok T_DATA_NEWLINE then [10] else utf8 a.
Lemma after_quiet rest s : quiet s -> exists s', after_token ENormal rest s = Ret false s' /\ told [] s s'.
Proof.
  intros Q. unfold after_token, set_event. cbn [is_internal]. unfold pbind, upd, get. change (s_parsing (set_ev ?x s)) with (s_parsing s). rewrite (q_parsing _ Q). eexists. split; [reflexivity|]. apply told_ev.
Qed.
Lemma content_data r lv more s tok a q : quiet s -> all_in dom a -> contentTok e (T (a ++ q)) = Ok (tok, Some (length (T a))) -> (tok = T_DATA_NEWLINE \/ tok = T_DATA_CHARS) ->
  exists parts s', told (map EvCharData parts) s s' /\ concat parts = spelt tok a /\ doContent r lv ENormal (T (a ++ q)) more s = rc_content r lv ENormal (T q) more s'.
Proof.
  intros Q D Tk Ht. unfold doContent. unfold set_event at 1. cbn [is_internal]. unfold pbind at 1, upd at 1. unfold pbind at 1, encoding at 1.
  change (s_enc (set_ev ?a s)) with (s_enc s). rewrite (q_enc _ Q). cbn [known]. unfold pbind at 1, scan_as at 1, scan at 1. change (s_enc (set_ev ?a s)) with (s_enc s). rewrite (q_enc _ Q).
  unfold lift at 1. rewrite Tk. cbv beta iota. unfold pbind at 1, set_event_end_tok at 1. cbn [is_internal]. unfold upd at 1.
  set (s0 := set_evEnd _ _). assert (A0 : told [] s s0) by apply told_pos. clearbody s0. destruct (quiet_told _ _ _ A0 Q) as [Q0 _].
  assert (F : firstn (length (T a)) (T (a ++ q)) = T a) by (rewrite flat_map_app; apply AttNorm.firstn_app_len).
  assert (I : forall s1, inc (length (T a)) (T (a ++ q)) s1 = Ret (T q) s1) by (intros s1; unfold inc, lift; rewrite flat_map_app, inc_start_app_len; reflexivity).
  assert (G : forall (m : P unit) parts s1, m s0 = Ret tt s1 -> told (map EvCharData parts) s0 s1 -> concat parts = spelt tok a ->
    exists parts s', told (map EvCharData parts) s s' /\ concat parts = spelt tok a /\
      pbind m (fun _ => do rest <- inc (length (T a)) (T (a ++ q)); do ret <- after_token ENormal rest; if ret then pret rest else rc_content r lv ENormal rest more) s0 = rc_content r lv ENormal (T q) more s').
  { intros m parts s1 E1 A1 C1. destruct (quiet_told _ _ _ A1 Q0) as [Q1 _]. destruct (after_quiet (T q) s1 Q1) as (s2 & E2 & A2). exists parts, s2. split; [|split; [exact C1|]].
    - pose proof (told_trans _ _ _ _ _ A0 (told_trans _ _ _ _ _ A1 A2)) as A. rewrite app_nil_r in A. exact A.
    - unfold pbind at 1. rewrite E1. unfold pbind at 1. rewrite I. unfold pbind at 1. rewrite E2. reflexivity. }
  destruct Ht as [-> | ->]; unfold pbind at 1, need, pret at 1.
  - destruct (newline_told (firstn (length (T a)) (T (a ++ q))) (length (T (a ++ q)) - length (T a)) s0 Q0) as (s1 & E1 & A1). exact (G _ [[10]] s1 E1 A1 eq_refl).
  - rewrite F. destruct (text_told a (length (T (a ++ q)) - length (T a)) s0 D Q0) as (parts & s1 & E1 & A1 & C1). exact (G _ parts s1 E1 A1 C1).
Qed.
Lemma all_app (f : N -> bool) a b : all_in f (a ++ b) <-> all_in f a /\ all_in f b. Proof. apply Forall_app. Qed.

Lemma not_closing text rest : ~ occurs (txt "]]>") text -> at_markup rest -> ~ may_close (text ++ rest).
Proof.
  intros No (c & r & -> & Hc) M.
  assert (I : ~ In c [93; 62]) by (intros [<-|[<-|[]]]; destruct Hc; discriminate).
  destruct M as [(q & M)|[M|M]].
  - destruct text as [|x [|y [|z w]]]; cbn [List.app] in M.
    + injection M as -> _. apply I. cbn. auto.
    + injection M as _ -> _. apply I. cbn. auto.
    + injection M as _ _ -> _. apply I. cbn. auto.
    + injection M as -> -> -> _. apply No. exists [], w. reflexivity.
  - apply I. assert (In c (txt "]")) as K by (rewrite <- M; apply in_or_app; right; left; reflexivity). destruct K as [<-|[]]. cbn. auto.
  - apply I. assert (In c (txt "]]")) as K by (rewrite <- M; apply in_or_app; right; left; reflexivity). destruct K as [<-|[<-|[]]]; cbn; auto.
Qed.

(* the first token of character data *)
Lemma first_data text rest : text <> [] -> chars text -> at_markup rest -> all_in dom (text ++ rest) ->
  exists tok a q, text = a ++ q /\ a <> [] /\ chars q /\ all_in dom a /\ (tok = T_DATA_NEWLINE \/ tok = T_DATA_CHARS) /\
    contentTok e (T (a ++ (q ++ rest))) = Ok (tok, Some (length (T a))) /\ utf8 (norm_eol text) = spelt tok a ++ utf8 (norm_eol q).
Proof.
  intros Ne [Ht No] Hm Hd.
  assert (Tk : forall tok a q, text = a ++ q -> tok <> T_INVALID -> content_token lat ns tok a (q ++ rest) -> contentTok e (T (a ++ (q ++ rest))) = Ok (tok, Some (length (T a)))).
  { intros tok a q E Hi C. apply (contentTok_exact e enc dom lat ns _ tok _ TE); [rewrite app_assoc, <- E; exact Hd|exact Hi|]. exists a, (q ++ rest). auto. }
  assert (Sub : forall a q, text = a ++ q -> chars q /\ all_in dom a).
  { intros a q ->. apply all_app in Ht, Hd. destruct Ht as [_ Ht], Hd as [Hd _]. apply all_app in Hd. split; [split; [exact Ht|]|tauto]. intros O. apply No, occurs_tail, O. }
  assert (Pack : forall tok a q, text = a ++ q -> a <> [] -> (tok = T_DATA_NEWLINE \/ tok = T_DATA_CHARS) -> content_token lat ns tok a (q ++ rest) -> utf8 (norm_eol text) = spelt tok a ++ utf8 (norm_eol q) ->
    exists tok a q, text = a ++ q /\ a <> [] /\ chars q /\ all_in dom a /\ (tok = T_DATA_NEWLINE \/ tok = T_DATA_CHARS) /\
    contentTok e (T (a ++ (q ++ rest))) = Ok (tok, Some (length (T a))) /\ utf8 (norm_eol text) = spelt tok a ++ utf8 (norm_eol q)).
  { intros tok a q E Na Hk C U. exists tok, a, q. destruct (Sub a q E). repeat (split; auto). apply Tk; auto. destruct Hk as [-> | ->]; discriminate. }
  destruct text as [|c text]; [congruence|]. clear Ne.
  destruct (c =? 10) eqn:E10.
  { assert (c = 10) by lia. subst c. apply (Pack T_DATA_NEWLINE [10] text); auto; try discriminate; try reflexivity; constructor. }
  destruct (c =? 13) eqn:E13.
  { assert (c = 13) by lia. subst c. destruct text as [|d text].
    - destruct Hm as (x & r & -> & Hx). apply (Pack T_DATA_NEWLINE [13] []); auto; try discriminate; try reflexivity; constructor; lia.
    - destruct (d =? 10) eqn:D10.
      + assert (d = 10) by lia. subst d. apply (Pack T_DATA_NEWLINE [13; 10] text); auto; try discriminate; try reflexivity; constructor.
      + apply (Pack T_DATA_NEWLINE [13] (d :: text)); auto; try discriminate; [constructor; lia|]. cbn [norm_eol]. replace (13 =? 13) with true by reflexivity. rewrite D10. reflexivity. }
  destruct (split_run data_char (c :: text)) as (a & q & E & Ha & Hq).
  assert (Na : a <> []).
  { intros ->. cbn [List.app] in E. subst q. cbn [stops] in Hq. inversion Ht as [|? ? Hc _]; subst. unfold data_char in Hq. cbv beta in Hc. rewrite E10, E13, !orb_false_r in Hq. congruence. }
  apply (Pack T_DATA_CHARS a q); auto.
  - constructor; auto.
    + intros a1 a2 -> N2. rewrite app_assoc. apply not_closing; [|exact Hm]. intros O. apply No. rewrite E, <- app_assoc. apply occurs_tail, O.
    + left. destruct q as [|x q]; [|exact Hq]. destruct Hm as (x & r & -> & Hx). cbn [List.app stops]. unfold data_char. destruct Hx as [-> | ->]; reflexivity.
  - rewrite E, norm_plain, utf8_app; [reflexivity|]. intros x Hx. unfold all_in in Ha. rewrite Forall_forall in Ha. specialize (Ha x Hx). unfold data_char in Ha. lia.
Qed.
Theorem data_delivered : forall level more l text rest k s, (length text <= l)%nat -> chars text -> at_markup rest -> all_in dom (text ++ rest) -> quiet s -> (length text <= k)%nat ->
  exists parts k' s', told (map EvCharData parts) s s' /\ concat parts = utf8 (norm_eol text) /\ (k' <= k <= k' + length text)%nat /\
    doContent (knot k) level ENormal (T (text ++ rest)) more s = doContent (knot k') level ENormal (T rest) more s'.
Proof.
  intros level more. induction l as [|l IH]; intros text rest k s Hl Hc Hm Hd Q Hk.
  { destruct text; [|cbn [length] in Hl; lia]. exists [], k, s. repeat split; try reflexivity; try lia. apply told_nil. }
  destruct text as [|c0 text0]; [exists [], k, s; repeat split; try reflexivity; try lia; apply told_nil|].
  set (text := c0 :: text0) in *. assert (Ne : text <> []) by discriminate. clearbody text.
  destruct (first_data text rest Ne Hc Hm Hd) as (tok & a & q & E & Na & Cq & Da & Hk1 & Tk & U).
  assert (La : (length text = length a + length q)%nat) by (rewrite E, app_length; reflexivity).
  assert (La1 : (0 < length a)%nat) by (destruct a; [congruence|cbn; lia]).
  destruct k as [|k]; [lia|].
  assert (Dq : all_in dom (q ++ rest)) by (rewrite E, <- app_assoc in Hd; apply all_app in Hd; tauto).
  destruct (content_data (knot (S k)) level more s tok a (q ++ rest) Q Da Tk Hk1) as (p1 & s1 & A1 & C1 & E1).
  destruct (quiet_told _ _ _ A1 Q) as [Q1 _].
  destruct (IH q rest k s1 ltac:(lia) Cq Hm Dq Q1 ltac:(lia)) as (p2 & k2 & s2 & A2 & C2 & K2 & E2).
  exists (p1 ++ p2), k2, s2. split; [rewrite map_app; exact (told_trans _ _ _ _ _ A1 A2)|]. split; [rewrite concat_app, C1, C2, U; reflexivity|]. split; [lia|].
  rewrite E, <- app_assoc, E1. exact E2.
Qed.

(* the first token in a CDATA section *)
Lemma first_cdata body rest : body <> [] -> section_body body -> all_in dom (body ++ txt "]]>" ++ rest) ->
  exists tok a q, body = a ++ q /\ a <> [] /\ section_body q /\ all_in dom a /\ (tok = T_DATA_NEWLINE \/ tok = T_DATA_CHARS) /\
    cdataSectionTok e (T (a ++ (q ++ txt "]]>" ++ rest))) = Ok (tok, Some (length (T a))) /\ utf8 (norm_eol body) = spelt tok a ++ utf8 (norm_eol q).
Proof.
  intros Ne [Ht No] Hd.
  assert (Pack : forall tok a q, body = a ++ q -> a <> [] -> (tok = T_DATA_NEWLINE \/ tok = T_DATA_CHARS) -> cdata_token tok a (q ++ txt "]]>" ++ rest) -> utf8 (norm_eol body) = spelt tok a ++ utf8 (norm_eol q) ->
    exists tok a q, body = a ++ q /\ a <> [] /\ section_body q /\ all_in dom a /\ (tok = T_DATA_NEWLINE \/ tok = T_DATA_CHARS) /\
    cdataSectionTok e (T (a ++ (q ++ txt "]]>" ++ rest))) = Ok (tok, Some (length (T a))) /\ utf8 (norm_eol body) = spelt tok a ++ utf8 (norm_eol q)).
  { intros tok a q E Na Hk C U. exists tok, a, q.
    assert (Tk : cdataSectionTok e (T (a ++ (q ++ txt "]]>" ++ rest))) = Ok (tok, Some (length (T a)))).
    { apply (cdataTok_exact e enc dom lat ns _ tok _ TE); [rewrite app_assoc, <- E; exact Hd|destruct Hk as [-> | ->]; discriminate|]. exists a, (q ++ txt "]]>" ++ rest). auto. }
    subst body. unfold xml_text in *. rewrite all_app in Ht. apply all_app in Hd. destruct Hd as [Hd _]. apply all_app in Hd.
    repeat (split; [solve [tauto|auto]|]). split; [split; [tauto|]|tauto]. intros O. apply No. rewrite <- app_assoc. apply occurs_tail, O. }
  destruct body as [|c body]; [congruence|]. clear Ne.
  destruct (c =? 10) eqn:E10.
  { assert (c = 10) by lia. subst c. apply (Pack T_DATA_NEWLINE [10] body); auto; try discriminate; try reflexivity; constructor. }
  destruct (c =? 13) eqn:E13.
  { assert (c = 13) by lia. subst c. destruct body as [|d body].
    - apply (Pack T_DATA_NEWLINE [13] []); auto; try discriminate; try reflexivity; apply cd_cr; discriminate.
    - destruct (d =? 10) eqn:D10.
      + assert (d = 10) by lia. subst d. apply (Pack T_DATA_NEWLINE [13; 10] body); auto; try discriminate; try reflexivity; constructor.
      + apply (Pack T_DATA_NEWLINE [13] (d :: body)); auto; try discriminate; [constructor; lia|]. cbn [norm_eol]. replace (13 =? 13) with true by reflexivity. rewrite D10. reflexivity. }
  assert (St : forall q, stops cdata_char q -> stops cdata_char (q ++ txt "]]>" ++ rest)) by (intros [|x q] H; [reflexivity|exact H]).
  assert (Nr : forall a, all_in cdata_char a -> forall x, In x a -> x <> 13).
  { intros a Ha x Hx. unfold all_in in Ha. rewrite Forall_forall in Ha. specialize (Ha x Hx). unfold cdata_char in Ha. lia. }
  destruct (c =? 93) eqn:E93.
  - assert (c = 93) by lia. subst c. destruct (split_run cdata_char body) as (a & q & -> & Ha & Hq).
    apply (Pack T_DATA_CHARS (txt "]" ++ a) q); auto; try discriminate.
    + apply cd_rsqb; auto. intros M. apply No.
      destruct M as [(r & M)|[M|M]]; [|apply (f_equal (@length N)) in M; rewrite !app_length in M; cbn [length txt] in M; cbn in M; lia..].
      exists [], (skipn 3 (93 :: (a ++ q) ++ txt "]]")).
      change (txt "]" ++ a ++ q ++ txt "]]>" ++ rest) with (93 :: a ++ q ++ txt "]]>" ++ rest) in M.
      assert (K : firstn 3 (93 :: (a ++ q) ++ txt "]]") = txt "]]>").
      { transitivity (firstn 3 (93 :: a ++ q ++ txt "]]>" ++ rest)); [|rewrite M; reflexivity]. rewrite !app_assoc.
        destruct (a ++ q) as [|x [|y w]]; reflexivity. }
      change ((93 :: a ++ q) ++ txt "]]") with (93 :: (a ++ q) ++ txt "]]"). rewrite <- (firstn_skipn 3 (93 :: (a ++ q) ++ txt "]]")) at 1. rewrite K. reflexivity.
    + change (93 :: a ++ q) with ((93 :: a) ++ q). rewrite norm_plain, utf8_app; [reflexivity|]. intros x [<-|Hx]; [discriminate|apply (Nr a Ha x Hx)].
  - destruct (split_run cdata_char (c :: body)) as (a & q & E & Ha & Hq).
    assert (Na : a <> []).
    { intros ->. cbn [List.app] in E. subst q. cbn [stops] in Hq. inversion Ht as [|? ? Hc _]; subst. unfold cdata_char in Hq. rewrite E10, E13, E93, Hc in Hq. discriminate. }
    apply (Pack T_DATA_CHARS a q); auto.
    + apply cd_data; auto.
    + rewrite E, norm_plain, utf8_app; [reflexivity|]. apply Nr, Ha.
Qed.
Lemma cdata_begin s buf tok n : quiet s -> cdataSectionTok e buf = Ok (tok, Some n) ->
  exists s0, told [] s s0 /\ forall (f : XML_TOK -> option nat -> P (bytes + bytes)),
    (set_event ENormal buf ;;; do e <- encoding ENormal; do (tok, n) <- lift (cdataSectionTok e buf); set_event_end_tok ENormal true buf n ;;; f tok n) s = f tok (Some n) s0.
Proof.
  intros Q Tk. unfold set_event, set_event_end_tok. cbn [is_internal].
  exists (set_evEnd (Some (length buf - n)%nat) (set_ev (Some (length buf)) s)). split; [apply told_pos|]. intros f.
  unfold pbind at 1, upd at 1. unfold pbind at 1, encoding at 1. change (s_enc (set_ev ?a s)) with (s_enc s). rewrite (q_enc _ Q). cbn [known].
  unfold pbind at 1, lift at 1. rewrite Tk. reflexivity.
Qed.
Lemma section_told : forall more l body rest fuel s, (length body <= l)%nat -> section_body body -> all_in dom (body ++ txt "]]>" ++ rest) -> quiet s -> h_endCdata (c_h (s_cfg s)) = true -> (length body < fuel)%nat ->
  exists parts s', told (map EvCharData parts ++ [EvEndCdata]) s s' /\ concat parts = utf8 (norm_eol body) /\
    doCdataSection fuel ENormal (T (body ++ txt "]]>" ++ rest)) more s = Ret (inr (T rest)) s'.
Proof.
  intros more. induction l as [|l IH]; intros body rest fuel s Hl Hb Hd Q He Hf; (destruct fuel as [|fuel]; [lia|]).
  all: assert (Close : body = [] -> exists parts s', told (map EvCharData parts ++ [EvEndCdata]) s s' /\ concat parts = utf8 (norm_eol body) /\
    doCdataSection (S fuel) ENormal (T (body ++ txt "]]>" ++ rest)) more s = Ret (inr (T rest)) s').
  1, 3: intros ->; cbn [List.app] in Hd |- *;
    (assert (Tk : cdataSectionTok e (T (txt "]]>" ++ rest)) = Ok (T_CDATA_SECT_CLOSE, Some (length (T (txt "]]>"))))) by
      (apply (cdataTok_exact e enc dom lat ns _ T_CDATA_SECT_CLOSE _ TE Hd); [discriminate|]; exists (txt "]]>"), rest; repeat split; constructor));
    destruct (cdata_begin s _ _ _ Q Tk) as (s0 & A0 & B0); cbn [doCdataSection]; destruct (quiet_told _ _ _ A0 Q) as [Q0 C0];
    destruct (told_call EvEndCdata s0 (q_never _ Q0)) as (re & s1 & E1 & A1); destruct (quiet_told _ _ _ A1 Q0) as [Q1 C1];
    exists [], s1; (split; [exact (told_trans _ _ _ _ _ A0 A1)|]); (split; [reflexivity|]);
    refine (eq_trans (B0 (fun tok n => _)) _); cbv beta iota;
    unfold pbind at 1, need, pret at 1; unfold pbind at 1, emit, pbind at 1, handler, get; rewrite C0, He; unfold pbind at 1; rewrite E1; unfold pret at 1; cbn [negb when];
    unfold pbind at 1, pret at 1; unfold pbind at 1, inc, lift; rewrite flat_map_app, inc_start_app_len; unfold pbind at 1; rewrite (q_parsing _ Q1); reflexivity.
  { apply Close. destruct body; [reflexivity|cbn [length] in Hl; lia]. }
  destruct body as [|c0 body0]; [apply Close; reflexivity|]. clear Close.
  set (body := c0 :: body0) in *. assert (Ne : body <> []) by discriminate. clearbody body.
  destruct (first_cdata body rest Ne Hb Hd) as (tok & a & q & E & Na & Cq & Da & Hk1 & Tk & U).
  assert (La : (length body = length a + length q)%nat) by (rewrite E, app_length; reflexivity).
  assert (La1 : (0 < length a)%nat) by (destruct a; [congruence|cbn; lia]).
  assert (Dq : all_in dom (q ++ txt "]]>" ++ rest)) by (rewrite E, <- app_assoc in Hd; apply all_app in Hd; tauto).
  assert (Eb : body ++ txt "]]>" ++ rest = a ++ (q ++ txt "]]>" ++ rest)) by (rewrite E, <- app_assoc; reflexivity). rewrite Eb.
  destruct (cdata_begin s _ _ _ Q Tk) as (s0 & A0 & B0). destruct (quiet_told _ _ _ A0 Q) as [Q0 C0].
  set (tail := q ++ txt "]]>" ++ rest) in *.
  assert (F : firstn (length (T a)) (T (a ++ tail)) = T a) by (rewrite flat_map_app; apply AttNorm.firstn_app_len).
  assert (I : forall s1, inc (length (T a)) (T (a ++ tail)) s1 = Ret (T tail) s1) by (intros s1; unfold inc, lift; rewrite flat_map_app, inc_start_app_len; reflexivity).
  assert (G : forall (m : P unit) parts s1, m s0 = Ret tt s1 -> told (map EvCharData parts) s0 s1 -> concat parts = spelt tok a ->
    exists parts s', told (map EvCharData parts ++ [EvEndCdata]) s s' /\ concat parts = utf8 (norm_eol body) /\
      pbind m (fun _ => do rest <- inc (length (T a)) (T (a ++ tail)); do ret <- after_token ENormal rest; if ret then pret (inl rest) else doCdataSection fuel ENormal rest more) s0 = Ret (inr (T rest)) s').
  { intros m p1 s1 E1 A1 C1. destruct (quiet_told _ _ _ A1 Q0) as [Q1 G1]. destruct (after_quiet (T tail) s1 Q1) as (s2 & E2 & A2). destruct (quiet_told _ _ _ A2 Q1) as [Q2 G2].
    destruct (IH q rest fuel s2 ltac:(lia) Cq Dq Q2 ltac:(congruence) ltac:(lia)) as (p2 & s3 & A3 & C3 & E3).
    exists (p1 ++ p2), s3. split; [|split].
    - pose proof (told_trans _ _ _ _ _ A0 (told_trans _ _ _ _ _ A1 (told_trans _ _ _ _ _ A2 A3))) as A. cbn [List.app] in A. rewrite map_app, <- app_assoc. exact A.
    - rewrite concat_app, C1, C3, U. reflexivity.
    - unfold pbind at 1. rewrite E1. unfold pbind at 1. rewrite I. unfold pbind at 1. rewrite E2. exact E3. }
  destruct Hk1 as [-> | ->].
  - destruct (newline_told (firstn (length (T a)) (T (a ++ tail))) (length (T (a ++ tail)) - length (T a)) s0 Q0) as (s1 & E1 & A1).
    destruct (G _ [[10]] s1 E1 A1 eq_refl) as (p & s' & X1 & X2 & X3). exists p, s'. split; [exact X1|split; [exact X2|]].
    cbn [doCdataSection]. refine (eq_trans (B0 (fun tok n => _)) _). exact X3.
  - destruct (text_told a (length (T (a ++ tail)) - length (T a)) s0 Da Q0) as (parts & s1 & E1 & A1 & C1). 
    destruct (G (char_data_text ENormal (firstn (length (T a)) (T (a ++ tail))) (length (T (a ++ tail)) - length (T a))) parts s1 ltac:(rewrite F; exact E1) A1 C1) as (p & s' & X1 & X2 & X3). exists p, s'. split; [exact X1|split; [exact X2|]].
    cbn [doCdataSection]. refine (eq_trans (B0 (fun tok n => _)) _). exact X3.
Qed.
Theorem section_delivered level more body rest k s : section_body body -> all_in dom (txt "<![CDATA[" ++ body ++ txt "]]>" ++ rest) -> quiet s ->
  h_startCdata (c_h (s_cfg s)) = true -> h_endCdata (c_h (s_cfg s)) = true -> (length body <= k)%nat ->
  exists parts s', told (EvStartCdata :: map EvCharData parts ++ [EvEndCdata]) s s' /\ concat parts = utf8 (norm_eol body) /\
    doContent (knot (S k)) level ENormal (T (txt "<![CDATA[" ++ body ++ txt "]]>" ++ rest)) more s = doContent (knot k) level ENormal (T rest) more s'.
Proof.
  intros Hb Hd Q H1 H2 Hk. set (a := txt "<![CDATA[") in *. set (q := body ++ txt "]]>" ++ rest) in *.
  assert (Tk : contentTok e (T (a ++ q)) = Ok (T_CDATA_SECT_OPEN, Some (length (T a)))).
  { apply (contentTok_exact e enc dom lat ns _ T_CDATA_SECT_OPEN _ TE Hd); [discriminate|]. exists a, q. repeat split; constructor. }
  assert (Dq : all_in dom q) by (apply all_app in Hd; tauto).
  assert (I : forall s1, inc (length (T a)) (T (a ++ q)) s1 = Ret (T q) s1) by (intros s1; unfold inc, lift; rewrite flat_map_app, inc_start_app_len; reflexivity).
  clearbody a. unfold doContent at 1. unfold set_event at 1. cbn [is_internal]. unfold pbind at 1, upd at 1. unfold pbind at 1, encoding at 1.
  change (s_enc (set_ev ?a s)) with (s_enc s). rewrite (q_enc _ Q). cbn [known]. unfold pbind at 1, scan_as at 1, scan at 1. change (s_enc (set_ev ?a s)) with (s_enc s). rewrite (q_enc _ Q).
  unfold lift at 1. rewrite Tk. cbv beta iota. unfold pbind at 1, set_event_end_tok at 1. cbn [is_internal]. unfold upd at 1.
  set (s0 := set_evEnd _ _). assert (A0 : told [] s s0) by apply told_pos. clearbody s0. destruct (quiet_told _ _ _ A0 Q) as [Q0 G0].
  destruct (told_call EvStartCdata s0 (q_never _ Q0)) as (re & s1 & E1 & A1). destruct (quiet_told _ _ _ A1 Q0) as [Q1 G1].
  destruct (section_told more (length body) body rest (S k) s1 (le_n _) Hb Dq Q1 ltac:(congruence) ltac:(lia)) as (parts & s2 & A2 & C2 & E2).
  destruct (quiet_told _ _ _ A2 Q1) as [Q2 G2]. destruct (after_quiet (T rest) s2 Q2) as (s3 & E3 & A3).
  exists parts, s3. split; [|split; [exact C2|]].
  - pose proof (told_trans _ _ _ _ _ A0 (told_trans _ _ _ _ _ A1 (told_trans _ _ _ _ _ A2 A3))) as A. cbn [List.app] in A. rewrite app_nil_r in A. exact A.
  - unfold pbind at 1, need, pret at 1. unfold pbind at 1, emit, pbind at 1, handler, get. rewrite G0, H1. unfold pbind at 1. rewrite E1. unfold pret at 1. cbn [negb when].
    unfold pbind at 1, pret at 1. unfold pbind at 1. rewrite I. change (rc_fuel (knot (S k))) with (S k). unfold pbind at 1. fold q in E2. rewrite E2. unfold pbind at 1. rewrite E3. reflexivity.
Qed.
End TE.
