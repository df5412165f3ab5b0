(* The declaration and detection theorems for the library's encodings. *)
From Coq Require Import String List NArith ZArith Bool Lia Arith.
From Coq Require Import ZifyBool ZifyNat ZifyN.
From Verif Require Import Base Tables Encoding SpecText SpecUnicode SpecNames SpecLex SpecDecl Tok TokMisc UniLaws UniConv SpecConv Charset CharsetLaws UnkLaws TextEnc CpBase MiscTop XmlDecl SpecEnc DeclLaws.
From Verif Require DeclTop.
Import ListNotations.
Local Open Scope N_scope.

Lemma te_transfers e enc dom lat ns : text_encoding e enc dom lat ns -> transfers (utf8Convert e) enc (fun c => dom c = true).
Proof.
  intros TE cs cap H. destruct TE as [| | | | | | | | | |table convert ns0 u enc0 dom0 L I A W].
  11:{ destruct (init_eval table convert ns0 L) as [[_ I2]|[_ I2]]; rewrite I2 in I; [|discriminate]. injection I as <-. now apply (unk_transfers table convert ns0 enc0 dom0 L A W). }
  1-2: apply (utf8_transfers cs cap H).
  1-2: apply (latin1_transfers cs cap); eapply Forall_impl; [|exact H]; unfold byte_dom; cbn; intros; lia.
  1-2: apply (ascii_transfers cs cap); eapply Forall_impl; [|exact H]; unfold ascii_dom; cbn; intros; lia.
  1-2: apply (utf16_transfers false cs cap H).
  all: apply (utf16_transfers true cs cap); eapply Forall_impl; [|exact H]; cbv beta; unfold is_scalar_be; intros a Ha; apply andb_prop in Ha; tauto.
Qed.

Lemma find_selects e enc dom k ns v r : charset e enc dom k -> transfers (utf8Convert e) enc (fun c => dom c = true) ->
  (forall c, c < 128 -> dom c = true) -> all_in value_char v -> length v <> 127%nat ->
  (findEncoding ns e (flat_map enc v) = Ok r <-> selects ns e v r).
Proof.
  intros CS TR AD Hv L. rewrite (DeclTop.find_eval _ _ _ _ CS TR AD) by auto. apply Nat.eqb_neq in L. rewrite L. unfold selects.
  change (supported ns e) with (DeclTop.supported ns e).
  assert (Q : forall w x, In (w, x) (DeclTop.supported ns e) -> same_name v (txt w) -> DeclTop.lookup (DeclTop.supported ns e) v = Some x /\ (length v < 127)%nat).
  { intros w x I S. exact (DeclTop.in_lookup e ns v w x I S). }
  destruct (127 <? length v)%nat eqn:G.
  - split.
    + intros E. injection E as <-. intros w x I S. destruct (Q w x I S). lia.
    + destruct r as [x|]; [|reflexivity]. intros (w & I & S). destruct (Q w x I S). lia.
  - split.
    + intros E0. assert (E : DeclTop.lookup (DeclTop.supported ns e) v = r) by (injection E0; auto). destruct r as [x|]; [now apply DeclTop.lookup_in|]. intros w x I S. destruct (Q w x I S) as [K _]. rewrite K in E. discriminate.
    + destruct r as [x|].
      * intros (w & I & S). destruct (Q w x I S) as [-> _]. reflexivity.
      * intros H. destruct (DeclTop.lookup _ v) as [x|] eqn:E; auto. exfalso. destruct (DeclTop.lookup_in _ _ _ E) as (w & I & S). exact (H w x I S).
Qed.

Section TE.
Variables (e : EncImpl) (enc : N -> list N) (dom : N -> bool) (lat ns0 : bool).
Hypothesis TE : text_encoding e enc dom lat ns0.
Notation F := (flat_map enc).
Let AD : forall c, c < 128 -> dom c = true := te_ascii_dom e enc dom lat ns0 TE.
Let TR := te_transfers _ _ _ _ _ TE.

Lemma te_find ns v r : all_in value_char v -> length v <> 127%nat -> (findEncoding ns e (F v) = Ok r <-> selects ns e v r).
Proof. destruct (text_encoding_std _ _ _ _ _ TE) as (k & CS & _). intros. eapply find_selects; eauto. Qed.
Lemma te_find_total ns v : all_in value_char v -> length v <> 127%nat -> exists r, findEncoding ns e (F v) = Ok r.
Proof.
  destruct (text_encoding_std _ _ _ _ _ TE) as (k & CS & _). intros Hv L. rewrite (DeclTop.find_eval _ _ _ _ CS TR AD) by auto.
  apply Nat.eqb_neq in L. rewrite L. eauto.
Qed.
Lemma te_find_127 ns v : all_in value_char v -> length v = 127%nat -> findEncoding ns e (F v) = Err EPanic.
Proof.
  destruct (text_encoding_std _ _ _ _ _ TE) as (k & CS & _). intros Hv L. rewrite (DeclTop.find_eval _ _ _ _ CS TR AD) by auto. now rewrite L.
Qed.

Lemma te_decl_sound ns g body r : all_in dom body -> doParseXmlDecl e ns g (F (txt "<?xml" ++ body ++ txt "?>")) = Ok (inr r) ->
  exists d, txt "<?xml" ++ body ++ txt "?>" = decl_text d /\ decl_ok g d /\ describes e enc ns d r /\
    (forall a, ds_encoding d = Some a -> length (as_value a) <> 127%nat).
Proof.
  destruct (text_encoding_std _ _ _ _ _ TE) as (k & CS & _). intros Hd H.
  destruct (DeclTop.decl_sound _ _ _ _ CS TR AD ns g body r Hd H) as (d & E & OK & D1 & D2 & D3 & D4).
  assert (L : forall a, ds_encoding d = Some a -> length (as_value a) <> 127%nat).
  { intros a Ea K. rewrite E, (DeclTop.decl_long _ _ _ _ CS TR AD ns g d a OK Ea K) in H. discriminate. }
  exists d. split; auto. split; auto. split; auto. split; auto. split; auto. split; auto.
  destruct OK as (_ & H2 & _). destruct (ds_encoding d) as [a|]; auto. cbn in H2. destruct H2 as [Pe _]. destruct Pe as (_ & _ & _ & _ & _ & _ & Hv). apply te_find; auto.
Qed.
Lemma te_decl_complete ns g d : decl_ok g d -> (forall a, ds_encoding d = Some a -> length (as_value a) <> 127%nat) ->
  exists r, doParseXmlDecl e ns g (F (decl_text d)) = Ok (inr r) /\ describes e enc ns d r.
Proof.
  destruct (text_encoding_std _ _ _ _ _ TE) as (k & CS & _). intros OK L.
  destruct (DeclTop.decl_complete _ _ _ _ CS TR AD ns g d OK L) as (r & E & D1 & D2 & D3 & D4). exists r. split; auto.
  split; auto. split; auto. split; auto.
  destruct OK as (_ & H2 & _). destruct (ds_encoding d) as [a|] eqn:Ea; auto. cbn in H2. destruct H2 as [Pe _]. destruct Pe as (_ & _ & _ & _ & _ & _ & Hv). apply te_find; auto.
Qed.
Lemma te_decl_total ns g body : all_in dom body ->
  (exists o, doParseXmlDecl e ns g (F (txt "<?xml" ++ body ++ txt "?>")) = Ok o) \/
  (exists pre a suf, body = pre ++ att_text a ++ suf /\ pseudo "encoding" a /\ length (as_value a) = 127%nat).
Proof.
  destruct (text_encoding_std _ _ _ _ _ TE) as (k & CS & _). intros Hd.
  destruct (DeclTop.decl_total _ _ _ _ CS TR AD ns g body Hd) as [H|[_ (pre & a & suf & E & (P & _) & L)]]; [now left|]. right. exists pre, a, suf. auto.
Qed.
Lemma te_decl_127 ns g d a : decl_ok g d -> ds_encoding d = Some a -> length (as_value a) = 127%nat -> doParseXmlDecl e ns g (F (decl_text d)) = Err EPanic.
Proof. destruct (text_encoding_std _ _ _ _ _ TE) as (k & CS & _). exact (DeclTop.decl_long _ _ _ _ CS TR AD ns g d a). Qed.
End TE.

(* ---- detection ---- *)
Lemma table_named ns n : index (enc_table ns) (named_index n) = Ok (named_enc ns n).
Proof. destruct ns, n; reflexivity. Qed.

Lemma scan_eq ns n external b i : i = named_index n ->
  (let* e := index (enc_table ns) i in let* (t, m) := (if external : bool then contentTok e b else prologTok e b) in Ok (t, m, Some e)) = scan_with (named_enc ns n) external b.
Proof. intros ->. rewrite table_named. reflexivity. Qed.
Lemma bom_eq ns n k i : i = named_index n ->
  (let* e := index (enc_table ns) i in Ok (T_BOM, Some k, Some e)) = Ok (T_BOM, Some k, Some (named_enc ns n)) :> res (XML_TOK * option nat * option EncImpl).
Proof. intros ->. rewrite table_named. reflexivity. Qed.

Ltac sc ns n := match goal with |- _ = scan_with _ ?x ?b => exact (scan_eq ns n x b (named_index n) eq_refl) end.
Ltac scn := match goal with |- _ = scan_with (named_enc ?ns ?n) ?x ?b => exact (scan_eq ns n x b (named_index n) eq_refl) end.
Lemma detect_be_mark ns n ext r : (ext = true -> n <> N_latin1) ->
  initScan ns (named_index n) ext (254 :: 255 :: r) = Ok (T_BOM, Some 2%nat, Some (utf16be_for ns)).
Proof. intros H. destruct n, ext; try (exfalso; now apply H); apply (bom_eq ns N_utf16be); reflexivity. Qed.
Lemma detect_le_mark ns n ext r : (ext = true -> n <> N_latin1) ->
  initScan ns (named_index n) ext (255 :: 254 :: r) = Ok (T_BOM, Some 2%nat, Some (utf16le_for ns)).
Proof. intros H. destruct n, ext; try (exfalso; now apply H); apply (bom_eq ns N_utf16le); reflexivity. Qed.
Lemma detect_utf8_mark ns n ext r : (ext = true -> n <> N_latin1 /\ is16 n = false) ->
  initScan ns (named_index n) ext (239 :: 187 :: 191 :: r) = Ok (T_BOM, Some 3%nat, Some (utf8_for ns)).
Proof. intros H. destruct n, ext; try (exfalso; destruct H as [H1 H2]; auto; discriminate); apply (bom_eq ns N_utf8); reflexivity. Qed.
Lemma detect_zero_first ns n ext c r : (ext = true -> n <> N_utf16le) ->
  initScan ns (named_index n) ext (0 :: c :: r) = scan_with (utf16be_for ns) ext (0 :: c :: r).
Proof.
  intros H. change (utf16be_for ns) with (named_enc ns N_utf16be).
  destruct n, ext; try (exfalso; now apply H); sc ns N_utf16be.
Qed.
Ltac fold_eqb := repeat match goal with |- context [N.eqb ?a ?b] => let E := fresh "E" in destruct (N.eqb a b) eqn:E end.
Lemma detect_zero_second ns n ext c r : c <> 0 -> (ext = true -> c = 60 /\ n <> N_utf16 /\ n <> N_utf16be) ->
  initScan ns (named_index n) ext (c :: 0 :: r) = scan_with (utf16le_for ns) ext (c :: 0 :: r).
Proof.
  intros Hc H. change (utf16le_for ns) with (named_enc ns N_utf16le). unfold initScan.
  change (0 =? 255) with false. change (0 =? 254) with false. change (0 =? 187) with false. change (0 =? 0) with true.
  rewrite !andb_false_r, andb_true_r. replace (c =? 0) with false by lia. destruct (c =? 60) eqn:E.
  - destruct ext; [destruct (H eq_refl) as (_ & H1 & H2)|]; destruct n; try congruence; sc ns N_utf16le.
  - destruct ext; [destruct (H eq_refl); lia|]. cbn [negb]. sc ns N_utf16le.
Qed.
Lemma detect_named ns n ext b : (2 <= length b)%nat -> no_signs ext n b ->
  initScan ns (named_index n) ext b = scan_with (named_enc ns n) ext b.
Proof.
  intros L (H1 & H2 & H3 & H4 & H5). destruct b as [|b0 [|b1 r]]; cbn in L; try lia. unfold initScan.
  destruct ((b0 =? 254) && (b1 =? 255)) eqn:E1.
  { assert (b0 = 254 /\ b1 = 255) as [-> ->] by lia. destruct H1 as [-> ->]; [left; now exists r|]. sc ns N_latin1. }
  destruct ((b0 =? 60) && (b1 =? 0)) eqn:E2.
  { assert (b0 = 60 /\ b1 = 0) as [-> ->] by lia. destruct H4 as [-> [-> | ->]]; [now exists r| |]; [sc ns N_utf16|sc ns N_utf16be]. }
  destruct ((b0 =? 255) && (b1 =? 254)) eqn:E3.
  { assert (b0 = 255 /\ b1 = 254) as [-> ->] by lia. destruct H1 as [-> ->]; [right; now exists r|]. sc ns N_latin1. }
  destruct ((b0 =? 239) && (b1 =? 187)) eqn:E4.
  { assert (b0 = 239 /\ b1 = 187) as [-> ->] by lia. destruct H2 as [(c & r' & E & Hc)|[-> Hn]]; [now exists r| |].
    - injection E as ->. replace (c =? 191) with false by lia. match goal with |- context [if ?x then _ else _] => destruct x end; scn.
    - destruct Hn as [-> |Hn]; [sc ns N_latin1|]. destruct n; try discriminate; scn. }
  destruct (b0 =? 0) eqn:E5.
  { assert (b0 = 0) as -> by lia. destruct H3 as [-> ->]; [now exists (b1 :: r)|]. sc ns N_utf16le. }
  destruct (b1 =? 0) eqn:E6.
  { assert (b1 = 0) as -> by lia. rewrite (H5 b0 r eq_refl). scn. }
  scn.
Qed.
(* one byte: the answer is put off exactly if it may begin a mark or a UTF-16 character, or UTF-16 was named *)
Lemma detect_one ns n ext c : initScan ns (named_index n) ext [c] =
  if is16 n || (((c =? 254) || (c =? 255) || (c =? 239)) && negb (ext && match n with N_latin1 => true | _ => false end)) || (c =? 0) || (c =? 60)
  then Ok (T_PARTIAL, None, None) else scan_with (named_enc ns n) ext [c].
Proof.
  unfold initScan. destruct (is16 n) eqn:I.
  - destruct n; try discriminate; reflexivity.
  - replace ((named_index n =? UTF_16_ENC) || (named_index n =? UTF_16LE_ENC) || (named_index n =? UTF_16BE_ENC)) with false by (destruct n; try discriminate; reflexivity).
    cbn [orb]. destruct ((c =? 254) || (c =? 255) || (c =? 239)) eqn:E.
    + replace ((c =? 0) || (c =? 60)) with false by lia. cbn [andb]. rewrite <- orb_assoc. replace ((c =? 0) || (c =? 60)) with false by lia. rewrite orb_false_r.
      destruct ext, n; try discriminate; cbn [andb negb]; try reflexivity; scn.
    + cbn [andb orb]. destruct ((c =? 0) || (c =? 60)); [reflexivity|]. scn.
Qed.
Lemma detect_two_utf8 ns n ext : (ext = true -> n <> N_latin1 /\ is16 n = false) -> initScan ns (named_index n) ext [239; 187] = Ok (T_PARTIAL, None, None).
Proof. intros H. destruct n, ext; try (exfalso; destruct H as [H1 H2]; auto; discriminate); reflexivity. Qed.

Lemma scan_chosen e x b t k y : scan_with e x b = Ok (t, k, y) -> y = Some e.
Proof. unfold scan_with. destruct (if x then _ else _) as [[? ?]|]; [|discriminate]. cbn [bind]. congruence. Qed.
(* the choice made on a beginning of the input is the choice made on all of it *)
Lemma detect_chunks ns n ext p q t k x t' k' y :
  initScan ns (named_index n) ext p = Ok (t, k, Some x) ->
  initScan ns (named_index n) ext (p ++ q) = Ok (t', k', y) ->
  (ext = false -> forall c r, p = [c] -> q <> 0 :: r) -> y = Some x.
Proof.
  intros H1 H2 Hz. destruct p as [|b0 [|b1 p]]; [discriminate| |].
  - rewrite detect_one in H1. destruct (_ || _) eqn:C in H1; [discriminate|]. pose proof (scan_chosen _ _ _ _ _ _ H1) as E. injection E as ->.
    destruct q as [|b1 q].
    + cbn [app] in H2. rewrite detect_one, C in H2. now apply scan_chosen in H2.
    + cbn [app] in H2. rewrite detect_named in H2; [now apply scan_chosen in H2|cbn; lia|].
      apply orb_false_iff in C as [C C4]. apply orb_false_iff in C as [C C3]. apply orb_false_iff in C as [C1 C2].
      assert (M : (b0 = 254 \/ b0 = 255 \/ b0 = 239) -> ext = true /\ n = N_latin1).
      { intros D. replace ((b0 =? 254) || (b0 =? 255) || (b0 =? 239)) with true in C2 by lia. destruct ext, n; try discriminate; auto. }
      split; [|split; [|split; [|split]]].
      * intros D. apply M. destruct D as [[r D]|[r D]]; injection D as -> _; auto.
      * intros D. right. destruct D as [r D]; injection D as -> _. destruct M as [-> ->]; auto.
      * intros D. exfalso. destruct D as [r D]. injection D as -> _. discriminate.
      * intros D. exfalso. destruct D as [r D]. injection D as -> _. discriminate.
      * intros c r D2. injection D2 as _ -> _. destruct ext; auto. exfalso. apply (Hz eq_refl b0 q eq_refl). reflexivity.
  - cbn [app] in H2. revert H1 H2. unfold initScan.
    repeat match goal with
    | |- context [index (enc_table ns) ?i] => first [rewrite (table_named ns n) | rewrite (table_named ns N_utf16be : index (enc_table ns) UTF_16BE_ENC = _) | rewrite (table_named ns N_utf16le : index (enc_table ns) UTF_16LE_ENC = _) | rewrite (table_named ns N_utf8 : index (enc_table ns) UTF_8_ENC = _)]
    end.
    cbn [bind].
    assert (S : forall e b1 b2, (let* (t0, n0) := (if ext then contentTok e b1 else prologTok e b1) in Ok (t0, n0, Some e)) = Ok (t, k, Some x) ->
      (let* (t0, n0) := (if ext then contentTok e b2 else prologTok e b2) in Ok (t0, n0, Some e)) = Ok (t', k', y) -> y = Some x).
    { intros e c1 c2 A B. apply (scan_chosen e ext c1) in A. apply (scan_chosen e ext c2) in B. congruence. }
    repeat match goal with
    | |- context [if ?c then _ else _] => match c with ext => fail 1 | _ => let E := fresh in destruct c eqn:E end; try (intros; congruence)
    end; try (apply S); try (intros A B; injection A; injection B; intros; subst; reflexivity).
    all: destruct p as [|b2 p]; cbn [app]; try discriminate.
    all: destruct (b2 =? 191); [intros A B; injection A; injection B; intros; subst; reflexivity|apply S].
Qed.
