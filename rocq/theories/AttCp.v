(* Attribute values over code points, in a document and in the text of an entity. *)
From Coq Require Import String List NArith ZArith Bool Lia Arith.
From Coq Require Import ZifyBool ZifyNat ZifyN.
From Verif Require Import Base Tables Encoding SpecText SpecUnicode SpecNames SpecLex SpecMisc EncLaws Tok TokMisc TokWp TokSafe UniLaws UniConv SpecConv Charset CharsetLaws Sim SimTop TextEnc CpBase CpComment CpTag CpMisc CpNames MiscTop DeclFinal.
Import ListNotations.
Local Open Scope N_scope.

(* two classifications that differ only on characters that are white space in both *)
Definition alike (k k' : cls) : Prop :=
  nst k = nst k' /\ nmc k = nmc k' /\ forall c, ty k c = ty k' c \/ (ty k c = BT_S /\ ty k' c = BT_CR).
Lemma while_cong {S B} k k' (body body' : S -> M S) (fin : S -> res XML_TOK) :
  (forall s b, body s b = body' s b) ->
  forall f s b, @while_fuel (cp_enc k) S B f body fin s b = while_fuel (cp_enc k') f body' fin s b.
Proof.
  intros H. induction f as [|f IH]; intros s b; cbn [while_fuel]; [reflexivity|].
  change (has_chars (cp_enc k) 1 b) with (has_chars (cp_enc k') 1 b). rewrite H.
  destruct (has_chars (cp_enc k') 1 b); [|reflexivity]. destruct (body' s b) as [[t n|s' b']|]; auto.
Qed.
Lemma bind_cong {A B} (m m' : M A) (f f' : A -> M B) b : m b = m' b -> (forall a b, f a b = f' a b) -> mbind m f b = mbind m' f' b.
Proof. intros H K. unfold mbind. rewrite H. destruct (m' b) as [[? ?|? ?]|]; auto. Qed.

Lemma scanRef_alike k k' B : alike k k' -> forall cs, @scanRef (cp_enc k) B cs = scanRef (cp_enc k') cs.
Proof.
  intros (Es & En & Ht) cs. unfold scanRef, while_partial, while_.
  apply bind_cong; [destruct cs; reflexivity|]. intros _ [|c b]; [reflexivity|].
  assert (R : forall D r, @scanCharRef (cp_enc k) D r = @scanCharRef (cp_enc k') D r).
  { clear B. intros B r. unfold scanCharRef, while_partial, while_. apply bind_cong; [destruct r; reflexivity|]. intros _ [|c2 b2]; [reflexivity|].
    apply bind_cong; [reflexivity|]. intros x b3. destruct x.
    - apply bind_cong; [reflexivity|]. intros _ b4. unfold scanHexCharRef, while_partial, while_. apply bind_cong; [destruct b4; reflexivity|]. intros _ [|c5 b5]; [reflexivity|].
      rewrite !b_bt. destruct (Ht c5) as [-> |[-> ->]]; [|reflexivity].
      assert (W : forall f s b, @while_fuel (cp_enc k) unit B f (fun _ => (t <- bt (cp_enc k) ;; match t with BT_DIGIT | BT_HEX => adv1 (cp_enc k) | BT_SEMI => stop_after (cp_enc k) T_CHAR_REF | _ => stop_here T_INVALID end)%scan) (fun _ => Ok T_PARTIAL) s b =
        while_fuel (cp_enc k') f (fun _ => (t <- bt (cp_enc k') ;; match t with BT_DIGIT | BT_HEX => adv1 (cp_enc k') | BT_SEMI => stop_after (cp_enc k') T_CHAR_REF | _ => stop_here T_INVALID end)%scan) (fun _ => Ok T_PARTIAL) s b).
      { intros f s x. apply while_cong. clear -Ht. intros _ [|c b]; [reflexivity|]. rewrite !b_bt. destruct (Ht c) as [-> |[-> ->]]; reflexivity. }
      destruct (ty k' c5); try reflexivity; apply bind_cong; try reflexivity; intros; apply W.
    - destruct b3 as [|c5 b5]; [reflexivity|]. rewrite !b_bt. destruct (Ht c5) as [-> |[-> ->]]; [|reflexivity].
      assert (W : forall f s b, @while_fuel (cp_enc k) unit B f (fun _ => (t <- bt (cp_enc k) ;; match t with BT_DIGIT => adv1 (cp_enc k) | BT_SEMI => stop_after (cp_enc k) T_CHAR_REF | _ => stop_here T_INVALID end)%scan) (fun _ => Ok T_PARTIAL) s b =
        while_fuel (cp_enc k') f (fun _ => (t <- bt (cp_enc k') ;; match t with BT_DIGIT => adv1 (cp_enc k') | BT_SEMI => stop_after (cp_enc k') T_CHAR_REF | _ => stop_here T_INVALID end)%scan) (fun _ => Ok T_PARTIAL) s b).
      { intros f s x. apply while_cong. clear -Ht. intros _ [|c b]; [reflexivity|]. rewrite !b_bt. destruct (Ht c) as [-> |[-> ->]]; reflexivity. }
      destruct (ty k' c5); try reflexivity; apply bind_cong; try reflexivity; intros; apply W. }
  rewrite !b_bt. apply bind_cong.
  - unfold check_nmstrt. destruct (Ht c) as [-> |[-> ->]]; [|reflexivity]. destruct (lead_len (ty k' c)); [reflexivity|].
    destruct (ty k' c); try reflexivity; first [exact (R _ b) | ev; rewrite Es; reflexivity].
  - intros _ b1. apply while_cong. clear -Ht En. intros _ [|c b]; [reflexivity|]. rewrite !b_bt. unfold check_name. destruct (Ht c) as [-> |[-> ->]]; [|reflexivity].
    destruct (lead_len (ty k' c)); [reflexivity|]. destruct (ty k' c); try reflexivity. ev. rewrite En. reflexivity.
Qed.

(* a classification as far as attribute values go *)
Record attcls (lat ns inner : bool) (dom : N -> bool) (k : cls) : Prop := {
  ac_lead : forall c, dom c = true -> lead_len (ty k c) = None;
  ac_amp : forall c, dom c = true -> (ty k c = BT_AMP <-> c = 38);
  ac_lt : forall c, dom c = true -> (ty k c = BT_LT <-> c = 60);
  ac_lf : forall c, dom c = true -> (ty k c = BT_LF <-> c = 10);
  ac_cr : forall c, dom c = true -> (ty k c = BT_CR <-> c = 13 /\ inner = false);
  ac_sp : forall c, dom c = true -> (ty k c = BT_S <-> c = 32 \/ c = 9 \/ (c = 13 /\ inner = true));
  ac_ref : forall B cs, all_in dom cs -> @scanRef (cp_enc k) B cs = ref_fn lat ns cs;
}.
Lemma std_attcls lat ns dom k : std lat ns dom k -> attcls lat ns false dom k.
Proof.
  intros ST. constructor; intros.
  - now apply (no_lead _ _ _ _ ST).
  - now apply (type_char_iff _ _ _ _ ST).
  - now apply (type_char_iff _ _ _ _ ST).
  - now apply (type_char_iff _ _ _ _ ST).
  - rewrite (type_char_iff _ _ _ _ ST c BT_CR 13) by auto. intuition.
  - rewrite (type_set _ _ _ _ ST BT_S c) by auto. cbn [in_type]. rewrite orb_true_iff, !N.eqb_eq. intuition discriminate.
  - now apply (scanRef_eq _ _ _ _ ST).
Qed.
Definition inner_types (ns : bool) : list ByteType := if ns then InternalUtf8EncodingTableNS else InternalUtf8EncodingTable.
Lemma utf8_std ns : std false ns is_scalar (table_cls (ascii_table ns) 128).
Proof.
  set (k := table_cls (ascii_table ns) 128).
  assert (W : forall c, 128 <= c -> ty k c = wide_type c).
  { intros c Hc. unfold k. cbn [table_cls ty]. now replace (c <? 128) with false by lia. }
  assert (G : forall c, c < 256 -> table_start k false ns c = true).
  { apply below256. unfold k. destruct ns; vm_compute; reflexivity. }
  assert (G2 : forall c, kstart k c = start_char false ns c /\ kname k c = name_char false ns c /\ (ty k c = BT_NONXML <-> is_xml_char c = false)).
  { intros c. destruct (N.lt_ge_cases c 256) as [Hc|Hc].
    - specialize (G c Hc). unfold table_start in G. apply andb_prop in G as [G G3]. apply andb_prop in G as [G1 G2].
      apply eqb_prop in G1, G2, G3. repeat split; auto; intros H.
      + rewrite H in G3. change (bt_eqb BT_NONXML BT_NONXML) with true in G3. now destruct (is_xml_char c).
      + rewrite H in G3. now apply bt_eqb_eq in G3.
    - apply wide_std; auto. apply W; lia. }
  constructor; intros c; try (intros; apply G2).
  - intros Hc. unfold k. cbn [table_cls ty]. now replace (c <? 128) with true by lia.
  - intros _ Hc. rewrite W by auto. unfold wide_type. destruct (is_xml_char c); cbn; tauto.
Qed.
Definition inner_ok (ns : bool) (c : N) : bool :=
  let t := nth (N.to_nat c) (inner_types ns) BT_NONXML in
  let u := nth (N.to_nat c) (ascii_table ns) BT_NONXML in
  if c =? 13 then bt_eqb t BT_S && bt_eqb u BT_CR else bt_eqb t u && negb (bt_eqb t BT_CR).
Lemma inner_ok_all ns c : c < 128 -> inner_ok ns c = true.
Proof. apply below128. destruct ns; vm_compute; reflexivity. Qed.
Lemma inner_ty ns c : ty (table_cls (inner_types ns) 128) c = if c =? 13 then BT_S else ty (table_cls (ascii_table ns) 128) c.
Proof.
  cbn [table_cls ty]. destruct (c <? 128) eqn:E; [|replace (c =? 13) with false by lia; reflexivity].
  pose proof (inner_ok_all ns c ltac:(lia)) as H. unfold inner_ok in H. destruct (c =? 13); apply andb_prop in H as [H _]; now apply bt_eqb_eq in H.
Qed.
Lemma inner_attcls ns : attcls false ns true is_scalar (table_cls (inner_types ns) 128).
Proof.
  pose proof (std_attcls _ _ _ _ (utf8_std ns)) as A.
  constructor; intros; rewrite ?inner_ty.
  - destruct (c =? 13); [reflexivity|]. now apply (ac_lead _ _ _ _ _ A).
  - destruct (c =? 13) eqn:E; [split; [discriminate|lia]|]. now apply (ac_amp _ _ _ _ _ A).
  - destruct (c =? 13) eqn:E; [split; [discriminate|lia]|]. now apply (ac_lt _ _ _ _ _ A).
  - destruct (c =? 13) eqn:E; [split; [discriminate|lia]|]. now apply (ac_lf _ _ _ _ _ A).
  - destruct (c =? 13) eqn:E; [split; [discriminate|intuition discriminate]|]. rewrite (ac_cr _ _ _ _ _ A) by auto. apply N.eqb_neq in E. intuition discriminate.
  - destruct (c =? 13) eqn:E; [split; [|reflexivity]; intros _; right; right; split; [lia|reflexivity]|]. rewrite (ac_sp _ _ _ _ _ A) by auto.
    apply N.eqb_neq in E. intuition discriminate.
  - rewrite <- (ac_ref _ _ _ _ _ A) by auto. apply scanRef_alike. split; [reflexivity|]. split; [reflexivity|]. intros c. rewrite inner_ty.
    destruct (c =? 13) eqn:E; [|auto]. right. split; [reflexivity|]. apply N.eqb_eq in E. subst c. destruct ns; reflexivity.
Qed.

Lemma some_std lat ns : exists dom k, std lat ns dom k.
Proof.
  destruct lat, ns.
  - destruct (text_encoding_std _ _ _ _ _ te_latin1_ns) as (k & _ & H). eauto.
  - destruct (text_encoding_std _ _ _ _ _ te_latin1) as (k & _ & H). eauto.
  - destruct (text_encoding_std _ _ _ _ _ te_utf8_ns) as (k & _ & H). eauto.
  - destruct (text_encoding_std _ _ _ _ _ te_utf8) as (k & _ & H). eauto.
Qed.
Lemma ref_entity' lat ns {B} cs p : @ref_fn lat ns B cs = stop T_ENTITY_REF p <-> exists n, is_name lat ns n /\ cs = n ++ [59] ++ p.
Proof. destruct (some_std lat ns) as (dom & k & ST). exact (ref_entity _ _ _ _ ST cs p). Qed.
Lemma ref_char' lat ns {B} cs p : @ref_fn lat ns B cs = stop T_CHAR_REF p <->
  (exists d, d <> [] /\ all_in is_digit d /\ cs = [35] ++ d ++ [59] ++ p) \/
  (exists d, d <> [] /\ all_in is_hex d /\ cs = [35; 120] ++ d ++ [59] ++ p).
Proof. destruct (some_std lat ns) as (dom & k & ST). exact (ref_char _ _ _ _ ST cs p). Qed.

(* ---- the tokens of an attribute value ---- *)
Ltac lens := apply (f_equal (fun n => Ok (_, Some n))); change (txt ";") with [59]; change (txt "&") with [38]; change (txt "&#") with [38; 35]; change (txt "&#x") with [38; 35; 120];
  repeat (rewrite app_length || cbn [length app]); lia.
Section Toks.
Variables (lat ns inner : bool) (dom : N -> bool) (k : cls).
Hypothesis AC : attcls lat ns inner dom k.
Notation ce := (cp_enc k).

Definition lit (c : N) : bool := negb ((c =? 38) || (c =? 60) || is_space c).
(* where a run of literal characters ends *)
Definition halts (cs : list N) : Prop := match cs with [] => True | c :: _ => lit c = false /\ c <> 60 end.

Lemma lit_ty c : dom c = true -> lit c = true ->
  lead_len (ty k c) = None /\ ~ In (ty k c) [BT_AMP; BT_LT; BT_LF; BT_CR; BT_S].
Proof.
  intros Hd Hl. split; [now apply (ac_lead _ _ _ _ _ AC)|]. unfold lit, is_space in Hl. cbn [In].
  intros [E|[E|[E|[E|[E|[]]]]]]; symmetry in E.
  - apply (ac_amp _ _ _ _ _ AC) in E; auto. lia.
  - apply (ac_lt _ _ _ _ _ AC) in E; auto. lia.
  - apply (ac_lf _ _ _ _ _ AC) in E; auto. lia.
  - apply (ac_cr _ _ _ _ _ AC) in E; auto. lia.
  - apply (ac_sp _ _ _ _ _ AC) in E; auto. lia.
Qed.
Lemma run_lit B f first c r : dom c = true -> lit c = true -> @attributeValue_run ce B (S f) first (c :: r) = attributeValue_run ce f false r.
Proof.
  intros Hd Hl. destruct (lit_ty c Hd Hl) as [E I]. cbn [attributeValue_run]. change (has_chars ce 1 (c :: r)) with true. cbv iota.
  change (byte_type ce (c :: r)) with (Ok (ty k c)). cbn [bind]. rewrite E.
  destruct (ty k c); cbn [In] in I; try tauto; reflexivity.
Qed.
Lemma run_lits B p rest : all_in dom p -> all_in lit p -> forall f, (length p <= f)%nat -> p <> [] ->
  forall first, @attributeValue_run ce B f first (p ++ rest) = attributeValue_run ce (f - length p) false rest.
Proof.
  intros Hd Hl. revert Hd. induction Hl as [|c p Hc Hl IH]; intros Hd f Hf Hn first; [congruence|].
  inversion Hd; subst. destruct f as [|f]; [cbn in Hf; lia|]. cbn [app length] in *. rewrite run_lit by auto.
  destruct p as [|d p]; [cbn [app length]; replace (S f - 1)%nat with f by lia; reflexivity|].
  rewrite IH; [|assumption|cbn in *; lia|discriminate]. reflexivity.
Qed.
Lemma run_halt B f cs : all_in dom cs -> halts cs -> (length cs < f)%nat -> @attributeValue_run ce B f false cs = Ok (Stop T_DATA_CHARS (Some cs)).
Proof.
  intros Hd Hh Hf. destruct f as [|f]; [lia|]. destruct cs as [|c r]; [reflexivity|]. inversion Hd; subst. destruct Hh as [Hl Hn].
  cbn [attributeValue_run]. change (has_chars ce 1 (c :: r)) with true. cbv iota.
  change (byte_type ce (c :: r)) with (Ok (ty k c)). cbn [bind]. rewrite (ac_lead _ _ _ _ _ AC) by auto.
  assert (ty k c = BT_AMP \/ ty k c = BT_LF \/ ty k c = BT_CR \/ ty k c = BT_S) as K.
  { rewrite (ac_amp _ _ _ _ _ AC), (ac_lf _ _ _ _ _ AC), (ac_cr _ _ _ _ _ AC), (ac_sp _ _ _ _ _ AC) by auto.
    unfold lit, is_space in Hl. destruct inner; lia. }
  destruct K as [->|[->|[->| ->]]]; reflexivity.
Qed.
Lemma tok_run p cs : all_in dom (p ++ cs) -> all_in lit p -> p <> [] -> halts cs ->
  attributeValueTok ce (p ++ cs) = Ok (T_DATA_CHARS, Some (length p)).
Proof.
  intros Hd Hl Hn Hh. apply Forall_app in Hd as [Hd1 Hd2]. unfold attributeValueTok. destruct p as [|c p]; [congruence|].
  cbn [app is_nil]. change (negb (has_chars ce 1 (c :: p ++ cs))) with false. cbv iota. unfold run.
  change (c :: p ++ cs) with ((c :: p) ++ cs).
  rewrite run_lits; [|assumption|assumption|rewrite app_length; lia|discriminate].
  rewrite run_halt; [|assumption|assumption|rewrite app_length; cbn [length]; lia]. cbn [option_map]. rewrite app_length. do 3 f_equal. lia.
Qed.
Lemma tok_less p cs : all_in dom (p ++ 60 :: cs) -> all_in lit p ->
  exists n, attributeValueTok ce (p ++ 60 :: cs) = Ok (T_INVALID, Some n).
Proof.
  intros Hd Hl. apply Forall_app in Hd as [Hd1 Hd2]. inversion Hd2; subst.
  assert (L : forall B f first, @attributeValue_run ce B (S f) first (60 :: cs) = Ok (Stop T_INVALID (Some (60 :: cs)))).
  { intros. cbn [attributeValue_run]. change (has_chars ce 1 (60 :: cs)) with true. cbv iota.
    change (byte_type ce (60 :: cs)) with (Ok (ty k 60)). cbn [bind]. rewrite (ac_lead _ _ _ _ _ AC) by auto.
    rewrite (proj2 (ac_lt _ _ _ _ _ AC 60 H1) eq_refl). reflexivity. }
  unfold attributeValueTok. destruct p as [|c p].
  - cbn [app is_nil]. change (negb (has_chars ce 1 (60 :: cs))) with false. cbv iota. unfold run. rewrite L. cbn [option_map]. eauto.
  - cbn [app is_nil]. change (negb (has_chars ce 1 (c :: p ++ 60 :: cs))) with false. cbv iota. unfold run.
    change (c :: p ++ 60 :: cs) with ((c :: p) ++ 60 :: cs).
    rewrite run_lits; [|assumption|assumption|rewrite app_length; lia|discriminate].
    replace (S (length ((c :: p) ++ 60%N :: cs)) - length (c :: p))%nat with (S (S (length cs))) by (rewrite app_length; cbn [length]; lia).
    rewrite L. cbn [option_map]. eauto.
Qed.
Lemma tok_first c r : dom c = true -> attributeValueTok ce (c :: r) = run (attributeValue_run ce (S (S (length r))) true) (c :: r).
Proof. intros. reflexivity. Qed.
Lemma first_eq B f c r : dom c = true -> @attributeValue_run ce B (S f) true (c :: r) =
  match ty k c with
  | BT_AMP => scanRef ce r
  | BT_LT => Ok (Stop T_INVALID (Some (c :: r)))
  | BT_LF => Ok (Stop T_DATA_NEWLINE (Some r))
  | BT_CR => match r with [] => Ok (Stop T_TRAILING_CR None) | d :: r' => Ok (Stop T_DATA_NEWLINE (Some (if bt_eqb (ty k d) BT_LF then r' else r))) end
  | BT_S => Ok (Stop T_ATTRIBUTE_VALUE_S (Some r))
  | _ => attributeValue_run ce f false r
  end.
Proof.
  intros Hd. cbn [attributeValue_run]. change (has_chars ce 1 (c :: r)) with true. cbv iota.
  change (byte_type ce (c :: r)) with (Ok (ty k c)). cbn [bind]. rewrite (ac_lead _ _ _ _ _ AC) by auto.
  destruct (ty k c); try reflexivity. destruct r as [|d r]; [reflexivity|].
  unfold stop_after, stop_here. rewrite b_adv1. unfold require_or, mbind at 1. change (has_chars ce 1 (d :: r)) with true. cbv iota. rewrite b_bt.
  destruct (bt_eqb (ty k d) BT_LF); reflexivity.
Qed.
Lemma tok_space c r : dom c = true -> is_space c = true -> (c = 13 -> inner = true) ->
  exists t, attributeValueTok ce (c :: r) = Ok (t, Some 1%nat) /\ (t = T_ATTRIBUTE_VALUE_S \/ t = T_DATA_NEWLINE).
Proof.
  intros Hd Hs H13. rewrite tok_first by auto. unfold run. rewrite first_eq by auto.
  assert (E : (length (c :: r) - length r = 1)%nat) by (cbn [length]; lia).
  assert (ty k c = BT_LF \/ ty k c = BT_S) as [->| ->].
  { rewrite (ac_lf _ _ _ _ _ AC), (ac_sp _ _ _ _ _ AC) by auto. unfold is_space in Hs. destruct inner; [|lia]. lia. }
  - cbn [option_map]. rewrite E. eauto.
  - cbn [option_map]. rewrite E. eauto.
Qed.
Lemma tok_crlf r : dom 13 = true -> dom 10 = true -> inner = false ->
  attributeValueTok ce (13 :: 10 :: r) = Ok (T_DATA_NEWLINE, Some 2%nat).
Proof.
  intros D1 D2 Hi. rewrite tok_first by auto. unfold run. rewrite first_eq by auto.
  rewrite (proj2 (ac_cr _ _ _ _ _ AC 13 D1)) by auto. rewrite (proj2 (ac_lf _ _ _ _ _ AC 10 D2)) by auto.
  change (bt_eqb BT_LF BT_LF) with true. cbn [option_map length]. do 3 f_equal. lia.
Qed.
Lemma tok_cr r : all_in dom (13 :: r) -> inner = false -> ~ (exists q, r = 10 :: q) ->
  attributeValueTok ce (13 :: r) = match r with [] => Ok (T_TRAILING_CR, None) | _ => Ok (T_DATA_NEWLINE, Some 1%nat) end.
Proof.
  intros Hd Hi Hn. inversion Hd as [|x l H1 H2]; subst x l. rewrite tok_first by auto. unfold run. rewrite first_eq by auto.
  rewrite (proj2 (ac_cr _ _ _ _ _ AC 13 H1)) by auto. destruct r as [|d r]; [reflexivity|]. inversion H2 as [|x l H3 H4]; subst x l.
  replace (bt_eqb (ty k d) BT_LF) with false.
  - cbn [option_map length]. do 3 f_equal. lia.
  - symmetry. apply not_true_is_false. intros E. apply bt_eqb_eq in E. apply (ac_lf _ _ _ _ _ AC) in E; auto. subst. eauto.
Qed.
Lemma tok_ref cs : all_in dom (38 :: cs) ->
  attributeValueTok ce (38 :: cs) = run (fun _ => ref_fn lat ns cs) (38 :: cs).
Proof.
  intros Hd. inversion Hd; subst. rewrite tok_first by auto. unfold run. rewrite first_eq by auto.
  rewrite (proj2 (ac_amp _ _ _ _ _ AC 38 H1) eq_refl). rewrite (ac_ref _ _ _ _ _ AC) by auto. reflexivity.
Qed.
Lemma tok_entity n cs : all_in dom (txt "&" ++ n ++ txt ";" ++ cs) -> is_name lat ns n ->
  attributeValueTok ce (txt "&" ++ n ++ txt ";" ++ cs) = Ok (T_ENTITY_REF, Some (length (txt "&" ++ n ++ txt ";"))).
Proof.
  intros Hd Hn. change (txt "&" ++ n ++ txt ";" ++ cs) with (38 :: n ++ [59] ++ cs) in *. rewrite tok_ref by auto. unfold run.
  rewrite (proj2 (ref_entity' lat ns (n ++ [59] ++ cs) cs)) by eauto. cbn [stop option_map]. lens.
Qed.
Lemma tok_charref ds p cs : all_in dom (txt p ++ ds ++ txt ";" ++ cs) -> ds <> [] ->
  p = "&#"%string /\ all_in is_digit ds \/ p = "&#x"%string /\ all_in is_hex ds ->
  attributeValueTok ce (txt p ++ ds ++ txt ";" ++ cs) = Ok (T_CHAR_REF, Some (length (txt p ++ ds ++ txt ";"))).
Proof.
  intros Hd Hn [[-> Hp]|[-> Hp]].
  - change (txt "&#" ++ ds ++ txt ";" ++ cs) with (38 :: [35] ++ ds ++ [59] ++ cs) in *. rewrite tok_ref by auto. unfold run.
    rewrite (proj2 (ref_char' lat ns ([35] ++ ds ++ [59] ++ cs) cs)) by eauto. cbn [stop option_map]. lens.
  - change (txt "&#x" ++ ds ++ txt ";" ++ cs) with (38 :: [35; 120] ++ ds ++ [59] ++ cs) in *. rewrite tok_ref by auto. unfold run.
    rewrite (proj2 (ref_char' lat ns ([35; 120] ++ ds ++ [59] ++ cs) cs)) by eauto. cbn [stop option_map]. lens.
Qed.
Lemma tok_stray cs : all_in dom (38 :: cs) -> (forall r p, 38 :: cs = r ++ p -> ~ entity_ref lat ns r /\ ~ char_ref r) ->
  (exists n, attributeValueTok ce (38 :: cs) = Ok (T_INVALID, Some n)) \/ attributeValueTok ce (38 :: cs) = Ok (T_PARTIAL, None).
Proof.
  intros Hd Hn. rewrite tok_ref by auto. unfold run. destruct (@ref_toks lat ns Empty_set cs) as [(p & E)|[(p & E)|[(p & E)|E]]].
  - exfalso. apply ref_entity' in E as (n & Hm & ->). destruct (Hn (txt "&" ++ n ++ txt ";") p) as [K _]; [rewrite <- !app_assoc; reflexivity|]. apply K. now exists n.
  - exfalso. apply ref_char' in E as [(d & H1 & H2 & ->)|(d & H1 & H2 & ->)].
    + destruct (Hn (txt "&#" ++ d ++ txt ";") p) as [_ K]; [rewrite <- !app_assoc; reflexivity|]. apply K. left. eauto.
    + destruct (Hn (txt "&#x" ++ d ++ txt ";") p) as [_ K]; [rewrite <- !app_assoc; reflexivity|]. apply K. right. eauto.
  - rewrite E. left. eexists. reflexivity.
  - rewrite E. right. reflexivity.
Qed.
End Toks.
