(* Tokens of content in a buffer that may end before the text does. *)
From Coq Require Import String List NArith ZArith Bool Lia Arith.
From Coq Require Import ZifyBool ZifyNat ZifyN.
From Verif Require Import Base Encoding SpecUnicode SpecNames SpecLex SpecTok Tok EncLaws UniLaws TokWp TokEmit TokTop TokStabTop TokInst Charset CharsetLaws TextEnc CpContent.
From Coq Require Import List.
Import ListNotations.

(* the tokens that ask for more *)
Definition waits (t : XML_TOK) : Prop :=
  match t with T_NONE | T_PARTIAL | T_PARTIAL_CHAR | T_TRAILING_CR | T_TRAILING_RSQB => True | _ => False end.
Definition XC (t : XML_TOK) : Prop :=
  match t with
  | T_NAME_NEG | T_NMTOKEN_NEG | T_PREFIXED_NAME_NEG | T_POUND_NAME_NEG | T_CLOSE_PAREN_NEG | T_CLOSE_BRACKET_NEG | T_LITERAL_NEG => False
  | _ => True
  end.
Definition cwaits (t : XML_TOK) : Prop := match t with T_NONE | T_PARTIAL | T_PARTIAL_CHAR => True | _ => False end.
Definition XD (t : XML_TOK) : Prop :=
  match t with
  | T_NAME_NEG | T_NMTOKEN_NEG | T_PREFIXED_NAME_NEG | T_POUND_NAME_NEG | T_CLOSE_PAREN_NEG | T_CLOSE_BRACKET_NEG | T_LITERAL_NEG | T_TRAILING_CR | T_TRAILING_RSQB => False
  | _ => True
  end.
Section E.
Variable e : EncImpl.
Lemma x_comment B : qx XC (@scanComment e B). Proof. unfold scanComment; uq; qs. Qed.
Lemma x_cdata B : qx XC (@scanCdataSection e B). Proof. unfold scanCdataSection, match_string; uq; qs. Qed.
Lemma x_etag B : qx XC (@scanEndTag e B). Proof. unfold scanEndTag; uq; qs. Qed.
Lemma x_hex B : qx XC (@scanHexCharRef e B). Proof. unfold scanHexCharRef; uq; qs. Qed.
Lemma x_char B : qx XC (@scanCharRef e B). Proof. unfold scanCharRef; uq; qs; apply x_hex. Qed.
Lemma x_ref B : qx XC (@scanRef e B). Proof. unfold scanRef; uq; qs; apply x_char. Qed.
Lemma x_pi B : qx XC (@scanPi e B).
Proof.
  unfold scanPi. apply q_bind; [apply q_capture; unfold pi_name; uq; qs|]. intros [r x]. cbn [fst snd].
  assert (H : forall k : XML_TOK -> M B, (forall tok, tok = T_PI \/ tok = T_XML_DECL -> qx XC (k tok)) ->
    qx XC (mbind (check_pi_target e x) (fun tok => match tok with None => stop_here T_INVALID | Some tok => k tok end))).
  { intros k Hk b t n. unfold mbind, check_pi_target. destruct (checkPiTarget e x) as [[tok|]|] eqn:E; cbn [bind]; [| |discriminate].
    - apply Hk. eapply target_tok; eauto.
    - intros H. injection H as <- <-. exact I. }
  destruct r; try (apply q_here; exact I); apply H; intros tok [-> | ->]; unfold pi_text; uq; qs.
Qed.
Lemma x_tag t : XT t -> XC t. Proof. destruct t; cbn; auto. Qed.
Lemma qx_imp {A} (X Y : XML_TOK -> Prop) (m : M A) : (forall t, X t -> Y t) -> qx X m -> qx Y m.
Proof. intros H Hm b t n E. exact (H _ (Hm _ _ _ E)). Qed.
Lemma x_lt B : qx XC (@scanLt e B).
Proof.
  unfold scanLt. apply q_bind; [uq; qs|intros _]. apply q_bind; [qs|intros t]. apply q_bind.
  - unfold check_nmstrt. destruct (lead_len t); [uq; qs|]. destruct t; uq; try (qs; fail).
    all: repeat first [apply x_comment | apply x_cdata | apply x_pi | apply x_etag | apply q_here; exact I | apply q_req; exact I | apply q_adv | apply q_bt | apply q_bind; [|intros ?] | match goal with |- qx _ (match ?x with _ => _ end) => destruct x end].
  - intros _. apply q_while; [intros s; apply (qx_imp _ _ _ x_tag), t_body|intros s y H; injection H as <-; exact I].
Qed.
Lemma x_content_run B f : qx XC (@content_run e B f).
Proof.
  induction f as [|f IH]; intros b t n; cbn [content_run]; destruct (has_chars e 1 b); try discriminate; unfold stop_here, bind;
    repeat (match goal with |- context [match ?x with _ => _ end] => destruct x end; try discriminate); try (intros H; injection H as <- <-; exact I); apply IH.
Qed.
Lemma x_cdata_run B f : qx XD (@cdata_run e B f).
Proof.
  induction f as [|f IH]; intros b t n; cbn [cdata_run]; destruct (has_chars e 1 b); try discriminate; unfold stop_here, bind;
    repeat (match goal with |- context [match ?x with _ => _ end] => destruct x end; try discriminate); try (intros H; injection H as <- <-; exact I); apply IH.
Qed.
Lemma x_content B : qx XC (@contentScan e B).
Proof.
  unfold contentScan. apply q_bind; [qs|intros t]. apply q_bind; [|intros _ b y n H; exact (x_content_run _ _ _ _ _ H)].
  unfold match_invalid. destruct (lead_len t); [uq; qs|]. destruct t; uq; try (qs; fail); (apply q_bind; [apply q_adv|intros _]); first [apply x_lt|apply x_ref|qs].
Qed.
Lemma x_cdata_scan B : qx XD (@cdataSectionScan e B).
Proof.
  unfold cdataSectionScan. apply q_bind; [qs|intros t]. apply q_bind; [|intros _ b y n H; exact (x_cdata_run _ _ _ _ _ H)].
  unfold match_invalid. destruct (lead_len t); [uq; qs|]. destruct t; uq; qs.
Qed.
Lemma content_wait b t : doc_encoding e -> bytes_ok b -> contentTok e b = Ok (t, None) -> waits t.
Proof.
  intros De Hb H. pose proof (contentTok_ok e (doc_encoding_ok e De) b Hb) as Ht. rewrite H in Ht. cbn in Ht.
  assert (Hx : XC t).
  { unfold contentTok in H. destruct (is_nil b); [injection H as <-; exact I|]. destruct (is_nil (round_down e b)); [injection H as <-; exact I|].
    unfold run in H. destruct (contentScan e (round_down e b)) as [[x z|[] ?]|] eqn:E; try discriminate. injection H as <- _. exact (x_content _ _ _ _ E). }
  destruct Ht; exact Hx || exact I.
Qed.
Lemma cdata_wait b t : doc_encoding e -> bytes_ok b -> cdataSectionTok e b = Ok (t, None) -> cwaits t.
Proof.
  intros De Hb H. pose proof (cdataSectionTok_ok e (doc_encoding_ok e De) b Hb) as Ht. rewrite H in Ht. cbn in Ht.
  assert (Hx : XD t).
  { unfold cdataSectionTok in H. destruct (is_nil b); [injection H as <-; exact I|]. destruct (is_nil (round_down e b)); [injection H as <-; exact I|].
    unfold run in H. destruct (cdataSectionScan e (round_down e b)) as [[x z|[] ?]|] eqn:E; try discriminate. injection H as <- _. exact (x_cdata_scan _ _ _ _ E). }
  destruct Ht; exact Hx || exact I.
Qed.
End E.

(* ---- a text cut anywhere ---- *)
Definition u8 : EncImpl := utf8_encoding.
Definition stub (p : bytes) : Prop :=
  p = [] \/ exists t n, byte_type u8 p = Ok t /\ lead_len t = Some n /\ has n p = false.
Lemma u8_charset : exists k, charset u8 utf8_encode is_scalar k /\ std false false is_scalar k.
Proof. exact (text_encoding_std _ _ _ _ _ te_utf8). Qed.
Lemma cut cs : forall b x, all_in is_scalar cs -> b ++ x = utf8 cs ->
  exists c1 c2 p, cs = c1 ++ c2 /\ b = utf8 c1 ++ p /\ stub p /\ p ++ x = utf8 c2.
Proof.
  destruct u8_charset as (k & CS & ST).
  induction cs as [|c cs IH]; intros b x Hd E.
  - cbn in E. apply app_eq_nil in E as [-> ->]. exists [], [], []. repeat split. left. reflexivity.
  - inversion Hd as [|? ? Hc Hd']; subst. cbn in E.
    destruct (Nat.le_gt_cases (length (utf8_encode c)) (length b)) as [L|L].
    + assert (b = utf8_encode c ++ skipn (length (utf8_encode c)) b /\ skipn (length (utf8_encode c)) b ++ x = utf8 cs) as [E1 E2].
      { apply app_eq_app in E as (l & [[-> E]|[E1 E]]).
        - rewrite skipn_app, Nat.sub_diag, skipn_all. cbn. split; [reflexivity|symmetry; exact E].
        - rewrite E1, app_length in L. assert (l = []) by (destruct l; [reflexivity|cbn in L; lia]). subst l. rewrite app_nil_r in E1. subst b.
          rewrite skipn_all. cbn in *. rewrite app_nil_r. auto. }
      destruct (IH _ _ Hd' E2) as (c1 & c2 & p & -> & E3 & S & E4). exists (c :: c1), c2, p. split; [reflexivity|]. split; [|auto].
      rewrite E1, E3. cbn. now rewrite app_assoc.
    + exists [], (c :: cs), b. split; [reflexivity|]. split; [reflexivity|]. split; [|exact E].
      destruct b as [|b0 b]; [left; reflexivity|]. right.
      assert (Hw : (128 <= c)%N). { destruct (N.lt_ge_cases c 128) as [Hl|]; [|assumption]. rewrite (ch_narrow_len _ _ _ _ CS c Hl) in L. cbn in L. lia. }
      assert (exists r, utf8_encode c = b0 :: r) as (r & Er).
      { destruct (utf8_encode c) as [|y r]; [cbn in L; lia|]. cbn in E. injection E as <- _. eauto. }
      pose proof (ch_wide _ _ _ _ CS c [] Hc Hw) as W. rewrite app_nil_r in W. destruct W as [t W1 W2 _ _ _ _|W1 _ _ _ _].
      * exists t, (length (utf8_encode c)). rewrite Er in W1 at 1. split; [exact W1|]. split; [exact W2|]. apply has_false. lia.
      * rewrite W1 in L. cbn in L. lia.
Qed.

(* what ends a run, in the tables *)
Lemma data_plain k c : std false false is_scalar k -> (c < 128)%N ->
  match ty k c with BT_AMP | BT_LT | BT_NONXML | BT_MALFORM | BT_TRAIL | BT_CR | BT_LF => True | _ => data_char c = true end.
Proof.
  intros ST Hc. rewrite (st_ascii _ _ _ _ ST c Hc). revert c Hc.
  assert (H : forall c, (c < 128)%N -> match nth (N.to_nat c) (ascii_table false) BT_NONXML with
     BT_AMP | BT_LT | BT_NONXML | BT_MALFORM | BT_TRAIL | BT_CR | BT_LF => true | _ => data_char c end = true).
  { apply below128. vm_compute. reflexivity. }
  intros c Hc. specialize (H c Hc). destruct (nth _ _ _); auto.
Qed.
Lemma cdata_plain k c : std false false is_scalar k -> (c < 128)%N ->
  match ty k c with BT_RSQB | BT_NONXML | BT_MALFORM | BT_TRAIL | BT_CR | BT_LF => True | _ => cdata_char c = true end.
Proof.
  intros ST Hc. rewrite (st_ascii _ _ _ _ ST c Hc). revert c Hc.
  assert (H : forall c, (c < 128)%N -> match nth (N.to_nat c) (ascii_table false) BT_NONXML with
     BT_RSQB | BT_NONXML | BT_MALFORM | BT_TRAIL | BT_CR | BT_LF => true | _ => cdata_char c end = true).
  { apply below128. vm_compute. reflexivity. }
  intros c Hc. specialize (H c Hc). destruct (nth _ _ _); auto.
Qed.
Lemma wide_data c : (128 <= c)%N -> is_xml_char c = true -> data_char c = true /\ cdata_char c = true.
Proof. unfold data_char, cdata_char. intros H ->. cbn [andb]. split; lia. Qed.
Lemma inc_app (a b : bytes) : inc_start (length a) (a ++ b) = Ok b.
Proof. apply inc_start_spec. exists a. auto. Qed.

Lemma has_app_len (a b : bytes) : has (length a) (a ++ b) = true.
Proof. apply has_length. rewrite app_length. lia. Qed.
(* one character, or the stub, at the start of a run *)
Inductive ahead (k : cls) (cs : list N) (p : bytes) : bytes -> Prop :=
| ah_stub : cs = [] -> ahead k cs p p
| ah_narrow c r : cs = c :: r -> (c < 128)%N -> byte_type u8 (c :: utf8 r ++ p) = Ok (ty k c) -> lead_len (ty k c) = None ->
    ahead k cs p (c :: utf8 r ++ p)
| ah_wide c r t : cs = c :: r -> (128 <= c)%N -> byte_type u8 (utf8 cs ++ p) = Ok t -> lead_len t = Some (length (utf8_encode c)) ->
    is_invalid_char u8 (utf8 cs ++ p) (length (utf8_encode c)) = Ok (negb (is_xml_char c)) ->
    inc_start (length (utf8_encode c)) (utf8 cs ++ p) = Ok (utf8 r ++ p) -> has (length (utf8_encode c)) (utf8 cs ++ p) = true ->
    ahead k cs p (utf8 cs ++ p).
Lemma narrow_enc c : (c < 128)%N -> utf8_encode c = [c].
Proof. intros H. unfold utf8_encode. now replace (c <? 128)%N with true by lia. Qed.
Lemma u8_ahead k cs p : charset u8 utf8_encode is_scalar k -> all_in is_scalar cs -> ahead k cs p (utf8 cs ++ p).
Proof.
  intros CS Hd. destruct cs as [|c r]; [apply ah_stub; reflexivity|]. inversion Hd; subst.
  destruct (N.lt_ge_cases c 128) as [Hl|Hl].
  - pose proof (ch_narrow _ _ _ _ CS c (utf8 r ++ p) Hl) as E. cbn [utf8 flat_map]. unfold utf8. cbn [flat_map]. fold (utf8 r).
    rewrite (narrow_enc c Hl) in E |- *. cbn [List.app] in E |- *. eapply ah_narrow; [reflexivity|exact Hl|exact E|apply (ch_narrow_plain _ _ _ _ CS c Hl)].
  - assert (E : utf8 (c :: r) ++ p = utf8_encode c ++ utf8 r ++ p) by (unfold utf8; cbn [flat_map]; now rewrite app_assoc).
    pose proof (ch_wide _ _ _ _ CS c (utf8 r ++ p) H1 Hl) as W. rewrite <- E in W. destruct W as [t W1 W2 W3 _ _ _|W1 _ _ _ _].
    + eapply (ah_wide _ _ _ c r t); eauto; rewrite E; [apply inc_app|apply has_app_len].
    + exfalso. pose proof (scalar_bound _ H1) as Hb. destruct (utf8_encode_form c Hb); cbn in W1; lia.
Qed.

Lemma stub_run p : stub p -> p = [] \/ has_chars u8 1 p = true /\ exists t n, byte_type u8 p = Ok t /\ lead_len t = Some n /\ has n p = false.
Proof.
  intros [->|(t & n & H1 & H2 & H3)]; [left; reflexivity|]. right. split; [|eauto].
  destruct p as [|x p]; [|reflexivity]. cbn in H1. discriminate.
Qed.
Ltac halt H := injection H as <-; eexists [], _; split; [reflexivity|]; split; [reflexivity|constructor].
Lemma content_run_cut B f : forall cs p y, stub p -> all_in is_scalar cs ->
  @content_run u8 B f (utf8 cs ++ p) = Ok (Stop T_DATA_CHARS (Some y)) ->
  exists a r, cs = a ++ r /\ y = utf8 r ++ p /\ all_in data_char a.
Proof.
  destruct u8_charset as (k & CS & ST).
  induction f as [|f IH]; intros cs p y Sp Hd H; cbn [content_run] in H.
  { destruct (has_chars u8 1 (utf8 cs ++ p)); [discriminate|]. halt H. }
  destruct (has_chars u8 1 (utf8 cs ++ p)) eqn:Eh; [|halt H].
  assert (Go : forall c r, cs = c :: r -> data_char c = true -> @content_run u8 B f (utf8 r ++ p) = Ok (Stop T_DATA_CHARS (Some y)) ->
    exists a r, cs = a ++ r /\ y = utf8 r ++ p /\ all_in data_char a).
  { intros c r -> Hc Hr. inversion Hd; subst. destruct (IH r p y Sp) as (a & r' & -> & -> & Ha); auto. exists (c :: a), r'. repeat split. now constructor. }
  destruct (u8_ahead k cs p CS Hd) as [E|c r E Hc Ht Hl|c r t E Hc Ht Hl Hi Hn Hh].
  - subst cs. destruct (stub_run p Sp) as [->|(_ & t & n & H1 & H2 & H3)]; [discriminate Eh|].
    rewrite H1 in H. cbn [bind] in H. rewrite H2, H3 in H. cbn [negb] in H. halt H.
  - rewrite Ht in H. cbn [bind] in H. rewrite Hl in H. pose proof (data_plain k c ST Hc) as D.
    change (utf8 cs ++ p) with (utf8 cs ++ p) in H.
    assert (Ec : c :: utf8 r ++ p = utf8 cs ++ p) by (subst cs; unfold utf8; cbn [flat_map]; rewrite (narrow_enc c Hc); reflexivity).
    assert (St : forall x, Ok (@Stop B T_DATA_CHARS (Some (c :: utf8 r ++ p))) = Ok (Stop T_DATA_CHARS (Some x)) -> exists a r, cs = a ++ r /\ x = utf8 r ++ p /\ all_in data_char a).
    { intros x K. injection K as <-. exists [], cs. split; [reflexivity|]. split; [exact Ec|constructor]. }
    assert (I1 : inc_start (minbpc u8) (c :: utf8 r ++ p) = Ok (utf8 r ++ p)) by reflexivity.
    destruct (ty k c) eqn:Et; try (exact (St _ H)); try (rewrite I1 in H; cbn [bind] in H; eapply Go; eauto; fail).
    repeat match type of H with
    | (if ?b then _ else _) = _ => destruct b
    | bind (inc_start (minbpc u8) _) _ = _ => rewrite I1 in H; cbn [bind] in H
    | bind ?m _ = _ => destruct m; cbn [bind] in H
    end; try discriminate H; try (eapply Go; eauto; fail); try exact (St _ H).
  - rewrite Ht in H. cbn [bind] in H. rewrite Hl, Hh, Hi in H. cbn [negb bind] in H. destruct (is_xml_char c) eqn:Ex; cbn [negb] in H; [|halt H].
    rewrite Hn in H. cbn [bind] in H. eapply Go; eauto. apply wide_data; auto.
Qed.

Lemma cdata_run_cut B f : forall cs p y, stub p -> all_in is_scalar cs ->
  @cdata_run u8 B f (utf8 cs ++ p) = Ok (Stop T_DATA_CHARS (Some y)) ->
  exists a r, cs = a ++ r /\ y = utf8 r ++ p /\ all_in cdata_char a.
Proof.
  destruct u8_charset as (k & CS & ST).
  induction f as [|f IH]; intros cs p y Sp Hd H; cbn [cdata_run] in H.
  { destruct (has_chars u8 1 (utf8 cs ++ p)); [discriminate|]. halt H. }
  destruct (has_chars u8 1 (utf8 cs ++ p)) eqn:Eh; [|halt H].
  assert (Go : forall c r, cs = c :: r -> cdata_char c = true -> @cdata_run u8 B f (utf8 r ++ p) = Ok (Stop T_DATA_CHARS (Some y)) ->
    exists a r, cs = a ++ r /\ y = utf8 r ++ p /\ all_in cdata_char a).
  { intros c r -> Hc Hr. inversion Hd; subst. destruct (IH r p y Sp) as (a & r' & -> & -> & Ha); auto. exists (c :: a), r'. repeat split. now constructor. }
  destruct (u8_ahead k cs p CS Hd) as [E|c r E Hc Ht Hl|c r t E Hc Ht Hl Hi Hn Hh].
  - subst cs. destruct (stub_run p Sp) as [->|(_ & t & n & H1 & H2 & H3)]; [discriminate Eh|].
    rewrite H1 in H. cbn [bind] in H. rewrite H2, H3 in H. cbn [negb] in H. halt H.
  - rewrite Ht in H. cbn [bind] in H. rewrite Hl in H. pose proof (cdata_plain k c ST Hc) as D.
    assert (Ec : c :: utf8 r ++ p = utf8 cs ++ p) by (subst cs; unfold utf8; cbn [flat_map]; rewrite (narrow_enc c Hc); reflexivity).
    assert (St : forall x, Ok (@Stop B T_DATA_CHARS (Some (c :: utf8 r ++ p))) = Ok (Stop T_DATA_CHARS (Some x)) -> exists a r, cs = a ++ r /\ x = utf8 r ++ p /\ all_in cdata_char a).
    { intros x K. injection K as <-. exists [], cs. split; [reflexivity|]. split; [exact Ec|constructor]. }
    assert (I1 : inc_start (minbpc u8) (c :: utf8 r ++ p) = Ok (utf8 r ++ p)) by reflexivity.
    destruct (ty k c) eqn:Et; try (exact (St _ H)); rewrite I1 in H; cbn [bind] in H; eapply Go; eauto.
  - rewrite Ht in H. cbn [bind] in H. rewrite Hl, Hh, Hi in H. cbn [negb bind] in H. destruct (is_xml_char c) eqn:Ex; cbn [negb] in H; [|halt H].
    rewrite Hn in H. cbn [bind] in H. eapply Go; eauto. apply wide_data; auto.
Qed.

(* a token of character data in a text cut anywhere; the first character is not that of markup *)
Lemma tok_stop (m : M Empty_set) b t n : run m b = Ok (t, Some n) -> exists y, m b = Ok (Stop t (Some y)) /\ n = length b - length y.
Proof. unfold run. destruct (m b) as [[t' [y|]|[]]|]; try discriminate. intros H. injection H as <- <-. eauto. Qed.
Lemma markup_types k c : std false false is_scalar k -> (c < 128)%N -> (ty k c = BT_LT -> c = 60%N) /\ (ty k c = BT_AMP -> c = 38%N).
Proof.
  intros ST Hc. rewrite (st_ascii _ _ _ _ ST c Hc). revert c Hc.
  assert (H : forall c, (c < 128)%N -> match nth (N.to_nat c) (ascii_table false) BT_NONXML with BT_LT => (c =? 60)%N | BT_AMP => (c =? 38)%N | _ => true end = true).
  { apply below128. vm_compute. reflexivity. }
  intros c Hc. specialize (H c Hc). destruct (nth _ _ _); split; try discriminate; intros _; lia.
Qed.
Lemma utf8_app a b : utf8 (a ++ b) = utf8 a ++ utf8 b. Proof. apply flat_map_app. Qed.
Lemma utf8_cons c r : utf8 (c :: r) = utf8_encode c ++ utf8 r. Proof. reflexivity. Qed.
Lemma after_first c r (a r' : list N) p f n y : r = a ++ r' -> y = utf8 r' ++ p -> f c = true -> all_in f a -> n = length (utf8 (c :: r) ++ p) - length y ->
  exists a' r'', c :: r = a' ++ r'' /\ a' <> [] /\ n = length (utf8 a') /\ all_in f a'.
Proof.
  intros -> -> Hc Ha ->. exists (c :: a), r'. split; [reflexivity|]. split; [discriminate|]. split; [|now constructor].
  rewrite utf8_cons, utf8_app, utf8_cons, !app_length. lia.
Qed.
Lemma content_data_cut cs p n : stub p -> all_in is_scalar cs -> (exists c r, cs = c :: r /\ c <> 60%N /\ c <> 38%N) ->
  contentTok u8 (utf8 cs ++ p) = Ok (T_DATA_CHARS, Some n) ->
  exists a r, cs = a ++ r /\ a <> [] /\ n = length (utf8 a) /\ all_in data_char a.
Proof.
  intros Sp Hd (c & r & -> & N1 & N2) H. destruct u8_charset as (k & CS & ST).
  unfold contentTok in H. change (round_down u8 (utf8 (c :: r) ++ p)) with (utf8 (c :: r) ++ p) in H.
  destruct (is_nil (utf8 (c :: r) ++ p)); [discriminate|]. apply tok_stop in H as (y & H & En).
  pose proof Hd as Hd'. inversion Hd' as [|? ? Hc Hr]; subst. clear Hd'.
  assert (Fin : data_char c = true -> forall f, @content_run u8 Empty_set f (utf8 r ++ p) = Ok (Stop T_DATA_CHARS (Some y)) ->
     exists a r0, c :: r = a ++ r0 /\ a <> [] /\ length (utf8 (c :: r) ++ p) - length y = length (utf8 a) /\ all_in data_char a).
  { intros Hx f Hf. apply content_run_cut in Hf as (a & r' & E1 & E2 & Ha); auto. eapply after_first; eauto. }
  remember (utf8 (c :: r) ++ p) as b eqn:Eb in H. unfold contentScan, mbind, bt in H.
  pose proof (u8_ahead k (c :: r) p CS Hd) as A. rewrite <- Eb in A. destruct A as [E|c' r' E Hl Ht Hp|c' r' t E Hl Ht Hp Hi Hn Hh]; [discriminate|injection E as <- <-..].
  - rewrite Ht in H. cbn [bind] in H. unfold match_invalid in H. rewrite Hp in H. pose proof (data_plain k c ST Hl) as D.
    destruct (markup_types k c ST Hl) as [K1 K2].
    destruct (ty k c) eqn:Et; try (exfalso; auto; fail); try discriminate H;
      unfold stop_after, adv1, adv, mbind, stop_here, require_or, matches, matches_at, bt, ret in H; cbn [inc_start minbpc u8 utf8_encoding utf8_enc bind] in H.
    all: repeat (match type of H with context [if ?b then _ else _] => destruct b | context [bind ?m _] => destruct m end; cbn [bind] in H; try discriminate H); try (eapply Fin; eauto; fail).
  - rewrite Ht in H. cbn [bind] in H. unfold match_invalid in H. rewrite Hp in H. unfold mbind, require_bytes, lift_check, adv, ret, stop_here in H.
    rewrite Hh, Hi in H. cbn [bind] in H. destruct (is_xml_char c) eqn:Ex; cbn [negb] in H; [|discriminate].
    rewrite Hn in H. cbn [bind] in H. eapply Fin; [apply wide_data; auto|exact H].
Qed.
Lemma cdata_data_cut cs p n : stub p -> all_in is_scalar cs -> (exists c r, cs = c :: r) ->
  cdataSectionTok u8 (utf8 cs ++ p) = Ok (T_DATA_CHARS, Some n) ->
  exists c a r, cs = c :: a ++ r /\ n = length (utf8 (c :: a)) /\ all_in cdata_char a /\ (cdata_char c = true \/ c = 93%N).
Proof.
  intros Sp Hd (c & r & ->) H. destruct u8_charset as (k & CS & ST).
  unfold cdataSectionTok in H. change (round_down u8 (utf8 (c :: r) ++ p)) with (utf8 (c :: r) ++ p) in H.
  destruct (is_nil (utf8 (c :: r) ++ p)); [discriminate|]. apply tok_stop in H as (y & H & En).
  pose proof Hd as Hd'. inversion Hd' as [|? ? Hc Hr]; subst. clear Hd'.
  assert (Fin : cdata_char c = true \/ c = 93%N -> forall f, @cdata_run u8 Empty_set f (utf8 r ++ p) = Ok (Stop T_DATA_CHARS (Some y)) ->
     exists c0 a r0, c :: r = c0 :: a ++ r0 /\ length (utf8 (c :: r) ++ p) - length y = length (utf8 (c0 :: a)) /\ all_in cdata_char a /\ (cdata_char c0 = true \/ c0 = 93%N)).
  { intros Hx f Hf. apply cdata_run_cut in Hf as (a & r' & E1 & E2 & Ha); auto. exists c, a, r'. subst r y. split; [reflexivity|]. split; [|auto].
    rewrite !utf8_cons, utf8_app, !app_length. lia. }
  remember (utf8 (c :: r) ++ p) as b eqn:Eb in H. unfold cdataSectionScan, mbind, bt in H.
  pose proof (u8_ahead k (c :: r) p CS Hd) as A. rewrite <- Eb in A. destruct A as [E|c' r' E Hl Ht Hp|c' r' t E Hl Ht Hp Hi Hn Hh]; [discriminate|injection E as <- <-..].
  - rewrite Ht in H. cbn [bind] in H. unfold match_invalid in H. rewrite Hp in H. pose proof (cdata_plain k c ST Hl) as D.
    assert (K : ty k c = BT_RSQB -> c = 93%N).
    { rewrite (st_ascii _ _ _ _ ST c Hl). assert (X : forall c, (c < 128)%N -> match nth (N.to_nat c) (ascii_table false) BT_NONXML with BT_RSQB => (c =? 93)%N | _ => true end = true).
      { apply below128. vm_compute. reflexivity. } specialize (X c Hl). intros E. rewrite E in X. lia. }
    destruct (ty k c) eqn:Et; try discriminate H;
      unfold stop_after, adv1, adv, mbind, stop_here, require_char, require_chars, require_or, matches, matches_at, bt, ret in H; cbn [inc_start minbpc u8 utf8_encoding utf8_enc bind] in H.
    all: repeat (match type of H with context [if ?b then _ else _] => destruct b | context [bind ?m _] => destruct m end; cbn [bind] in H; try discriminate H); try (eapply Fin; eauto; fail).
  - rewrite Ht in H. cbn [bind] in H. unfold match_invalid in H. rewrite Hp in H. unfold mbind, require_bytes, lift_check, adv, ret, stop_here in H.
    rewrite Hh, Hi in H. cbn [bind] in H. destruct (is_xml_char c) eqn:Ex; cbn [negb] in H; [|discriminate].
    rewrite Hn in H. cbn [bind] in H. eapply Fin; [left; apply wide_data; auto|exact H].
Qed.
