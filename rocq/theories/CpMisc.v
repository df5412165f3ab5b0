(* Character references, predefined entities, positions and public identifiers over code points. *)
From Coq Require Import String List NArith ZArith Bool Lia Arith.
From Coq Require Import ZifyBool ZifyNat ZifyN.
From Verif Require Import Base Tables Encoding SpecText SpecUnicode SpecNames SpecLex SpecMisc Tok TokMisc UniLaws Charset CharsetLaws TextEnc CpBase.
Import ListNotations.
Local Open Scope N_scope.
Ltac Zify.zify_post_hook ::= Z.div_mod_to_equations.

Lemma has_app n (a b : bytes) : length a = n -> has n (a ++ b) = true.
Proof.
  intros <-. induction a as [|x a IH]; [reflexivity|]. exact IH.
Qed.
Lemma inc_app n (a b : bytes) : length a = n -> inc_start n (a ++ b) = Ok b.
Proof. intros <-. induction a as [|x a IH]; [now destruct b|exact IH]. Qed.
Lemma sext8_lt c : c < 128 -> sext8 c = Z.of_N c. Proof. unfold sext8. intros. now replace (c <? 128) with true by lia. Qed.

(* ---- character references ---- *)
Definition in_range (v : N) : Prop := (v < 1114112).
Lemma check_spec v : v < 1114112 -> checkCharRefNumber (Z.of_N v) = Ok (if is_xml_char v then Z.of_N v else -1)%Z.
Proof.
  intros Hv. unfold checkCharRefNumber. rewrite Z.shiftr_div_pow2 by lia. change (2 ^ 8)%Z with 256%Z.
  unfold is_xml_char. destruct ((216 <=? Z.of_N v / 256) && (Z.of_N v / 256 <=? 223))%Z eqn:A.
  { match goal with |- Ok _ = Ok (if ?c then _ else _) => replace c with false by lia end. reflexivity. }
  destruct (Z.of_N v / 256 =? 0)%Z eqn:B.
  { rewrite N2Z.id. rewrite (index_nth _ _ BT_NONXML) by (reflexivity || lia). cbn [bind].
    assert (L : v < 256) by lia. clear A B Hv.
    assert (forallb (fun c => Bool.eqb (bt_eqb (nth (N.to_nat c) Latin1EncodingTable BT_NONXML) BT_NONXML) (negb (is_xml_char c))) (map N.of_nat (seq 0 256)) = true) as H by (vm_compute; reflexivity).
    pose proof (below256 _ H v L) as K. cbv beta in K. apply eqb_prop in K. fold (is_xml_char v). rewrite K. now destruct (is_xml_char v). }
  destruct ((Z.of_N v / 256 =? 255)%Z && ((Z.of_N v =? 65534)%Z || (Z.of_N v =? 65535)%Z)) eqn:C.
  { match goal with |- Ok _ = Ok (if ?c then _ else _) => replace c with false by lia end. reflexivity. }
  match goal with |- Ok _ = Ok (if ?c then _ else _) => replace c with true by lia end. reflexivity.
Qed.

Section Cs.
Variables (e : EncImpl) (enc : N -> list N) (dom : N -> bool) (k : cls).
Hypothesis CS : charset e enc dom k.

Lemma inc_narrow c r : c < 128 -> inc_start (minbpc e) (enc c ++ r) = Ok r.
Proof. intros H. apply inc_app. now apply (ch_narrow_len _ _ _ _ CS). Qed.
Lemma min_pos : (0 < minbpc e)%nat. Proof. destruct (ch_min _ _ _ _ CS); lia. Qed.
Hypothesis ascii_dom : forall c, c < 128 -> dom c = true.

Definition dstep (v d : N) : N := v * 10 + (d - 48).
Definition hstep (v d : N) : N := v * 16 + hex_digit d.
Lemma fold_ge (f : N -> N -> N) ds : (forall v d, v <= f v d) -> forall v, v <= fold_left f ds v.
Proof. intros H. induction ds as [|d ds IH]; intros v; cbn [fold_left]; [lia|]. etransitivity; [apply (H v d)|apply IH]. Qed.
Lemma big_not_char v : 1114112 <= v -> is_xml_char v = false. Proof. unfold is_xml_char. lia. Qed.
Definition answer (v : N) : Z := if is_xml_char v then Z.of_N v else (-1)%Z.
Lemma dec_loop ds rest : all_in is_digit ds -> forall v f, v < 1114112 -> (length ds < f)%nat ->
  charRef_dec e f (Z.of_N v) (flat_map enc (ds ++ txt ";") ++ rest) = Ok (answer (fold_left dstep ds v)).
Proof.
  intros Hd. induction Hd as [|d ds Hd Hds IH]; intros v f Hv Hf; (destruct f as [|f]; [cbn in Hf; lia|]).
  - change (flat_map enc ([] ++ txt ";") ++ rest) with ((enc 59 ++ []) ++ rest). rewrite app_nil_r. cbn [charRef_dec fold_left].
    rewrite (ch_match _ _ _ _ CS) by (reflexivity || (apply ascii_dom; reflexivity)). cbn [bind]. replace (59 =? c_SEMI) with true by reflexivity. now apply check_spec.
  - cbn [app flat_map fold_left]. rewrite <- app_assoc. cbn [charRef_dec]. unfold is_digit in Hd.
    rewrite (ch_match _ _ _ _ CS) by (reflexivity || (apply ascii_dom; lia)). cbn [bind]. replace (d =? c_SEMI) with false by (unfold c_SEMI; lia).
    rewrite (ch_ascii _ _ _ _ CS) by lia. cbn [bind]. rewrite sext8_lt by lia. replace (Z.of_N d - 48 <? -128)%Z with false by lia.
    replace (Z.of_N v * 10 + (Z.of_N d - 48))%Z with (Z.of_N (dstep v d)) by (unfold dstep; lia).
    destruct (1114112 <=? Z.of_N (dstep v d))%Z eqn:E.
    + unfold answer. rewrite big_not_char; auto. pose proof (fold_ge dstep ds ltac:(unfold dstep; intros; lia) (dstep v d)). lia.
    + rewrite inc_narrow by lia. cbn [bind]. apply IH; [lia|]. cbn in Hf. lia.
Qed.
Lemma lor16 v d : d < 16 -> Z.lor (Z.shiftl (Z.of_N v) 4) (Z.of_N d) = Z.of_N (v * 16 + d).
Proof.
  intros Hd. rewrite Z.shiftl_mul_pow2 by lia. change (2 ^ 4)%Z with 16%Z. rewrite Z.lor_comm. rewrite (zlor_add _ _ 4); lia.
Qed.
Lemma hex_loop ds rest : all_in is_hex ds -> forall v f, v < 1114112 -> (length ds < f)%nat ->
  charRef_hex e f (Z.of_N v) (flat_map enc (ds ++ txt ";") ++ rest) = Ok (answer (fold_left hstep ds v)).
Proof.
  intros Hd. induction Hd as [|d ds Hd Hds IH]; intros v f Hv Hf; (destruct f as [|f]; [cbn in Hf; lia|]).
  - change (flat_map enc ([] ++ txt ";") ++ rest) with ((enc 59 ++ []) ++ rest). rewrite app_nil_r. cbn [charRef_hex fold_left].
    rewrite (ch_match _ _ _ _ CS) by (reflexivity || (apply ascii_dom; reflexivity)). cbn [bind]. replace (59 =? c_SEMI) with true by reflexivity. now apply check_spec.
  - cbn [app flat_map fold_left]. rewrite <- app_assoc. cbn [charRef_hex]. unfold is_hex, is_digit in Hd.
    rewrite (ch_match _ _ _ _ CS) by (reflexivity || (apply ascii_dom; lia)). cbn [bind]. replace (d =? c_SEMI) with false by (unfold c_SEMI; lia).
    rewrite (ch_ascii _ _ _ _ CS) by lia. cbn [bind].
    match goal with |- context [if (1114112 <=? ?x)%Z then _ else _] => replace x with (Z.of_N (hstep v d)) end.
    2:{ unfold hstep, hex_digit. destruct ((48 <=? d) && (d <=? 57)) eqn:A.
        - replace (d <=? 57) with true by lia. replace (Z.of_N d - 48)%Z with (Z.of_N (d - 48)) by lia. rewrite lor16 by lia. reflexivity.
        - replace (d <=? 57) with false by lia. rewrite Z.shiftl_mul_pow2 by lia. change (2 ^ 4)%Z with 16%Z.
          destruct ((65 <=? d) && (d <=? 70)) eqn:B.
          + replace (d <=? 70) with true by lia. lia.
          + replace ((97 <=? d) && (d <=? 102)) with true by lia. replace (d <=? 70) with false by lia. lia. }
    destruct (1114112 <=? Z.of_N (hstep v d))%Z eqn:E.
    + unfold answer. rewrite big_not_char; auto. pose proof (fold_ge hstep ds ltac:(unfold hstep; intros; lia) (hstep v d)). lia.
    + rewrite inc_narrow by lia. cbn [bind]. apply IH; [lia|]. cbn in Hf. lia.
Qed.
Lemma flat_len cs : all_in dom cs -> (length cs <= length (flat_map enc cs))%nat.
Proof. induction 1 as [|c cs Hc Hcs IH]; [cbn; lia|]. cbn [flat_map]. rewrite app_length. pose proof (enc_pos _ _ _ _ CS c Hc). cbn [length]. lia. Qed.
Lemma skip2 a b r : a < 128 -> b < 128 -> inc_start (2 * minbpc e) (enc a ++ enc b ++ r) = Ok r.
Proof. intros Ha Hb. rewrite app_assoc. apply inc_app. rewrite app_length, !(ch_narrow_len _ _ _ _ CS) by auto. lia. Qed.
Lemma digits_dom ds : all_in is_hex ds -> all_in dom ds.
Proof. unfold all_in. rewrite !Forall_forall. intros H c Hc. apply ascii_dom. specialize (H c Hc). unfold is_hex, is_digit in H. lia. Qed.
Lemma dec_hex ds : all_in is_digit ds -> all_in is_hex ds.
Proof. unfold all_in. rewrite !Forall_forall. intros H c Hc. unfold is_hex. now rewrite (H c Hc). Qed.
Lemma charref_dec ds rest : ds <> [] -> all_in is_digit ds ->
  charRefNumber e (flat_map enc (txt "&#" ++ ds ++ txt ";") ++ rest) = Ok (answer (dec_value ds)).
Proof.
  intros Hne Hd. unfold charRefNumber. rewrite flat_map_app. cbn [txt flat_map String.length] in *.
  change (flat_map enc (txt "&#")) with (enc 38 ++ enc 35 ++ []). rewrite app_nil_r, <- !app_assoc. rewrite skip2 by reflexivity. cbn [bind].
  destruct ds as [|d ds]; [congruence|]. inversion Hd; subst. cbn [app flat_map]. rewrite <- app_assoc.
  rewrite (ch_match _ _ _ _ CS) by (reflexivity || (apply ascii_dom; unfold is_digit in *; lia)). cbn [bind].
  replace (d =? 120) with false by (unfold is_digit in *; lia).
  rewrite (app_assoc (enc d)). change (enc d ++ flat_map enc (ds ++ txt ";")) with (flat_map enc ((d :: ds) ++ txt ";")).
  apply (dec_loop (d :: ds) rest Hd 0); [reflexivity|]. pose proof (flat_len _ (digits_dom _ (dec_hex _ Hd))) as L.
  rewrite !app_length, flat_map_app, app_length. lia.
Qed.
Lemma charref_hex ds rest : ds <> [] -> all_in is_hex ds ->
  charRefNumber e (flat_map enc (txt "&#x" ++ ds ++ txt ";") ++ rest) = Ok (answer (hex_value ds)).
Proof.
  intros Hne Hd. unfold charRefNumber. rewrite flat_map_app.
  change (flat_map enc (txt "&#x")) with (enc 38 ++ enc 35 ++ enc 120 ++ []). rewrite app_nil_r, <- !app_assoc. rewrite skip2 by reflexivity. cbn [bind].
  rewrite (ch_match _ _ _ _ CS) by (reflexivity || (apply ascii_dom; reflexivity)). cbn [bind N.eqb Pos.eqb].
  rewrite inc_narrow by reflexivity. cbn [bind].
  apply (hex_loop ds rest Hd 0); [reflexivity|]. pose proof (flat_len _ (digits_dom _ Hd)) as L.
  rewrite !app_length, flat_map_app, app_length. lia.
Qed.

(* ---- positions ---- *)
(* a character that is neither CR nor LF is one column *)
Lemma step_types c : dom c = true -> 128 <= c -> ty k c <> BT_CR /\ ty k c <> BT_LF.
Proof.
  intros Hd Hc. destruct (ch_wide _ _ _ _ CS c [] Hd Hc) as [t B L _ _ _ W|E B I X _].
  - rewrite W. unfold wide_type. destruct (is_xml_char c); split; discriminate.
  - split; intros K; rewrite K in I; cbn in I; repeat (destruct I as [I|I]; [discriminate|]); exact I.
Qed.
Hypothesis crlf : forall c, c < 128 -> (ty k c = BT_CR <-> c = 13) /\ (ty k c = BT_LF <-> c = 10).
Definition col1 (p : Position) : Position := {| pos_line := pos_line p; pos_col := wrap64 (pos_col p + 1) |}.
Definition line1 (p : Position) : Position := {| pos_line := wrap64 (pos_line p + 1); pos_col := 0 |}.
Fixpoint pos_fn (cs : list N) (p : Position) : Position :=
  match cs with
  | [] => p
  | c :: r =>
      if c =? 10 then pos_fn r (line1 p)
      else if c =? 13 then match r with
                           | [] => line1 p
                           | d :: r' => if d =? 10 then pos_fn r' (line1 p) else pos_fn r (line1 p)
                           end
      else pos_fn r (col1 p)
  end.
Lemma nl_pos p : {| pos_line := wrap64 (pos_line p + 1); pos_col := wrap64 (18446744073709551615 + 1) |} = line1 p.
Proof. reflexivity. Qed.
Lemma has_char c r : dom c = true -> has (minbpc e) (enc c ++ r) = true.
Proof.
  intros Hd. destruct (ch_whole _ _ _ _ CS c Hd) as [j Hj].
  rewrite <- (firstn_skipn (minbpc e) (enc c)), <- app_assoc. apply has_app. rewrite firstn_length, Hj. lia.
Qed.
Lemma pos_loop : forall n cs p f, (length cs <= n)%nat -> (n < f)%nat -> all_in dom cs ->
  updatePosition_loop e f (flat_map enc cs) p = Ok (pos_fn cs p).
Proof.
  induction n as [n IH] using lt_wf_ind. intros cs p f Hn Hf Hd. destruct cs as [|c r].
  { cbn [flat_map pos_fn]. destruct f as [|f]; cbn [updatePosition_loop]; pose proof min_pos; destruct (minbpc e); try lia; reflexivity. }
  destruct f as [|f]; [lia|]. inversion Hd as [|? ? Hc Hr]; subst. cbn [flat_map]. cbn [updatePosition_loop]. rewrite has_char by auto.
  cbn [length] in Hn. destruct (N.lt_ge_cases c 128) as [Lc|Lc].
  - rewrite (ch_narrow _ _ _ _ CS) by auto. cbn [bind]. destruct (ch_narrow_plain _ _ _ _ CS c Lc) as [-> _]. rewrite inc_narrow by auto. cbn [bind pos_fn].
    destruct (crlf c Lc) as [H13 H10]. fold (col1 p).
    destruct (c =? 10) eqn:E10; [|destruct (c =? 13) eqn:E13].
    + assert (T : ty k c = BT_LF) by (apply H10; lia). rewrite T. unfold col1. cbn [pos_line pos_col]. rewrite nl_pos. apply (IH (length r)); auto; lia.
    + assert (T : ty k c = BT_CR) by (apply H13; lia). rewrite T. unfold col1. cbn [pos_line pos_col]. rewrite nl_pos.
      destruct r as [|d r'].
      * cbn [flat_map]. pose proof min_pos. replace (has (minbpc e) []) with false by (destruct (minbpc e); [lia|reflexivity]).
        apply (IH 0%nat ltac:(lia) []); auto; lia.
      * inversion Hr; subst. cbn [flat_map]. rewrite has_char by auto.
        assert (exists t, byte_type e (enc d ++ flat_map enc r') = Ok t /\ bt_eqb t BT_LF = (d =? 10)) as (t & Bt & Lt).
        { destruct (N.lt_ge_cases d 128) as [Ld|Ld].
          - exists (ty k d). rewrite (ch_narrow _ _ _ _ CS) by auto. split; auto. destruct (crlf d Ld) as [_ K].
            destruct (d =? 10) eqn:D; [rewrite (proj2 K) by lia; reflexivity|]. destruct (bt_eqb (ty k d) BT_LF) eqn:Eb; auto. apply bt_eqb_eq in Eb. apply K in Eb. lia.
          - destruct (step_types d H1 Ld) as [_ K]. replace (d =? 10) with false by lia.
            destruct (ch_wide _ _ _ _ CS d (flat_map enc r') H1 Ld) as [t B L _ _ _ W|E B I X _].
            + exists t. split; auto. destruct t; try discriminate; reflexivity.
            + exists (ty k d). split; auto. destruct (bt_eqb (ty k d) BT_LF) eqn:Eb; auto. apply bt_eqb_eq in Eb. contradiction. }
        rewrite Bt. cbn [bind]. rewrite Lt. destruct (d =? 10) eqn:D.
        -- rewrite inc_narrow by lia. cbn [bind]. apply (IH (length r')); auto; cbn in *; lia.
        -- change (enc d ++ flat_map enc r') with (flat_map enc (d :: r')). apply (IH (length (d :: r'))); auto; cbn in *; lia.
    + assert (T1 : ty k c <> BT_LF) by (intros K; apply H10 in K; lia). assert (T2 : ty k c <> BT_CR) by (intros K; apply H13 in K; lia).
      assert (G : updatePosition_loop e f (flat_map enc r) (col1 p) = Ok (pos_fn r (col1 p))) by (apply (IH (length r)); auto; lia).
      destruct (ty k c); try exact G; congruence.
  - cbn [pos_fn]. replace (c =? 10) with false by lia. replace (c =? 13) with false by lia. fold (col1 p).
    assert (G : updatePosition_loop e f (flat_map enc r) (col1 p) = Ok (pos_fn r (col1 p))) by (apply (IH (length r)); auto; lia).
    destruct (step_types c Hc Lc) as [T1 T2].
    destruct (ch_wide _ _ _ _ CS c (flat_map enc r) Hc Lc) as [t B L _ _ _ W|E B I X _]; rewrite B; cbn [bind].
    + rewrite L. rewrite inc_app by auto. exact G.
    + rewrite <- E. assert (Ln : lead_len (ty k c) = None) by (repeat (destruct I as [I|I]; [now rewrite <- I|]); destruct I).
      rewrite Ln. rewrite inc_app by auto. cbn [bind]. destruct (ty k c); try exact G; congruence.
Qed.
Lemma pos_exact cs p : all_in dom cs -> updatePosition e (flat_map enc cs) p = Ok (pos_fn cs p).
Proof. intros Hd. unfold updatePosition. pose proof (flat_len cs Hd). apply (pos_loop (length cs)); auto; lia. Qed.
End Cs.
(* the position after a text *)
Lemma wrap_add a b : wrap64 (wrap64 a + b) = wrap64 (a + b).
Proof. unfold wrap64. rewrite N.add_mod_idemp_l by discriminate. reflexivity. Qed.
Lemma wrap_idem a : wrap64 (wrap64 a) = wrap64 a. Proof. unfold wrap64. now rewrite N.mod_mod. Qed.
Lemma line_ends_0 cs : line_ends cs = 0 <-> existsb is_eol cs = false.
Proof.
  assert (G : forall n cs, (length cs <= n)%nat -> (line_ends cs = 0 <-> existsb is_eol cs = false)).
  { clear. induction n; intros [|c r] L; cbn [line_ends existsb length] in *; try lia; try tauto.
    destruct (c =? 10) eqn:A; [unfold is_eol at 1; rewrite A; cbn [orb]; split; [lia|discriminate]|].
    destruct (c =? 13) eqn:B; [unfold is_eol at 1; rewrite A, B; cbn [orb]; split; [|discriminate]|].
    - destruct r as [|d r']; [lia|]. destruct (d =? 10); lia.
    - unfold is_eol at 1; rewrite A, B; cbn [orb]. apply IHn. lia. }
  apply (G (length cs)). lia.
Qed.
Lemma pos_fn_spec : forall n cs p, (length cs <= n)%nat -> pos_line p < 2 ^ 64 -> pos_col p < 2 ^ 64 ->
  pos_fn cs p = {| pos_line := wrap64 (pos_line p + line_ends cs);
                   pos_col := wrap64 (if existsb is_eol cs then N.of_nat (length (last_line cs)) else pos_col p + N.of_nat (length cs)) |}.
Proof.
  assert (W0 : forall x, x < 2 ^ 64 -> wrap64 x = x) by (intros; unfold wrap64; apply N.mod_small; exact H).
  assert (WL : forall x, wrap64 x < 2 ^ 64) by (intros; unfold wrap64; apply N.mod_lt; discriminate).
  induction n as [n IH] using lt_wf_ind. intros [|c r] p L HL HC.
  { cbn. rewrite !N.add_0_r, !W0 by auto. now destruct p. }
  cbn [length] in L.
  assert (G : forall r' p', (length r' < n)%nat -> pos_line p' = wrap64 (pos_line p + 1) -> pos_col p' = 0 ->
     pos_fn r' p' = {| pos_line := wrap64 (pos_line p + (1 + line_ends r'));
                       pos_col := wrap64 (if existsb is_eol r' then N.of_nat (length (last_line r')) else N.of_nat (length r')) |}).
  { intros r' p' L' E1 E2. rewrite (IH (length r')) by (auto; rewrite ?E1, ?E2; auto; reflexivity). rewrite E1, E2, wrap_add. f_equal; f_equal; lia. }
  cbn [pos_fn line_ends existsb last_line]. destruct (c =? 10) eqn:A.
  { assert (Ec : is_eol c = true) by (unfold is_eol; rewrite A; reflexivity). rewrite Ec. cbn [orb]. rewrite G by (auto; lia). now destruct (existsb is_eol r). }
  destruct (c =? 13) eqn:B.
  { assert (Ec : is_eol c = true) by (unfold is_eol; rewrite A, B; reflexivity). rewrite Ec. cbn [orb]. destruct r as [|d r'].
    { cbn. unfold line1. f_equal. }
    destruct (d =? 10) eqn:D.
    - rewrite G by (auto; cbn in L; lia). f_equal. assert (Ed : is_eol d = true) by (unfold is_eol; rewrite D; reflexivity).
      cbn [existsb last_line]. rewrite Ed. cbn [orb]. now destruct (existsb is_eol r').
    - rewrite G by (auto; cbn in L |- *; lia). f_equal. now destruct (existsb is_eol (d :: r')). }
  assert (Ec : is_eol c = false) by (unfold is_eol; rewrite A, B; reflexivity). rewrite Ec. cbn [orb].
  rewrite (IH (length r)) by (auto; try lia; apply WL). unfold col1. cbn [pos_line pos_col]. f_equal.
  destruct (existsb is_eol r); auto. rewrite wrap_add. f_equal. cbn [length]. lia.
Qed.
