(* Predefined entities and public identifiers over code points. *)
From Coq Require Import String List NArith ZArith Bool Lia Arith.
From Coq Require Import ZifyBool ZifyNat ZifyN.
From Verif Require Import Base Tables Encoding SpecText SpecUnicode SpecNames SpecLex SpecMisc Tok TokMisc UniLaws EncLaws Charset CharsetLaws TextEnc CpBase CpMisc CpAtts.
Import ListNotations.
Local Open Scope N_scope.
Ltac Zify.zify_post_hook ::= Z.div_mod_to_equations.

(* what a code unit says about the text at it *)
Record unitary (e : EncImpl) (enc : N -> list N) : Prop := {
  un_match : forall b x, has (minbpc e) b = true -> x < 128 -> exists v, char_matches e b x = Ok v /\ (v = true -> exists r, b = enc x ++ r);
  un_ascii : forall b, has (minbpc e) b = true -> exists a, byte_to_ascii e b = Ok a /\ (a < 128 -> exists r, b = enc a ++ r);
}.
Lemma text_unitary e enc dom lat ns : text_encoding e enc dom lat ns -> unitary e enc.
Proof.
  assert (U8 : forall x, x < 128 -> utf8_encode x = [x]) by (intros x Hx; unfold utf8_encode; now replace (x <? 128) with true by lia).
  assert (U16 : forall x, x < 128 -> utf16le_encode x = [x; 0]).
  { intros x Hx. assert (forallb (fun x => match utf16le_encode x with [a; b] => (a =? x) && (b =? 0) | _ => false end) (map N.of_nat (seq 0 128)) = true) as H by (vm_compute; reflexivity).
    pose proof (below128 _ H x Hx) as K. cbv beta in K. destruct (utf16le_encode x) as [|a [|b [|? ?]]]; try discriminate. apply andb_prop in K as [K1 K2]. f_equal; [|f_equal]; lia. }
  assert (B16 : forall x, x < 128 -> utf16be_encode x = [0; x]).
  { intros x Hx. assert (forallb (fun x => match utf16be_encode x with [a; b] => (a =? 0) && (b =? x) | _ => false end) (map N.of_nat (seq 0 128)) = true) as H by (vm_compute; reflexivity).
    pose proof (below128 _ H x Hx) as K. cbv beta in K. destruct (utf16be_encode x) as [|a [|b [|? ?]]]; try discriminate. apply andb_prop in K as [K1 K2]. f_equal; [|f_equal]; lia. }
  intros TE. destruct TE as [| | | | | | | | | |table convert ns0 u enc0 dom0 _ _ A _].
  11:{ constructor.
      - intros b x Hb Hx. cbn in Hb. destruct b as [|b0 b]; [discriminate|]. cbn. eexists. split; [reflexivity|]. intros E. apply N.eqb_eq in E. exists b. destruct (A x Hx) as (_ & -> & _). now subst.
      - intros b Hb. cbn in Hb. destruct b as [|b0 b]; [discriminate|]. cbn. eexists. split; [reflexivity|]. intros E. exists b. destruct (A b0 E) as (_ & -> & _). reflexivity. }
  all: constructor.
  all: try (intros b x Hb Hx; cbn in Hb; destruct b as [|b0 b]; [discriminate|]; cbn; eexists; split; [reflexivity|];
            intros E; apply N.eqb_eq in E; exists b; rewrite ?U8 by auto; subst; reflexivity).
  all: try (intros b Hb; cbn in Hb; destruct b as [|b0 b]; [discriminate|]; cbn; eexists; split; [reflexivity|];
            intros E; exists b; rewrite ?U8 by auto; reflexivity).
  all: try (intros b x Hb Hx; cbn in Hb; destruct b as [|b0 [|b1 b]]; try discriminate; cbn; eexists; split; [reflexivity|];
            intros E; apply andb_prop in E as [E1 E2]; exists b; rewrite ?U16, ?B16 by auto; apply N.eqb_eq in E1; apply N.eqb_eq in E2; subst; reflexivity).
  all: intros b Hb; cbn in Hb; destruct b as [|b0 [|b1 b]]; try discriminate; cbn;
       match goal with |- context [if ?z =? 0 then _ else _] => destruct (z =? 0) eqn:E1 end; eexists; (split; [reflexivity|]);
       intros E; [|discriminate E]; exists b; rewrite ?U16, ?B16 by auto; apply N.eqb_eq in E1; subst; reflexivity.
Qed.
Lemma has_len n (b : bytes) : has n b = (n <=? length b)%nat.
Proof. revert b. induction n as [|n IH]; intros [|x b]; try reflexivity. cbn [has length]. apply IH. Qed.

Section U.
Variables (e : EncImpl) (enc : N -> list N) (lat ns : bool) (dom : N -> bool) (k : cls).
Hypothesis CS : charset e enc dom k.
Hypothesis ST : std lat ns dom k.
Hypothesis UN : unitary e enc.
Hypothesis ascii_dom : forall c, c < 128 -> dom c = true.
Notation mb := (minbpc e).

Lemma mb_pos : (0 < mb)%nat. Proof. destruct (ch_min _ _ _ _ CS); lia. Qed.
Lemma whole cs : all_in dom cs -> exists j, length (flat_map enc cs) = (j * mb)%nat.
Proof.
  induction 1 as [|c cs Hc _ (j & IH)]; [now exists 0%nat|]. cbn [flat_map]. rewrite app_length, IH. destruct (ch_whole _ _ _ _ CS c Hc) as (i & ->). exists (S i + j)%nat. lia.
Qed.
Lemma ascii_inj w cs : all_in (fun c => c <? 128) w -> all_in dom cs -> flat_map enc cs = flat_map enc w -> cs = w.
Proof.
  intros Hw. revert cs. induction Hw as [|x w Hx Hw IH]; intros cs Hd E.
  - destruct cs as [|c cs]; auto. inversion Hd; subst. pose proof (enc_pos _ _ _ _ CS c H1). apply (f_equal (@length N)) in E. cbn [flat_map] in E. rewrite app_length in E. cbn in E. lia.
  - destruct cs as [|c cs].
    + assert (Dx : dom x = true) by (apply ascii_dom; lia). pose proof (enc_pos _ _ _ _ CS x Dx). apply (f_equal (@length N)) in E. cbn [flat_map] in E. rewrite app_length in E. cbn in E. lia.
    + inversion Hd; subst. cbn [flat_map] in E.
      pose proof (ch_match _ _ _ _ CS c (flat_map enc cs) x H1 ltac:(lia)) as M1.
      pose proof (ch_match _ _ _ _ CS x (flat_map enc w) x (ascii_dom x ltac:(lia)) ltac:(lia)) as M2. rewrite E, M2, N.eqb_refl in M1. injection M1 as M1.
      assert (c = x) by lia. subst c. apply app_inv_head in E. f_equal. now apply IH.
Qed.
Lemma chars_match_spec s : all_in (fun c => c <? 128) s -> s <> [] -> forall b, length b = (length s * mb)%nat ->
  exists v, chars_match e s b = Ok v /\ (v = true -> b = flat_map enc s).
Proof.
  pose proof mb_pos as P. induction 1 as [|x s Hx Hs IH]; intros Hne b L; [congruence|]. cbn [chars_match].
  destruct (un_match _ _ UN b x) as (v & -> & Hv); [rewrite has_len; cbn [length] in L; lia|lia|]. cbn [bind].
  destruct v; [|exists false; split; [reflexivity|discriminate]]. destruct (Hv eq_refl) as (r & ->).
  assert (Lx : length (enc x) = mb) by (apply (ch_narrow_len _ _ _ _ CS); lia). rewrite app_length in L. cbn [length] in L.
  destruct s as [|y s].
  - exists true. split; auto. intros _. cbn [flat_map]. f_equal. destruct r; auto. cbn in L. lia.
  - rewrite (inc_app mb) by auto. cbn [bind]. destruct (IH ltac:(discriminate) r) as (v & -> & H); [cbn [length] in *; lia|].
    exists v. split; auto. intros E. cbn [flat_map] in *. now rewrite (H E).
Qed.
Lemma predef_sound b j : length b = (j * mb)%nat -> exists x, predefinedEntityName e b = Ok x /\ (x <> 0 -> exists w, In (w, x) predefined /\ b = flat_map enc w).
Proof.
  pose proof mb_pos as P. intros L. unfold predefinedEntityName. rewrite L, Nat.div_mul by lia.
  assert (Z0 : exists x, Ok 0 = Ok x /\ (x <> 0 -> exists w, In (w, x) predefined /\ b = flat_map enc w)) by (exists 0; split; [reflexivity|congruence]).
  destruct j as [|[|[|[|[|j]]]]]; try exact Z0.
  - destruct (un_ascii _ _ UN b) as (a & Ea & Ha); [rewrite has_len; lia|].
    destruct (N.lt_ge_cases a 128) as [La|La].
    + destruct (Ha La) as (r & ->). assert (Lx : length (enc a) = mb) by (now apply (ch_narrow_len _ _ _ _ CS)).
      rewrite (inc_app mb) by auto. cbn [bind]. rewrite app_length in L.
      destruct (un_match _ _ UN r 116) as (v & -> & Hv); [rewrite has_len; lia|reflexivity|]. cbn [bind].
      destruct v; [|exact Z0]. rewrite Ea. cbn [bind]. destruct (Hv eq_refl) as (r' & ->). rewrite app_length in L.
      rewrite Lx, (ch_narrow_len _ _ _ _ CS 116) in L by reflexivity. assert (r' = []) as -> by (destruct r'; auto; cbn in L; lia).
      destruct (a =? 108) eqn:A1; [|destruct (a =? 103) eqn:A2; [|exact Z0]].
      * exists 60. split; auto. intros _. exists (txt "lt"). split; [cbn; auto|]. replace a with 108 by lia. reflexivity.
      * exists 62. split; auto. intros _. exists (txt "gt"). split; [cbn; auto|]. replace a with 103 by lia. reflexivity.
    + destruct (inc_start mb b) as [r|x] eqn:I.
      2:{ exfalso. revert I. clear -L P. assert (G : forall n b x, (n <= length b)%nat -> inc_start n b <> Err x).
          { clear. induction n as [|n IH]; intros [|y b] x H; cbn in *; try discriminate; try lia. apply IH; lia. }
          apply G. lia. }
      cbn [bind]. destruct (un_match _ _ UN r 116) as (v & -> & _); [|reflexivity|].
      { assert (Q : length b = (mb + length r)%nat); [|rewrite has_len; lia]. revert I. clear. generalize mb. intros n. revert b. induction n as [|n IH]; intros b I; [cbn in I; destruct b; injection I as <-; reflexivity|].
        destruct b as [|y b]; [discriminate|]. cbn in I. apply IH in I. cbn. lia. }
      cbn [bind]. destruct v; [|exact Z0]. rewrite Ea. cbn [bind]. replace (a =? 108) with false by lia. replace (a =? 103) with false by lia. exact Z0.
  - destruct (chars_match_spec (txt "amp")) with (b := b) as (v & E & H); [repeat (apply Forall_cons; [reflexivity|]); apply Forall_nil|discriminate|exact L|].
    change [97; 109; 112] with (txt "amp"). rewrite E. cbn [bind]. destruct v; [|exact Z0]. exists 38. split; auto. intros _. exists (txt "amp"). split; [cbn; auto|auto].
  - destruct (un_ascii _ _ UN b) as (a & Ea & Ha); [rewrite has_len; lia|]. rewrite Ea. cbn [bind].
    assert (G : a = 113 \/ a = 97 -> exists r, b = enc a ++ r /\ inc_start mb b = Ok r /\ length r = (3 * mb)%nat).
    { intros K. destruct (Ha ltac:(lia)) as (r & ->). assert (Lx : length (enc a) = mb) by (apply (ch_narrow_len _ _ _ _ CS); lia).
      exists r. split; auto. split; [now apply inc_app|]. rewrite app_length in L. lia. }
    destruct (a =? 113) eqn:A1; [|destruct (a =? 97) eqn:A2; [|exact Z0]].
    + destruct G as (r & Eb & -> & Lr); [lia|]. cbn [bind]. destruct (chars_match_spec (txt "uot")) with (b := r) as (v & E & H); [repeat (apply Forall_cons; [reflexivity|]); apply Forall_nil|discriminate|exact Lr|].
      change [117; 111; 116] with (txt "uot"). rewrite E. cbn [bind]. destruct v; [|exact Z0]. exists 34. split; auto. intros _. exists (txt "quot"). split; [cbn; auto|]. rewrite Eb, (H eq_refl). replace a with 113 by lia. reflexivity.
    + destruct G as (r & Eb & -> & Lr); [lia|]. cbn [bind]. destruct (chars_match_spec (txt "pos")) with (b := r) as (v & E & H); [repeat (apply Forall_cons; [reflexivity|]); apply Forall_nil|discriminate|exact Lr|].
      change [112; 111; 115] with (txt "pos"). rewrite E. cbn [bind]. destruct v; [|exact Z0]. exists 39. split; auto. intros _. exists (txt "apos"). split; [cbn; auto 10|]. rewrite Eb, (H eq_refl). replace a with 97 by lia. reflexivity.
Qed.

(* ---- public identifiers ---- *)
Definition pub_ty (ns : bool) (c : N) : bool :=
  match nth (N.to_nat c) (ascii_table ns) BT_NONXML with
  | BT_DIGIT | BT_HEX | BT_MINUS | BT_APOS | BT_LPAR | BT_RPAR | BT_PLUS | BT_COMMA | BT_SOL
  | BT_EQUALS | BT_QUEST | BT_CR | BT_LF | BT_SEMI | BT_EXCL | BT_AST | BT_PERCNT | BT_NUM | BT_COLON => true
  | BT_S => negb (c =? 9)
  | BT_NAME | BT_NMSTRT => true
  | _ => (c =? 36) || (c =? 64)
  end.
Lemma pub_ty_ok c : c < 128 -> pub_ty ns c = pubid_char c.
Proof.
  intros Hc. apply eqb_prop. revert c Hc. apply below128. destruct ns; vm_compute; reflexivity.
Qed.
(* the characters before the first one that is not allowed *)
Fixpoint pub_good (cs : list N) : list N :=
  match cs with [] => [] | c :: r => if pubid_char c then c :: pub_good r else [] end.
Lemma pub_wide c : 128 <= c -> pubid_char c = false.
Proof.
  intros Hc. unfold pubid_char. replace (existsb (N.eqb c) (txt "-'()+,./:=?;!*#@$_%")) with false; [lia|].
  symmetry. apply not_true_is_false. intros K. apply existsb_exists in K as (x & I & Ex). cbn in I. repeat (destruct I as [I|I]; [lia|]). destruct I.
Qed.
Lemma pub_loop cs : all_in dom cs -> forall f, (length cs < f)%nat ->
  isPublicId_loop e f (flat_map enc cs) = Ok (if forallb pubid_char cs then None else Some (flat_map enc (skipn (length (pub_good cs)) cs))).
Proof.
  pose proof mb_pos as P. induction 1 as [|c cs Hc Hcs IH]; intros f Hf.
  { cbn [flat_map forallb]. destruct f; cbn [isPublicId_loop]; unfold has_chars; rewrite has_len; cbn [length]; replace (1 * mb <=? 0)%nat with false by lia; reflexivity. }
  destruct f as [|f]; [lia|]. cbn [flat_map isPublicId_loop]. unfold has_chars. rewrite has_len.
  assert (Lc : (mb <= length (enc c))%nat) by (destruct (ch_whole _ _ _ _ CS c Hc) as (j & ->); lia).
  replace (1 * mb <=? length (enc c ++ flat_map enc cs))%nat with true by (rewrite app_length; lia). cbn [length] in Hf.
  destruct (N.lt_ge_cases c 128) as [Hl|Hl].
  - rewrite (ch_narrow _ _ _ _ CS), (ch_ascii _ _ _ _ CS) by auto. cbn [bind]. rewrite (inc_app mb) by now apply (ch_narrow_len _ _ _ _ CS). cbn [bind].
    rewrite (ch_match _ _ _ _ CS) by (auto; reflexivity). cbn [bind]. rewrite IH by lia.
    cbn [forallb pub_good]. rewrite <- (pub_ty_ok c Hl). replace (c <? 128) with true by lia. unfold pub_ty. rewrite <- (st_ascii _ _ _ _ ST c Hl). change c_TAB with 9.
    destruct (ty k c); try reflexivity; try (destruct ((c =? 36) || (c =? 64)); reflexivity); destruct (c =? 9); reflexivity.
  - destruct (ch_wide_ascii _ _ _ _ CS c (flat_map enc cs) Hc Hl) as (a & Ea & La). cbn [forallb pub_good]. rewrite pub_wide by auto. cbn [andb length skipn].
    assert (exists t, byte_type e (enc c ++ flat_map enc cs) = Ok t /\ In t [BT_NONASCII; BT_NMSTRT; BT_NAME; BT_OTHER; BT_NONXML; BT_LEAD2; BT_LEAD3; BT_LEAD4]) as (t & -> & It).
    { destruct (ch_wide _ _ _ _ CS c (flat_map enc cs) Hc Hl) as [t B L _ _ _ W|E B I X _].
      - exists t. split; auto. destruct t; try discriminate; cbn; tauto.
      - exists (ty k c). split; auto. cbn in I |- *. tauto. }
    cbn [bind]. rewrite Ea. cbn [bind]. replace (a <? 128) with false by lia. replace ((a =? 36) || (a =? 64)) with false by lia.
    cbn [In] in It. repeat (destruct It as [It|It]; [rewrite <- It; reflexivity|]). destruct It.
Qed.
Lemma pub_good_app cs : cs = pub_good cs ++ skipn (length (pub_good cs)) cs.
Proof. induction cs as [|c cs IH]; [reflexivity|]. cbn [pub_good]. destruct (pubid_char c); [|reflexivity]. cbn [length skipn app]. now f_equal. Qed.
Lemma isPublicId_exact q cs : q < 128 -> all_in dom cs ->
  isPublicId e (flat_map enc (q :: cs ++ [q])) =
  Ok (if forallb pubid_char cs then None else Some (length (flat_map enc (q :: pub_good cs)))).
Proof.
  intros Hq Hd. pose proof mb_pos as P. assert (Lq : length (enc q) = mb) by now apply (ch_narrow_len _ _ _ _ CS).
  unfold isPublicId. cbn [flat_map]. rewrite (inc_app mb) by auto. cbn [bind]. rewrite flat_map_app. cbn [flat_map]. rewrite app_nil_r, app_length, Lq.
  replace (length (flat_map enc cs) + mb <? mb)%nat with false by lia.
  replace (firstn (length (flat_map enc cs) + mb - mb) (flat_map enc cs ++ enc q)) with (flat_map enc cs).
  2:{ replace (length (flat_map enc cs) + mb - mb)%nat with (length (flat_map enc cs)) by lia. rewrite firstn_app, firstn_all, Nat.sub_diag. cbn. now rewrite app_nil_r. }
  rewrite pub_loop; auto; [|pose proof (flat_len' e enc dom k CS ascii_dom cs Hd); lia]. cbn [bind option_map].
  destruct (forallb pubid_char cs); [reflexivity|]. cbn [option_map]. rewrite app_length, Lq. do 2 f_equal.
  rewrite (pub_good_app cs) at 1. rewrite flat_map_app, app_length. lia.
Qed.
End U.
