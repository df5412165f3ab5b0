(* Tokens do not change when more input follows. *)
From Coq Require Import List NArith ZArith Bool Lia Arith.
From Verif Require Import Base Encoding Tok EncLaws TokWp TokSafe SpecTok TokTop.
Import ListNotations.

Section StabQ.
Context {Q : N -> Prop}.
Local Notation bytes_ok := (Forall Q).
(* [m'] on a longer buffer does what [m] did on the shorter one *)
Definition stab2 {A} (m m' : M A) : Prop := forall b x, bytes_ok b ->
  match m b with
  | Ok (Stop t (Some p)) => m' (b ++ x) = Ok (Stop t (Some (p ++ x)))
  | Ok (Cont a b') => m' (b ++ x) = Ok (Cont a (b' ++ x)) /\ suffix b' b
  | _ => True
  end.
Definition stab {A} (m : M A) : Prop := stab2 m m.

Lemma stab2_bind {A B} (m m' : M A) (k k' : A -> M B) :
  stab2 m m' -> (forall a, stab2 (k a) (k' a)) -> stab2 (mbind m k) (mbind m' k').
Proof.
  intros Hm Hk b x Hb. specialize (Hm b x Hb). unfold mbind.
  destruct (m b) as [[t [p|]|a b']|]; auto.
  - rewrite Hm. reflexivity.
  - destruct Hm as [Hm Hl]. rewrite Hm. specialize (Hk a b' x (suffix_bytes _ _ Hl Hb)).
    destruct (k a b') as [[t [p|]|a' b'']|]; auto. destruct Hk; split; eauto using suffix_trans.
Qed.
Lemma stab_bind {A B} (m : M A) (k : A -> M B) : stab m -> (forall a, stab (k a)) -> stab (mbind m k).
Proof. intros; apply stab2_bind; auto. Qed.

Lemma stab_ret {A} (a : A) : stab (ret a). Proof. intros b x _; simpl; auto using suffix_refl. Qed.
Lemma stab_stop_here {A} t : stab (@stop_here A t). Proof. intros b x _; reflexivity. Qed.
Lemma stab_stop_none {A} t : stab (@stop_none A t). Proof. intros b x _; simpl; auto using suffix_refl. Qed.
Lemma stab_adv n : stab (adv n).
Proof.
  intros b x Hbb. unfold adv. destruct (inc_start n b) as [b'|] eqn:E; cbn [bind]; auto.
  rewrite (inc_start_app _ _ _ x E). cbn [bind]. split; auto. apply inc_suffix in E; tauto.
Qed.
Lemma stab_lift (f : bytes -> res bool) : (forall b x r, f b = Ok r -> f (b ++ x) = Ok r) -> stab (lift_check f).
Proof. intros H b x _. unfold lift_check. destruct (f b) eqn:E; cbn [bind]; auto. rewrite (H _ _ _ E). cbn [bind]. auto using suffix_refl. Qed.

Lemma firstn_app_len {A} (n : nat) (b x : list A) : n <= length b -> firstn n (b ++ x) = firstn n b.
Proof. intros H. rewrite firstn_app. replace (n - length b) with 0 by lia. simpl. apply app_nil_r. Qed.

Lemma stab_capture {A} (m : M A) : stab m -> stab (capture m).
Proof.
  intros Hm b x Hb. specialize (Hm b x Hb). unfold capture. destruct (m b) as [[t [p|]|a b']|]; auto.
  - now rewrite Hm.
  - destruct Hm as [Hm Hl]. rewrite Hm. split; auto. apply suffix_len in Hl. do 2 f_equal. f_equal.
    rewrite !app_length. replace (length b + length x - (length b' + length x)) with (length b - length b') by lia.
    apply firstn_app_len; lia.
Qed.

Lemma stab2_loop {S B} (body : S -> M (S + B)) : (forall s, stab (body s)) ->
  forall f f' s, f <= f' -> stab2 (loop f body s) (loop f' body s).
Proof.
  intros Hb. induction f; intros f' s Hf b x Hbb; cbn [loop]; auto.
  destruct f' as [|f']; [lia|]. cbn [loop]. specialize (Hb s b x Hbb).
  destruct (body s b) as [[t [p|]|[s'|v] b']|]; auto.
  - now rewrite Hb.
  - destruct Hb as [Hb Hl]. rewrite Hb. specialize (IHf f' s' ltac:(lia) b' x (suffix_bytes _ _ Hl Hbb)).
    destruct (loop f body s' b') as [[t [p|]|? ?]|]; auto. destruct IHf; split; eauto using suffix_trans.
  - destruct Hb as [Hb Hl]. rewrite Hb. auto.
Qed.

Lemma stab_loopb {S B} (body : S -> M (S + B)) s : (forall s, stab (body s)) -> stab (loopb body s).
Proof.
  intros Hb b x Hbb. unfold loopb.
  apply (stab2_loop body Hb (Datatypes.S (length b)) (Datatypes.S (length (b ++ x))) s); auto.
  rewrite app_length; lia.
Qed.

End StabQ.

Section Stab.
Context {Q : N -> Prop}.
Variable e : EncImpl.
Hypothesis OK : enc_okq Q e.
Local Notation bytes_ok := (Forall Q).
Local Notation stab := (@stab Q _).
Local Notation stab2 := (@stab2 Q _).


Lemma has_app' n b x : has n b = true -> has n (b ++ x) = true.
Proof. rewrite !has_length, app_length. lia. Qed.

Lemma stab_require k t : stab (require_or e k t).
Proof.
  intros b x Hbb. unfold require_or, has_chars. destruct (has _ b) eqn:E; auto.
  rewrite has_app' by auto. auto using suffix_refl.
Qed.
Lemma stab_require_char : stab (require_char e). Proof. apply stab_require. Qed.
Lemma stab_require_bytes n t : stab (require_bytes n t).
Proof.
  intros b x Hbb. unfold require_bytes. destruct (has _ b) eqn:E; auto. rewrite has_app' by auto. auto using suffix_refl.
Qed.
Lemma stab_bt : stab (bt e).
Proof.
  intros b x Hbb. unfold bt. destruct (byte_type e b) eqn:E; cbn [bind]; auto.
  rewrite (eo_bt_app _ OK _ x _ E). cbn [bind]. auto using suffix_refl.
Qed.
Lemma stab_matches c : stab (matches e c).
Proof.
  intros b x Hbb. unfold matches. destruct (char_matches e b c) eqn:E; cbn [bind]; auto.
  rewrite (eo_match_app _ OK _ _ x _ E). cbn [bind]. auto using suffix_refl.
Qed.
Lemma stab_bt_at k : stab (bt_at e k).
Proof.
  intros b x Hbb. unfold bt_at. destruct (inc_start _ b) as [b1|] eqn:E1; cbn [bind]; auto.
  rewrite (inc_start_app _ _ _ x E1). cbn [bind].
  destruct (byte_type e b1) eqn:E; cbn [bind]; auto.
  rewrite (eo_bt_app _ OK _ x _ E). cbn [bind]. auto using suffix_refl.
Qed.
Lemma stab_matches_at k c : stab (matches_at e k c).
Proof.
  intros b x Hbb. unfold matches_at. destruct (inc_start _ b) as [b1|] eqn:E1; cbn [bind]; auto.
  rewrite (inc_start_app _ _ _ x E1). cbn [bind].
  destruct (char_matches e b1 c) eqn:E; cbn [bind]; auto.
  rewrite (eo_match_app _ OK _ _ x _ E). cbn [bind]. auto using suffix_refl.
Qed.
Lemma stab_adv1 : stab (adv1 e). Proof. apply stab_adv. Qed.
Lemma stab_stop_after {A} t : stab (@stop_after e A t).
Proof. apply stab_bind; [apply stab_adv1 | intros; apply stab_stop_here]. Qed.

Lemma stab2_while {S B} (body : S -> M S) fin : (forall s, stab (body s)) ->
  forall f f' s, f <= f' -> stab2 (@while_fuel e S B f body fin s) (while_fuel e f' body fin s).
Proof.
  intros Hb. induction f; intros f' s Hf b x Hbb; cbn [while_fuel]; destruct (has_chars e 1 b) eqn:Hh; auto;
    try (destruct (fin s); cbn [bind]; auto; fail).
  destruct f' as [|f']; [lia|]. cbn [while_fuel].
  unfold has_chars in *. rewrite has_app' by auto.
  specialize (Hb s b x Hbb). destruct (body s b) as [[t [p|]|s' b']|]; auto.
  - now rewrite Hb.
  - destruct Hb as [Hb Hl]. rewrite Hb. specialize (IHf f' s' ltac:(lia) b' x (suffix_bytes _ _ Hl Hbb)).
    destruct (while_fuel e f body fin s' b') as [[t [p|]|? ?]|]; auto. destruct IHf; split; eauto using suffix_trans.
Qed.
Lemma stab_while {S B} (body : S -> M S) fin s : (forall s, stab (body s)) -> stab (@while_ e S B body fin s).
Proof.
  intros Hb b x Hbb. unfold while_.
  apply (stab2_while body fin Hb (Datatypes.S (length b)) (Datatypes.S (length (b ++ x))) s); auto.
  rewrite app_length; lia.
Qed.
Lemma stab_while_partial {B} (body : M unit) : stab body -> stab (@while_partial e B body).
Proof. intros. apply stab_while; auto. Qed.

Lemma stab_match_invalid {A} t (k : A) other : stab other -> stab (match_invalid e t k other).
Proof.
  intros Ho. unfold match_invalid. destruct (lead_len t).
  - apply stab_bind; [apply stab_require_bytes|intros _].
    apply stab_bind; [apply stab_lift; intros; eapply eo_invalid_app; eauto|]. intros [|].
    + apply stab_stop_here.
    + apply stab_bind; [apply stab_adv|intros; apply stab_ret].
  - destruct t; auto using @stab_stop_here.
Qed.
Lemma stab_check_name {A} t (k : A) other : stab other -> stab (check_name e t k other).
Proof.
  intros Ho. unfold check_name. destruct (lead_len t).
  - apply stab_bind; [apply stab_require_bytes|intros _].
    apply stab_bind; [apply stab_lift; intros; eapply eo_name_app; eauto|]. intros [|].
    + apply stab_bind; [apply stab_adv|intros; apply stab_ret].
    + apply stab_stop_here.
  - destruct t; auto; try (apply stab_bind; [apply stab_adv1|intros; apply stab_ret]).
    apply stab_bind; [apply stab_lift; intros; eapply eo_namem_app; eauto|]. intros [|].
    + apply stab_bind; [apply stab_adv|intros; apply stab_ret].
    + apply stab_stop_here.
Qed.
Lemma stab_check_nmstrt {A} t (k : A) other : stab other -> stab (check_nmstrt e t k other).
Proof.
  intros Ho. unfold check_nmstrt. destruct (lead_len t).
  - apply stab_bind; [apply stab_require_bytes|intros _].
    apply stab_bind; [apply stab_lift; intros; eapply eo_nmstrt_app; eauto|]. intros [|].
    + apply stab_bind; [apply stab_adv|intros; apply stab_ret].
    + apply stab_stop_here.
  - destruct t; auto; try (apply stab_bind; [apply stab_adv1|intros; apply stab_ret]).
    apply stab_bind; [apply stab_lift; intros; eapply eo_nmstrtm_app; eauto|]. intros [|].
    + apply stab_bind; [apply stab_adv|intros; apply stab_ret].
    + apply stab_stop_here.
Qed.
Lemma stab_check_pi target : stab (check_pi_target e target).
Proof. intros b x _. unfold check_pi_target. destruct (checkPiTarget e target); cbn [bind]; auto using suffix_refl. Qed.

Ltac st :=
  repeat match goal with
  | |- forall _, _ => intro
  | |- stab (mbind _ _) => apply stab_bind
  | |- stab (ret _) => apply stab_ret
  | |- stab (stop_here _) => apply stab_stop_here
  | |- stab (stop_none _) => apply stab_stop_none
  | |- stab (stop_after _ _) => apply stab_stop_after
  | |- stab (require_char _) => apply stab_require
  | |- stab (require_chars _ _) => apply stab_require
  | |- stab (require_or _ _ _) => apply stab_require
  | |- stab (require_bytes _ _) => apply stab_require_bytes
  | |- stab (bt _) => apply stab_bt
  | |- stab (matches _ _) => apply stab_matches
  | |- stab (bt_at _ _) => apply stab_bt_at
  | |- stab (matches_at _ _ _) => apply stab_matches_at
  | |- stab (adv1 _) => apply stab_adv
  | |- stab (adv _) => apply stab_adv
  | |- stab (capture _) => apply stab_capture
  | |- stab (while_partial _ _) => apply stab_while_partial
  | |- stab (while_ _ _ _ _) => apply stab_while
  | |- stab (loopb _ _) => apply stab_loopb
  | |- stab (match_invalid _ _ _ _) => apply stab_match_invalid
  | |- stab (check_name _ _ _ _) => apply stab_check_name
  | |- stab (check_nmstrt _ _ _ _) => apply stab_check_nmstrt
  | |- stab (check_pi_target _ _) => apply stab_check_pi
  | |- stab (if ?c then _ else _) => destruct c
  | |- stab (match ?t with _ => _ end) => destruct t
  end.

Lemma scanComment_stab B : stab (@scanComment e B). Proof. unfold scanComment; st. Qed.
Lemma scanDecl_stab B : stab (@scanDecl e B). Proof. unfold scanDecl; st; apply scanComment_stab. Qed.
Lemma scanPi_stab B : stab (@scanPi e B). Proof. unfold scanPi, pi_name, pi_text; st. Qed.
Lemma match_string_stab {A} s (k : M A) : stab k -> stab (match_string e s k).
Proof. intros Hk; induction s; cbn [match_string]; auto; st; auto. Qed.
Lemma scanCdataSection_stab B : stab (@scanCdataSection e B).
Proof. unfold scanCdataSection; st. apply match_string_stab; st. Qed.
Lemma scanEndTag_stab B : stab (@scanEndTag e B). Proof. unfold scanEndTag; st. Qed.
Lemma scanHexCharRef_stab B : stab (@scanHexCharRef e B). Proof. unfold scanHexCharRef; st. Qed.
Lemma scanCharRef_stab B : stab (@scanCharRef e B).
Proof. unfold scanCharRef; st. apply scanHexCharRef_stab. Qed.
Lemma scanRef_stab B : stab (@scanRef e B). Proof. unfold scanRef; st; apply scanCharRef_stab. Qed.

(* a reference left incomplete by the end of the input stops the scan without a position *)
Lemma atts_ref_stab : stab (atts_ref e).
Proof.
  intros b x Hb. unfold atts_ref. destruct (inc_start (minbpc e) b) as [b1|] eqn:E; cbn [bind]; auto.
  rewrite (inc_start_app _ _ _ x E). cbn [bind].
  apply inc_suffix in E. destruct E as [S1 L1].
  pose proof (scanRef_stab Empty_set b1 x (suffix_bytes _ _ S1 Hb)) as G.
  pose proof (scanRef_safe e OK Empty_set b1 (suffix_bytes _ _ S1 Hb)) as P. unfold wp in P.
  destruct (scanRef e b1) as [[t [p|]|[] ?]|]; auto.
  - rewrite G. destruct P as [P _].
    destruct (tok_is_error t); [destruct (tok_eqb t T_INVALID); auto|]. split; eauto using suffix_trans.
  - cbn [safe_stop] in P. rewrite (partial_is_error _ P). destruct t; cbn [tok_eqb]; auto; discriminate.
Qed.

Lemma scanAtts_stab B : stab (@scanAtts e B).
Proof.
  unfold scanAtts, scanAtts_body, scanAtts_value, atts_open, atts_in_value, atts_after, atts_eq.
  st; apply atts_ref_stab.
Qed.
Lemma scanLtHelper_stab B : stab (@scanLtHelper e B). Proof. unfold scanLtHelper; st. Qed.
Lemma scanLt_stab B : stab (@scanLt e B).
Proof.
  unfold scanLt, lt_name_body, lt_space.
  st; auto using scanComment_stab, scanCdataSection_stab, scanPi_stab, scanEndTag_stab, scanAtts_stab,
    scanLtHelper_stab.
Qed.
Lemma scanPercent_stab B : stab (@scanPercent e B). Proof. unfold scanPercent; st. Qed.
Lemma scanPoundName_stab B : stab (@scanPoundName e B). Proof. unfold scanPoundName; st. Qed.
Lemma scanLit_stab B open : stab (@scanLit e B open). Proof. unfold scanLit; st. Qed.
Lemma prolog_name_stab B tok : stab (@prolog_name e B tok).
Proof. unfold prolog_name, prolog_name_body; st. Qed.
Lemma ignoreScan_stab B : stab (@ignoreScan e B). Proof. unfold ignoreScan; st. Qed.

(* ---- runs of character data ---- *)

(* [q] is the text "]]>..." and [p] its third character *)
Definition bad_end (q p : bytes) : Prop :=
  byte_type e q = Ok BT_RSQB /\
  (exists q1, inc_start (minbpc e) q = Ok q1 /\ char_matches e q1 c_RSQB = Ok true) /\
  inc_start (2 * minbpc e) q = Ok p /\ char_matches e p c_GT = Ok true.

Lemma content_run_shape B f b : bytes_ok b -> length b < f ->
  exists p, suffix p b /\ (@content_run e B f b = Ok (Stop T_DATA_CHARS (Some p)) \/
    @content_run e B f b = Ok (Stop T_INVALID (Some p)) /\ exists q, suffix q b /\ bad_end q p).
Proof.
  revert b. induction f; intros b Hb Hf; [lia|]. cbn [content_run].
  unfold has_chars. rewrite Nat.mul_1_l.
  assert (St : exists p, suffix p b /\ (Ok (@Stop B T_DATA_CHARS (Some b)) = Ok (Stop T_DATA_CHARS (Some p)) \/
    Ok (@Stop B T_DATA_CHARS (Some b)) = Ok (Stop T_INVALID (Some p)) /\ exists q, suffix q b /\ bad_end q p))
    by (exists b; split; auto using suffix_refl).
  destruct (has (minbpc e) b) eqn:Hh; [|exact St].
  destruct (eo_bt _ OK b Hb Hh) as [t Et]. rewrite Et. cbn [bind].
  pose proof (minbpc_pos _ OK) as Hm.
  assert (G1 : forall n b1, 1 <= n -> inc_start n b = Ok b1 ->
    exists p, suffix p b /\ (@content_run e B f b1 = Ok (Stop T_DATA_CHARS (Some p)) \/
    @content_run e B f b1 = Ok (Stop T_INVALID (Some p)) /\ exists q, suffix q b /\ bad_end q p)).
  { intros n b1 Hn E. apply inc_suffix in E. destruct E as [S1 L1].
    destruct (IHf b1) as (p & Sp & D); eauto using suffix_bytes; [lia|].
    exists p. split; [eauto using suffix_trans|]. destruct D as [D|[D (q & Sq & QQ)]]; [auto|].
    right. split; auto. exists q; split; eauto using suffix_trans. }
  destruct (lead_len t) as [n|] eqn:El.
  - destruct (has n b) eqn:Hn; [|exact St]. cbn [negb].
    destruct (eo_invalid _ OK b t n Hb Et El Hn) as [r Er]. rewrite Er. cbn [bind].
    destruct r; [exact St|]. destruct (inc_start_has _ _ Hn) as [b1 E]. rewrite E. cbn [bind].
    apply (G1 n); auto. eapply lead_pos; eauto.
  - destruct (inc_start_has _ _ Hh) as [b1 E].
    destruct t; try exact St; try (rewrite E; cbn [bind]; apply (G1 (minbpc e)); auto; fail).
    destruct (has (2 * minbpc e) b) eqn:H2; [|exact St]. rewrite E. cbn [bind].
    destruct (eo_match _ OK b1 c_RSQB) as [r Er].
    { eapply has_sub; [|eauto]. replace (minbpc e + minbpc e) with (2 * minbpc e) by lia. auto. }
    rewrite Er. cbn [bind]. destruct r; cbn [negb]; [|apply (G1 (minbpc e)); auto].
    destruct (has (3 * minbpc e) b) eqn:H3; [|exact St].
    destruct (inc_start_has _ _ H2) as [b2 E2]. rewrite E2. cbn [bind].
    destruct (eo_match _ OK b2 c_GT) as [r Er2].
    { eapply has_sub; [|eauto]. replace (2 * minbpc e + minbpc e) with (3 * minbpc e) by lia. auto. }
    rewrite Er2. cbn [bind]. destruct r; cbn [negb]; [|apply (G1 (minbpc e)); auto].
    exists b2. split; [apply inc_suffix in E2; tauto|]. right. split; auto.
    exists b. split; [apply suffix_refl|]. repeat split; eauto.
Qed.

Lemma content_run_app B f f' b x t p : bytes_ok b -> length (b ++ x) < f' -> f <= f' ->
  @content_run e B f b = Ok (Stop t (Some p)) ->
  (t = T_INVALID -> @content_run e B f' (b ++ x) = Ok (Stop t (Some (p ++ x)))) /\
  (t <> T_INVALID -> suffix p b /\ exists f'', length (p ++ x) < f'' /\
      @content_run e B f' (b ++ x) = @content_run e B f'' (p ++ x)) /\
  (t <> T_INVALID -> 3 * minbpc e < length p ->
      @content_run e B f' (b ++ x) = Ok (Stop t (Some (p ++ x)))).
Proof.
  revert f' b. induction f; intros f' b Hb Hl Hf H; [cbn [content_run] in H; destruct (has_chars e 1 b) eqn:Hc; [discriminate|]|].
  - injection H as <- <-. split; [discriminate|]. split.
    + intros _. split; [apply suffix_refl|]. exists f'. auto.
    + intros _ H3. unfold has_chars in Hc. apply has_false in Hc. lia.
  - cbn [content_run] in H. unfold has_chars in H. rewrite Nat.mul_1_l in H.
    pose proof (minbpc_pos _ OK) as Hm.
    (* stopping at the current position *)
    assert (St : Ok (Stop T_DATA_CHARS (Some b)) = Ok (@Stop B t (Some p)) ->
       (3 * minbpc e < length b -> @content_run e B f' (b ++ x) = Ok (Stop T_DATA_CHARS (Some (b ++ x)))) ->
       (t = T_INVALID -> @content_run e B f' (b ++ x) = Ok (Stop t (Some (p ++ x)))) /\
       (t <> T_INVALID -> suffix p b /\ exists f'', length (p ++ x) < f'' /\
         @content_run e B f' (b ++ x) = @content_run e B f'' (p ++ x)) /\
       (t <> T_INVALID -> 3 * minbpc e < length p ->
         @content_run e B f' (b ++ x) = Ok (Stop t (Some (p ++ x))))).
    { intros [= <- <-] H3. split; [discriminate|]. split; auto. intros _. split; [apply suffix_refl|]. exists f'. auto. }
    destruct f' as [|f']; [lia|].
    destruct (has (minbpc e) b) eqn:Hh.
    2:{ apply St; auto. intros H3. apply has_false in Hh. lia. }
    destruct (eo_bt _ OK b Hb Hh) as [ty Et]. rewrite Et in H. cbn [bind] in H.
    assert (Hh' := has_app' _ _ x Hh). assert (Et' := eo_bt_app _ OK _ x _ Et).
    assert (G1 : forall n b1, 1 <= n -> inc_start n b = Ok b1 ->
       @content_run e B f b1 = Ok (Stop t (Some p)) ->
       @content_run e B (S f') (b ++ x) = @content_run e B f' (b1 ++ x) ->
       (t = T_INVALID -> @content_run e B (S f') (b ++ x) = Ok (Stop t (Some (p ++ x)))) /\
       (t <> T_INVALID -> suffix p b /\ exists f'', length (p ++ x) < f'' /\
         @content_run e B (S f') (b ++ x) = @content_run e B f'' (p ++ x)) /\
       (t <> T_INVALID -> 3 * minbpc e < length p ->
         @content_run e B (S f') (b ++ x) = Ok (Stop t (Some (p ++ x))))).
    { intros n b1 Hn E H1 H2. rewrite H2. apply inc_suffix in E. destruct E as [S1 L1].
      rewrite app_length in Hl.
      destruct (IHf f' b1) as (I1 & I2 & I3); eauto using suffix_bytes; try (rewrite ?app_length; lia).
      split; auto. split; auto. intros Hi. destruct (I2 Hi) as (Sp & I). split; eauto using suffix_trans. }
    assert (Step : forall n b1, inc_start n b = Ok b1 -> inc_start n (b ++ x) = Ok (b1 ++ x))
      by (intros; apply inc_start_app; auto).
    destruct (lead_len ty) as [n|] eqn:El.
    + destruct (has n b) eqn:Hn; cbn [negb] in H.
      2:{ apply St; auto. intros H3. apply has_false in Hn. pose proof (lead_len_cases _ _ El). lia. }
      destruct (eo_invalid _ OK b ty n Hb Et El Hn) as [r Er]. rewrite Er in H. cbn [bind] in H.
      assert (Eq : @content_run e B (S f') (b ++ x) = if r then Ok (Stop T_DATA_CHARS (Some (b ++ x)))
         else let* b1 := inc_start n (b ++ x) in @content_run e B f' b1).
      { cbn [content_run]. unfold has_chars. rewrite Nat.mul_1_l, Hh', Et'. cbn [bind]. rewrite El, has_app' by auto.
        cbn [negb]. rewrite (eo_invalid_app _ OK _ _ x _ Er). reflexivity. }
      destruct r; [apply St; auto|].
      destruct (inc_start_has _ _ Hn) as [b1 E]. rewrite E in H. cbn [bind] in H.
      apply (G1 n b1); auto. { eapply lead_pos; eauto. }
      rewrite Eq, (Step _ _ E). reflexivity.
    + destruct (inc_start_has _ _ Hh) as [b1 E].
      assert (Eq : ty <> BT_RSQB -> @content_run e B (S f') (b ++ x) = match ty with
         | BT_AMP | BT_LT | BT_NONXML | BT_MALFORM | BT_TRAIL | BT_CR | BT_LF => Ok (Stop T_DATA_CHARS (Some (b ++ x)))
         | _ => @content_run e B f' (b1 ++ x) end).
      { intros Hne. cbn [content_run]. unfold has_chars. rewrite Nat.mul_1_l, Hh', Et'. cbn [bind]. rewrite El, (Step _ _ E).
        destruct ty; try reflexivity; congruence. }
      destruct ty; try (apply St; [assumption|intros _; apply Eq; discriminate]);
       try (rewrite E in H; cbn [bind] in H; apply (G1 (minbpc e) b1); auto; apply Eq; discriminate).
      destruct (has (2 * minbpc e) b) eqn:H2.
      2:{ apply St; auto. intros H3. apply has_false in H2. lia. }
      rewrite E in H. cbn [bind] in H.
      destruct (eo_match _ OK b1 c_RSQB) as [r Er].
      { eapply has_sub; [|eauto]. replace (minbpc e + minbpc e) with (2 * minbpc e) by lia. auto. }
      rewrite Er in H. cbn [bind] in H.
      destruct r; cbn [negb] in H.
      2:{ apply (G1 (minbpc e) b1); auto. cbn [content_run]. unfold has_chars.
          rewrite Nat.mul_1_l, Hh', Et'. cbn [bind]. rewrite El, has_app', (Step _ _ E) by auto. cbn [bind].
          rewrite (eo_match_app _ OK _ _ x _ Er). reflexivity. }
      destruct (has (3 * minbpc e) b) eqn:H3.
      2:{ apply St; auto. intros H4. apply has_false in H3. lia. }
      destruct (inc_start_has _ _ H2) as [b2 E2]. rewrite E2 in H. cbn [bind] in H.
      destruct (eo_match _ OK b2 c_GT) as [r Er2].
      { eapply has_sub; [|eauto]. replace (2 * minbpc e + minbpc e) with (3 * minbpc e) by lia. auto. }
      rewrite Er2 in H. cbn [bind] in H.
      assert (Eq2 : @content_run e B (S f') (b ++ x) = if negb r then @content_run e B f' (b1 ++ x)
         else Ok (Stop T_INVALID (Some (b2 ++ x)))).
      { cbn [content_run]. unfold has_chars.
          rewrite Nat.mul_1_l, Hh', Et'. cbn [bind]. rewrite El, !has_app', (Step _ _ E) by auto. cbn [bind].
          rewrite (eo_match_app _ OK _ _ x _ Er). cbn [bind negb]. rewrite (Step _ _ E2). cbn [bind].
          rewrite (eo_match_app _ OK _ _ x _ Er2). reflexivity. }
      destruct r; cbn [negb] in *.
      * injection H as <- <-. rewrite Eq2. repeat split; auto; congruence.
      * apply (G1 (minbpc e) b1); auto.
Qed.

Lemma cdata_run_shape B f b : bytes_ok b -> length b < f ->
  exists p, suffix p b /\ @cdata_run e B f b = Ok (Stop T_DATA_CHARS (Some p)).
Proof.
  revert b. induction f; intros b Hb Hf; [lia|]. cbn [cdata_run].
  unfold has_chars. rewrite Nat.mul_1_l.
  assert (St : exists p, suffix p b /\ Ok (@Stop B T_DATA_CHARS (Some b)) = Ok (Stop T_DATA_CHARS (Some p)))
    by (exists b; split; auto using suffix_refl).
  destruct (has (minbpc e) b) eqn:Hh; [|exact St].
  destruct (eo_bt _ OK b Hb Hh) as [t Et]. rewrite Et. cbn [bind].
  pose proof (minbpc_pos _ OK) as Hm.
  assert (G1 : forall n b1, 1 <= n -> inc_start n b = Ok b1 ->
    exists p, suffix p b /\ @cdata_run e B f b1 = Ok (Stop T_DATA_CHARS (Some p))).
  { intros n b1 Hn E. apply inc_suffix in E. destruct E as [S1 L1].
    destruct (IHf b1) as (p & Sp & D); eauto using suffix_bytes; [lia|].
    exists p. split; [eauto using suffix_trans|auto]. }
  destruct (lead_len t) as [n|] eqn:El.
  - destruct (has n b) eqn:Hn; [|exact St]. cbn [negb].
    destruct (eo_invalid _ OK b t n Hb Et El Hn) as [r Er]. rewrite Er. cbn [bind].
    destruct r; [exact St|]. destruct (inc_start_has _ _ Hn) as [b1 E]. rewrite E. cbn [bind].
    apply (G1 n); auto. eapply lead_pos; eauto.
  - destruct (inc_start_has _ _ Hh) as [b1 E].
    destruct t; try exact St; rewrite E; cbn [bind]; apply (G1 (minbpc e)); auto.
Qed.

Lemma cdata_run_app B f f' b x p : bytes_ok b -> length (b ++ x) < f' -> f <= f' ->
  @cdata_run e B f b = Ok (Stop T_DATA_CHARS (Some p)) ->
  (suffix p b /\ exists f'', length (p ++ x) < f'' /\
      @cdata_run e B f' (b ++ x) = @cdata_run e B f'' (p ++ x)) /\
  (3 < length p -> 1 < length p - minbpc e -> @cdata_run e B f' (b ++ x) = Ok (Stop T_DATA_CHARS (Some (p ++ x)))).
Proof.
  revert f' b. induction f; intros f' b Hb Hl Hf H; [cbn [cdata_run] in H; destruct (has_chars e 1 b) eqn:Hc; [discriminate|]|].
  - injection H as <-. split.
    + split; [apply suffix_refl|]. exists f'. auto.
    + intros H3 H4. unfold has_chars in Hc. apply has_false in Hc. lia.
  - cbn [cdata_run] in H. unfold has_chars in H. rewrite Nat.mul_1_l in H.
    pose proof (minbpc_pos _ OK) as Hm.
    assert (St : Ok (Stop T_DATA_CHARS (Some b)) = Ok (@Stop B T_DATA_CHARS (Some p)) ->
       (3 < length b -> 1 < length b - minbpc e -> @cdata_run e B f' (b ++ x) = Ok (Stop T_DATA_CHARS (Some (b ++ x)))) ->
       (suffix p b /\ exists f'', length (p ++ x) < f'' /\
         @cdata_run e B f' (b ++ x) = @cdata_run e B f'' (p ++ x)) /\
       (3 < length p -> 1 < length p - minbpc e -> 
         @cdata_run e B f' (b ++ x) = Ok (Stop T_DATA_CHARS (Some (p ++ x))))).
    { intros [= <-] H3. split; auto. split; [apply suffix_refl|]. exists f'. auto. }
    destruct f' as [|f']; [lia|].
    destruct (has (minbpc e) b) eqn:Hh.
    2:{ apply St; auto. intros H3 H4. apply has_false in Hh. lia. }
    destruct (eo_bt _ OK b Hb Hh) as [ty Et]. rewrite Et in H. cbn [bind] in H.
    assert (Hh' := has_app' _ _ x Hh). assert (Et' := eo_bt_app _ OK _ x _ Et).
    assert (G1 : forall n b1, 1 <= n -> inc_start n b = Ok b1 ->
       @cdata_run e B f b1 = Ok (Stop T_DATA_CHARS (Some p)) ->
       @cdata_run e B (S f') (b ++ x) = @cdata_run e B f' (b1 ++ x) ->
       (suffix p b /\ exists f'', length (p ++ x) < f'' /\
         @cdata_run e B (S f') (b ++ x) = @cdata_run e B f'' (p ++ x)) /\
       (3 < length p -> 1 < length p - minbpc e -> 
         @cdata_run e B (S f') (b ++ x) = Ok (Stop T_DATA_CHARS (Some (p ++ x))))).
    { intros n b1 Hn E H1 H2. rewrite H2. apply inc_suffix in E. destruct E as [S1 L1].
      rewrite app_length in Hl.
      destruct (IHf f' b1) as ((Sp & I) & I2); eauto using suffix_bytes; try (rewrite ?app_length; lia).
      split; auto. split; eauto using suffix_trans. }
    assert (Step : forall n b1, inc_start n b = Ok b1 -> inc_start n (b ++ x) = Ok (b1 ++ x))
      by (intros; apply inc_start_app; auto).
    destruct (lead_len ty) as [n|] eqn:El.
    + destruct (has n b) eqn:Hn; cbn [negb] in H.
      2:{ apply St; auto. intros H3. apply has_false in Hn. pose proof (lead_len_cases _ _ El). lia. }
      destruct (eo_invalid _ OK b ty n Hb Et El Hn) as [r Er]. rewrite Er in H. cbn [bind] in H.
      assert (Eq : @cdata_run e B (S f') (b ++ x) = if r then Ok (Stop T_DATA_CHARS (Some (b ++ x)))
         else let* b1 := inc_start n (b ++ x) in @cdata_run e B f' b1).
      { cbn [cdata_run]. unfold has_chars. rewrite Nat.mul_1_l, Hh', Et'. cbn [bind]. rewrite El, has_app' by auto.
        cbn [negb]. rewrite (eo_invalid_app _ OK _ _ x _ Er). reflexivity. }
      destruct r; [apply St; auto|].
      destruct (inc_start_has _ _ Hn) as [b1 E]. rewrite E in H. cbn [bind] in H.
      apply (G1 n b1); auto. { eapply lead_pos; eauto. }
      rewrite Eq, (Step _ _ E). reflexivity.
    + destruct (inc_start_has _ _ Hh) as [b1 E].
      assert (Eq : @cdata_run e B (S f') (b ++ x) = match ty with
         | BT_NONXML | BT_MALFORM | BT_TRAIL | BT_CR | BT_LF | BT_RSQB => Ok (Stop T_DATA_CHARS (Some (b ++ x)))
         | _ => @cdata_run e B f' (b1 ++ x) end).
      { cbn [cdata_run]. unfold has_chars. rewrite Nat.mul_1_l, Hh', Et'. cbn [bind]. rewrite El, (Step _ _ E).
        destruct ty; reflexivity. }
      destruct ty; try (apply St; [assumption|intros _ _; exact Eq]);
       rewrite E in H; cbn [bind] in H; apply (G1 (minbpc e) b1); auto.
Qed.
End Stab.
