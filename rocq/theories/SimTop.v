(* The tokenisers agree on every encoding of the same text. *)
From Coq Require Import List NArith ZArith Bool Lia Arith.
From Verif Require Import Base Encoding SpecUnicode Tok EncLaws TokWp TokSafe SpecTok TokTop Charset Sim SimTok.
Import ListNotations.

Section Top.
Variable e : EncImpl.
Variable enc : N -> bytes.
Variable dom : N -> bool.
Variable k : cls.
Hypothesis CS : charset e enc dom k.
Notation ce := (cp_enc k).
Notation T := (flat_map enc).
Notation doms := (doms dom).
Notation sim := (@sim enc _ _).
Notation narrow := (narrow e enc dom).
Notation none := SimTok.none.

(* one step of the hand-written loops: what both sides see at a non-empty text *)
Lemma look c r : doms (c :: r) -> exists t, byte_type e (T (c :: r)) = Ok t /\ tyrel e enc dom k (c :: r) t (ty k c).
Proof. intros Hd. apply (head_type _ _ _ _ CS). exact (Forall_inv Hd). Qed.
Lemma cp_look c r : byte_type ce (c :: r) = Ok (ty k c). Proof. reflexivity. Qed.
Lemma has_nil : has_chars e 1 [] = false.
Proof. exact (has1 _ _ _ _ CS [] (Forall_nil _)). Qed.
Lemma has_cons c r : doms (c :: r) -> has_chars e 1 (T (c :: r)) = true.
Proof. intros H. rewrite (has1 _ _ _ _ CS) by auto. reflexivity. Qed.
Lemma sim_at {A A'} D (m m1 : M A) (m' m1' : M A') cs (QC : A -> A' -> list N -> Prop) : m (T cs) = m1 (T cs) -> m' cs = m1' cs ->
  sim D m1 m1' cs QC -> sim D m m' cs QC.
Proof. unfold Sim.sim. now intros -> ->. Qed.
Lemma sim_next {A A'} D (m m1 : M A) (m' m1' : M A') c r (QC : A -> A' -> list N -> Prop) : m (T (c :: r)) = m1 (T r) -> m' (c :: r) = m1' r ->
  sim D m1 m1' r QC -> sim D m m' (c :: r) QC.
Proof.
  unfold Sim.sim. intros -> ->. destruct (m1' r) as [[t [p|]|a cs']|]; auto.
  intros (x & ? & ? & ?). exists x. split; [|split]; auto. eapply suffix_trans; [eauto|exists [c]; reflexivity].
Qed.

(* comparing two outcomes; scanners without a result *)
Definition same (D : bool) {A A'} (r : res (outc A)) (r' : res (outc A')) : Prop :=
  match r' with
  | Ok (Stop t (Some p')) => r = Ok (Stop t (Some (T p')))
  | Ok (Stop t None) => r = Ok (Stop t None) \/
      (D = true /\ t = T_PARTIAL /\ exists p, r = Ok (Stop T_INVALID (Some p)))
  | Ok (Cont a' cs') => False
  | Err _ => True
  end.
Lemma same_sim {A A'} D (m : M A) (m' : M A') cs : sim D m m' cs none <-> same D (m (T cs)) (m' cs).
Proof.
  unfold Sim.sim, same, none. destruct (m' cs) as [[t [p|]|a cs']|]; try tauto.
  split; [intros (? & ? & ? & [])|tauto].
Qed.
Lemma same_stop {A A'} D t p : same D (Ok (@Stop A t (Some (T p)))) (Ok (@Stop A' t (Some p))).
Proof. reflexivity. Qed.
Lemma same_none {A A'} D t : same D (Ok (@Stop A t None)) (Ok (@Stop A' t None)).
Proof. left. reflexivity. Qed.

(* what both sides read at the head of a non-empty text *)
Inductive head_view (c : N) (r : list N) : Prop :=
| hv_same t : byte_type e (T (c :: r)) = Ok t -> ty k c = t -> lead_len t = None ->
    inc_start (minbpc e) (T (c :: r)) = Ok (T r) -> narrow (c :: r) -> head_view c r
| hv_lead t n : byte_type e (T (c :: r)) = Ok t -> lead_len t = Some n -> ty k c = wide_type c ->
    has n (T (c :: r)) = true -> is_invalid_char e (T (c :: r)) n = Ok (negb (is_xml_char c)) ->
    inc_start n (T (c :: r)) = Ok (T r) -> head_view c r.
Lemma view c r : doms (c :: r) -> head_view c r.
Proof.
  intros Hd. destruct (look c r Hd) as (t & Et & R). inversion R as [? Hn E0 Hl Hm|? c' r' Hcs Hc Hw Hl Ht Hi Hnm Hns]; subst.
  - cbn [hd] in *. apply (hv_same c r (ty k c)); auto.
    destruct (narrow_inc _ _ _ _ Hn) as (c1 & r1 & [= <- <-] & H). exact H.
  - injection Hcs as <- <-. apply (hv_lead c r t (length (enc c))); auto.
    + cbn [flat_map]. apply has_app. auto.
    + cbn [flat_map]. apply inc_app. auto.
Qed.

Lemma same_cdata_run B B' f' : forall f cs, f' <= f -> doms cs ->
  same false (@cdata_run e B f (T cs)) (@cdata_run ce B' f' cs).
Proof.
  induction f' as [|f' IH]; intros f cs Hf Hd.
  - destruct cs as [|c r]; [|exact I]. destruct f; cbn [cdata_run flat_map]; rewrite has_nil; reflexivity.
  - destruct f as [|f]; [lia|]. destruct cs as [|c r].
    + cbn [cdata_run flat_map]. rewrite has_nil. reflexivity.
    + specialize (IH f r ltac:(lia) (Forall_inv_tail Hd)).
      cbn [cdata_run]. rewrite has_cons by auto. change (has_chars ce 1 (c :: r)) with true. cbv iota.
      rewrite cp_look. destruct (view c r Hd) as [t Et -> Hl Hi Hn|t n Et Hl Hw Hh Hv Hi]; rewrite Et; cbn [bind]; rewrite Hl.
      * rewrite Hi. cbn [cp_enc minbpc inc_start bind]. destruct t; try discriminate Hl; try exact IH; apply same_stop.
      * rewrite Hh, Hv, Hw, Hi. unfold wide_type. destruct (is_xml_char c); cbn [negb bind lead_len cp_enc minbpc inc_start].
        -- exact IH.
        -- apply same_stop.
Qed.
Lemma same_content_run B B' f' : forall f cs, f' <= f -> doms cs ->
  same false (@content_run e B f (T cs)) (@content_run ce B' f' cs).
Proof.
  induction f' as [|f' IH]; intros f cs Hf Hd.
  - destruct cs as [|c r]; [|exact I]. destruct f; cbn [content_run flat_map]; rewrite has_nil; reflexivity.
  - destruct f as [|f]; [lia|]. destruct cs as [|c r].
    + cbn [content_run flat_map]. rewrite has_nil. reflexivity.
    + specialize (IH f r ltac:(lia) (Forall_inv_tail Hd)).
      cbn [content_run]. rewrite has_cons by auto. change (has_chars ce 1 (c :: r)) with true. cbv iota.
      rewrite cp_look. destruct (view c r Hd) as [t Et -> Hl Hi Hn|t n Et Hl Hw Hh Hv Hi]; rewrite Et; cbn [bind]; rewrite Hl.
      * rewrite (has2 _ _ _ _ CS) by auto.
        rewrite Hi. cbn [bind]. destruct t; try discriminate Hl; try exact IH; try apply same_stop.
        destruct r as [|d r]; [apply same_stop|]. change (has_chars ce 2 (c :: d :: r)) with true. cbv iota.
        assert (Hd1 : dom d = true) by exact (Forall_inv (Forall_inv_tail Hd)).
        cbn [cp_enc minbpc inc_start bind char_matches peek nth_error Nat.mul Nat.add].
        cbn [flat_map] in Hi |- *. rewrite (ch_match _ _ _ _ CS) by (auto; reflexivity). cbn [bind].
        destruct (d =? c_RSQB)%N eqn:Ed; cbn [negb]; [|exact IH]. apply N.eqb_eq in Ed.
        assert (Hnd : narrow (d :: r)) by (apply (narrow_ascii _ _ _ _ CS); [auto|subst; reflexivity]).
        destruct Hn as (c0 & r0 & [= <- <-] & Hc0 & Hl0).
        pose proof (has3 _ _ _ _ CS c (d :: r) Hd Hl0 Hnd) as H3. cbn [flat_map] in H3. rewrite H3.
        destruct r as [|g r]; [exact (same_stop false T_DATA_CHARS [c; d])|].
        change (has_chars ce 3 (c :: d :: g :: r)) with true. cbv iota.
        assert (Hg : dom g = true) by exact (Forall_inv (Forall_inv_tail (Forall_inv_tail Hd))).
        cbn [flat_map]. rewrite (app_assoc (enc c)). rewrite inc_app.
        2:{ rewrite app_length, Hl0. destruct Hnd as (d0 & r0 & [= <- <-] & _ & ->). lia. }
        cbn [bind]. rewrite (ch_match _ _ _ _ CS) by (auto; reflexivity). cbn [bind peek nth_error].
        destruct (g =? c_GT)%N; cbn [negb]; [exact (same_stop false T_INVALID (g :: r))|exact IH].
      * rewrite Hh, Hv, Hw, Hi. unfold wide_type. destruct (is_xml_char c); cbn [negb bind lead_len cp_enc minbpc inc_start].
        -- exact IH.
        -- apply same_stop.
Qed.

Lemma T_fuel cs : doms cs -> S (length cs) <= S (length (T cs)).
Proof. intros Hd. pose proof (T_len _ _ _ _ CS _ Hd). pose proof (min_pos _ _ _ _ CS). nia. Qed.

Lemma sim_cdataScan B B' cs : doms cs -> cs <> [] -> sim false (@cdataSectionScan e B) (@cdataSectionScan ce B') cs none.
Proof.
  intros Hd Hn. unfold cdataSectionScan. repeat sstep.
  all: apply same_sim; apply same_cdata_run; [apply T_fuel|]; assumption.
Qed.
Lemma sim_contentScan B B' cs : doms cs -> cs <> [] -> sim true (@contentScan e B) (@contentScan ce B') cs none.
Proof.
  intros Hd Hn. unfold contentScan. repeat sstep.
  all: try (eapply sim_mono; [eassumption|apply (sim_scanLt _ _ _ _ CS); assumption|intros ? ? ? ? ? []]).
  all: try (eapply simple_use; [apply (sim_scanRef _ _ _ _ CS)|assumption]).
  all: apply sim_weak; apply same_sim; apply same_content_run; [apply T_fuel|]; assumption.
Qed.
Lemma sim_ignoreScan B B' cs : doms cs -> sim false (@ignoreScan e B) (@ignoreScan ce B') cs none.
Proof.
  intros Hd. unfold ignoreScan. apply (sim_while _ _ _ _ CS _ _ _ _ (fun (_ : nat) (_ : list N) => True)); auto.
  intros; repeat sstep.
Qed.

Lemma same_attributeValue B B' f' : forall f first cs, f' <= f -> doms cs ->
  same false (@attributeValue_run e B f first (T cs)) (@attributeValue_run ce B' f' first cs).
Proof.
  induction f' as [|f' IH]; intros f first cs Hf Hd.
  - destruct cs as [|c r]; [|exact I]. destruct f; cbn [attributeValue_run flat_map]; rewrite has_nil; reflexivity.
  - destruct f as [|f]; [lia|]. destruct cs as [|c r].
    + cbn [attributeValue_run flat_map]. rewrite has_nil. reflexivity.
    + specialize (IH f false r ltac:(lia) (Forall_inv_tail Hd)).
      cbn [attributeValue_run]. rewrite has_cons by auto. change (has_chars ce 1 (c :: r)) with true. cbv iota.
      rewrite cp_look. destruct (view c r Hd) as [t Et -> Hl Hi Hn|t n Et Hl Hw Hh Hv Hi]; rewrite Et; cbn [bind]; rewrite Hl.
      * rewrite Hi. change (inc_start (minbpc ce) (c :: r)) with (Ok (A := bytes) r). cbn [bind].
        destruct t; try discriminate Hl; try exact IH; try apply same_stop; destruct first; try apply same_stop;
          apply same_sim; repeat sstep.
        eapply simple_use; [apply (sim_scanRef _ _ _ _ CS)|assumption].
      * rewrite Hw, Hi. cbn [bind]. change (inc_start (minbpc ce) (c :: r)) with (Ok (A := bytes) r). cbn [bind].
        unfold wide_type. destruct (is_xml_char c); exact IH.
Qed.
Lemma same_entityValue B B' f' : forall f first cs, f' <= f -> doms cs ->
  same false (@entityValue_run e B f first (T cs)) (@entityValue_run ce B' f' first cs).
Proof.
  induction f' as [|f' IH]; intros f first cs Hf Hd.
  - destruct cs as [|c r]; [|exact I]. destruct f; cbn [entityValue_run flat_map]; rewrite has_nil; reflexivity.
  - destruct f as [|f]; [lia|]. destruct cs as [|c r].
    + cbn [entityValue_run flat_map]. rewrite has_nil. reflexivity.
    + specialize (IH f false r ltac:(lia) (Forall_inv_tail Hd)).
      cbn [entityValue_run]. rewrite has_cons by auto. change (has_chars ce 1 (c :: r)) with true. cbv iota.
      rewrite cp_look. destruct (view c r Hd) as [t Et -> Hl Hi Hn|t n Et Hl Hw Hh Hv Hi]; rewrite Et; cbn [bind]; rewrite Hl.
      * rewrite Hi. change (inc_start (minbpc ce) (c :: r)) with (Ok (A := bytes) r). cbn [bind].
        destruct t; try discriminate Hl; try exact IH; try apply same_stop; destruct first; try apply same_stop;
          apply same_sim; repeat sstep.
        -- eapply simple_use; [apply (sim_scanRef _ _ _ _ CS)|assumption].
        -- apply same_sim. unfold percent_as_invalid.
           pose proof (sim_scanPercent _ _ _ _ CS B B' (tl (c :: r))) as P. specialize (P ltac:(assumption)).
           apply same_sim in P. cbn [tl] in *. destruct (@scanPercent ce B' r) as [[tk [p|]|a cs']|]; cbn [same] in *; auto; try contradiction.
           ++ now rewrite P.
           ++ destruct P as [->|[Q _]]; [auto|discriminate].
      * rewrite Hw, Hi. cbn [bind]. change (inc_start (minbpc ce) (c :: r)) with (Ok (A := bytes) r). cbn [bind].
        unfold wide_type. destruct (is_xml_char c); exact IH.
Qed.
Lemma same_prolog_s B B' f' : forall f c r, f' <= f -> doms (c :: r) -> narrow (c :: r) ->
  same false (@prolog_s_run e B f (T (c :: r))) (@prolog_s_run ce B' f' (c :: r)).
Proof.
  induction f' as [|f' IH]; intros f c r Hf Hd Hn; [exact I|]. destruct f as [|f]; [lia|].
  cbn [prolog_s_run]. destruct (narrow_inc _ _ _ _ Hn) as (c1 & r1 & [= <- <-] & Hi). rewrite Hi.
  change (inc_start (minbpc ce) (c :: r)) with (Ok (A := bytes) r). cbn [bind].
  pose proof (Forall_inv_tail Hd) as Hr. rewrite (has1 _ _ _ _ CS) by auto.
  destruct r as [|d r]; [apply same_stop|]. change (has_chars ce 1 (d :: r)) with true. cbn [negb]. cbv iota.
  rewrite cp_look. destruct (view d r Hr) as [t Et -> Hl Hi2 Hn2|t n Et Hl Hw Hh Hv Hi2]; rewrite Et; cbn [bind].
  - specialize (IH f d r ltac:(lia) Hr Hn2).
    destruct t; try discriminate Hl; try apply same_stop; try exact IH.
    replace (length (T (d :: r)) =? minbpc e) with (length (d :: r) =? minbpc ce); [destruct (_ =? _); [apply same_stop|exact IH]|].
    destruct Hn2 as (d0 & r0 & [= <- <-] & _ & Hl2). apply eq_iff_eq_true. rewrite !Nat.eqb_eq.
    cbn [flat_map length cp_enc minbpc]. rewrite app_length. pose proof (T_len _ _ _ _ CS r (Forall_inv_tail Hr)).
    pose proof (min_pos _ _ _ _ CS). destruct r; cbn [flat_map length] in *; nia.
  - rewrite Hw. unfold wide_type. destruct t; try discriminate Hl; destruct (is_xml_char d); apply same_stop.
Qed.

Lemma sim_prolog_name B B' tok cs : (forall c, dom c = true -> (128 <= c)%N -> is_xml_char c = true) -> doms cs ->
  sim false (@prolog_name e B tok) (@prolog_name ce B' tok) cs none.
Proof.
  intros Hx Hd. unfold prolog_name. apply (sim_while _ _ _ _ CS _ _ _ _ (fun (_ : XML_TOK) (_ : list N) => True)); auto.
  assert (Nb : forall cs, bad_head dom cs -> False).
  { intros cs0 (c & r & _ & H1 & H2 & H3). rewrite Hx in H3; congruence. }
  intros; unfold prolog_name_body. repeat sstep.
Qed.
Lemma sim_lift D f f' v cs (QC : bool -> bool -> list N -> Prop) : f (T cs) = Ok v -> f' cs = Ok v -> QC v v cs ->
  sim D (lift_check f) (lift_check f') cs QC.
Proof.
  intros E1 E2 H. unfold Sim.sim, lift_check. rewrite E2. cbn [bind]. exists v. rewrite E1. cbn [bind].
  split; [reflexivity|]. split; [apply suffix_refl|auto].
Qed.
Lemma sim_prologScan B B' cs : (forall c, dom c = true -> (128 <= c)%N -> is_xml_char c = true) -> doms cs -> cs <> [] ->
  sim false (@prologScan e B) (@prologScan ce B') cs none.
Proof.
  intros Hx Hd Hne. unfold prologScan. do 2 sstep.
  match goal with R : tyrel _ _ _ _ _ _ _ |- _ => rename R into R0 end.
  inversion R0 as [? Hn ? Hl Hm|? c r Hcs Hc Hw Hl Ht Hi Hnm Hns]; subst.
  - rewrite Hl. assert (Np : forall tok cs1, doms cs1 -> sim false (@prolog_name e B tok) (@prolog_name ce B' tok) cs1 none)
      by (intros; apply sim_prolog_name; auto).
    destruct cs as [|c r]; [congruence|]. cbn [hd] in *. destruct (ty k c) eqn:Ety; try discriminate Hl; clear R0; repeat sstep;
      try (apply Np; assumption);
      try (eapply simple_use; [apply (sim_scanDecl _ _ _ _ CS)|assumption]);
      try (eapply simple_use; [apply (sim_scanPi _ _ _ _ CS)|assumption]);
      try (eapply simple_use; [apply (sim_scanPercent _ _ _ _ CS)|assumption]);
      try (eapply simple_use; [apply (sim_scanPoundName _ _ _ _ CS)|assumption]);
      try (eapply simple_use; [apply (sim_scanLit _ _ _ _ CS); auto|assumption]).
    + exfalso. match goal with H : is_xml_char ?c = false |- _ => rewrite Hx in H by assumption; discriminate H end.
    + exfalso. match goal with H : is_xml_char ?c = false |- _ => rewrite Hx in H by assumption; discriminate H end.
    + exfalso. match goal with H : is_xml_char ?c = false |- _ => rewrite Hx in H by assumption; discriminate H end.
    + apply same_sim.
      replace (length (T (c :: r)) =? minbpc e) with (length (c :: r) =? minbpc ce).
      * destruct (length (c :: r) =? minbpc ce); [exact (same_stop false T_PROLOG_S_NEG [])|].
        apply same_prolog_s; auto. apply T_fuel; auto.
      * destruct Hn as (d0 & r0 & [= <- <-] & _ & Hl2). apply eq_iff_eq_true. rewrite !Nat.eqb_eq.
        cbn [flat_map length cp_enc minbpc]. rewrite app_length. pose proof (T_len _ _ _ _ CS r (Forall_inv_tail Hd)).
        pose proof (min_pos _ _ _ _ CS). destruct r; cbn [flat_map length] in *; nia.
    + apply same_sim. apply same_prolog_s; auto. apply T_fuel; auto.
    + apply same_sim. apply same_prolog_s; auto. apply T_fuel; auto.
    + destruct (Hm eq_refl) as [Hm1 Hm2].
      eapply sim_lift; [exact Hm2|reflexivity|]. intros _.
      destruct (nst k c); [repeat sstep; apply Np; assumption|]. sstep.
      eapply sim_lift; [exact Hm1|reflexivity|]. intros _.
      destruct (nmc k c); repeat sstep; apply Np; assumption.
  - rewrite Hl. unfold wide_type. rewrite Hx by auto. cbn [lead_len]. apply same_sim.
    rewrite (mbind_lift (is_nmstrt_char_minbpc ce) _ (c :: r) (nst k c)) by reflexivity.
    unfold mbind at 1, require_bytes. cbn [flat_map] in *. rewrite has_app by auto.
    rewrite (mbind_lift _ _ _ _ Hns).
    assert (G : forall tok, same false (mbind (adv (length (enc c))) (fun _ => @prolog_name e B tok) (enc c ++ T r))
        (mbind (adv1 ce) (fun _ => @prolog_name ce B' tok) (c :: r))).
    { intros tok. unfold mbind, adv1, adv. change (inc_start (minbpc ce) (c :: r)) with (Ok (A := bytes) r).
      rewrite inc_app by auto. cbn [bind]. apply same_sim. apply sim_prolog_name; auto. exact (Forall_inv_tail Hd). }
    destruct (nst k c); [apply G|].
    rewrite (mbind_lift _ _ _ _ Hnm), (mbind_lift (is_name_char_minbpc ce) _ (c :: r) (nmc k c)) by reflexivity.
    destruct (nmc k c); [apply G|reflexivity].
Qed.

(* ---- the tokenisers ---- *)

(* the position after the first [n] characters *)
Definition at_char (cs : list N) (n : nat) : nat := length (T (firstn n cs)).
Definition same_tok (D : bool) (cs : list N) (r r' : tokres) : Prop :=
  match r' with
  | Ok (t, Some n) => r = Ok (t, Some (at_char cs n))
  | Ok (t, None) => r = Ok (t, None) \/ (D = true /\ t = T_PARTIAL /\ exists n, r = Ok (T_INVALID, Some n))
  | Err _ => False
  end.

Lemma T_even cs : doms cs -> minbpc e = 2 -> exists j, length (T cs) = 2 * j.
Proof.
  intros Hd Hm. induction Hd as [|c r Hc Hd [j IH]]; [exists 0; reflexivity|].
  cbn [flat_map]. rewrite app_length. destruct (ch_whole _ _ _ _ CS c Hc) as [i Hi]. rewrite Hm in Hi.
  exists (S i + j). rewrite Hi, IH. lia.
Qed.
Lemma round_T cs : doms cs -> round_down e (T cs) = T cs.
Proof.
  intros Hd. unfold round_down. destruct (minbpc e =? 2) eqn:E; auto. apply Nat.eqb_eq in E.
  destruct (even_prefix_spec (T cs)) as (n & -> & H1 & H2 & [m H3]). destruct (T_even cs Hd E) as [j Hj].
  rewrite firstn_all2; auto. lia.
Qed.
Lemma round_cp cs : round_down ce cs = cs. Proof. reflexivity. Qed.
Lemma is_nil_T cs : doms cs -> is_nil (T cs) = is_nil cs.
Proof.
  intros Hd. pose proof (T_len _ _ _ _ CS _ Hd) as H. pose proof (min_pos _ _ _ _ CS).
  destruct cs as [|c r]; [reflexivity|]. destruct (T (c :: r)); [cbn [length] in H; lia|reflexivity].
Qed.
Lemma suffix_skip (p cs : list N) : suffix p cs -> exists n, n = length cs - length p /\ T cs = T (firstn n cs) ++ T p.
Proof.
  intros [pre ->]. exists (length pre). rewrite app_length. split; [lia|].
  rewrite firstn_app, Nat.sub_diag, firstn_all. cbn [firstn]. rewrite app_nil_r. apply T_app.
Qed.
Lemma same_run D (m m' : M Empty_set) cs : same D (m (T cs)) (m' cs) ->
  (forall t p, m' cs = Ok (Stop t (Some p)) -> suffix p cs) -> (forall x, m' cs <> Err x) ->
  same_tok D cs (run m (T cs)) (run m' cs).
Proof.
  intros H S X. unfold run, same, same_tok in *. destruct (m' cs) as [[t [p|]|[] ?]|x] eqn:E.
  - rewrite H. cbn [option_map]. specialize (S t p eq_refl). apply suffix_skip in S as (n & Hn & Et).
    unfold at_char. rewrite <- Hn. rewrite Et, app_length. do 3 f_equal. lia.
  - cbn [option_map]. destruct H as [->|(-> & -> & p & ->)]; cbn [option_map]; eauto 6.
  - congruence.
Qed.
(* positions reported on the code point side lie in the text *)
Lemma wp_facts (m' : M Empty_set) cs QS (QC : Empty_set -> bytes -> Prop) :
  wp m' cs QS QC -> (forall t p, QS t (Some p) -> suffix p cs) ->
  (forall t p, m' cs = Ok (Stop t (Some p)) -> suffix p cs) /\ (forall x, m' cs <> Err x).
Proof.
  unfold wp. intros H S. destruct (m' cs) as [[t n|[] ?]|]; [|contradiction].
  split; [intros t' p [= -> ->]; eauto|discriminate].
Qed.

Lemma top_suffix cs t p : top_stop cs t (Some p) -> suffix p cs.
Proof. intros H. apply H. Qed.
Theorem contentTok_sim cs : doms cs -> same_tok true cs (contentTok e (T cs)) (contentTok ce cs).
Proof.
  intros Hd. unfold contentTok. rewrite round_T, round_cp, is_nil_T by auto. destruct (is_nil cs) eqn:E; [left; reflexivity|].
  assert (cs <> []) by (destruct cs; [discriminate E|congruence]).
  assert (Hh : has (minbpc ce) cs = true) by (destruct cs; [congruence|reflexivity]).
  destruct (wp_facts _ _ _ _ (contentScan_safe ce (cp_enc_ok k) cs (all_true cs) Hh) (top_suffix cs)).
  apply same_run; auto. apply same_sim. apply sim_contentScan; auto.
Qed.
Theorem cdataSectionTok_sim cs : doms cs -> same_tok false cs (cdataSectionTok e (T cs)) (cdataSectionTok ce cs).
Proof.
  intros Hd. unfold cdataSectionTok. rewrite round_T, round_cp, is_nil_T by auto. destruct (is_nil cs) eqn:E; [left; reflexivity|].
  assert (cs <> []) by (destruct cs; [discriminate E|congruence]).
  assert (Hh : has (minbpc ce) cs = true) by (destruct cs; [congruence|reflexivity]).
  destruct (wp_facts _ _ _ _ (cdataSectionScan_safe ce (cp_enc_ok k) cs (all_true cs) Hh) (top_suffix cs)).
  apply same_run; auto. apply same_sim. apply sim_cdataScan; auto.
Qed.
Theorem prologTok_sim cs : (forall c, dom c = true -> (128 <= c)%N -> is_xml_char c = true) -> doms cs ->
  same_tok false cs (prologTok e (T cs)) (prologTok ce cs).
Proof.
  intros Hx Hd. unfold prologTok. rewrite round_T, round_cp, is_nil_T by auto. destruct (is_nil cs) eqn:E; [left; reflexivity|].
  assert (cs <> []) by (destruct cs; [discriminate E|congruence]).
  assert (Hh : has (minbpc ce) cs = true) by (destruct cs; [congruence|reflexivity]).
  destruct (wp_facts _ _ _ _ (prologScan_safe ce (cp_enc_ok k) cs (all_true cs) Hh) (top_suffix cs)).
  apply same_run; auto. apply same_sim. apply sim_prologScan; auto.
Qed.
Theorem ignoreSectionTok_sim cs : doms cs -> same_tok false cs (ignoreSectionTok e (T cs)) (ignoreSectionTok ce cs).
Proof.
  intros Hd. unfold ignoreSectionTok. rewrite round_T, round_cp by auto.
  destruct (wp_facts _ _ _ _ (ignoreScan_safe ce (cp_enc_ok k) cs (all_true cs)) (top_suffix cs)).
  apply same_run; auto. apply same_sim. apply sim_ignoreScan; auto.
Qed.
Lemma whole_cp cs : Forall (fun c => lead_len (ty k c) = None) cs -> whole_chars ce cs.
Proof.
  induction 1 as [|c r Hc Hr IH]; [apply wc_end; reflexivity|].
  eapply wc_one; [reflexivity|exact Hc|reflexivity|exact IH].
Qed.
Lemma doms_plain cs : doms cs -> Forall (fun c => lead_len (ty k c) = None) cs.
Proof.
  intros Hd. eapply Forall_impl; [|exact Hd]. intros c Hc. cbn beta in Hc.
  destruct (head_type _ _ _ _ CS c [] Hc) as (t & _ & R). remember (ty k c) as t'.
  destruct R as [t Hn Ht Hl Hm|t c0 r0 Hcs Hc0 Hw Hl Ht Hi Hnm Hns]; [exact Hl|apply wide_lead_none].
Qed.
Theorem attributeValueTok_sim cs : doms cs -> same_tok false cs (attributeValueTok e (T cs)) (attributeValueTok ce cs).
Proof.
  intros Hd. unfold attributeValueTok. rewrite is_nil_T by auto. destruct (is_nil cs) eqn:E; [left; reflexivity|].
  rewrite (has1 _ _ _ _ CS) by auto. destruct (has_chars ce 1 cs) eqn:Hh; [|left; reflexivity]. cbn [negb].
  assert (W : wp (@attributeValue_run ce Empty_set (S (length cs)) true) cs (top_stop cs) (fun _ _ => False)).
  { apply (attributeValue_run_ok ce (cp_enc_ok k)); auto using suffix_refl, all_true; [discriminate|].
    apply whole_cp, doms_plain; auto. }
  destruct (wp_facts _ _ _ _ W (top_suffix cs)).
  assert (G := same_attributeValue Empty_set Empty_set (S (length cs)) (S (length (T cs))) true cs (T_fuel _ Hd) Hd).
  exact (same_run false (attributeValue_run e (S (length (T cs))) true) (attributeValue_run ce (S (length cs)) true) cs G H H0).
Qed.
Theorem entityValueTok_sim cs : doms cs -> same_tok false cs (entityValueTok e (T cs)) (entityValueTok ce cs).
Proof.
  intros Hd. unfold entityValueTok. rewrite is_nil_T by auto. destruct (is_nil cs) eqn:E; [left; reflexivity|].
  rewrite (has1 _ _ _ _ CS) by auto. destruct (has_chars ce 1 cs) eqn:Hh; [|left; reflexivity]. cbn [negb].
  assert (W : wp (@entityValue_run ce Empty_set (S (length cs)) true) cs (top_stop cs) (fun _ _ => False)).
  { apply (entityValue_run_ok ce (cp_enc_ok k)); auto using suffix_refl, all_true; [discriminate|].
    apply whole_cp, doms_plain; auto. }
  destruct (wp_facts _ _ _ _ W (top_suffix cs)).
  assert (G := same_entityValue Empty_set Empty_set (S (length cs)) (S (length (T cs))) true cs (T_fuel _ Hd) Hd).
  exact (same_run false (entityValue_run e (S (length (T cs))) true) (entityValue_run ce (S (length cs)) true) cs G H H0).
Qed.
End Top.
