(* The scanners behave on an encoded text as they do on its code points. *)
From Coq Require Import List NArith ZArith Bool Lia Arith.
From Verif Require Import Base Encoding SpecUnicode Tok EncLaws TokWp Charset.
Import ListNotations.

Lemma cp_enc_ok k : enc_okq (fun _ => True) (cp_enc k).
Proof.
  constructor; cbn [cp_enc minbpc byte_type is_name_char is_nmstrt_char is_invalid_char is_name_char_minbpc
    is_nmstrt_char_minbpc char_matches byte_to_ascii].
  - auto.
  - intros [|c b] _ Hh; [discriminate Hh|]. eexists; reflexivity.
  - intros [|c b] t H; [discriminate H|reflexivity].
  - intros [|c b] x t H; [discriminate H|exact H].
  - intros b t n _ H. apply lead_len_cases in H. lia.
  - eauto.
  - auto.
  - eauto.
  - auto.
  - eauto.
  - auto.
  - intros [|c b] _ Hh; [discriminate Hh|]. eexists; reflexivity.
  - intros [|c b] x t H; [discriminate H|exact H].
  - intros [|c b] _ Hh; [discriminate Hh|]. eexists; reflexivity.
  - intros [|c b] x t H; [discriminate H|exact H].
  - intros [|c b] x Hh; [discriminate Hh|]. eexists; reflexivity.
  - intros [|c b] y x t H; [discriminate H|exact H].
  - intros [|c b] Hh; [discriminate Hh|]. eexists; reflexivity.
  - intros [|c b] x t H; [discriminate H|exact H].
Qed.
Lemma all_true (cs : list N) : Forall (fun _ => True) cs.
Proof. induction cs; auto. Qed.

Section Sim.
Variable e : EncImpl.
Variable enc : N -> bytes.
Variable dom : N -> bool.
Variable k : cls.
Hypothesis CS : charset e enc dom k.
Notation ce := (cp_enc k).
Notation T := (flat_map enc).
Definition doms (cs : list N) : Prop := Forall (fun c => dom c = true) cs.

Lemma doms_suffix a b : suffix a b -> doms b -> doms a.
Proof. apply suffix_bytes. Qed.

(* [D]: the encoded side may already see an error where the code point side asks for more input *)
Definition sim {A A'} (D : bool) (m : M A) (m' : M A') (cs : list N) (QC : A -> A' -> list N -> Prop) : Prop :=
  match m' cs with
  | Ok (Stop t (Some p')) => m (T cs) = Ok (Stop t (Some (T p')))
  | Ok (Stop t None) => m (T cs) = Ok (Stop t None) \/
      (D = true /\ t = T_PARTIAL /\ exists p, m (T cs) = Ok (Stop T_INVALID (Some p)))
  | Ok (Cont a' cs') => exists a, m (T cs) = Ok (Cont a (T cs')) /\ suffix cs' cs /\ QC a a' cs'
  | Err _ => True
  end.

Lemma sim_mono {A A'} D (m : M A) (m' : M A') cs (Q1 Q2 : A -> A' -> list N -> Prop) :
  doms cs -> sim D m m' cs Q1 -> (forall a a' cs', doms cs' -> suffix cs' cs -> Q1 a a' cs' -> Q2 a a' cs') -> sim D m m' cs Q2.
Proof.
  intros Hd. unfold sim. destruct (m' cs) as [[t [p|]|a cs']|]; auto.
  intros (x & E & S & Hq) H. exists x. split; [|split]; auto. apply H; auto. eapply doms_suffix; eauto.
Qed.
Lemma sim_weak {A A'} D (m : M A) (m' : M A') cs Q1 : sim false m m' cs Q1 -> sim D m m' cs Q1.
Proof.
  unfold sim. destruct (m' cs) as [[t [p|]|a cs']|]; auto.
  intros [H|[H _]]; [auto|discriminate].
Qed.

Lemma sim_bind {A A' B B'} D (m : M A) (m' : M A') (f : A -> M B) (f' : A' -> M B') cs QC : doms cs ->
  sim D m m' cs (fun a a' cs' => doms cs' -> sim D (f a) (f' a') cs' QC) ->
  sim D (mbind m f) (mbind m' f') cs QC.
Proof.
  intros Hd H. unfold sim, mbind in *. destruct (m' cs) as [[t [p|]|a cs']|]; auto.
  - now rewrite H.
  - destruct H as [->|(-> & -> & p & ->)]; eauto 6.
  - destruct H as (x & -> & S & Hq). specialize (Hq (doms_suffix _ _ S Hd)).
    destruct (f' a cs') as [[t [p|]|b cs'']|]; auto.
    destruct Hq as (y & ? & S2 & ?). exists y. split; [|split]; auto. eapply suffix_trans; eauto.
Qed.
Lemma sim_ret {A A'} D (a : A) (a' : A') cs (QC : _ -> _ -> _ -> Prop) : QC a a' cs -> sim D (ret a) (ret a') cs QC.
Proof. intros H. exists a. split; [reflexivity|]. split; auto using suffix_refl. Qed.
Lemma sim_stop_here {A A'} D t cs QC : sim D (@stop_here A t) (@stop_here A' t) cs QC.
Proof. reflexivity. Qed.

(* the head of the text is one unit long *)
Definition narrow (cs : list N) : Prop := exists c r, cs = c :: r /\ dom c = true /\ length (enc c) = minbpc e.

Lemma enc_len c : dom c = true -> minbpc e <= length (enc c).
Proof. intros H. destruct (ch_whole _ _ _ _ CS c H) as [j ->]. lia. Qed.
Lemma T_len cs : doms cs -> length cs * minbpc e <= length (T cs).
Proof.
  induction 1 as [|c r Hc Hr IH]; cbn [flat_map length]; [lia|].
  rewrite app_length. pose proof (enc_len c Hc). lia.
Qed.
Lemma min_pos : 1 <= minbpc e.
Proof. destruct (ch_min _ _ _ _ CS); lia. Qed.

Lemma has1 cs : doms cs -> has_chars e 1 (T cs) = has_chars ce 1 cs.
Proof.
  intros H. unfold has_chars. cbn [cp_enc minbpc]. rewrite !Nat.mul_1_l. apply eq_iff_eq_true. rewrite !has_length.
  pose proof (T_len _ H). pose proof min_pos. destruct cs; cbn [flat_map length] in *; nia.
Qed.
Lemma has2 cs : doms cs -> narrow cs -> has_chars e 2 (T cs) = has_chars ce 2 cs.
Proof.
  intros H (c & r & -> & Hc & Hl). apply Forall_inv_tail in H. unfold has_chars. cbn [cp_enc minbpc]. apply eq_iff_eq_true.
  rewrite !has_length. cbn [flat_map length]. rewrite app_length.
  pose proof (T_len _ H). pose proof min_pos. destruct r; cbn [flat_map length] in *; nia.
Qed.
Lemma has3 c r : doms (c :: r) -> length (enc c) = minbpc e -> narrow r -> has_chars e 3 (T (c :: r)) = has_chars ce 3 (c :: r).
Proof.
  intros H Hl (d & s & -> & Hd & Hl2). apply Forall_inv_tail in H. apply Forall_inv_tail in H. unfold has_chars.
  cbn [cp_enc minbpc]. apply eq_iff_eq_true.
  rewrite !has_length. cbn [flat_map length]. rewrite !app_length.
  pose proof (T_len _ H). pose proof min_pos. destruct s; cbn [flat_map length] in *; nia.
Qed.

Lemma sim_require D t cs (QC : _ -> _ -> _ -> Prop) : doms cs -> (cs <> [] -> QC tt tt cs) ->
  sim D (require_or e 1 t) (require_or ce 1 t) cs QC.
Proof.
  intros Hd H. unfold sim, require_or. rewrite has1 by auto. destruct cs as [|c r].
  - cbn. auto.
  - change (has_chars ce 1 (c :: r)) with true. cbn iota. exists tt. split; [reflexivity|]. split; [apply suffix_refl|].
    apply H. discriminate.
Qed.
Lemma sim_require_char D cs (QC : _ -> _ -> _ -> Prop) : doms cs -> (cs <> [] -> QC tt tt cs) ->
  sim D (require_char e) (require_char ce) cs QC.
Proof. apply sim_require. Qed.
Lemma sim_require2 D t cs (QC : _ -> _ -> _ -> Prop) : doms cs -> narrow cs -> (tl cs <> [] -> QC tt tt cs) ->
  sim D (require_or e 2 t) (require_or ce 2 t) cs QC.
Proof.
  intros Hd Hn H. unfold sim, require_or. rewrite has2 by auto. destruct cs as [|c [|d r]]; [cbn; auto|cbn; auto|].
  change (has_chars ce 2 (c :: d :: r)) with true. cbn iota. exists tt. split; [reflexivity|]. split; [apply suffix_refl|].
  apply H. discriminate.
Qed.

Lemma inc_app n (a b : bytes) : length a = n -> inc_start n (a ++ b) = Ok b.
Proof. intros H. apply inc_start_spec. eauto. Qed.
Lemma sim_adv1 D cs (QC : _ -> _ -> _ -> Prop) : narrow cs -> QC tt tt (tl cs) ->
  sim D (adv1 e) (adv1 ce) cs QC.
Proof.
  intros (c & r & -> & Hc & Hl) H. unfold sim, adv1, adv. cbn [cp_enc minbpc inc_start bind flat_map tl] in *.
  rewrite inc_app by auto. cbn [bind]. exists tt. split; [reflexivity|]. split; [exists [c]; reflexivity|auto].
Qed.
Lemma sim_stop_after {A A'} D t cs QC : narrow cs -> sim D (@stop_after e A t) (@stop_after ce A' t) cs QC.
Proof.
  intros (c & r & -> & Hc & Hl). unfold sim, stop_after, mbind, adv1, adv. cbn [cp_enc minbpc inc_start bind flat_map].
  rewrite inc_app by auto. reflexivity.
Qed.

Lemma narrow_ascii c r : dom c = true -> (c < 128)%N -> narrow (c :: r).
Proof. intros. exists c, r. split; auto. split; auto. apply (ch_narrow_len _ _ _ _ CS). auto. Qed.

Lemma sim_matches D x cs (QC : _ -> _ -> _ -> Prop) : doms cs -> (x < 128)%N -> cs <> [] ->
  (forall b, (b = true -> narrow cs /\ hd 0%N cs = x) -> QC b b cs) ->
  sim D (matches e x) (matches ce x) cs QC.
Proof.
  intros Hd Hx Hn H. destruct cs as [|c r]; [congruence|]. pose proof (Forall_inv Hd) as Hc. cbn beta in Hc.
  unfold sim, matches. cbn [cp_enc char_matches peek nth_error bind flat_map].
  rewrite (ch_match _ _ _ _ CS) by auto. cbn [bind]. exists (c =? x)%N. split; [reflexivity|]. split; [apply suffix_refl|].
  apply H. intros E. apply N.eqb_eq in E as ->. split; [apply narrow_ascii; auto|reflexivity].
Qed.
Lemma sim_matches_at D x cs (QC : _ -> _ -> _ -> Prop) : doms cs -> (x < 128)%N -> narrow cs -> tl cs <> [] ->
  (forall b, (b = true -> narrow (tl cs)) -> QC b b cs) ->
  sim D (matches_at e 1 x) (matches_at ce 1 x) cs QC.
Proof.
  intros Hd Hx (c & r & -> & Hc & Hl) Hn H. destruct r as [|d r]; [cbn [tl] in Hn; congruence|].
  apply Forall_inv_tail in Hd. pose proof (Forall_inv Hd) as Hc2. cbn beta in Hc2.
  unfold sim, matches_at. cbn [cp_enc minbpc Nat.mul inc_start char_matches peek nth_error bind flat_map].
  rewrite ?Nat.add_0_r. cbn [Nat.add inc_start bind]. rewrite inc_app by auto. cbn [bind]. rewrite (ch_match _ _ _ _ CS) by auto. cbn [bind].
  exists (d =? x)%N. split; [reflexivity|]. split; [apply suffix_refl|].
  apply H. intros E. apply N.eqb_eq in E as ->. cbn [tl]. apply narrow_ascii; auto.
Qed.

(* how the byte types seen on the two sides are related *)
Inductive tyrel (cs : list N) : ByteType -> ByteType -> Prop :=
| tr_same t : narrow cs -> t = ty k (hd 0%N cs) -> lead_len t = None ->
    (t = BT_NONASCII -> is_name_char_minbpc e (T cs) = Ok (nmc k (hd 0%N cs)) /\
                       is_nmstrt_char_minbpc e (T cs) = Ok (nst k (hd 0%N cs))) -> tyrel cs t t
| tr_lead t c r : cs = c :: r -> dom c = true -> (128 <= c)%N -> lead_len t = Some (length (enc c)) ->
    ty k c = wide_type c ->
    is_invalid_char e (T cs) (length (enc c)) = Ok (negb (is_xml_char c)) ->
    is_name_char e (T cs) (length (enc c)) = Ok (nmc k c) ->
    is_nmstrt_char e (T cs) (length (enc c)) = Ok (nst k c) -> tyrel cs t (wide_type c).

Lemma head_type c r : dom c = true -> exists t, byte_type e (enc c ++ T r) = Ok t /\ tyrel (c :: r) t (ty k c).
Proof.
  intros Hc. destruct (N.lt_ge_cases c 128) as [H|H].
  - exists (ty k c). split; [apply (ch_narrow _ _ _ _ CS); auto|].
    destruct (ch_narrow_plain _ _ _ _ CS c H). constructor; auto.
    + apply narrow_ascii; auto.
    + congruence.
  - destruct (ch_wide _ _ _ _ CS c (T r) Hc H) as [t Bt Hl Hi Hnm Hns Hw|Hl Bt Hin Hx Hm].
    + exists t. split; auto. rewrite Hw. econstructor; eauto.
    + exists (ty k c). split; auto. constructor; auto.
      * exists c, r. auto.
      * destruct Hin as [<-|[<-|[<-|[<-|[<-|[]]]]]]; reflexivity.
Qed.
Lemma sim_bt D cs (QC : _ -> _ -> _ -> Prop) : doms cs -> cs <> [] ->
  (forall t t', tyrel cs t t' -> QC t t' cs) -> sim D (bt e) (bt ce) cs QC.
Proof.
  intros Hd Hn H. destruct cs as [|c r]; [congruence|]. pose proof (Forall_inv Hd) as Hc. cbn beta in Hc.
  unfold sim, bt. cbn [cp_enc byte_type peek nth_error bind flat_map].
  destruct (head_type c r Hc) as (t & -> & R). cbn [bind]. exists t. split; [reflexivity|]. split; [apply suffix_refl|auto].
Qed.
Lemma sim_bt_at D cs (QC : _ -> _ -> _ -> Prop) : doms cs -> narrow cs -> tl cs <> [] ->
  (forall t t', tyrel (tl cs) t t' -> QC t t' cs) -> sim D (bt_at e 1) (bt_at ce 1) cs QC.
Proof.
  intros Hd (c & r & -> & Hc & Hl) Hn H. destruct r as [|d r]; [cbn [tl] in Hn; congruence|].
  apply Forall_inv_tail in Hd. pose proof (Forall_inv Hd) as Hc2. cbn beta in Hc2.
  unfold sim, bt_at. cbn [cp_enc minbpc Nat.mul inc_start byte_type peek nth_error bind flat_map].
  rewrite ?Nat.add_0_r. cbn [Nat.add inc_start bind]. rewrite inc_app by auto. cbn [bind]. destruct (head_type d r Hc2) as (t & -> & R). cbn [bind].
  exists t. split; [reflexivity|]. split; [apply suffix_refl|]. apply H. exact R.
Qed.

Lemma has_app n (a b : bytes) : length a = n -> has n (a ++ b) = true.
Proof. intros. apply has_length. rewrite app_length. lia. Qed.
Lemma wide_lead_none c : lead_len (wide_type c) = None.
Proof. unfold wide_type. now destruct (is_xml_char c). Qed.

Lemma narrow_inc cs : narrow cs -> exists c r, cs = c :: r /\ inc_start (minbpc e) (T cs) = Ok (T r).
Proof. intros (c & r & -> & Hc & Hl). exists c, r. split; auto. cbn [flat_map]. apply inc_app; auto. Qed.

Lemma sim_step {A A'} D (a : A) (a' : A') cs (QC : _ -> _ -> _ -> Prop) : narrow cs -> QC a a' (tl cs) ->
  sim D (mbind (adv1 e) (fun _ => ret a)) (mbind (adv1 ce) (fun _ => ret a')) cs QC.
Proof.
  intros (c & r & -> & Hc & Hl) H. unfold sim, mbind, adv1, adv, ret. cbn [cp_enc minbpc inc_start bind flat_map].
  rewrite inc_app by auto. cbn [bind]. exists a. split; [reflexivity|]. split; [exists [c]; reflexivity|auto].
Qed.

Lemma sim_match_invalid {A A'} D t t' (a : A) (a' : A') (o : M A) (o' : M A') cs (QC : A -> A' -> list N -> Prop) : doms cs -> tyrel cs t t' ->
  (cs <> [] -> QC a a' (tl cs)) ->
  (t' = BT_NONASCII -> cs <> [] -> o' cs = Ok (Cont a' (tl cs))) ->
  (t = t' -> lead_len t = None -> narrow cs -> t = ty k (hd 0%N cs) -> sim D o o' cs QC) ->
  sim D (match_invalid e t a o) (match_invalid ce t' a' o') cs QC.
Proof.
  intros Hd R Hk Hs Ho. destruct R as [t Hn Ht Hl _|t c r -> Hc Hw Hl Ht Hi _ _].
  - unfold match_invalid. rewrite Hl. specialize (Ho eq_refl Hl Hn Ht). destruct t; auto; apply sim_stop_here.
  - specialize (Hk ltac:(discriminate)). unfold match_invalid. rewrite Hl, wide_lead_none. cbn [flat_map tl] in *.
    unfold wide_type in *. destruct (is_xml_char c); cbn [negb] in *.
    + unfold sim. rewrite Hs by (auto; discriminate). exists a. split; [|split; [exists [c]; reflexivity|auto]].
      unfold mbind, require_bytes, lift_check, ret, adv. cbn [flat_map]. rewrite has_app by auto.
      rewrite Hi. cbn [bind]. rewrite inc_app by auto. reflexivity.
    + unfold sim. cbn [stop_here]. unfold stop_here, mbind, require_bytes, lift_check. cbn [flat_map].
      rewrite has_app by auto. rewrite Hi. reflexivity.
Qed.
Lemma mbind_lift {A} f (g : bool -> M A) b r : f b = Ok r -> mbind (lift_check f) g b = g r b.
Proof. intros E. unfold mbind, lift_check. rewrite E. reflexivity. Qed.
Definition bad_head (cs : list N) : Prop := exists c r, cs = c :: r /\ dom c = true /\ (128 <= c)%N /\ is_xml_char c = false.
Lemma sim_check_name {A A'} D t t' (a : A) (a' : A') (o : M A) (o' : M A') cs (QC : A -> A' -> list N -> Prop) : doms cs -> tyrel cs t t' ->
  (cs <> [] -> QC a a' (tl cs)) ->
  (t' = BT_NONXML -> bad_head cs -> o' cs = Ok (Stop T_INVALID (Some cs))) ->
  (t = t' -> lead_len t = None -> narrow cs -> t = ty k (hd 0%N cs) -> sim D o o' cs QC) ->
  sim D (check_name e t a o) (check_name ce t' a' o') cs QC.
Proof.
  intros Hd R Hk Hs Ho. destruct R as [t Hn Ht Hl Hm|t c r -> Hc Hw Hl Ht _ Hnm _].
  - specialize (Ho eq_refl Hl Hn Ht). unfold check_name. rewrite Hl.
    assert (G : sim D (mbind (adv1 e) (fun _ => ret a)) (mbind (adv1 ce) (fun _ => ret a')) cs QC).
    { apply sim_step; auto. apply Hk. destruct Hn as (? & ? & -> & _). discriminate. }
    clear Hs. destruct t; auto.
    destruct (Hm eq_refl) as [Hm1 _]. clear Hm. destruct Hn as (c & r & -> & _). cbn [hd] in *.
    unfold sim in G |- *. rewrite (mbind_lift _ _ _ _ Hm1).
    rewrite (mbind_lift (is_name_char_minbpc ce) _ (c :: r) (nmc k c)) by reflexivity.
    destruct (nmc k c); [exact G|reflexivity].
  - specialize (Hk ltac:(discriminate)). unfold check_name. rewrite Hl, wide_lead_none. cbn [flat_map tl] in *.
    unfold wide_type in *. destruct (is_xml_char c) eqn:W.
    + unfold sim, mbind, require_bytes, lift_check, ret, adv, adv1.
      cbn [cp_enc is_name_char_minbpc peek nth_error bind minbpc]. destruct (nmc k c) eqn:En.
      * cbn [inc_start bind]. exists a. split; [|split; [exists [c]; reflexivity|auto]].
        cbn [flat_map]. rewrite has_app by auto. rewrite Hnm. cbn [bind]. rewrite inc_app by auto. reflexivity.
      * cbn [flat_map stop_here]. rewrite has_app by auto. rewrite Hnm. reflexivity.
    + unfold sim. rewrite Hs; [|auto|exists c, r; auto].
      unfold mbind, require_bytes, lift_check, ret, adv. cbn [flat_map]. rewrite has_app by auto.
      rewrite Hnm. cbn [bind]. destruct (nmc k c) eqn:En; [|reflexivity].
      apply (ch_names _ _ _ _ CS) in En. congruence.
Qed.
Lemma sim_check_nmstrt {A A'} D t t' (a : A) (a' : A') (o : M A) (o' : M A') cs (QC : A -> A' -> list N -> Prop) : doms cs -> tyrel cs t t' ->
  (cs <> [] -> QC a a' (tl cs)) ->
  (t' = BT_NONXML -> bad_head cs -> o' cs = Ok (Stop T_INVALID (Some cs))) ->
  (t = t' -> lead_len t = None -> narrow cs -> t = ty k (hd 0%N cs) -> sim D o o' cs QC) ->
  sim D (check_nmstrt e t a o) (check_nmstrt ce t' a' o') cs QC.
Proof.
  intros Hd R Hk Hs Ho. destruct R as [t Hn Ht Hl Hm|t c r -> Hc Hw Hl Ht _ _ Hnm].
  - specialize (Ho eq_refl Hl Hn Ht). unfold check_nmstrt. rewrite Hl.
    assert (G : sim D (mbind (adv1 e) (fun _ => ret a)) (mbind (adv1 ce) (fun _ => ret a')) cs QC).
    { apply sim_step; auto. apply Hk. destruct Hn as (? & ? & -> & _). discriminate. }
    clear Hs. destruct t; auto.
    destruct (Hm eq_refl) as [_ Hm1]. clear Hm. destruct Hn as (c & r & -> & _). cbn [hd] in *.
    unfold sim in G |- *. rewrite (mbind_lift _ _ _ _ Hm1).
    rewrite (mbind_lift (is_nmstrt_char_minbpc ce) _ (c :: r) (nst k c)) by reflexivity.
    destruct (nst k c); [exact G|reflexivity].
  - specialize (Hk ltac:(discriminate)). unfold check_nmstrt. rewrite Hl, wide_lead_none. cbn [flat_map tl] in *.
    unfold wide_type in *. destruct (is_xml_char c) eqn:W.
    + unfold sim, mbind, require_bytes, lift_check, ret, adv, adv1.
      cbn [cp_enc is_nmstrt_char_minbpc peek nth_error bind minbpc]. destruct (nst k c) eqn:En.
      * cbn [inc_start bind]. exists a. split; [|split; [exists [c]; reflexivity|auto]].
        cbn [flat_map]. rewrite has_app by auto. rewrite Hnm. cbn [bind]. rewrite inc_app by auto. reflexivity.
      * cbn [flat_map stop_here]. rewrite has_app by auto. rewrite Hnm. reflexivity.
    + unfold sim. rewrite Hs; [|auto|exists c, r; auto].
      unfold mbind, require_bytes, lift_check, ret, adv. cbn [flat_map]. rewrite has_app by auto.
      rewrite Hnm. cbn [bind]. destruct (nst k c) eqn:En; [|reflexivity].
      apply (ch_starts _ _ _ _ CS) in En. congruence.
Qed.

(* loops *)
Lemma sim_loop {S B B'} D (body : S -> M (S + B)) (body' : S -> M (S + B')) (I : S -> list N -> Prop) (QC : B -> B' -> list N -> Prop) :
  (forall s cs, doms cs -> I s cs -> sim D (body s) (body' s) cs (fun r r' cs' =>
     match r, r' with
     | inl s1, inl s1' => s1 = s1' /\ I s1 cs'
     | inr b, inr b' => QC b b' cs'
     | _, _ => False
     end)) ->
  forall f' f s cs, f' <= f -> doms cs -> I s cs -> sim D (loop f body s) (loop f' body' s) cs QC.
Proof.
  intros Hb. induction f' as [|f' IH]; intros f s cs Hf Hd Hi; [exact Logic.I|].
  destruct f as [|f]; [lia|]. specialize (Hb s cs Hd Hi). unfold sim in Hb |- *. cbn [loop].
  destruct (body' s cs) as [[t [p|]|[s1'|b'] cs']|]; auto.
  - now rewrite Hb.
  - destruct Hb as [->|(? & ? & p & ->)]; eauto 6.
  - destruct Hb as ([s1|b] & -> & Sx & H); [|contradiction]. destruct H as [-> H].
    specialize (IH f s1' cs' ltac:(lia) (doms_suffix _ _ Sx Hd) H). unfold sim in IH.
    destruct (loop f' body' s1' cs') as [[t [p|]|b'' cs'']|]; auto.
    destruct IH as (y & ? & ? & ?). exists y. split; [|split]; auto. eapply suffix_trans; eauto.
  - destruct Hb as ([s1|b] & -> & Sx & H); [contradiction|]. eauto.
Qed.
Lemma sim_loopb {S B B'} D (body : S -> M (S + B)) (body' : S -> M (S + B')) (I : S -> list N -> Prop) (QC : B -> B' -> list N -> Prop) s cs :
  (forall s cs, doms cs -> I s cs -> sim D (body s) (body' s) cs (fun r r' cs' =>
     match r, r' with
     | inl s1, inl s1' => s1 = s1' /\ I s1 cs'
     | inr b, inr b' => QC b b' cs'
     | _, _ => False
     end)) ->
  doms cs -> I s cs -> sim D (loopb body s) (loopb body' s) cs QC.
Proof.
  intros Hb Hd Hi. unfold sim, loopb.
  apply (sim_loop D body body' I QC Hb (Datatypes.S (length cs)) (Datatypes.S (length (T cs))) s cs); auto.
  pose proof (T_len _ Hd). pose proof min_pos. nia.
Qed.
Lemma sim_while {S B B'} D (body : S -> M S) (body' : S -> M S) fin (I : S -> list N -> Prop) (QC : B -> B' -> list N -> Prop) s cs :
  (forall s cs, doms cs -> cs <> [] -> I s cs -> sim D (body s) (body' s) cs (fun r r' cs' => r = r' /\ I r cs')) ->
  doms cs -> I s cs -> sim D (@while_ e S B body fin s) (@while_ ce S B' body' fin s) cs QC.
Proof.
  intros Hb Hd Hi.
  assert (G : forall f' f s cs, f' <= f -> doms cs -> I s cs ->
    sim D (@while_fuel e S B f body fin s) (@while_fuel ce S B' f' body' fin s) cs QC).
  { clear s cs Hd Hi. induction f' as [|f' IH]; intros f s cs Hf Hd Hi.
    - unfold sim. cbn [while_fuel]. destruct (has_chars ce 1 cs) eqn:Hh; [exact Logic.I|].
      destruct f; cbn [while_fuel]; rewrite has1, Hh by auto; destruct (fin s); cbn [bind]; auto.
    - destruct f as [|f]; [lia|]. unfold sim. cbn [while_fuel]. rewrite has1 by auto.
      destruct (has_chars ce 1 cs) eqn:Hh; [|destruct (fin s); cbn [bind]; auto].
      assert (cs <> []) as Hn by (destruct cs; [discriminate Hh|congruence]).
      specialize (Hb s cs Hd Hn Hi). unfold sim in Hb.
      destruct (body' s cs) as [[t [p|]|s1' cs']|]; auto.
      + now rewrite Hb.
      + destruct Hb as [->|(? & ? & p & ->)]; eauto 6.
      + destruct Hb as (s1 & -> & Sx & -> & H).
        specialize (IH f s1' cs' ltac:(lia) (doms_suffix _ _ Sx Hd) H). unfold sim in IH.
        destruct (while_fuel ce f' body' fin s1' cs') as [[t [p|]|b'' cs'']|]; auto.
        destruct IH as (y & ? & ? & ?). exists y. split; [|split]; auto. eapply suffix_trans; eauto. }
  unfold sim, while_. apply G; auto. pose proof (T_len _ Hd). pose proof min_pos. nia.
Qed.

Lemma T_app a b : T (a ++ b) = T a ++ T b.
Proof. apply flat_map_app. Qed.
Lemma sim_capture {A A'} D (m : M A) (m' : M A') cs (QC : _ -> _ -> _ -> Prop) :
  sim D m m' cs (fun a a' cs' => forall pre, cs = pre ++ cs' -> QC (a, T pre) (a', pre) cs') ->
  sim D (capture m) (capture m') cs QC.
Proof.
  unfold sim, capture. destruct (m' cs) as [[t [p|]|a' cs']|]; auto.
  - now intros ->.
  - intros [->|(? & ? & p & ->)]; eauto 6.
  - intros (a & -> & [pre ->] & H). specialize (H pre eq_refl). exists (a, T pre). split; [|split].
    + rewrite T_app, app_length. replace (length (T pre) + length (T cs') - length (T cs')) with (length (T pre) + 0) by lia.
      rewrite firstn_app_2. cbn [firstn]. now rewrite app_nil_r.
    + exists pre; auto.
    + rewrite app_length. replace (length pre + length cs' - length cs') with (length pre + 0) by lia.
      rewrite firstn_app_2. cbn [firstn]. now rewrite app_nil_r.
Qed.
End Sim.
