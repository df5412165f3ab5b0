(* Tags and references over code points. *)
From Coq Require Import String List NArith ZArith Bool Lia Arith.
From Coq Require Import ZifyBool ZifyNat ZifyN.
From Verif Require Import Base Encoding SpecText SpecUnicode SpecNames SpecLex EncLaws Tok TokWp TokSafe Charset Sim SimTop TextEnc CpBase CpComment.
Import ListNotations.
Local Open Scope N_scope.

Section Cp.
Variables (lat ns : bool) (dom : N -> bool) (k : cls).
Hypothesis ST : std lat ns dom k.
Notation ce := (cp_enc k).
Notation doms := (all_in dom).

Notation take_name := (take_name lat ns).
Notation name_char := (name_char lat ns).
Notation start_char := (start_char lat ns).

Definition stop {B} t p : res (outc B) := Ok (Stop t (Some p)).
Definition partial {B} : res (outc B) := Ok (Stop T_PARTIAL None).

(* a class of type tests *)
Lemma is_t c t x : dom c = true -> type_char t = Some x -> ty k c = t -> c = x.
Proof. intros Hd Ht. apply (type_char_iff _ _ _ _ ST c t x Hd Ht). Qed.
Lemma t_is c t x : dom c = true -> type_char t = Some x -> c = x -> ty k c = t.
Proof. intros Hd Ht. apply (type_char_iff _ _ _ _ ST c t x Hd Ht). Qed.
Lemma sp_t c : dom c = true -> sp_type (ty k c) = is_space c. Proof. apply (sp_iff _ _ _ _ ST). Qed.

(* characters that are neither in a name nor beyond ASCII *)
Lemma plain_not_name c : name_char c = false -> bt_eqb (ty k c) BT_NONASCII = false -> True. Proof. auto. Qed.

(* ---- references ---- *)
Lemma semi_iff {A} c (x y : A) : dom c = true -> match ty k c with BT_SEMI => x | _ => y end = if c =? 59 then x else y.
Proof. intros Hd. rewrite <- (ty_eqb _ _ _ _ ST c BT_SEMI 59 Hd eq_refl). destruct (ty k c); reflexivity. Qed.
Lemma num_iff {A} c (x y : A) : dom c = true -> match ty k c with BT_NUM => x | _ => y end = if c =? 35 then x else y.
Proof. intros Hd. rewrite <- (ty_eqb _ _ _ _ ST c BT_NUM 35 Hd eq_refl). destruct (ty k c); reflexivity. Qed.
Lemma digit_t c : dom c = true -> bt_eqb (ty k c) BT_DIGIT = is_digit c.
Proof.
  intros Hd. pose proof (type_set _ _ _ _ ST BT_DIGIT c Hd ltac:(auto)) as H. unfold in_type in H. unfold is_digit.
  unfold bt_eqb. destruct (ByteType_eq_dec (ty k c) BT_DIGIT) as [E|E]; [symmetry; tauto|].
  destruct ((48 <=? c) && (c <=? 57)); auto. tauto.
Qed.
Lemma hex_t c : dom c = true -> bt_eqb (ty k c) BT_HEX = ((65 <=? c) && (c <=? 70)) || ((97 <=? c) && (c <=? 102)).
Proof.
  intros Hd. pose proof (type_set _ _ _ _ ST BT_HEX c Hd ltac:(auto)) as H. unfold in_type in H.
  unfold bt_eqb. destruct (ByteType_eq_dec (ty k c) BT_HEX) as [E|E]; [symmetry; tauto|].
  destruct (((65 <=? c) && (c <=? 70)) || ((97 <=? c) && (c <=? 102))); auto. tauto.
Qed.
Lemma digit_iff {A} c (x y z : A) : dom c = true ->
  match ty k c with BT_DIGIT => x | BT_SEMI => y | _ => z end = if is_digit c then x else if c =? 59 then y else z.
Proof.
  intros Hd. rewrite <- (ty_eqb _ _ _ _ ST c BT_SEMI 59 Hd eq_refl), <- (digit_t c Hd). destruct (ty k c); reflexivity.
Qed.
Lemma hexd_iff {A} c (x y z : A) : dom c = true ->
  match ty k c with BT_DIGIT | BT_HEX => x | BT_SEMI => y | _ => z end = if is_hex c then x else if c =? 59 then y else z.
Proof.
  intros Hd. rewrite <- (ty_eqb _ _ _ _ ST c BT_SEMI 59 Hd eq_refl). unfold is_hex.
  rewrite <- orb_assoc, <- (digit_t c Hd), <- (hex_t c Hd). destruct (ty k c); reflexivity.
Qed.

Fixpoint digits_fn {B} (f : N -> bool) (cs : list N) : res (outc B) :=
  match cs with
  | [] => partial
  | c :: r => if f c then digits_fn f r else if c =? 59 then stop T_CHAR_REF r else stop T_INVALID cs
  end.
Definition charref_fn {B} (cs : list N) : res (outc B) :=
  match cs with
  | [] => partial
  | c :: r =>
      if c =? 120 then
        match r with
        | [] => partial
        | d :: r' => if is_hex d then digits_fn is_hex r' else stop T_INVALID r
        end
      else if is_digit c then digits_fn is_digit r else stop T_INVALID cs
  end.
Definition ref_fn {B} (cs : list N) : res (outc B) :=
  match cs with
  | [] => partial
  | c :: r =>
      if start_char c then
        match snd (take_name r) with
        | [] => partial
        | d :: q => if d =? 59 then stop T_ENTITY_REF q else stop T_INVALID (d :: q)
        end
      else if c =? 35 then charref_fn r else stop T_INVALID cs
  end.
(* an outcome without a continuation, at another result type *)
Definition then_ {A B} (r : res (outc A)) (f : A -> M B) : res (outc B) :=
  match r with Ok (Cont a b) => f a b | Ok (Stop t n) => Ok (Stop t n) | Err x => Err x end.
Lemma digits_cast {A B} g cs (f : A -> M B) : then_ (digits_fn g cs) f = digits_fn g cs.
Proof. induction cs as [|c r IH]; cbn [digits_fn]; [reflexivity|]. destruct (g c); auto. destruct (c =? 59); reflexivity. Qed.
Lemma charref_cast {A B} cs (f : A -> M B) : then_ (charref_fn cs) f = charref_fn cs.
Proof.
  unfold charref_fn. destruct cs as [|c r]; [reflexivity|]. destruct (c =? 120).
  - destruct r as [|d r]; [reflexivity|]. destruct (is_hex d); [apply digits_cast|reflexivity].
  - destruct (is_digit c); [apply digits_cast|reflexivity].
Qed.
Lemma hash_not_wide c : dom c = true -> (c =? 35) = true -> bt_eqb (ty k c) BT_NONASCII = false.
Proof. intros Hd E. rewrite (t_is c BT_NUM 35 Hd eq_refl) by lia. reflexivity. Qed.

Lemma scanCharRef_eq B cs : doms cs -> @scanCharRef ce B cs = charref_fn cs.
Proof.
  intros Hd. unfold scanCharRef, charref_fn. destruct cs as [|c r]; [reflexivity|]. inversion Hd; subst. cps.
  destruct (c =? 120).
  - cps. unfold scanHexCharRef. destruct r as [|d r]; [reflexivity|]. inversion H2; subst. cps.
    transitivity ((if is_hex d then (adv1 ce ;; while_partial ce (t <- bt ce ;; match t with BT_DIGIT | BT_HEX => adv1 ce
        | BT_SEMI => stop_after ce T_CHAR_REF | _ => stop_here T_INVALID end))%scan (d :: r) else stop T_INVALID (d :: r)) : res (outc B)).
    { unfold is_hex. rewrite <- orb_assoc, <- (digit_t d H3), <- (hex_t d H3). destruct (ty k d); reflexivity. }
    destruct (is_hex d); [|reflexivity]. cps. clear - ST H4. unfold while_partial.
    induction r as [|c r IH]; [reflexivity|]. inversion H4; subst. rewrite while_eq. 2:{ clear. prog k. }
    cps. cbn [digits_fn]. rewrite hexd_iff by auto. destruct (is_hex c); [cps; auto|]. destruct (c =? 59); reflexivity.
  - cps. transitivity ((if is_digit c then (adv1 ce ;; while_partial ce (t <- bt ce ;; match t with BT_DIGIT => adv1 ce
        | BT_SEMI => stop_after ce T_CHAR_REF | _ => stop_here T_INVALID end))%scan (c :: r) else stop T_INVALID (c :: r)) : res (outc B)).
    { rewrite <- (digit_t c H1). destruct (ty k c); reflexivity. }
    destruct (is_digit c); [|reflexivity]. cps. clear - ST H2. unfold while_partial.
    induction r as [|c r IH]; [reflexivity|]. inversion H2; subst. rewrite while_eq. 2:{ clear. prog k. }
    cps. cbn [digits_fn]. rewrite digit_iff by auto. destruct (is_digit c); [cps; auto|]. destruct (c =? 59); reflexivity.
Qed.
Lemma semi_not_wide c : dom c = true -> (c =? 59) = true -> bt_eqb (ty k c) BT_NONASCII = false.
Proof. intros Hd E. rewrite (t_is c BT_SEMI 59 Hd eq_refl) by lia. reflexivity. Qed.
Lemma scanRef_eq B cs : doms cs -> @scanRef ce B cs = ref_fn cs.
Proof.
  intros Hd. unfold scanRef, ref_fn. destruct cs as [|c r]; [reflexivity|]. inversion Hd; subst. cps.
  unfold mbind at 1. rewrite (start_iff _ _ _ _ ST) by auto. destruct (start_char c).
  - clear - ST H2. unfold while_partial. induction r as [|c r IH]; [reflexivity|]. inversion H2; subst.
    rewrite while_eq. 2:{ clear. prog k. }
    cps. rewrite (name_iff _ _ _ _ ST) by auto. cbn [CpComment.take_name]. destruct (name_char c) eqn:En.
    + rewrite IH by auto. destruct (take_name r); reflexivity.
    + cbn [snd]. rewrite semi_iff by auto. destruct (c =? 59) eqn:E.
      * rewrite semi_not_wide by auto. reflexivity.
      * destruct (bt_eqb _ _); reflexivity.
  - destruct (c =? 35) eqn:E.
    + rewrite hash_not_wide by auto. rewrite num_iff, E by auto. cps. rewrite scanCharRef_eq by auto.
      apply charref_cast.
    + rewrite num_iff, E by auto. destruct (bt_eqb _ _); reflexivity.
Qed.

(* what the recognisers of references accept *)
Lemma digits_spec {B} f cs p : f 59 = false -> (@digits_fn B f cs = stop T_CHAR_REF p <-> exists d, all_in f d /\ cs = d ++ [59] ++ p).
Proof.
  intros Hf. split.
  - induction cs as [|c r IH]; cbn [digits_fn]; [discriminate|]. destruct (f c) eqn:F.
    + intros H. destruct (IH H) as (d & Hd & ->). exists (c :: d). split; [constructor; auto|reflexivity].
    + destruct (c =? 59) eqn:E; [|discriminate]. intros [= ->]. exists []. apply N.eqb_eq in E. subst. split; [constructor|reflexivity].
  - intros (d & Hd & ->). induction Hd as [|c d Hc Hd IH]; cbn [app digits_fn].
    + rewrite Hf. reflexivity.
    + rewrite Hc. exact IH.
Qed.
Lemma digits_no_entity {B} f cs p : @digits_fn B f cs <> stop T_ENTITY_REF p.
Proof. induction cs as [|c r IH]; cbn [digits_fn]; [discriminate|]. destruct (f c); auto. destruct (c =? 59); discriminate. Qed.
Lemma charref_no_entity {B} cs p : @charref_fn B cs <> stop T_ENTITY_REF p.
Proof.
  unfold charref_fn. destruct cs as [|c r]; [discriminate|]. destruct (c =? 120).
  - destruct r as [|d r]; [discriminate|]. destruct (is_hex d); [apply digits_no_entity|discriminate].
  - destruct (is_digit c); [apply digits_no_entity|discriminate].
Qed.
Lemma take_name_intro' n rest : all_in name_char n ->
  (match rest with [] => True | c :: _ => name_char c = false end) -> take_name (n ++ rest) = (n, rest).
Proof. apply take_name_intro. Qed.
Lemma name_char_ascii c : c = 59 \/ c = 61 \/ c = 62 \/ c = 47 \/ c = 35 \/ c = 38 \/ c = 32 \/ c = 9 \/ c = 13 \/ c = 10 ->
  name_char c = false /\ start_char c = false.
Proof.
  intros H. repeat (destruct H as [->|H]; [destruct lat, ns; split; reflexivity|]). subst. destruct lat, ns; split; reflexivity.
Qed.
Lemma ref_entity {B} cs p : @ref_fn B cs = stop T_ENTITY_REF p <-> exists n, is_name lat ns n /\ cs = n ++ [59] ++ p.
Proof.
  split.
  - destruct cs as [|c r]; [discriminate|]. unfold ref_fn. destruct (start_char c) eqn:Es.
    + pose proof (take_name_app lat ns r) as Ea. pose proof (take_name_all lat ns r) as Eall.
      destruct (take_name r) as [a b]. cbn [fst snd] in *. destruct b as [|d q]; [discriminate|].
      destruct (d =? 59) eqn:E; [|discriminate]. intros [= ->]. apply N.eqb_eq in E. subst.
      exists (c :: a). split; [exists c, a; auto|reflexivity].
    + destruct (c =? 35); [|discriminate]. intros H. now apply charref_no_entity in H.
  - intros (n & (c & r & -> & Hs & Hn) & ->). cbn [app ref_fn]. rewrite Hs. change (59 :: p) with ([59] ++ p).
    rewrite take_name_intro'; [reflexivity|auto|]. apply (name_char_ascii 59); auto.
Qed.
Lemma ref_char {B} cs p : @ref_fn B cs = stop T_CHAR_REF p <->
  (exists d, d <> [] /\ all_in is_digit d /\ cs = [35] ++ d ++ [59] ++ p) \/
  (exists d, d <> [] /\ all_in is_hex d /\ cs = [35; 120] ++ d ++ [59] ++ p).
Proof.
  split.
  - destruct cs as [|c r]; [discriminate|]. unfold ref_fn. destruct (start_char c) eqn:Es.
    { destruct (snd (take_name r)) as [|d q]; [discriminate|]. destruct (d =? 59); discriminate. }
    destruct (c =? 35) eqn:E35; [|discriminate]. apply N.eqb_eq in E35. subst c.
    destruct r as [|c r]; [discriminate|]. cbn [charref_fn]. destruct (c =? 120) eqn:Ex.
    + apply N.eqb_eq in Ex. subst c. destruct r as [|d r]; [discriminate|]. destruct (is_hex d) eqn:Ed; [|discriminate].
      intros H. apply digits_spec in H; [|reflexivity]. destruct H as (h & Hh & ->). right. exists (d :: h).
      split; [discriminate|]. split; [constructor; auto|reflexivity].
    + destruct (is_digit c) eqn:Ed; [|discriminate]. intros H. apply digits_spec in H; [|reflexivity].
      destruct H as (h & Hh & ->). left. exists (c :: h). split; [discriminate|]. split; [constructor; auto|reflexivity].
  - intros [(d & Hn & Hd & ->)|(d & Hn & Hd & ->)]; cbn [app ref_fn]; rewrite (proj2 (name_char_ascii 35 ltac:(auto 10)));
    change (35 =? 35) with true; cbv iota; unfold charref_fn.
    + destruct d as [|c d]; [congruence|]. inversion Hd; subst. cbn [app]. rewrite H1.
      replace (c =? 120) with false by (unfold is_digit in H1; lia). change (59 :: p) with ([59] ++ p).
      apply digits_spec; [reflexivity|]. eauto.
    + change (120 =? 120) with true. destruct d as [|c d]; [congruence|]. inversion Hd; subst. cbn [app]. rewrite H1. change (59 :: p) with ([59] ++ p).
      apply digits_spec; [reflexivity|]. eauto.
Qed.
Lemma digits_toks {B} f cs : (exists p, @digits_fn B f cs = stop T_CHAR_REF p) \/ (exists p, @digits_fn B f cs = stop T_INVALID p) \/ @digits_fn B f cs = partial.
Proof. induction cs as [|c r IH]; cbn [digits_fn]; eauto. destruct (f c); auto. destruct (c =? 59); eauto. Qed.
Lemma ref_toks {B} cs : (exists p, @ref_fn B cs = stop T_ENTITY_REF p) \/ (exists p, @ref_fn B cs = stop T_CHAR_REF p) \/
  (exists p, @ref_fn B cs = stop T_INVALID p) \/ @ref_fn B cs = partial.
Proof.
  destruct cs as [|c r]; cbn [ref_fn]; eauto. destruct (start_char c).
  - destruct (snd (take_name r)) as [|d q]; eauto. destruct (d =? 59); eauto.
  - destruct (c =? 35); eauto. destruct r as [|d r]; cbn [charref_fn]; eauto. destruct (d =? 120).
    + destruct r as [|f r]; eauto. destruct (is_hex f); eauto. destruct (@digits_toks B is_hex r) as [|[|]]; auto.
    + destruct (is_digit d); eauto. destruct (@digits_toks B is_digit r) as [|[|]]; auto.
Qed.

(* ---- white space ---- *)
Fixpoint skip_sp (cs : list N) : list N :=
  match cs with [] => [] | c :: r => if is_space c then skip_sp r else cs end.
Lemma skip_sp_app cs : exists s, cs = s ++ skip_sp cs /\ spaces s.
Proof.
  induction cs as [|c r (s & E & Hs)]; [exists []; split; [reflexivity|constructor]|]. cbn [skip_sp].
  destruct (is_space c) eqn:Ec; [|exists []; split; [reflexivity|constructor]].
  exists (c :: s). split; [cbn; now rewrite <- E|constructor; auto].
Qed.
Lemma skip_sp_stop cs c r : skip_sp cs = c :: r -> is_space c = false.
Proof. induction cs as [|d q IH]; cbn [skip_sp]; [discriminate|]. destruct (is_space d) eqn:E; auto. intros [= <- _]. auto. Qed.
Lemma skip_sp_intro s r : spaces s -> (match r with [] => True | c :: _ => is_space c = false end) -> skip_sp (s ++ r) = r.
Proof.
  intros Hs Hr. induction Hs as [|c s Hc Hs IH]; cbn [app skip_sp].
  - destruct r as [|c r]; [reflexivity|]. cbn [skip_sp]. now rewrite Hr.
  - now rewrite Hc.
Qed.
Lemma skip_sp_doms cs : doms cs -> doms (skip_sp cs).
Proof. intros H. destruct (skip_sp_app cs) as (s & E & _). rewrite E in H. now apply Forall_app in H. Qed.
Lemma skip_sp_len cs : (length (skip_sp cs) <= length cs)%nat.
Proof. destruct (skip_sp_app cs) as (s & E & _). rewrite E at 2. rewrite app_length. lia. Qed.

(* ---- end tags ---- *)
Definition any_name (c : N) : bool := SpecLex.name_char lat false c.
Lemma any_name_iff c : any_name c = name_char c || (ns && (c =? 58)).
Proof.
  unfold any_name, SpecLex.name_char. destruct ns; [|now rewrite orb_false_r]. cbn [negb andb]. rewrite andb_true_r.
  destruct (N.eqb_spec c 58) as [->|]; [destruct lat; reflexivity|]. cbn [negb]. now rewrite andb_true_r, orb_false_r.
Qed.
Lemma colon_t c : dom c = true -> bt_eqb (ty k c) BT_COLON = ns && (c =? 58).
Proof.
  intros Hd. pose proof (type_set _ _ _ _ ST BT_COLON c Hd ltac:(auto)) as H. unfold in_type in H.
  unfold bt_eqb. destruct (ByteType_eq_dec (ty k c) BT_COLON) as [E|E]; [symmetry; tauto|].
  destruct (ns && (c =? 58)); auto. tauto.
Qed.
Fixpoint take_any (cs : list N) : list N * list N :=
  match cs with
  | [] => ([], [])
  | c :: r => if any_name c then let (a, b) := take_any r in (c :: a, b) else ([], cs)
  end.
Lemma take_any_app cs : cs = fst (take_any cs) ++ snd (take_any cs) /\ all_in any_name (fst (take_any cs)).
Proof.
  induction cs as [|c r IH]; [split; [reflexivity|constructor]|]. cbn [take_any]. destruct (any_name c) eqn:E; [|split; [reflexivity|constructor]].
  destruct (take_any r) as [a b]. cbn [fst snd app] in *. split; [f_equal; apply IH|constructor; [auto|apply IH]].
Qed.
Lemma take_any_intro n rest : all_in any_name n ->
  (match rest with [] => True | c :: _ => any_name c = false end) -> take_any (n ++ rest) = (n, rest).
Proof.
  intros Hn Hr. induction Hn as [|c n Hc Hn IH]; cbn [app take_any].
  - destruct rest as [|c r]; [reflexivity|]. cbn [take_any]. now rewrite Hr.
  - now rewrite Hc, IH.
Qed.
Definition etag_fn {B} (cs : list N) : res (outc B) :=
  match cs with
  | [] => partial
  | c :: r =>
      if start_char c then
        match snd (take_any r) with
        | [] => partial
        | d :: q =>
            if d =? 62 then stop T_END_TAG q
            else if is_space d then
              match skip_sp q with
              | [] => partial
              | f :: q' => if f =? 62 then stop T_END_TAG q' else stop T_INVALID (f :: q')
              end
            else stop T_INVALID (d :: q)
        end
      else stop T_INVALID cs
  end.
Lemma gt_t c : dom c = true -> bt_eqb (ty k c) BT_GT = (c =? 62). Proof. intros; now apply (ty_eqb _ _ _ _ ST). Qed.
Lemma sol_t c : dom c = true -> bt_eqb (ty k c) BT_SOL = (c =? 47). Proof. intros; now apply (ty_eqb _ _ _ _ ST). Qed.
Lemma etag_space {B} cs : doms cs ->
  while_partial ce (t <- bt ce ;; match t with BT_S | BT_CR | BT_LF => adv1 ce | BT_GT => stop_after ce T_END_TAG | _ => stop_here T_INVALID end)%scan cs
  = match skip_sp cs with [] => @partial B | f :: q' => if f =? 62 then stop T_END_TAG q' else stop T_INVALID (f :: q') end.
Proof.
  unfold while_partial. induction cs as [|c r IH]; intros Hd; [reflexivity|]. inversion Hd; subst.
  rewrite while_eq. 2:{ clear. prog k. }
  cps. cbn [skip_sp]. rewrite <- sp_t by auto. pose proof (gt_t c H1) as G.
  destruct (ty k c); cbn [sp_type] in *; cps; auto;
    change (bt_eqb BT_GT BT_GT) with true in *;
    first [rewrite <- G; reflexivity].
Qed.
Lemma scanEndTag_eq B cs : doms cs -> @scanEndTag ce B cs = etag_fn cs.
Proof.
  intros Hd. unfold scanEndTag, etag_fn. destruct cs as [|c r]; [reflexivity|]. inversion Hd; subst. cps.
  unfold mbind at 1. rewrite (start_iff _ _ _ _ ST) by auto. destruct (start_char c); [|destruct (bt_eqb _ _); reflexivity].
  clear - ST H2. unfold while_partial at 1. induction r as [|c r IH]; [reflexivity|]. inversion H2; subst.
  rewrite while_eq. 2:{ clear. prog k. }
  cps. rewrite (name_iff _ _ _ _ ST) by auto. cbn [take_any]. rewrite any_name_iff.
  destruct (name_char c) eqn:En; cbn [orb].
  - rewrite IH by auto. destruct (take_any r); reflexivity.
  - rewrite <- colon_t by auto. pose proof (gt_t c H1) as G. pose proof (sp_t c H1) as S1.
    destruct (ty k c) eqn:Et;
      change (bt_eqb BT_COLON BT_COLON) with true in *; change (bt_eqb BT_GT BT_GT) with true in *; cbn [sp_type] in *;
      try (cbv [bt_eqb ByteType_eq_dec ByteType_rec ByteType_rect] in *; cbn [snd]; rewrite <- G, <- S1; reflexivity).
    + cbv [bt_eqb ByteType_eq_dec ByteType_rec ByteType_rect] in *. cbn [snd]. rewrite <- G, <- S1. cps. rewrite etag_space by auto.
      destruct (skip_sp r) as [|f q]; [reflexivity|]. destruct (f =? 62); reflexivity.
    + cbv [bt_eqb ByteType_eq_dec ByteType_rec ByteType_rect] in *. cbn [snd]. rewrite <- G, <- S1. cps. rewrite etag_space by auto.
      destruct (skip_sp r) as [|f q]; [reflexivity|]. destruct (f =? 62); reflexivity.
    + cbv [bt_eqb ByteType_eq_dec ByteType_rec ByteType_rect] in *. cbn [snd]. rewrite <- G. reflexivity.
    + cbv [bt_eqb ByteType_eq_dec ByteType_rec ByteType_rect] in *. cbn [snd]. rewrite <- G, <- S1. cps. rewrite etag_space by auto.
      destruct (skip_sp r) as [|f q]; [reflexivity|]. destruct (f =? 62); reflexivity.
    + cbv [bt_eqb ByteType_eq_dec ByteType_rec ByteType_rect] in *. cps. rewrite IH by auto. destruct (take_any r); reflexivity.
Qed.
Lemma etag_spec {B} cs p : @etag_fn B cs = stop T_END_TAG p <->
  exists c n sp, start_char c = true /\ all_in any_name n /\ spaces sp /\ cs = (c :: n) ++ sp ++ [62] ++ p.
Proof.
  split.
  - destruct cs as [|c r]; [discriminate|]. unfold etag_fn. destruct (start_char c) eqn:Es; [|discriminate].
    destruct (take_any_app r) as [Ea Eall]. destruct (take_any r) as [a b]. cbn [fst snd] in *.
    destruct b as [|d q]; [discriminate|]. destruct (d =? 62) eqn:E.
    + intros [= ->]. apply N.eqb_eq in E. subst. exists c, a, []. repeat split; auto. constructor.
    + destruct (is_space d) eqn:Ed; [|discriminate]. destruct (skip_sp_app q) as (s & Eq & Hs).
      destruct (skip_sp q) as [|f q']; [discriminate|]. destruct (f =? 62) eqn:Ef; [|discriminate]. intros [= ->].
      apply N.eqb_eq in Ef. subst. exists c, a, (d :: s). repeat split; auto. constructor; auto.
  - intros (c & n & sp & Hc & Hn & Hs & ->). cbn [app etag_fn]. rewrite Hc.
    assert (A62 : forall x, x = 62 \/ is_space x = true -> any_name x = false).
    { intros x Hx. unfold is_space in Hx. assert (x = 62 \/ x = 32 \/ x = 9 \/ x = 13 \/ x = 10) as K by lia.
      unfold any_name. destruct K as [->|[->|[->|[->| ->]]]]; destruct lat; reflexivity. }
    rewrite take_any_intro; [|auto|].
    2:{ destruct Hs; cbn [app]; auto. }
    cbn [snd]. destruct sp as [|s sp]; cbn [app].
    + reflexivity.
    + inversion Hs; subst. rewrite H1. replace (s =? 62) with false by (unfold is_space in H1; lia).
      change (62 :: p) with ([62] ++ p). rewrite skip_sp_intro; [reflexivity|auto|reflexivity].
Qed.
End Cp.
