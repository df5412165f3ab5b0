(* Proofs about XmlDecl.v at the level of code points. *)
From Coq Require Import String List NArith ZArith Bool Lia Arith.
From Coq Require Import ZifyBool ZifyNat ZifyN.
From Verif Require Import Base Tables Encoding SpecText SpecUnicode SpecNames SpecLex SpecDecl Tok TokMisc UniLaws UniConv SpecConv Charset CharsetLaws TextEnc CpBase CpMisc CpNames MiscTop XmlDecl.
Import ListNotations.
Local Open Scope N_scope.

Definition ascii_of (cs : list N) : Z := match cs with c :: _ => if c <? 128 then Z.of_N c else (-1)%Z | [] => (-1)%Z end.

Lemma sp_lt c : is_space c = true -> c < 128. Proof. unfold is_space. lia. Qed.
Lemma value_lt c : value_char c = true -> c < 128. Proof. unfold value_char. lia. Qed.
Lemma utf8_len c : c < 128 -> length (utf8 [c]) = 1%nat.
Proof. intros H. unfold utf8. cbn [flat_map]. rewrite utf8_ascii by auto. reflexivity. Qed.
Lemma utf8_len2 c : 128 <= c -> (2 <= length (utf8_encode c))%nat.
Proof. intros H. unfold utf8_encode. replace (c <? 128) with false by lia. destruct (c <? 2048); [cbn; lia|]. destruct (c <? 65536); cbn; lia. Qed.
Lemma utf8_len1 c : (1 <= length (utf8_encode c))%nat.
Proof. destruct (utf8_encode c) eqn:E; [now apply utf8_ne in E|cbn; lia]. Qed.

Lemma isSpace_of cs : isSpace (ascii_of cs) = match cs with c :: _ => is_space c | [] => false end.
Proof. destruct cs as [|c r]; [reflexivity|]. cbn [ascii_of]. unfold isSpace, is_space. destruct (c <? 128) eqn:E; lia. Qed.
Lemma pseudo_char_of c : pseudo_char (if c <? 128 then Z.of_N c else (-1)%Z) = value_char c.
Proof. unfold pseudo_char, value_char. destruct (c <? 128) eqn:E; lia. Qed.
Lemma upto_app (a b : list N) : upto (a ++ b) b = Ok a.
Proof. unfold upto. rewrite app_length. replace (length b <=? length a + length b)%nat with true by lia. f_equal. replace (length a + length b - length b)%nat with (length a + 0)%nat by lia. rewrite firstn_app_2. cbn. now rewrite app_nil_r. Qed.

Section D.
Variables (e : EncImpl) (enc : N -> list N) (dom : N -> bool) (k : cls).
Hypothesis CS : charset e enc dom k.
Hypothesis TR : transfers (utf8Convert e) enc (fun c => dom c = true).
Hypothesis AD : forall c, c < 128 -> dom c = true.
Notation mb := (minbpc e).
Notation F := (flat_map enc).

Lemma toAscii_cp cs : all_in dom cs -> toAscii e (F cs) = Ok (ascii_of cs).
Proof.
  intros Hd. unfold toAscii. destruct (TR cs 1%nat Hd) as (done & left & -> & L & H).
  assert (Hdone : done = [] \/ exists c, done = [c] /\ c < 128).
  { destruct done as [|c [|d done]]; [now left| |].
    - right. exists c. split; auto. destruct (N.lt_ge_cases c 128) as [|Hc]; auto. apply utf8_len2 in Hc. unfold utf8 in L. cbn [flat_map] in L. rewrite app_nil_r in L. lia.
    - exfalso. unfold utf8 in L. cbn [flat_map] in L. rewrite !app_length in L. pose proof (utf8_len1 c). pose proof (utf8_len1 d). lia. }
  destruct Hdone as [-> |(c & -> & Hc)].
  - destruct left as [|c left]; [rewrite H; reflexivity|]. destruct H as [-> H]. cbn [bind utf8 flat_map app ascii_of].
    destruct (c <? 128) eqn:E; auto. cbn [app] in H. rewrite utf8_len in H by lia. lia.
  - assert (exists r rest, utf8Convert e (F ([c] ++ left)) 1 = Ok (r, utf8 [c], rest)) as (r & rest & ->).
    { destruct left; [eauto|]. destruct H as [-> _]. eauto. }
    cbn [bind]. unfold utf8. cbn [flat_map app]. rewrite utf8_ascii by auto. cbn [app ascii_of]. replace (c <? 128) with true by lia. now rewrite sext8_lt.
Qed.

Lemma inc1 c r : c < 128 -> inc_start mb (F (c :: r)) = Ok (F r).
Proof. intros Hc. cbn [flat_map]. apply inc_app. now apply (ch_narrow_len _ _ _ _ CS). Qed.
Lemma doms a b : all_in dom (a ++ b) <-> all_in dom a /\ all_in dom b. Proof. apply Forall_app. Qed.
Lemma sp_dom sp : spaces sp -> all_in dom sp.
Proof. intros H. eapply Forall_impl; [|exact H]. cbn. intros c Hc. apply AD. now apply sp_lt. Qed.

Lemma skip_spaces_eq sp : forall b f, spaces sp -> stops is_space b -> all_in dom b -> (length sp < f)%nat ->
  skip_spaces e f (F (sp ++ b)) = Ok (F b, ascii_of b).
Proof.
  induction sp as [|c sp IH]; intros b f Hs St Hb Hf; destruct f as [|f]; cbn [length] in Hf; try lia; cbn [skip_spaces app].
  - rewrite toAscii_cp by auto. cbn [bind]. rewrite isSpace_of. destruct b as [|x b]; auto. cbn in St. now rewrite St.
  - inversion Hs as [|? ? Hc Hs']; subst. assert (Hd : all_in dom (c :: sp ++ b)) by (constructor; [apply AD, sp_lt; auto|]; apply doms; split; auto; now apply sp_dom).
    rewrite toAscii_cp by auto. cbn [bind]. rewrite isSpace_of, Hc. rewrite inc1 by now apply sp_lt. cbn [bind]. apply IH; auto. lia.
Qed.
Lemma skip_spaces1_eq sp : forall c b f, c < 128 -> spaces sp -> stops is_space b -> all_in dom b -> (length sp < f)%nat ->
  skip_spaces1 e f (F (c :: sp ++ b)) = Ok (F b, ascii_of b).
Proof.
  induction sp as [|d sp IH]; intros c b f Hc Hs St Hb Hf; destruct f as [|f]; cbn [length] in Hf; try lia; cbn [skip_spaces1 app]; rewrite inc1 by auto; cbn [bind].
  - rewrite toAscii_cp by auto. cbn [bind]. rewrite isSpace_of. destruct b as [|x b]; auto. cbn in St. now rewrite St.
  - inversion Hs as [|? ? Hd Hs']; subst. rewrite toAscii_cp by (constructor; [apply AD, sp_lt; auto|]; apply doms; split; auto; now apply sp_dom).
    cbn [bind]. rewrite isSpace_of, Hd. apply IH; auto; [now apply sp_lt|lia].
Qed.

Definition pname_char (c : N) : bool := (c <? 128) && negb (c =? 61) && negb (is_space c).
Lemma pn_dom nm : all_in pname_char nm -> all_in dom nm.
Proof. intros H. eapply Forall_impl; [|exact H]. cbn. intros c Hc. apply AD. unfold pname_char in Hc. lia. Qed.
Lemma F_len cs : all_in dom cs -> (length cs <= length (F cs))%nat.
Proof. intros H. eapply flat_len; eauto. Qed.

(* the name loop *)
Lemma pseudo_name_eq nm : forall b f, all_in pname_char nm -> all_in dom b -> (length nm < f)%nat ->
  (stops (fun c => c <? 128) b -> pseudo_name e f (F (nm ++ b)) = Ok (inl (F b))) /\
  (forall r, b = 61 :: r -> pseudo_name e f (F (nm ++ b)) = Ok (inr (F b, F b))) /\
  (forall sp r, b = sp ++ r -> sp <> [] -> spaces sp -> stops is_space r ->
     pseudo_name e f (F (nm ++ b)) = if (ascii_of r =? 61)%Z then Ok (inr (F b, F r)) else Ok (inl (F r))).
Proof.
  induction nm as [|c nm IH]; intros b f Hn Hb Hf; destruct f as [|f]; cbn [length] in Hf; try lia; cbn [pseudo_name app].
  - rewrite toAscii_cp by auto. cbn [bind]. split; [|split].
    + intros St. destruct b as [|x b]; [reflexivity|]. cbn in St. cbn [ascii_of]. now rewrite St.
    + intros r ->. reflexivity.
    + intros sp r -> Hne Hs St. destruct sp as [|s sp]; [congruence|]. inversion Hs as [|? ? Hc Hs']; subst. pose proof (sp_lt _ Hc).
      cbn [app ascii_of] in *. replace (s <? 128) with true by lia. replace (Z.of_N s =? -1)%Z with false by lia.
      replace (Z.of_N s =? 61)%Z with false by (unfold is_space in Hc; lia). replace (isSpace (Z.of_N s)) with true by (unfold isSpace, is_space in *; lia).
      assert (Dr : all_in dom r) by (inversion Hb as [|? ? _ Hb']; subst; now apply doms in Hb').
      rewrite skip_spaces1_eq; auto.
      * cbn [bind]. destruct (ascii_of r =? 61)%Z; reflexivity.
      * pose proof (F_len (s :: sp ++ r) Hb) as L. cbn [length] in L. rewrite app_length in L. lia.
  - inversion Hn as [|? ? Hc Hn']; subst. unfold pname_char in Hc. assert (c < 128) by lia.
    assert (Dc : all_in dom (c :: nm ++ b)) by (constructor; [now apply AD|]; apply doms; split; auto; now apply pn_dom).
    rewrite toAscii_cp by auto. cbn [bind ascii_of]. replace (c <? 128) with true by lia. replace (Z.of_N c =? -1)%Z with false by lia.
    replace (Z.of_N c =? 61)%Z with false by lia. replace (isSpace (Z.of_N c)) with false by (unfold isSpace, is_space in *; lia).
    rewrite inc1 by auto. cbn [bind]. apply IH; auto. lia.
Qed.

Lemma val_dom nm : all_in value_char nm -> all_in dom nm.
Proof. intros H. eapply Forall_impl; [|exact H]. cbn. intros c Hc. apply AD. now apply value_lt. Qed.
(* the value loop *)
Lemma pseudo_value_eq q v : q = 34 \/ q = 39 -> forall b f, all_in value_char v -> stops value_char b -> all_in dom b -> (length v < f)%nat ->
  pseudo_value e f (Z.of_N q) (F (v ++ b)) = match b with c :: _ => if c =? q then Ok (inr (F b)) else Ok (inl (F b)) | [] => Ok (inl []) end.
Proof.
  intros Hq. induction v as [|c v IH]; intros b f Hv St Hb Hf; destruct f as [|f]; cbn [length] in Hf; try lia; cbn [pseudo_value app].
  - rewrite toAscii_cp by auto. cbn [bind]. destruct b as [|c b].
    + cbn [ascii_of]. replace (-1 =? Z.of_N q)%Z with false by lia. reflexivity.
    + cbn [ascii_of]. rewrite pseudo_char_of. cbn in St. rewrite St. cbn [negb]. destruct (c <? 128) eqn:E.
      * replace (Z.of_N c =? Z.of_N q)%Z with (c =? q) by lia. destruct (c =? q); reflexivity.
      * replace (-1 =? Z.of_N q)%Z with false by lia. replace (c =? q) with false by lia. reflexivity.
  - inversion Hv as [|? ? Hc Hv']; subst. pose proof (value_lt _ Hc).
    assert (Dc : all_in dom (c :: v ++ b)) by (constructor; [now apply AD|]; apply doms; split; auto; now apply val_dom).
    rewrite toAscii_cp by auto. cbn [bind ascii_of]. rewrite pseudo_char_of, Hc. replace (c <? 128) with true by lia.
    replace (Z.of_N c =? Z.of_N q)%Z with false by (unfold value_char in Hc; lia). cbn [negb]. rewrite inc1 by auto. cbn [bind]. apply IH; auto. lia.
Qed.

Lemma F_app a b : F (a ++ b) = F a ++ F b. Proof. apply flat_map_app. Qed.

(* a pseudo attribute with a name of any characters that can stand in it *)
Definition pseudo_any (a : att_src) : Prop :=
  as_space a <> [] /\ spaces (as_space a) /\ as_name a <> [] /\ all_in pname_char (as_name a) /\ spaces (as_eq1 a) /\ spaces (as_eq2 a) /\
  (as_quote a = 34 \/ as_quote a = 39) /\ all_in value_char (as_value a).

Definition span_sp (l : list N) : exists a b, l = a ++ b /\ spaces a /\ stops is_space b.
Proof.
  induction l as [|c l (a & b & -> & Ha & Hb)]; [exists [], []; repeat split; constructor|].
  destruct (is_space c) eqn:E; [exists (c :: a), b; repeat split; auto; constructor; auto|exists [], (c :: a ++ b); repeat split; auto; constructor].
Qed.
Lemma span_any (f : N -> bool) (l : list N) : exists a b, l = a ++ b /\ all_in f a /\ stops f b.
Proof.
  induction l as [|c l (a & b & -> & Ha & Hb)]; [exists [], []; repeat split; constructor|].
  destruct (f c) eqn:E; [exists (c :: a), b; repeat split; auto; constructor; auto|exists [], (c :: a ++ b); repeat split; auto; constructor].
Qed.


Lemma F_nil_len (a b : list N) : a <> [] -> all_in dom (a ++ b) -> Nat.eqb (length (F b)) (length (F (a ++ b))) = false.
Proof.
  intros Ha Hd. destruct a as [|c a]; [congruence|]. inversion Hd as [|? ? Hc _]; subst. cbn [app flat_map]. rewrite F_app, !app_length.
  pose proof (enc_pos _ _ _ _ CS c Hc). apply Nat.eqb_neq. lia.
Qed.
Lemma F_ne b : all_in dom b -> b <> [] -> exists x r, F b = x :: r.
Proof.
  intros Hd Hb. destruct b as [|c b]; [congruence|]. inversion Hd as [|? ? Hc _]; subst. pose proof (enc_pos _ _ _ _ CS c Hc).
  cbn [flat_map]. destruct (enc c) as [|x r]; [cbn in *; lia|]. cbn. eauto.
Qed.

(* what follows the "=" *)
Definition after_eq (b name eq : bytes) : res pseudo_res :=
  let* v := inc_start mb eq in
  let* (v, c) := skip_spaces e (S (length v)) v in
  if negb (c =? 34)%Z && negb (c =? 39)%Z then Ok (PA_bad v)
  else
    let* val := inc_start mb v in
    let* r := pseudo_value e (S (length val)) c val in
    match r with
    | inl p => Ok (PA_bad p)
    | inr q => let* next := inc_start mb q in Ok (PA_att b name val next)
    end.
Lemma after_eq_full b name s2 q v next : all_in dom (61 :: s2 ++ [q] ++ v ++ [q] ++ next) -> spaces s2 -> q = 34 \/ q = 39 -> all_in value_char v ->
  after_eq b name (F (61 :: s2 ++ [q] ++ v ++ [q] ++ next)) = Ok (PA_att b name (F (v ++ [q] ++ next)) (F next)).
Proof.
  intros Hd Hs Hq Hv. unfold after_eq. rewrite inc1 by lia. cbn [bind].
  inversion Hd as [|? ? _ Hd']; subst. apply doms in Hd' as [_ Hd']. assert (q < 128) by lia.
  rewrite skip_spaces_eq; auto.
  - cbn [bind app ascii_of]. replace (q <? 128) with true by lia.
    replace (negb (Z.of_N q =? 34)%Z && negb (Z.of_N q =? 39)%Z) with false by lia. rewrite inc1 by auto. cbn [bind].
    inversion Hd' as [|? ? _ Hd2]; subst. apply doms in Hd2 as [Dv Hd2].
    rewrite pseudo_value_eq; auto.
    + cbn [app]. rewrite N.eqb_refl. cbn [bind]. rewrite inc1 by auto. reflexivity.
    + cbn. unfold value_char. lia.
    + rewrite F_app, app_length. pose proof (F_len v Dv). lia.
  - cbn. unfold is_space. lia.
  - rewrite F_app, app_length. pose proof (F_len s2 (sp_dom _ Hs)). lia.
Qed.
Lemma after_eq_cases b name r : all_in dom (61 :: r) ->
  (exists pre p, r = pre ++ p /\ after_eq b name (F (61 :: r)) = Ok (PA_bad (F p))) \/
  (exists s2 q v next, r = s2 ++ [q] ++ v ++ [q] ++ next /\ spaces s2 /\ (q = 34 \/ q = 39) /\ all_in value_char v).
Proof.
  intros Hd. destruct (span_sp r) as (s2 & b3 & -> & Hs & St). inversion Hd as [|? ? _ Hd']; subst. apply doms in Hd' as [Ds Hd'].
  assert (E0 : after_eq b name (F (61 :: s2 ++ b3)) =
    if negb (ascii_of b3 =? 34)%Z && negb (ascii_of b3 =? 39)%Z then Ok (PA_bad (F b3))
    else let* val := inc_start mb (F b3) in let* r := pseudo_value e (S (length val)) (ascii_of b3) val in
      match r with inl p => Ok (PA_bad p) | inr q => let* next := inc_start mb q in Ok (PA_att b name val next) end).
  { unfold after_eq. rewrite inc1 by lia. cbn [bind]. rewrite skip_spaces_eq; auto. rewrite F_app, app_length. pose proof (F_len s2 Ds). lia. }
  destruct b3 as [|q b3].
  { left. exists (s2 ++ []), []. split; [now rewrite !app_nil_r|rewrite E0; reflexivity]. }
  cbn [ascii_of] in E0. destruct ((q =? 34) || (q =? 39)) eqn:Hq.
  2:{ left. exists s2, (q :: b3). split; auto. rewrite E0. destruct (q <? 128) eqn:E; [|reflexivity].
      now replace (negb (Z.of_N q =? 34)%Z && negb (Z.of_N q =? 39)%Z) with true by lia. }
  assert (q < 128) by lia. replace (q <? 128) with true in E0 by lia.
  replace (negb (Z.of_N q =? 34)%Z && negb (Z.of_N q =? 39)%Z) with false in E0 by lia. rewrite inc1 in E0 by auto. cbn [bind] in E0.
  destruct (span_any value_char b3) as (v & b4 & -> & Hv & Sv). inversion Hd' as [|? ? _ Hd2]; subst. apply doms in Hd2 as [Dv Hd2].
  rewrite pseudo_value_eq in E0; auto; [|lia|rewrite F_app, app_length; pose proof (F_len v Dv); lia].
  destruct b4 as [|x b4].
  { left. exists (s2 ++ q :: v ++ []), []. split; [now rewrite !app_nil_r|rewrite E0; reflexivity]. }
  destruct (x =? q) eqn:Ex.
  - right. exists s2, q, v, b4. assert (x = q) by lia. subst x. repeat split; auto. lia.
  - left. exists (s2 ++ q :: v), (x :: b4). rewrite <- app_assoc. split; [reflexivity|]. rewrite E0. reflexivity.
Qed.

Lemma parse_unfold sp b1 : spaces sp -> sp <> [] -> stops is_space b1 -> b1 <> [] -> all_in dom b1 ->
  parsePseudoAttribute e (F (sp ++ b1)) =
  let* r := pseudo_name e (S (length (F b1))) (F b1) in
  match r with
  | inl p => Ok (PA_bad p)
  | inr (name_end, eq) =>
      let* name := upto (F b1) name_end in
      if Nat.eqb (length eq) (length (F b1)) then Ok (PA_bad eq) else after_eq (F b1) name eq
  end.
Proof.
  intros Hs Hne St Hb Hd. unfold parsePseudoAttribute.
  assert (D : all_in dom (sp ++ b1)) by (apply doms; split; auto; now apply sp_dom).
  destruct (F_ne (sp ++ b1)) as (x & r & E); auto. { destruct sp; [congruence|discriminate]. }
  rewrite E at 1. rewrite toAscii_cp by auto. cbn [bind]. rewrite isSpace_of.
  destruct sp as [|s sp]; [congruence|]. inversion Hs as [|? ? Hc Hs']; subst. cbn [app]. rewrite Hc. cbn [negb].
  rewrite skip_spaces1_eq; auto; [|now apply sp_lt|].
  - cbn [bind]. destruct (F_ne b1) as (y & r2 & E2); auto. rewrite E2 at 1. reflexivity.
  - pose proof (F_len _ D) as L. cbn [app length] in L. rewrite app_length in L. cbn [app flat_map] in L |- *. lia.
Qed.

Lemma pseudo_complete a next : all_in dom (att_text a ++ next) -> pseudo_any a ->
  parsePseudoAttribute e (F (att_text a ++ next)) =
  Ok (PA_att (F (skipn (length (as_space a)) (att_text a ++ next))) (F (as_name a)) (F (as_value a ++ [as_quote a] ++ next)) (F next)).
Proof.
  intros Hd (Hne & Hs & Hn & Hpn & H1 & H2 & Hq & Hv).
  set (r := as_eq2 a ++ [as_quote a] ++ as_value a ++ [as_quote a] ++ next).
  assert (E : att_text a ++ next = as_space a ++ as_name a ++ as_eq1 a ++ 61 :: r).
  { unfold att_text, r. repeat first [rewrite <- app_assoc | progress cbn [app]]. reflexivity. }
  rewrite E in *. clear E. pose proof Hd as D0. apply doms in Hd as [Ds Hd]. pose proof Hd as D1. apply doms in Hd as [Dn Hd]. pose proof Hd as D2. apply doms in Hd as [De Hd].
  replace (skipn (length (as_space a)) (as_space a ++ as_name a ++ as_eq1 a ++ 61 :: r)) with (as_name a ++ as_eq1 a ++ 61 :: r).
  2:{ rewrite skipn_app, skipn_all, Nat.sub_diag. reflexivity. }
  assert (St : stops is_space (as_name a ++ as_eq1 a ++ 61 :: r)).
  { destruct (as_name a) as [|c n]; [congruence|]. cbn. inversion Hpn; subst. match goal with H : pname_char _ = true |- _ => unfold pname_char in H end. destruct (is_space c); [lia|reflexivity]. }
  rewrite parse_unfold; auto. 2:{ destruct (as_name a); [congruence|discriminate]. }
  set (b1 := as_name a ++ as_eq1 a ++ 61 :: r) in *.
  assert (EN : pseudo_name e (S (length (F b1))) (F b1) = Ok (inr (F (as_eq1 a ++ 61 :: r), F (61 :: r)))).
  { destruct (pseudo_name_eq (as_name a) (as_eq1 a ++ 61 :: r) (S (length (F b1)))) as (_ & N2 & N3); auto.
    { unfold b1. rewrite F_app, app_length. pose proof (F_len _ Dn). lia. }
    destruct (list_eq_dec N.eq_dec (as_eq1 a) []) as [Eq|Eq].
    - fold b1 in N2. rewrite N2 with (r := r); rewrite Eq; reflexivity.
    - fold b1 in N3. exact (N3 (as_eq1 a) (61 :: r) eq_refl Eq H1 eq_refl). }
  rewrite EN. cbn [bind]. unfold b1 at 1. rewrite F_app, upto_app. cbn [bind].
  replace (F b1) with (F ((as_name a ++ as_eq1 a) ++ 61 :: r)) at 1 by (unfold b1; now rewrite <- app_assoc).
  rewrite F_nil_len; [|destruct (as_name a); [congruence|discriminate]|rewrite <- app_assoc; exact D1].
  unfold r. rewrite after_eq_full; auto.
Qed.
Lemma pseudo_spaces cs : spaces cs -> parsePseudoAttribute e (F cs) = Ok PA_end.
Proof.
  intros Hs. destruct cs as [|c cs]; [reflexivity|]. pose proof (sp_dom _ Hs) as D. unfold parsePseudoAttribute.
  destruct (F_ne (c :: cs)) as (x & r & E); auto; [discriminate|]. rewrite E at 1. rewrite toAscii_cp by auto. cbn [bind]. rewrite isSpace_of.
  inversion Hs as [|? ? Hc Hs']; subst. rewrite Hc. cbn [negb].
  replace (c :: cs) with (c :: cs ++ []) at 2 by now rewrite app_nil_r.
  rewrite skip_spaces1_eq; auto; [now apply sp_lt|constructor|constructor|].
  pose proof (F_len _ D) as L. cbn [length] in L. lia.
Qed.
(* every case of parsePseudoAttribute *)
Lemma pseudo_cases cs : all_in dom cs ->
  (spaces cs /\ parsePseudoAttribute e (F cs) = Ok PA_end) \/
  (exists a next, cs = att_text a ++ next /\ pseudo_any a /\
     parsePseudoAttribute e (F cs) = Ok (PA_att (F (skipn (length (as_space a)) cs)) (F (as_name a)) (F (as_value a ++ [as_quote a] ++ next)) (F next))) \/
  (exists pre p, cs = pre ++ p /\ parsePseudoAttribute e (F cs) = Ok (PA_bad (F p))).
Proof.
  intros Hd. destruct (span_sp cs) as (sp & b1 & -> & Hs & St). apply doms in Hd as [Ds Hd].
  destruct b1 as [|x b1]. { left. rewrite app_nil_r. split; auto. now apply pseudo_spaces. }
  destruct sp as [|s sp].
  { right. right. exists [], (x :: b1). split; auto. cbn [app]. unfold parsePseudoAttribute. destruct (F_ne (x :: b1)) as (y & r & E); auto; [discriminate|].
    rewrite E at 1. rewrite toAscii_cp by auto. cbn [bind]. rewrite isSpace_of. cbn in St. now rewrite St. }
  assert (P := parse_unfold (s :: sp) (x :: b1) Hs ltac:(discriminate) St ltac:(discriminate) Hd).
  set (sp0 := s :: sp) in *. assert (Hsp0 : sp0 <> []) by discriminate. clearbody sp0. clear s sp.
  destruct (span_any pname_char (x :: b1)) as (nm & b2 & E1 & Hn & Sn). rewrite E1 in *. clear E1 x b1.
  pose proof Hd as D1. apply doms in Hd as [Dn Hd].
  destruct (pseudo_name_eq nm b2 (S (length (F (nm ++ b2))))) as (N1 & N2 & N3); auto.
  { rewrite F_app, app_length. pose proof (F_len _ Dn). lia. }
  destruct b2 as [|c b2].
  { right. right. exists (sp0 ++ nm ++ []), []. split; [now rewrite !app_nil_r|]. rewrite P, (N1 I). reflexivity. }
  cbn in Sn. unfold pname_char in Sn. destruct (c <? 128) eqn:C1.
  2:{ right. right. exists (sp0 ++ nm), (c :: b2). rewrite <- app_assoc. split; auto. rewrite P, (N1 C1). reflexivity. }
  assert (K : forall s1 r, c :: b2 = s1 ++ 61 :: r -> spaces s1 -> nm <> [] -> pseudo_name e (S (length (F (nm ++ c :: b2)))) (F (nm ++ c :: b2)) = Ok (inr (F (c :: b2), F (61 :: r))) ->
    (exists a next, sp0 ++ nm ++ c :: b2 = att_text a ++ next /\ pseudo_any a) \/
    (exists pre p, sp0 ++ nm ++ c :: b2 = pre ++ p /\ parsePseudoAttribute e (F (sp0 ++ nm ++ c :: b2)) = Ok (PA_bad (F p)))).
  { intros s1 r E Hs1 Hnm Hp. rewrite Hp in P. cbn [bind] in P. assert (U : upto (F (nm ++ c :: b2)) (F (c :: b2)) = Ok (F nm)) by (rewrite F_app; apply upto_app). rewrite U in P. cbn [bind] in P. clear U Hp N1 N2 N3.
    rewrite E in *. assert (U : Nat.eqb (length (F (61 :: r))) (length (F (nm ++ s1 ++ 61 :: r))) = false); [rewrite (app_assoc nm s1); apply F_nil_len; [destruct nm; [congruence|discriminate]|rewrite <- app_assoc; exact D1]|rewrite U in P].
    apply doms in Hd as [_ Hd]. destruct (after_eq_cases (F (nm ++ s1 ++ 61 :: r)) (F nm) r Hd) as [(pre & p & -> & H)|(s2 & q & v & next & -> & ? & ? & ?)].
    - right. exists (sp0 ++ nm ++ s1 ++ 61 :: pre), p. rewrite P, H. split; auto. repeat first [rewrite <- app_assoc | progress cbn [app]]. reflexivity.
    - left. exists {| as_space := sp0; as_name := nm; as_eq1 := s1; as_eq2 := s2; as_quote := q; as_value := v |}, next. split.
      + unfold att_text. cbn. repeat first [rewrite <- app_assoc | progress cbn [app]]. reflexivity.
      + repeat split; cbn; auto. }
  assert (K2 : (exists a next, sp0 ++ nm ++ c :: b2 = att_text a ++ next /\ pseudo_any a) \/
    (exists pre p, sp0 ++ nm ++ c :: b2 = pre ++ p /\ parsePseudoAttribute e (F (sp0 ++ nm ++ c :: b2)) = Ok (PA_bad (F p)))).
  { destruct (c =? 61) eqn:C2.
    - assert (c = 61) by lia. subst c. destruct nm as [|n0 nm].
      + right. exists sp0, (61 :: b2). split; auto. rewrite P, (N2 _ eq_refl). cbn [bind app]. 
        replace (upto (F (61 :: b2)) (F (61 :: b2))) with (Ok (@nil N)) by (symmetry; apply (upto_app [])). cbn [bind]. rewrite Nat.eqb_refl. reflexivity.
      + exact (K [] b2 eq_refl (Forall_nil _) ltac:(discriminate) (N2 b2 eq_refl)).
    - assert (Hc : is_space c = true) by (destruct (is_space c); auto; discriminate).
      destruct (span_sp (c :: b2)) as (s1 & r & E & Hs1 & Sr). assert (s1 <> []).
      { intros ->. cbn in E. subst r. cbn in Sr. congruence. }
      specialize (N3 s1 r E H Hs1 Sr). assert (Hnm : nm <> []). { intros ->. cbn in St. congruence. }
      destruct r as [|y r].
      + right. exists (sp0 ++ nm ++ c :: b2), []. rewrite app_nil_r. split; auto. rewrite P, N3. reflexivity.
      + cbn [ascii_of] in N3. destruct (y =? 61) eqn:Ey.
        * assert (y = 61) by lia. subst y. exact (K s1 r E Hs1 Hnm N3).
        * right. exists (sp0 ++ nm ++ s1), (y :: r). rewrite E, <- !app_assoc. split; auto. rewrite <- E, P, N3. destruct (y <? 128); [|reflexivity].
          replace (Z.of_N y =? 61)%Z with false by lia. reflexivity. }
  destruct K2 as [(a & next & E & Ha)|K2]; [|right; right; exact K2]. right. left. exists a, next. split; auto. split; auto. rewrite E. apply pseudo_complete; auto.
  rewrite <- E. apply doms. split; auto.
Qed.
End D.
