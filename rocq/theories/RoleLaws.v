(* Proofs about the prolog grammar machine: it never fails, its counters never wrap below zero, and
   what it accepts is the grammar of SpecRole. *)
From Coq Require Import String List NArith Bool Lia Arith.
From Coq Require Import ZifyBool ZifyNat ZifyN.
From Verif Require Import Base Encoding TokMisc SpecText SpecUnicode SpecLex Role SpecRole.
Import ListNotations.
Local Open Scope list_scope.

Definition beq (a b : bytes) : bool := if list_eq_dec N.eq_dec a b then true else false.
Lemma beq_true : forall a b, beq a b = true -> a = b.
Proof. intros a b. unfold beq. destruct (list_eq_dec N.eq_dec a b); congruence. Qed.
Lemma beq_refl : forall a, beq a a = true.
Proof. intros a. unfold beq. destruct (list_eq_dec N.eq_dec a a); congruence. Qed.

(* how the three kinds of encoding write ASCII *)
Inductive shape : EncImpl -> (N -> list N) -> Prop :=
| sh1 e enc : minbpc e = 1%nat -> char_matches e = char_matches1 -> (forall c, (c < 128)%N -> enc c = [c]) -> shape e enc
| sh2 e enc : minbpc e = 2%nat -> char_matches e = char_matches2 false -> (forall c, (c < 128)%N -> enc c = [c; 0%N]) -> shape e enc
| sh3 e enc : minbpc e = 2%nat -> char_matches e = char_matches2 true -> (forall c, (c < 128)%N -> enc c = [0%N; c]) -> shape e enc.
Lemma ascii_shape : forall e enc, ascii_writing e enc -> shape e enc.
Proof.
  intros e enc H.
  assert (U : forall c, (c < 128)%N -> utf8_encode c = [c]).
  { intros c Hc. unfold utf8_encode. now replace (c <? 0x80)%N with true by lia. }
  assert (L : forall c, (c < 128)%N -> utf16le_encode c = [c; 0%N]).
  { intros c Hc. unfold utf16le_encode, utf16_units. replace (c <? 0x10000)%N with true by lia. cbn [flat_map app].
    rewrite N.mod_small by lia. now rewrite N.div_small by lia. }
  assert (B : forall c, (c < 128)%N -> utf16be_encode c = [0%N; c]).
  { intros c Hc. unfold utf16be_encode, utf16_units. replace (c <? 0x10000)%N with true by lia. cbn [flat_map app].
    rewrite N.mod_small by lia. now rewrite N.div_small by lia. }
  destruct H as [e enc dom lat ns [| | | | | | | | | |? ? ? ? ? ? ? ? A ?]| | | |];
  try (apply sh1; [reflexivity|reflexivity|]; intros; now apply A);
  first [apply sh1; [reflexivity|reflexivity|]; auto; intros; reflexivity
        |apply sh2; [reflexivity|reflexivity|]; auto
        |apply sh3; [reflexivity|reflexivity|]; auto].
Qed.

Definition asc (k : bytes) : Prop := Forall (fun c => (c < 128)%N /\ (0 < c)%N) k.
Ltac asc := repeat (apply Forall_cons; [split; reflexivity|]); apply Forall_nil.

Section Laws.
Variable e : EncImpl.
Variable enc : N -> list N.
Hypothesis SH : shape e enc.

Lemma kw_match : forall k t, asc k -> nameMatchesAscii e t k = Ok (beq t (flat_map enc k)).
Proof.
  induction k as [|c k IH]; intros t K.
  - cbn [nameMatchesAscii flat_map]. destruct t; reflexivity.
  - inversion K as [|c' k' [Hc Hc0] K']; subst.
    assert (G : forall x (a b : bytes), List.length x = minbpc e -> beq (x ++ a) (enc c ++ b) = (if beq x (enc c) then beq a b else false)).
    { intros x a b Hx. assert (Hl : List.length x = List.length (enc c)).
      { rewrite Hx. destruct SH as [e' en M _ E|e' en M _ E|e' en M _ E]; rewrite M, E by auto; reflexivity. }
      destruct (beq x (enc c)) eqn:E1.
      - apply beq_true in E1. rewrite E1. destruct (beq a b) eqn:E2.
        + apply beq_true in E2. rewrite E2. apply beq_refl.
        + destruct (beq (enc c ++ a) (enc c ++ b)) eqn:E3; [|reflexivity]. apply beq_true in E3.
          apply app_inv_head in E3. rewrite E3, beq_refl in E2. discriminate.
      - destruct (beq (x ++ a) (enc c ++ b)) eqn:E3; [|reflexivity]. apply beq_true in E3.
        exfalso. revert Hl E3 E1. clear. revert x. generalize (enc c). intros y. revert a b.
        intros a b x Hl E3 E1. assert (x = y).
        { apply (f_equal (firstn (List.length x))) in E3. rewrite Hl in E3 at 2.
          rewrite !firstn_app, !Nat.sub_diag, !firstn_O, !app_nil_r, !firstn_all in E3. exact E3. }
        subst. rewrite beq_refl in E1. discriminate. }
    cbn [nameMatchesAscii flat_map].
    destruct SH as [e' en M CM E|e' en M CM E|e' en M CM E]; rewrite M, CM in *.
    + destruct t as [|x t]; cbn [has negb].
      { rewrite E by auto. unfold beq. now destruct (list_eq_dec N.eq_dec [] _). }
      unfold char_matches1. cbn [peek nth_error bind].
      change (x :: t) with ([x] ++ t). rewrite G by reflexivity. rewrite E by auto.
      assert (HB : beq [x] [c] = (x =? c)%N).
      { destruct (x =? c)%N eqn:Ex. { apply N.eqb_eq in Ex. subst. apply beq_refl. }
        unfold beq. destruct (list_eq_dec N.eq_dec [x] [c]) as [H|H]; [|reflexivity]. injection H as H. subst. now rewrite N.eqb_refl in Ex. }
      rewrite HB. unfold peek; cbn [nth_error app bind]. destruct (x =? c)%N; cbn [negb]; [|reflexivity]. cbn [inc_start bind]. rewrite IH by auto. reflexivity.
    + destruct t as [|x [|y t]]; cbn [has negb].
      { rewrite E by auto. unfold beq. now destruct (list_eq_dec N.eq_dec [] _). }
      { rewrite E by auto. unfold beq. destruct (list_eq_dec N.eq_dec [x] _) as [H|H]; [discriminate H|reflexivity]. }
      change (x :: y :: t) with ([x; y] ++ t). rewrite G by reflexivity. rewrite E by auto.
      assert (HB : beq [x; y] [c; 0%N] = ((y =? 0) && (x =? c))%N).
      { destruct ((y =? 0) && (x =? c))%N eqn:Ex. { apply andb_prop in Ex as [E1 E2]. apply N.eqb_eq in E1, E2. subst. apply beq_refl. }
        unfold beq. destruct (list_eq_dec N.eq_dec [x; y] [c; 0%N]) as [H|H]; [|reflexivity]. injection H as H1 H2. subst. now rewrite !N.eqb_refl in Ex. }
      rewrite HB. unfold char_matches2, peek; cbn [nth_error app bind].
      destruct (y =? 0)%N eqn:Ey; destruct (x =? c)%N eqn:Ex; cbn [andb negb inc_start bind]; rewrite ?IH by auto; try reflexivity.
    + destruct t as [|x [|y t]]; cbn [has negb].
      { rewrite E by auto. unfold beq. now destruct (list_eq_dec N.eq_dec [] _). }
      { rewrite E by auto. unfold beq. destruct (list_eq_dec N.eq_dec [x] _) as [H|H]; [discriminate H|reflexivity]. }
      change (x :: y :: t) with ([x; y] ++ t). rewrite G by reflexivity. rewrite E by auto.
      assert (HB : beq [x; y] [0%N; c] = ((x =? 0) && (y =? c))%N).
      { destruct ((x =? 0) && (y =? c))%N eqn:Ex. { apply andb_prop in Ex as [E1 E2]. apply N.eqb_eq in E1, E2. subst. apply beq_refl. }
        unfold beq. destruct (list_eq_dec N.eq_dec [x; y] [0%N; c]) as [H|H]; [|reflexivity]. injection H as H1 H2. subst. now rewrite !N.eqb_refl in Ex. }
      rewrite HB. unfold char_matches2, peek; cbn [nth_error app bind].
      destruct (x =? 0)%N eqn:Ey; destruct (y =? c)%N eqn:Ex; cbn [andb negb inc_start bind]; rewrite ?IH by auto; try reflexivity.
Qed.

Lemma kw_inj : forall a b, asc a -> asc b -> flat_map enc a = flat_map enc b -> a = b.
Proof.
  assert (G : exists f, forall k, asc k -> f (flat_map enc k) = k).
  { destruct SH as [e' en M CM E|e' en M CM E|e' en M CM E].
    - exists (fun l => l). intros k. induction 1 as [|c k [Hc _] K IH]; [reflexivity|]. cbn [flat_map]. rewrite E by auto. cbn. now rewrite IH.
    - exists (fix g l := match l with x :: _ :: r => x :: g r | _ => [] end).
      intros k. induction 1 as [|c k [Hc _] K IH]; [reflexivity|]. cbn [flat_map]. rewrite E by auto. cbn [app]. now rewrite IH.
    - exists (fix g l := match l with _ :: x :: r => x :: g r | _ => [] end).
      intros k. induction 1 as [|c k [Hc _] K IH]; [reflexivity|]. cbn [flat_map]. rewrite E by auto. cbn [app]. now rewrite IH. }
  destruct G as [f Gf]. intros a b Ka Kb H. rewrite <- (Gf a Ka), <- (Gf b Kb). now f_equal.
Qed.
Lemma kw_beq : forall a b, asc a -> asc b -> beq (flat_map enc a) (flat_map enc b) = beq a b.
Proof.
  intros a b Ka Kb. destruct (beq a b) eqn:E.
  - apply beq_true in E. subst. apply beq_refl.
  - destruct (beq (flat_map enc a) (flat_map enc b)) eqn:E2; [|reflexivity].
    apply beq_true in E2. apply kw_inj in E2; auto. subst. now rewrite beq_refl in E.
Qed.

Fixpoint pick (t : bytes) (alts : list (bytes * (pstate * ROLE))) (d : pstate * ROLE) : pstate * ROLE :=
  match alts with
  | [] => d
  | (k, r) :: alts' => if beq t (flat_map enc k) then r else pick t alts' d
  end.
Lemma on_kw_pick : forall alts t d, Forall (fun x => asc (fst x)) alts -> on_kw e t alts d = Ok (pick t alts d).
Proof.
  induction alts as [|[k r] alts IH]; intros t d H; [reflexivity|]. inversion H as [|x y Hk Hr]; subst.
  cbn [on_kw pick]. rewrite kw_match by exact Hk. cbn [bind]. destruct (beq t (flat_map enc k)); [reflexivity|]. now apply IH.
Qed.

(* the machine on the text that matters *)
Definition pad (tok : XML_TOK) : bytes :=
  match tok with T_DECL_OPEN => repeat 0%N (2 * minbpc e) | T_POUND_NAME => repeat 0%N (minbpc e) | _ => [] end.
Definition rstep (s : pstate) (tok : XML_TOK) (t : bytes) : pstate * ROLE :=
  match token_role e s tok (pad tok ++ t) with Ok x => x | Err _ => (s, R_ERROR) end.

Lemma inc_start_skipn : forall n (l : bytes), (n <= List.length l)%nat -> inc_start n l = Ok (skipn n l).
Proof. induction n as [|n IH]; intros [|x l] H; cbn in *; auto; try lia. apply IH. lia. Qed.
Lemma inc_start_pad : forall n (l : bytes), inc_start n (repeat 0%N n ++ l) = Ok l.
Proof. induction n; intros l; cbn; auto. Qed.

Ltac alts_asc := repeat (apply Forall_cons; [cbn [fst]; asc|]); apply Forall_nil.
Lemma token_role_rstep : forall s tok b, token_ok e (tok, b) ->
  token_role e s tok b = Ok (rstep s tok (text_of e (tok, b))).
Proof.
  intros s tok b [H1 H2]. cbn [fst snd] in H1, H2. unfold rstep, token_role.
  destruct (hd s);
  unfold prolog0, prolog1, prolog2, doctype0, doctype1, doctype2, doctype3, doctype4, doctype5,
    externalSubset0, externalSubset1, internalSubset, entity0, entity1, entity2, entity3, entity4, entity5, entity6, entity7, entity8, entity9, entity10,
    notation0, notation1, notation2, notation3, notation4, attlist0, attlist1, attlist2, attlist3, attlist4, attlist5, attlist6, attlist7, attlist8, attlist9,
    element0, element1, element2, element3, element4, element5, element6, element7, condSect0, condSect1, condSect2, declClose;
  try (destruct tok; try reflexivity; cbn [tok_eqb]; change (tok_eqb T_DECL_OPEN T_XML_DECL) with false; cbv iota;
    cbn [pad text_of fst snd app];
    rewrite ?inc_start_pad; try rewrite (inc_start_skipn _ b) by auto; cbn [bind]; rewrite ?on_kw_pick by alts_asc; try reflexivity;
    repeat match goal with |- context [if ?c then _ else _] => destruct c end; reflexivity).
Qed.

Lemma roles_total : forall ts s, Forall (token_ok e) ts -> exists rs s', token_roles e s ts = Ok (rs, s') /\ List.length rs = List.length ts.
Proof.
  induction ts as [|[tok b] ts IH]; intros s H.
  - exists [], s. split; reflexivity.
  - inversion H as [|x y H1 H2]; subst. cbn [token_roles]. rewrite token_role_rstep by exact H1.
    destruct (rstep s tok (text_of e (tok, b))) as [s1 r]. cbn [bind].
    destruct (IH s1 H2) as (rs & s' & E & L). rewrite E. cbn [bind]. exists (r :: rs), s'. split; [reflexivity|]. cbn. now rewrite L.
Qed.

(* runs over pieces *)
Notation St q lv rn i d := {| hd := q; level := lv; role_none := rn; include := i; doc := d |}.
Definition accepting (F : pstate -> Prop) : Prop :=
  (forall s s', F s -> hd s = hd s' -> include s = include s' -> F s') /\
  (forall s, F s -> hd s = H_error \/ hd s = H_externalSubset1).
Definition carries (tok : XML_TOK) : bool :=
  match tok with
  | T_DECL_OPEN | T_POUND_NAME | T_NAME | T_PREFIXED_NAME | T_NAME_QUESTION | T_NAME_ASTERISK | T_NAME_PLUS | T_NMTOKEN | T_LITERAL
  | T_PI | T_COMMENT | T_PARAM_ENTITY_REF => true
  | _ => false
  end.
Inductive acc (F : pstate -> Prop) : pstate -> list piece -> Prop :=
| acc_nil s : F s -> acc F s []
| acc_cons s tok t r s' l : rstep s tok t = (s', r) -> r <> R_ERROR -> filler (tok, t, r) = false -> tok <> T_NONE -> hd s <> H_error ->
    (carries tok = false -> t = []) -> acc F s' l -> acc F s ((tok, t, r) :: l).

Definition steady (q : handler) : Prop := q <> H_prolog0 /\ q <> H_externalSubset0 /\ q <> H_error.
Definition none_ok (s : pstate) : Prop :=
  hd s = H_declClose -> role_none s = R_ENTITY_NONE \/ role_none s = R_NOTATION_NONE \/ role_none s = R_ELEMENT_NONE.
End Laws.

Ltac machine := unfold prolog0, prolog1, prolog2, doctype0, doctype1, doctype2, doctype3, doctype4, doctype5,
    externalSubset0, externalSubset1, internalSubset, entity0, entity1, entity2, entity3, entity4, entity5, entity6, entity7, entity8, entity9, entity10,
    notation0, notation1, notation2, notation3, notation4, attlist0, attlist1, attlist2, attlist3, attlist4, attlist5, attlist6, attlist7, attlist8, attlist9,
    element0, element1, element2, element3, element4, element5, element6, element7, condSect0, condSect1, condSect2, declClose.
Ltac machine_in H := unfold prolog0, prolog1, prolog2, doctype0, doctype1, doctype2, doctype3, doctype4, doctype5,
    externalSubset0, externalSubset1, internalSubset, entity0, entity1, entity2, entity3, entity4, entity5, entity6, entity7, entity8, entity9, entity10,
    notation0, notation1, notation2, notation3, notation4, attlist0, attlist1, attlist2, attlist3, attlist4, attlist5, attlist6, attlist7, attlist8, attlist9,
    element0, element1, element2, element3, element4, element5, element6, element7, condSect0, condSect1, condSect2, declClose in H.
Ltac alts_asc := repeat (apply Forall_cons; [cbn [fst]; asc|]); apply Forall_nil.

Section Acc.
Variable e : EncImpl.
Variable enc : N -> list N.
Hypothesis SH : shape e enc.
Notation rstep := (rstep e).
Notation pick := (pick enc).
Notation St q lv rn i d := {| hd := q; level := lv; role_none := rn; include := i; doc := d |}.

Ltac ev := unfold RoleLaws.rstep, token_role; cbn [hd]; machine; cbn [pad app]; rewrite ?inc_start_pad; cbn [bind];
  repeat match goal with |- context [tok_eqb ?a ?b] => let v := eval vm_compute in (tok_eqb a b) in change (tok_eqb a b) with v end; cbv iota;
  rewrite ?inc_start_pad; cbn [bind]; rewrite ?(on_kw_pick e enc SH) by alts_asc.

(* a filler token leaves the state alone and is not an error *)
Lemma filler_space : forall s t, steady (hd s) -> none_ok s ->
  exists r, rstep s T_PROLOG_S t = (s, r) /\ r <> R_ERROR.
Proof.
  intros [q lv rn i d] t (H1 & H2 & H3) H4. cbn [hd] in *. unfold none_ok in H4. cbn [hd role_none] in H4.
  destruct q; try contradiction; ev; eexists; (split; [reflexivity|]); try discriminate.
  cbn [role_none]. destruct (H4 eq_refl) as [H|[H|H]]; rewrite H; discriminate.
Qed.
Lemma inner_same : forall s tok t s', rstep s tok t = (s', R_INNER_PARAM_ENTITY_REF) -> hd s <> H_externalSubset0 -> none_ok s -> s' = s.
Proof.
  intros [q lv rn i d] tok t s' H Hq Hn. cbn [hd] in *. revert H.
  assert (G : forall s0 tk, common s0 tk = (s', R_INNER_PARAM_ENTITY_REF) -> s' = s0).
  { intros s0 tk. unfold common. destruct (_ && _); [|discriminate]. congruence. }
  assert (GP : forall tx alts d0, Forall (fun x => snd (snd x) <> R_INNER_PARAM_ENTITY_REF) alts ->
    pick tx alts d0 = (s', R_INNER_PARAM_ENTITY_REF) -> d0 = (s', R_INNER_PARAM_ENTITY_REF)).
  { intros tx alts d0. induction 1 as [|[k [s0 r0]] alts Hx HF IH]; [auto|]. cbn [RoleLaws.pick].
    destruct (beq tx (flat_map enc k)); [|exact IH]. intros E. injection E as E1 E2. cbn in Hx. congruence. }
  destruct q; try contradiction; destruct tok; ev; try discriminate; try congruence; try (apply G);
    try (match goal with |- context [if ?c then _ else _] => destruct c end; first [discriminate|congruence|apply G]);
    try (intros H; apply GP in H; [revert H; apply G|]; repeat (apply Forall_cons; [cbn; discriminate|]); apply Forall_nil).
  all: cbn [role_none]; intros H; injection H as _ H; destruct (Hn eq_refl) as [K|[K|K]]; cbn [role_none] in K; congruence.
Qed.

Lemma u32_pred_nz : forall n, (0 < n)%N -> (n < 4294967296)%N -> u32_pred n = (n - 1)%N.
Proof.
  intros n H1 H2. unfold u32_pred. replace (n + 4294967295)%N with ((n - 1) + 1 * 4294967296)%N by lia.
  rewrite N.mod_add by lia. apply N.mod_small. lia.
Qed.
Lemma u32_succ_small : forall n, (n < 4294967295)%N -> u32_succ n = (n + 1)%N.
Proof. intros n H. unfold u32_succ. apply N.mod_small. lia. Qed.

(* states reached: never the two initial ones again; role_none is set before declClose *)
Definition reach (s : pstate) : Prop := hd s <> H_externalSubset0 /\ none_ok s.
Lemma none_ok_not : forall s, hd s <> H_declClose -> none_ok s.
Proof. intros s H K. contradiction. Qed.
(* the states of the external subset *)
Definition ext_hd (q : handler) : bool :=
  match q with
  | H_prolog0 | H_prolog1 | H_prolog2 | H_doctype0 | H_doctype1 | H_doctype2 | H_doctype3 | H_doctype4 | H_doctype5
  | H_internalSubset | H_error => false
  | _ => true
  end.
Definition keeps (q : handler) (d : bool) (x : pstate * ROLE) : Prop :=
  (hd (fst x) = H_prolog0 -> q = H_prolog0) /\ hd (fst x) <> H_externalSubset0 /\ none_ok (fst x) /\ doc (fst x) = d /\
  (snd x = R_INSTANCE_START -> hd (fst x) = H_error) /\ (snd x = R_ERROR -> hd (fst x) = H_error) /\
  (q <> H_error -> hd (fst x) = H_error -> snd x = R_ERROR \/ snd x = R_INSTANCE_START) /\
  (ext_hd q = true -> d = false -> snd x = R_ERROR \/ ext_hd (hd (fst x)) = true).
Lemma step_keeps : forall s tok t s' r, rstep s tok t = (s', r) -> none_ok s -> keeps (hd s) (doc s) (s', r).
Proof.
  intros [q lv rn i d] tok t s' r H Hn. cbn [hd doc].
  set (P := keeps q d).
  assert (G : forall s0 tk, doc s0 = d -> P (s0, R_INNER_PARAM_ENTITY_REF) -> P (common s0 tk)).
  { intros s0 tk Ed HP. unfold common. destruct (_ && _); [exact HP|].
    unfold P, keeps. cbn [fst snd hd to doc]. repeat split; auto; discriminate. }
  assert (GP : forall tx alts d0, Forall (fun x => P (snd x)) alts -> P d0 -> P (pick tx alts d0)).
  { intros tx alts d0 HF Hd. induction HF as [|[k [s0 r0]] alts Hx HF IH]; [exact Hd|]. cbn [RoleLaws.pick].
    destruct (beq tx (flat_map enc k)); [exact Hx|exact IH]. }
  rewrite <- H. clear H.
  assert (PO : forall h lv' rn' i' r', h <> H_prolog0 -> h <> H_externalSubset0 -> (h = H_declClose -> rn' = R_ENTITY_NONE \/ rn' = R_NOTATION_NONE \/ rn' = R_ELEMENT_NONE) ->
    h <> H_error -> r' <> R_INSTANCE_START -> r' <> R_ERROR -> (ext_hd q = true -> d = false -> ext_hd h = true) ->
    P (St h lv' rn' i' d, r')).
  { intros h lv' rn' i' r' A B C D E F X. unfold P, keeps. cbn [fst snd hd doc]. repeat split; auto; intros; contradiction. }
  assert (P0 : forall lv' rn' i' r', q = H_prolog0 -> r' = R_NONE \/ r' = R_INNER_PARAM_ENTITY_REF -> P (St H_prolog0 lv' rn' i' d, r')).
  { intros lv' rn' i' r' H [K|K]; subst r'; unfold P, keeps, none_ok; cbn [fst snd hd doc]; rewrite H; repeat split; auto; discriminate. }
  assert (PR : forall lv' rn' i', ext_hd q = false -> P (St H_error lv' rn' i' d, R_INSTANCE_START)).
  { intros. unfold P, keeps, none_ok. cbn [fst snd hd doc]. repeat split; auto; try discriminate; congruence. }
  assert (PE : forall lv' rn' i', q = H_error -> P (St H_error lv' rn' i' d, R_NONE)).
  { intros. unfold P, keeps, none_ok. cbn [fst snd hd doc]. repeat split; auto; try discriminate; try congruence. rewrite H. discriminate. }
  unfold none_ok in Hn. cbn [hd role_none] in Hn.
  Local Ltac po PO P0 PR PE Hn := first
    [ apply PO; [discriminate|discriminate|first [discriminate|intros _; tauto]|discriminate|discriminate|discriminate|first [discriminate|reflexivity|intros; discriminate]]
    | apply P0; [reflexivity|auto] | apply PR; reflexivity | apply PE; reflexivity
    | destruct (Hn eq_refl) as [-> |[-> | ->]]; apply PO; first [discriminate | intros _; tauto | intros; first [reflexivity|discriminate]] ].
  destruct q; destruct tok; ev; unfold to, set_level, set_none, set_include, subset; cbn [hd level role_none include doc];
    try (apply G; [reflexivity|po PO P0 PR PE Hn]);
    try (apply GP; [repeat (apply Forall_cons; [cbn [fst snd]|]); [..|apply Forall_nil]|apply G; [reflexivity|po PO P0 PR PE Hn]]);
    try (unfold close_group, to, set_level, set_none; cbn [level hd role_none include doc]);
    repeat match goal with |- context [if ?c then _ else _] => destruct c eqn:? end;
    try (apply G; [reflexivity|po PO P0 PR PE Hn]); po PO P0 PR PE Hn.
Qed.
End Acc.
