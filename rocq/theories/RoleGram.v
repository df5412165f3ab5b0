(* The runs of the prolog machine are the sentences of the grammar in SpecRole. *)
From Coq Require Import String List NArith Bool Lia Arith.
From Coq Require Import ZifyBool ZifyNat ZifyN.
From Verif Require Import Base Encoding TokMisc SpecText SpecUnicode SpecLex Role SpecRole RoleLaws.
Import ListNotations.
Local Open Scope list_scope.

Section Gram.
Variable e : EncImpl.
Variable enc : N -> list N.
Hypothesis SH : shape e enc.
Variable F : pstate -> Prop.
Hypothesis FA : accepting F.
Notation rstep := (rstep e).
Notation pick := (pick enc).
Notation acc := (acc e F).
Notation St q lv rn i d := {| hd := q; level := lv; role_none := rn; include := i; doc := d |}.
Notation kw := (kw enc).
Notation sub d := (if d : bool then H_internalSubset else H_externalSubset1).

Ltac ev := unfold RoleLaws.rstep, token_role; cbn [hd]; machine; cbn [pad app]; rewrite ?inc_start_pad; cbn [bind];
  repeat match goal with |- context [tok_eqb ?a ?b] => let v := eval vm_compute in (tok_eqb a b) in change (tok_eqb a b) with v end; cbv iota;
  rewrite ?inc_start_pad; cbn [bind]; rewrite ?(on_kw_pick e enc SH) by alts_asc;
  unfold to, set_level, set_none, set_include, subset; cbn [hd level role_none include doc].

Lemma common_no : forall s tok t s' r, common s tok = (s', r) -> r <> R_ERROR -> filler (tok, t, r) = false -> False.
Proof.
  intros s tok t s' r H Hr Hf. unfold common in H. destruct (_ && _); injection H as _ H; subst; [|contradiction].
  unfold filler, role_of in Hf. cbn [snd] in Hf. now rewrite orb_true_r in Hf.
Qed.
Lemma not_final : forall q lv rn i d, F (St q lv rn i d) -> q = H_error \/ q = H_externalSubset1.
Proof. intros q lv rn i d H. apply FA in H. exact H. Qed.

Ltac kwcase Hs E := cbn [RoleLaws.pick] in Hs;
  match type of Hs with
  | (if beq ?t ?k then _ else _) = _ => destruct (beq t k) eqn:E; [apply beq_true in E; injection Hs as <- <-; subst t | clear E; kwcase Hs E]
  | _ => idtac
  end.
(* one step of an accepting run: the cases that remain are those of the grammar *)
Ltac peel H tok t l' Hacc :=
  let HF := fresh in let r := fresh "r" in let s' := fresh "s" in let Hs := fresh in let Hr := fresh in let Hf := fresh in
  let Ht := fresh in let Hh := fresh in let Hc := fresh in let E := fresh in
  inversion H as [?|? tok t r s' l' Hs Hr Hf Ht Hh Hc Hacc]; subst; clear H;
  [exfalso; match goal with K : F _ |- _ => apply not_final in K; destruct K; discriminate end|];
  revert Hs; destruct tok; try (exfalso; apply Ht; reflexivity); try discriminate Hf; ev;
  (let H1 := fresh in intros H1;
   first [ exfalso; exact (common_no _ _ _ _ _ H1 Hr Hf)
         | injection H1 as <- <-
         | kwcase H1 E; try (exfalso; exact (common_no _ _ _ _ _ H1 Hr Hf)) ]);
  try (specialize (Hc eq_refl); subst t); clear Hr Hf Ht Hh; try clear Hc.

(* element content *)
Lemma decl_close_inv : forall lv rn i d l, acc (St H_declClose lv rn i d) l ->
  exists l', l = punct T_DECL_CLOSE rn :: l' /\ acc (St (sub d) lv rn i d) l'.
Proof.
  intros lv rn i d l H. peel H tok t l' Hacc. exists l'. split; [reflexivity|]. destruct d; exact Hacc.
Qed.

Definition close_hd (n : N) (rn : ROLE) (i : N) (d : bool) : pstate :=
  if (n =? 1)%N then St H_declClose 0 R_ELEMENT_NONE i d else St H_element7 (n - 1) rn i d.
Lemma close_group_eq : forall n rn i d, (0 < n)%N -> (n < 4294967296)%N -> close_group (St H_element7 n rn i d) = close_hd n rn i d.
Proof.
  intros n rn i d H1 H2. unfold close_group, close_hd, set_level, set_none, to. cbn [level hd role_none include doc].
  rewrite u32_pred_nz by lia. destruct (n =? 1)%N eqn:E.
  - replace (n - 1)%N with 0%N by lia. reflexivity.
  - replace (n - 1 =? 0)%N with false by lia. reflexivity.
Qed.

Lemma cp_inv : forall len l, (List.length l <= len)%nat -> forall n rn i d, (0 < n)%N -> (n + N.of_nat (List.length l) < 4294967296)%N ->
  (acc (St H_element6 n rn i d) l -> exists c l', wf_cp c /\ l = s_cp c ++ l' /\ acc (St H_element7 n rn i d) l') /\
  (acc (St H_element7 n rn i d) l -> exists rest q l', wf_cps rest /\ l = s_cps rest ++ close q :: l' /\ acc (close_hd n rn i d) l').
Proof.
  induction len as [|len IH]; intros l Hl n rn i d Hn Hb.
  - split; intros H; inversion H; subst; try (cbn in Hl; lia); exfalso;
      match goal with K : F _ |- _ => apply not_final in K; destruct K; discriminate end.
  - split; intros H.
    + peel H tok t l' Hacc; cbn [List.length] in *.
      * exists (Leaf {| prefixed := false; spelt := t |} One), l'. repeat split; [now left|exact Hacc].
      * rewrite u32_succ_small in Hacc by lia.
        apply (proj1 (IH l' ltac:(lia) (n + 1)%N rn i d ltac:(lia) ltac:(lia))) in Hacc as (c & l1 & W & E1 & H1).
        assert (L1 : (List.length l1 <= List.length l')%nat) by (rewrite E1, app_length; lia).
        apply (proj2 (IH l1 ltac:(lia) (n + 1)%N rn i d ltac:(lia) ltac:(lia))) in H1 as (rest & q & l2 & W2 & E2 & H2).
        exists (Group c rest q), l2. split; [split; assumption|]. split.
        { rewrite E1, E2. cbn [s_cp app]. f_equal. rewrite <- !app_assoc. reflexivity. }
        unfold close_hd in H2. replace (n + 1 =? 1)%N with false in H2 by lia. replace (n + 1 - 1)%N with n in H2 by lia. exact H2.
      * exists (Leaf {| prefixed := false; spelt := t |} Opt), l'. repeat split; [now right|exact Hacc].
      * exists (Leaf {| prefixed := false; spelt := t |} Rep), l'. repeat split; [now right|exact Hacc].
      * exists (Leaf {| prefixed := false; spelt := t |} Plus), l'. repeat split; [now right|exact Hacc].
      * exists (Leaf {| prefixed := true; spelt := t |} One), l'. repeat split; [now left|exact Hacc].
    + peel H tok t l' Hacc; cbn [List.length] in *.
      * apply (proj1 (IH l' ltac:(lia) n rn i d ltac:(lia) ltac:(lia))) in Hacc as (c & l1 & W & E1 & H1).
        assert (L1 : (List.length l1 <= List.length l')%nat) by (rewrite E1, app_length; lia).
        apply (proj2 (IH l1 ltac:(lia) n rn i d ltac:(lia) ltac:(lia))) in H1 as (rest & q & l2 & W2 & E2 & H2).
        exists (And true c rest), q, l2. split; [split; assumption|]. split; [|exact H2].
        rewrite E1, E2. cbn [s_cps app]. repeat first [rewrite <- app_assoc | progress cbn [app]]; reflexivity.
      * rewrite close_group_eq in Hacc by lia. exists Done, One, l'. repeat split. exact Hacc.
      * rewrite close_group_eq in Hacc by lia. exists Done, Opt, l'. repeat split. exact Hacc.
      * rewrite close_group_eq in Hacc by lia. exists Done, Rep, l'. repeat split. exact Hacc.
      * rewrite close_group_eq in Hacc by lia. exists Done, Plus, l'. repeat split. exact Hacc.
      * apply (proj1 (IH l' ltac:(lia) n rn i d ltac:(lia) ltac:(lia))) in Hacc as (c & l1 & W & E1 & H1).
        assert (L1 : (List.length l1 <= List.length l')%nat) by (rewrite E1, app_length; lia).
        apply (proj2 (IH l1 ltac:(lia) n rn i d ltac:(lia) ltac:(lia))) in H1 as (rest & q & l2 & W2 & E2 & H2).
        exists (And false c rest), q, l2. split; [split; assumption|]. split; [|exact H2].
        rewrite E1, E2. cbn [s_cps app]. repeat first [rewrite <- app_assoc | progress cbn [app]]; reflexivity.
Qed.

(* one step forward *)
Lemma go : forall s tok t r s' l, rstep s tok t = (s', r) -> r <> R_ERROR -> r <> R_INNER_PARAM_ENTITY_REF -> tok <> T_PROLOG_S -> tok <> T_NONE ->
  hd s <> H_error -> (carries tok = false -> t = []) -> acc s' l -> acc s ((tok, t, r) :: l).
Proof.
  intros s tok t r s' l H1 H2 H3 H4 H5 H6 H7 H8. apply acc_cons with s'; auto.
  unfold filler, tok_of, role_of, tok_eqb, role_eqb. cbn [fst snd].
  destruct (XML_TOK_eq_dec tok T_PROLOG_S); [contradiction|]. destruct (ROLE_eq_dec r R_INNER_PARAM_ENTITY_REF); [contradiction|]. reflexivity.
Qed.
Ltac kwgo := repeat (cbn [RoleLaws.pick]; unfold SpecRole.kw; rewrite ?(kw_beq e enc SH) by asc;
  match goal with
  | |- context [beq ?a ?b] => let v := eval vm_compute in (beq a b) in change (beq a b) with v; cbv iota
  end); reflexivity.
Ltac fwd := eapply go; [ev; first [reflexivity | kwgo] | discriminate | discriminate | discriminate | discriminate | discriminate | first [discriminate | reflexivity] |].

Scheme cp_ind2 := Induction for cp Sort Prop
with cps_ind2 := Induction for cps Sort Prop.
Combined Scheme cp_mut from cp_ind2, cps_ind2.

Lemma cp_fwd :
  (forall c, wf_cp c -> forall n rn i d l, (0 < n)%N -> (n + N.of_nat (List.length (s_cp c)) < 4294967296)%N ->
     acc (St H_element7 n rn i d) l -> acc (St H_element6 n rn i d) (s_cp c ++ l)) /\
  (forall rest, wf_cps rest -> forall q n rn i d l, (0 < n)%N -> (n + N.of_nat (List.length (s_cps rest)) < 4294967296)%N ->
     acc (close_hd n rn i d) l -> acc (St H_element7 n rn i d) (s_cps rest ++ close q :: l)).
Proof.
  apply cp_mut.
  - intros m q W n rn i d l Hn Hb H. cbn [s_cp app]. destruct m as [pf sp]. destruct q.
    + unfold leaf, name. cbn [prefixed spelt]. destruct pf; fwd; exact H.
    + unfold leaf. fwd. exact H.
    + unfold leaf. fwd. exact H.
    + unfold leaf. fwd. exact H.
  - intros first IH1 rest IH2 q [W1 W2] n rn i d l Hn Hb H.
    cbn [s_cp List.length] in Hb. rewrite !app_length in Hb. cbn [List.length] in Hb.
    cbn [s_cp app]. rewrite <- !app_assoc. cbn [app]. unfold punct. fwd.
    rewrite u32_succ_small by lia. apply IH1; [exact W1|lia|lia|]. apply IH2; [exact W2|lia|lia|].
    unfold close_hd. replace (n + 1 =? 1)%N with false by lia. replace (n + 1 - 1)%N with n by lia. exact H.
  - intros _ q n rn i d l Hn Hb H. cbn [s_cps app]. destruct q; unfold close, punct; fwd; rewrite close_group_eq by (cbn in Hb; lia); exact H.
  - intros choice c IH1 rest IH2 [W1 W2] q n rn i d l Hn Hb H.
    cbn [s_cps List.length] in Hb. rewrite !app_length in Hb.
    cbn [s_cps app]. rewrite <- !app_assoc. unfold connector, punct. destruct choice; fwd; (apply IH1; [exact W1|lia|lia|]; apply IH2; [exact W2|lia|lia|exact H]).
Qed.

Notation s_content := (s_content enc).
Lemma mixed_inv : forall len l, (List.length l <= len)%nat -> forall lv rn i d, acc (St H_element5 lv rn i d) l ->
  exists ns l', l = flat_map (fun n => [punct T_OR R_ELEMENT_NONE; name n R_CONTENT_ELEMENT]) ns ++ close Rep :: l' /\
    acc (St H_declClose lv R_ELEMENT_NONE i d) l'.
Proof.
  induction len as [|len IH]; intros l Hl lv rn i d H.
  - inversion H; subst; [|cbn in Hl; lia]. exfalso. match goal with K : F _ |- _ => apply not_final in K; destruct K; discriminate end.
  - peel H tok t l' Hacc.
    + rename Hacc into H. peel H tok2 t2 l2 H2; cbn [List.length] in Hl; apply IH in H2 as (ns & l3 & E & H3); try lia.
      * exists ({| prefixed := false; spelt := t2 |} :: ns), l3. split; [|exact H3]. now rewrite E.
      * exists ({| prefixed := true; spelt := t2 |} :: ns), l3. split; [|exact H3]. now rewrite E.
    + exists [], l'. split; [reflexivity|exact Hacc].
Qed.
Lemma content_inv : forall l lv rn i d, (N.of_nat (List.length l) < 4294967295)%N -> acc (St H_element1 lv rn i d) l ->
  exists c l' lv', wf_content c /\ l = s_content c ++ punct T_DECL_CLOSE R_ELEMENT_NONE :: l' /\ acc (St (sub d) lv' R_ELEMENT_NONE i d) l'.
Proof.
  intros l lv rn i d Hb H. peel H tok t l' Hacc.
  - apply decl_close_inv in Hacc as (l2 & E & H2). exists Empty, l2, lv. subst l'. repeat split; exact H2.
  - apply decl_close_inv in Hacc as (l2 & E & H2). exists Any, l2, lv. subst l'. repeat split; exact H2.
  - cbn [List.length] in Hb. rename Hacc into H. peel H tok2 t2 l2 H2.
    + (* name *) apply (proj2 (cp_inv (List.length l2) l2 ltac:(lia) 1%N rn i d ltac:(lia) ltac:(cbn [List.length] in Hb; lia))) in H2 as (rest & q & l3 & W & E & H3).
      unfold close_hd in H3. change (1 =? 1)%N with true in H3. cbv iota in H3. apply decl_close_inv in H3 as (l4 & E4 & H4).
      exists (Children (Leaf {| prefixed := false; spelt := t2 |} One) rest q), l4, 0%N.
      split; [split; [now left|exact W]|]. split; [|exact H4]. rewrite E, E4. cbn [SpecRole.s_content s_cp app]. repeat first [rewrite <- app_assoc | progress cbn [app]]; reflexivity.
    + (* #PCDATA *) rename H2 into H. peel H tok3 t3 l3 H3.
      * rename H3 into H. peel H tok4 t4 l4 H4; apply (mixed_inv (List.length l4) l4 ltac:(lia)) in H4 as (ns & l5 & E5 & H5); apply decl_close_inv in H5 as (l6 & E6 & H6).
        { exists (Mixed ({| prefixed := false; spelt := t4 |} :: ns)), l6, 1%N. split; [exact I|]. split; [|exact H6].
          rewrite E5, E6. cbn [SpecRole.s_content flat_map app]. repeat first [rewrite <- app_assoc | progress cbn [app]]; reflexivity. }
        { exists (Mixed ({| prefixed := true; spelt := t4 |} :: ns)), l6, 1%N. split; [exact I|]. split; [|exact H6].
          rewrite E5, E6. cbn [SpecRole.s_content flat_map app]. repeat first [rewrite <- app_assoc | progress cbn [app]]; reflexivity. }
      * apply decl_close_inv in H3 as (l4 & E4 & H4). subst l3. exists Pcdata, l4, 1%N. repeat split. exact H4.
      * apply decl_close_inv in H3 as (l4 & E4 & H4). subst l3. exists (Mixed []), l4, 1%N. repeat split. exact H4.
    + (* group *) cbn [List.length] in Hb. apply (proj1 (cp_inv (List.length l2) l2 ltac:(lia) 2%N rn i d ltac:(lia) ltac:(lia))) in H2 as (c & l3 & W & E & H3).
      assert (L3 : (List.length l3 <= List.length l2)%nat) by (rewrite E, app_length; lia).
      apply (proj2 (cp_inv (List.length l3) l3 ltac:(lia) 2%N rn i d ltac:(lia) ltac:(lia))) in H3 as (rest & q & l4 & W4 & E4 & H4).
      assert (L4 : (List.length l4 <= List.length l3)%nat) by (rewrite E4, app_length; cbn [List.length]; lia).
      unfold close_hd in H4. change (2 =? 1)%N with false in H4. change (2 - 1)%N with 1%N in H4. cbv iota in H4.
      apply (proj2 (cp_inv (List.length l4) l4 ltac:(lia) 1%N rn i d ltac:(lia) ltac:(lia))) in H4 as (rest2 & q2 & l5 & W5 & E5 & H5).
      unfold close_hd in H5. change (1 =? 1)%N with true in H5. cbv iota in H5. apply decl_close_inv in H5 as (l6 & E6 & H6).
      exists (Children (Group c rest q) rest2 q2), l6, 0%N. split; [repeat split; assumption|]. split; [|exact H6].
      rewrite E, E4, E5, E6. cbn [SpecRole.s_content s_cp app]. repeat first [rewrite <- app_assoc | progress cbn [app]]; reflexivity.
    + apply (proj2 (cp_inv (List.length l2) l2 ltac:(lia) 1%N rn i d ltac:(lia) ltac:(cbn [List.length] in Hb; lia))) in H2 as (rest & q & l3 & W & E & H3).
      unfold close_hd in H3. change (1 =? 1)%N with true in H3. cbv iota in H3. apply decl_close_inv in H3 as (l4 & E4 & H4).
      exists (Children (Leaf {| prefixed := false; spelt := t2 |} Opt) rest q), l4, 0%N.
      split; [split; [now right|exact W]|]. split; [|exact H4]. rewrite E, E4. cbn [SpecRole.s_content s_cp app]. repeat first [rewrite <- app_assoc | progress cbn [app]]; reflexivity.
    + apply (proj2 (cp_inv (List.length l2) l2 ltac:(lia) 1%N rn i d ltac:(lia) ltac:(cbn [List.length] in Hb; lia))) in H2 as (rest & q & l3 & W & E & H3).
      unfold close_hd in H3. change (1 =? 1)%N with true in H3. cbv iota in H3. apply decl_close_inv in H3 as (l4 & E4 & H4).
      exists (Children (Leaf {| prefixed := false; spelt := t2 |} Rep) rest q), l4, 0%N.
      split; [split; [now right|exact W]|]. split; [|exact H4]. rewrite E, E4. cbn [SpecRole.s_content s_cp app]. repeat first [rewrite <- app_assoc | progress cbn [app]]; reflexivity.
    + apply (proj2 (cp_inv (List.length l2) l2 ltac:(lia) 1%N rn i d ltac:(lia) ltac:(cbn [List.length] in Hb; lia))) in H2 as (rest & q & l3 & W & E & H3).
      unfold close_hd in H3. change (1 =? 1)%N with true in H3. cbv iota in H3. apply decl_close_inv in H3 as (l4 & E4 & H4).
      exists (Children (Leaf {| prefixed := false; spelt := t2 |} Plus) rest q), l4, 0%N.
      split; [split; [now right|exact W]|]. split; [|exact H4]. rewrite E, E4. cbn [SpecRole.s_content s_cp app]. repeat first [rewrite <- app_assoc | progress cbn [app]]; reflexivity.
    + apply (proj2 (cp_inv (List.length l2) l2 ltac:(lia) 1%N rn i d ltac:(lia) ltac:(cbn [List.length] in Hb; lia))) in H2 as (rest & q & l3 & W & E & H3).
      unfold close_hd in H3. change (1 =? 1)%N with true in H3. cbv iota in H3. apply decl_close_inv in H3 as (l4 & E4 & H4).
      exists (Children (Leaf {| prefixed := true; spelt := t2 |} One) rest q), l4, 0%N.
      split; [split; [now left|exact W]|]. split; [|exact H4]. rewrite E, E4. cbn [SpecRole.s_content s_cp app]. repeat first [rewrite <- app_assoc | progress cbn [app]]; reflexivity.
Qed.
Lemma decl_close_fwd : forall lv rn i d l, rn <> R_ERROR -> rn <> R_INNER_PARAM_ENTITY_REF -> (forall lv rn, acc (St (sub d) lv rn i d) l) ->
  acc (St H_declClose lv rn i d) (punct T_DECL_CLOSE rn :: l).
Proof.
  intros lv rn i d l H1 H2 H. unfold punct. eapply go; [ev; reflexivity | auto | auto | discriminate | discriminate | discriminate | reflexivity |].
  specialize (H lv rn). destruct d; exact H.
Qed.
Lemma mixed_fwd : forall ns lv rn i d l, acc (St H_declClose lv R_ELEMENT_NONE i d) l ->
  acc (St H_element5 lv rn i d) (flat_map (fun n => [punct T_OR R_ELEMENT_NONE; name n R_CONTENT_ELEMENT]) ns ++ close Rep :: l).
Proof.
  induction ns as [|[pf sp] ns IH]; intros lv rn i d l H.
  - cbn [flat_map app]. unfold close, punct. fwd. exact H.
  - cbn [flat_map app]. unfold punct at 1, name at 1. cbn [prefixed spelt]. fwd. destruct pf; fwd; apply IH; exact H.
Qed.
Lemma content_fwd : forall c l lv rn i d, wf_content c -> (N.of_nat (List.length (s_content c)) < 4294967295)%N -> (forall lv rn, acc (St (sub d) lv rn i d) l) ->
  acc (St H_element1 lv rn i d) (s_content c ++ punct T_DECL_CLOSE R_ELEMENT_NONE :: l).
Proof.
  intros c l lv rn i d W Hb H. destruct c as [| | |ns|first rest q]; cbn [SpecRole.s_content app].
  - fwd. (apply decl_close_fwd; [discriminate|discriminate|exact H]).
  - fwd. (apply decl_close_fwd; [discriminate|discriminate|exact H]).
  - unfold punct at 1. fwd. fwd. unfold close. unfold punct at 1. fwd. (apply decl_close_fwd; [discriminate|discriminate|exact H]).
  - unfold punct at 1. fwd. fwd. rewrite <- app_assoc. cbn [app].
    destruct ns as [|[pf sp] ns].
    + cbn [flat_map app]. unfold close. unfold punct at 1. fwd. (apply decl_close_fwd; [discriminate|discriminate|exact H]).
    + cbn [flat_map app]. unfold punct at 1. fwd. unfold name at 1. cbn [prefixed spelt].
      destruct pf; fwd; apply mixed_fwd; (apply decl_close_fwd; [discriminate|discriminate|exact H]).
  - destruct W as [W1 W2]. cbn [SpecRole.s_content s_cp List.length] in Hb. rewrite !app_length in Hb. cbn [List.length] in Hb.
    cbn [s_cp app]. rewrite <- !app_assoc. cbn [app]. unfold punct at 1. fwd.
    assert (K : acc (St H_element7 1 rn i d) (s_cps rest ++ close q :: punct T_DECL_CLOSE R_ELEMENT_NONE :: l)).
    { apply cp_fwd; [exact W2|lia|lia|]. unfold close_hd. change (1 =? 1)%N with true. cbv iota. (apply decl_close_fwd; [discriminate|discriminate|exact H]). }
    destruct first as [[pf sp] lq|first1 rest1 q1].
    + cbn [s_cp app]. unfold leaf, name. cbn [prefixed spelt]. destruct lq; [destruct pf|..]; fwd; exact K.
    + cbn [s_cp List.length] in Hb. rewrite !app_length in Hb. cbn [List.length] in Hb.
      cbn [s_cp app]. rewrite <- !app_assoc. cbn [app]. unfold punct at 1. fwd.
      destruct W1 as [W3 W4]. apply cp_fwd; [exact W3|lia|lia|]. apply cp_fwd; [exact W4|lia|lia|]. exact K.
Qed.

(* attribute lists *)
Notation s_type := (s_type enc). Notation s_default := (s_default enc). Notation s_att := (s_att enc).
Lemma enum_inv : forall len l, (List.length l <= len)%nat -> forall lv rn i d, acc (St H_attlist4 lv rn i d) l ->
  exists xs l', Forall (fun y => enum_token (fst y)) xs /\
    l = flat_map (fun y => [punct T_OR R_ATTLIST_NONE; (fst y, snd y, R_ATTRIBUTE_ENUM_VALUE)]) xs ++ punct T_CLOSE_PAREN R_ATTLIST_NONE :: l' /\
    acc (St H_attlist8 lv rn i d) l'.
Proof.
  induction len as [|len IH]; intros l Hl lv rn i d H.
  - inversion H; subst; [|cbn in Hl; lia]. exfalso. match goal with K : F _ |- _ => apply not_final in K; destruct K; discriminate end.
  - peel H tok t l' Hacc.
    + rename Hacc into H. peel H tok2 t2 l2 H2; cbn [List.length] in Hl; apply IH in H2 as (xs & l3 & W & E & H3); try lia.
      * exists ((T_NAME, t2) :: xs), l3. split; [constructor; [right; now left|exact W]|]. split; [|exact H3]. now rewrite E.
      * exists ((T_NMTOKEN, t2) :: xs), l3. split; [constructor; [now left|exact W]|]. split; [|exact H3]. now rewrite E.
      * exists ((T_PREFIXED_NAME, t2) :: xs), l3. split; [constructor; [right; now right|exact W]|]. split; [|exact H3]. now rewrite E.
    + exists [], l'. split; [constructor|]. split; [reflexivity|exact Hacc].
Qed.
Lemma nottype_inv : forall len l, (List.length l <= len)%nat -> forall lv rn i d, acc (St H_attlist7 lv rn i d) l ->
  exists xs l', l = flat_map (fun y => [punct T_OR R_ATTLIST_NONE; (T_NAME, y, R_ATTRIBUTE_NOTATION_VALUE)]) xs ++ punct T_CLOSE_PAREN R_ATTLIST_NONE :: l' /\
    acc (St H_attlist8 lv rn i d) l'.
Proof.
  induction len as [|len IH]; intros l Hl lv rn i d H.
  - inversion H; subst; [|cbn in Hl; lia]. exfalso. match goal with K : F _ |- _ => apply not_final in K; destruct K; discriminate end.
  - peel H tok t l' Hacc.
    + rename Hacc into H. peel H tok2 t2 l2 H2; cbn [List.length] in Hl; apply IH in H2 as (xs & l3 & E & H3); try lia.
      exists (t2 :: xs), l3. split; [|exact H3]. now rewrite E.
    + exists [], l'. split; [reflexivity|exact Hacc].
Qed.
Lemma type_inv : forall l lv rn i d, acc (St H_attlist2 lv rn i d) l ->
  exists t l', wf_type t /\ l = s_type t ++ l' /\ acc (St H_attlist8 lv rn i d) l'.
Proof.
  intros l lv rn i d H. peel H tok t l' Hacc.
  - exists (Simple TCdata), l'. repeat split. exact Hacc.
  - exists (Simple TId), l'. repeat split. exact Hacc.
  - exists (Simple TIdref), l'. repeat split. exact Hacc.
  - exists (Simple TIdrefs), l'. repeat split. exact Hacc.
  - exists (Simple TEntity), l'. repeat split. exact Hacc.
  - exists (Simple TEntities), l'. repeat split. exact Hacc.
  - exists (Simple TNmtoken), l'. repeat split. exact Hacc.
  - exists (Simple TNmtokens), l'. repeat split. exact Hacc.
  - rename Hacc into H. peel H tok2 t2 l2 H2. rename H2 into H. peel H tok3 t3 l3 H3.
    apply (nottype_inv (List.length l3) l3 ltac:(lia)) in H3 as (xs & l4 & E & H4).
    exists (NotationType t3 xs), l4. split; [exact I|]. split; [|exact H4]. rewrite E. cbn [SpecRole.s_type app]; repeat first [rewrite <- app_assoc | progress cbn [app]]; reflexivity.
  - rename Hacc into H. peel H tok2 t2 l2 H2; apply (enum_inv (List.length l2) l2 ltac:(lia)) in H2 as (xs & l4 & W & E & H4).
    + exists (Enum (T_NAME, t2) xs), l4. split; [constructor; [right; now left|exact W]|]. split; [|exact H4]. rewrite E. cbn [SpecRole.s_type app fst snd]. repeat first [rewrite <- app_assoc | progress cbn [app]]; reflexivity.
    + exists (Enum (T_NMTOKEN, t2) xs), l4. split; [constructor; [now left|exact W]|]. split; [|exact H4]. rewrite E. cbn [SpecRole.s_type app fst snd]. repeat first [rewrite <- app_assoc | progress cbn [app]]; reflexivity.
    + exists (Enum (T_PREFIXED_NAME, t2) xs), l4. split; [constructor; [right; now right|exact W]|]. split; [|exact H4]. rewrite E. cbn [SpecRole.s_type app fst snd]. repeat first [rewrite <- app_assoc | progress cbn [app]]; reflexivity.
Qed.
Lemma default_inv : forall l lv rn i d, acc (St H_attlist8 lv rn i d) l ->
  exists x l', l = s_default x ++ l' /\ acc (St H_attlist1 lv rn i d) l'.
Proof.
  intros l lv rn i d H. peel H tok t l' Hacc.
  - exists Implied, l'. split; [reflexivity|exact Hacc].
  - exists Required, l'. split; [reflexivity|exact Hacc].
  - rename Hacc into H. peel H tok2 t2 l2 H2. exists (Fixed t2), l2. split; [reflexivity|exact H2].
  - exists (Default t), l'. split; [reflexivity|exact Hacc].
Qed.
Lemma atts_inv : forall len l, (List.length l <= len)%nat -> forall lv rn i d, acc (St H_attlist1 lv rn i d) l ->
  exists xs l', Forall (fun a => wf_type (snd (fst a))) xs /\ l = flat_map s_att xs ++ punct T_DECL_CLOSE R_ATTLIST_NONE :: l' /\ acc (St (sub d) lv rn i d) l'.
Proof.
  induction len as [|len IH]; intros l Hl lv rn i d H.
  - inversion H; subst; [|cbn in Hl; lia]. exfalso. match goal with K : F _ |- _ => apply not_final in K; destruct K; discriminate end.
  - peel H tok t l' Hacc.
    + exists [], l'. split; [constructor|]. split; [reflexivity|]. destruct d; exact Hacc.
    + apply type_inv in Hacc as (ty & l2 & W2 & E2 & H2). apply default_inv in H2 as (x & l3 & E3 & H3).
      cbn [List.length] in Hl. rewrite E2, E3 in Hl. rewrite !app_length in Hl. apply IH in H3 as (xs & l4 & W4 & E4 & H4); [|lia].
      exists (({| prefixed := false; spelt := t |}, ty, x) :: xs), l4. split; [constructor; assumption|]. split; [|exact H4].
      rewrite E2, E3, E4. cbn [flat_map SpecRole.s_att name prefixed spelt app]. repeat first [rewrite <- app_assoc | progress cbn [app]]; reflexivity.
    + apply type_inv in Hacc as (ty & l2 & W2 & E2 & H2). apply default_inv in H2 as (x & l3 & E3 & H3).
      cbn [List.length] in Hl. rewrite E2, E3 in Hl. rewrite !app_length in Hl. apply IH in H3 as (xs & l4 & W4 & E4 & H4); [|lia].
      exists (({| prefixed := true; spelt := t |}, ty, x) :: xs), l4. split; [constructor; assumption|]. split; [|exact H4].
      rewrite E2, E3, E4. cbn [flat_map SpecRole.s_att name prefixed spelt app]. repeat first [rewrite <- app_assoc | progress cbn [app]]; reflexivity.
Qed.
Lemma enum_fwd : forall xs lv rn i d l, Forall (fun y => enum_token (fst y)) xs -> acc (St H_attlist8 lv rn i d) l ->
  acc (St H_attlist4 lv rn i d) (flat_map (fun y => [punct T_OR R_ATTLIST_NONE; (fst y, snd y, R_ATTRIBUTE_ENUM_VALUE)]) xs ++ punct T_CLOSE_PAREN R_ATTLIST_NONE :: l).
Proof.
  induction xs as [|[tk b] xs IH]; intros lv rn i d l W H; cbn [flat_map app fst snd].
  - unfold punct. fwd. exact H.
  - inversion W as [|y z W1 W2]; subst. unfold punct at 1. fwd. cbn [fst] in W1. destruct W1 as [-> |[-> | ->]]; fwd; apply IH; assumption.
Qed.
Lemma nottype_fwd : forall xs lv rn i d l, acc (St H_attlist8 lv rn i d) l ->
  acc (St H_attlist7 lv rn i d) (flat_map (fun y => [punct T_OR R_ATTLIST_NONE; (T_NAME, y, R_ATTRIBUTE_NOTATION_VALUE)]) xs ++ punct T_CLOSE_PAREN R_ATTLIST_NONE :: l).
Proof.
  induction xs as [|b xs IH]; intros lv rn i d l H; cbn [flat_map app].
  - unfold punct. fwd. exact H.
  - unfold punct at 1. fwd. fwd. apply IH; assumption.
Qed.
Lemma type_fwd : forall t l lv rn i d, wf_type t -> acc (St H_attlist8 lv rn i d) l -> acc (St H_attlist2 lv rn i d) (s_type t ++ l).
Proof.
  intros t l lv rn i d W H. destruct t as [[]|[tk b] xs|x xs]; cbn [SpecRole.s_type app]; try (fwd; exact H).
  - unfold punct at 1. fwd. rewrite <- app_assoc. cbn [app fst snd]. inversion W as [|y z W1 W2]; subst. cbn [fst] in W1.
    destruct W1 as [-> |[-> | ->]]; fwd; apply enum_fwd; assumption.
  - fwd. unfold punct at 1. fwd. fwd. rewrite <- app_assoc. apply nottype_fwd; assumption.
Qed.
Lemma default_fwd : forall x l lv rn i d, acc (St H_attlist1 lv rn i d) l -> acc (St H_attlist8 lv rn i d) (s_default x ++ l).
Proof. intros [] l lv rn i d H; cbn [SpecRole.s_default app]; repeat fwd; exact H. Qed.
Lemma atts_fwd : forall xs l lv rn i d, Forall (fun a => wf_type (snd (fst a))) xs -> (forall lv rn, acc (St (sub d) lv rn i d) l) ->
  acc (St H_attlist1 lv rn i d) (flat_map s_att xs ++ punct T_DECL_CLOSE R_ATTLIST_NONE :: l).
Proof.
  induction xs as [|[[[pf sp] t] x] xs IH]; intros l lv rn i d W H; cbn [flat_map app].
  - unfold punct. fwd. specialize (H lv rn). destruct d; exact H.
  - inversion W as [|y z W1 W2]; subst. cbn [fst snd] in W1. unfold SpecRole.s_att at 1. rewrite <- !app_assoc. cbn [app]. unfold name at 1. cbn [prefixed spelt].
    rewrite <- app_assoc. destruct pf; fwd; apply type_fwd; auto; apply default_fwd; auto.
Qed.
End Gram.
