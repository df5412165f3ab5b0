(* Declarations, the document type, the prolog and the external subset. *)
From Coq Require Import String List NArith Bool Lia Arith.
From Coq Require Import ZifyBool ZifyNat ZifyN.
From Verif Require Import Base Encoding TokMisc SpecText SpecUnicode SpecLex Role SpecRole RoleLaws RoleGram.
Import ListNotations.
Local Open Scope list_scope.

Section Gram.
Variable e : EncImpl.
Variable enc : N -> list N.
Hypothesis SH : shape e enc.
Variable F : pstate -> Prop.
Hypothesis FA : accepting F.
Notation rstep := (rstep e).
Notation pick := (pick enc).
Notation acc := (acc e F).
Notation St q lv rn i d := {| hd := q; level := lv; role_none := rn; include := i; doc := d |}.
Notation kw := (kw enc).
Notation sub d := (if d : bool then H_internalSubset else H_externalSubset1).

Ltac ev := unfold RoleLaws.rstep, token_role; cbn [hd]; machine; cbn [pad app]; rewrite ?inc_start_pad; cbn [bind];
  repeat match goal with |- context [tok_eqb ?a ?b] => let v := eval vm_compute in (tok_eqb a b) in change (tok_eqb a b) with v end; cbv iota;
  rewrite ?inc_start_pad; cbn [bind]; rewrite ?(on_kw_pick e enc SH) by alts_asc;
  unfold to, set_level, set_none, set_include, subset; cbn [hd level role_none include doc].
Ltac kwcase Hs E := cbn [RoleLaws.pick] in Hs;
  match type of Hs with
  | (if beq ?t ?k then _ else _) = _ => destruct (beq t k) eqn:E; [apply beq_true in E; injection Hs as <- <-; subst t | clear E; kwcase Hs E]
  | _ => idtac
  end.
Ltac not_end := exfalso; match goal with K : F _ |- _ => apply (not_final F FA) in K; destruct K; discriminate end.
Ltac peel0 H tok t l' Hacc :=
  let HF := fresh in let r := fresh "r" in let s' := fresh "s" in let Hs := fresh in let Hr := fresh in let Hf := fresh in
  let Ht := fresh in let Hh := fresh in let Hc := fresh in let E := fresh in
  inversion H as [?|? tok t r s' l' Hs Hr Hf Ht Hh Hc Hacc]; subst; clear H;
  [|revert Hs; destruct tok; try (exfalso; apply Ht; reflexivity); try discriminate Hf; ev;
    (let H1 := fresh in intros H1;
     first [ exfalso; exact (common_no _ _ _ _ _ H1 Hr Hf)
           | injection H1 as <- <-
           | kwcase H1 E; try (exfalso; exact (common_no _ _ _ _ _ H1 Hr Hf))
           | match type of H1 with context [if ?c then _ else _] => destruct c eqn:?; [exfalso; exact (common_no _ _ _ _ _ H1 Hr Hf)|injection H1 as <- <-] end ]);
    try (specialize (Hc eq_refl); subst t); clear Hr Hf Ht Hh; try clear Hc].
Ltac peel H tok t l' Hacc := peel0 H tok t l' Hacc; [not_end|..].
Ltac kwgo := repeat (cbn [RoleLaws.pick]; unfold SpecRole.kw; rewrite ?(kw_beq e enc SH) by asc;
  match goal with
  | |- context [beq ?a ?b] => let v := eval vm_compute in (beq a b) in change (beq a b) with v; cbv iota
  end); reflexivity.
Ltac fwd := eapply (go e F); [ev; first [reflexivity | kwgo] | discriminate | discriminate | discriminate | discriminate | discriminate | first [discriminate | reflexivity] |].
Ltac asimp := repeat first [rewrite <- app_assoc | progress cbn [app]]; reflexivity.

Notation s_entity := (s_entity enc). Notation s_notation := (s_notation enc). Notation s_ext := (s_ext enc). Notation s_decl := (s_decl enc).
Notation s_att := (s_att enc). Notation s_content := (s_content enc).
(* the rest of an entity declaration after its system identifier *)
Lemma ent5_inv : forall l lv rn i d, acc (St H_entity5 lv rn i d) l ->
  (exists l', l = punct T_DECL_CLOSE R_ENTITY_COMPLETE :: l' /\ acc (St (sub d) lv rn i d) l') \/
  (exists n l', l = (T_NAME, kw "NDATA", R_ENTITY_NONE) :: (T_NAME, n, R_ENTITY_NOTATION_NAME) :: punct T_DECL_CLOSE R_ENTITY_NONE :: l' /\
     acc (St (sub d) lv R_ENTITY_NONE i d) l').
Proof.
  intros l lv rn i d H. peel H tok t l' Hacc.
  - left. exists l'. split; [reflexivity|]. destruct d; exact Hacc.
  - right. rename Hacc into H. peel H tok2 t2 l2 H2. apply (decl_close_inv e F FA) in H2 as (l3 & E3 & H3). subst l2. exists t2, l3. split; [reflexivity|exact H3].
Qed.
Lemma entity_inv : forall l lv rn i d, acc (St H_entity2 lv rn i d) l ->
  exists x l' rn', l = s_entity x ++ l' /\ acc (St (sub d) lv rn' i d) l'.
Proof.
  intros l lv rn i d H. peel H tok t l' Hacc.
  - rename Hacc into H. peel H tok2 t2 l2 H2. apply ent5_inv in H2 as [(l3 & E3 & H3)|(n & l3 & E3 & H3)]; subst l2.
    + exists (External (System t2)), l3, rn. split; [reflexivity|exact H3].
    + exists (Unparsed (System t2) n), l3, R_ENTITY_NONE. split; [reflexivity|exact H3].
  - rename Hacc into H. peel H tok2 t2 l2 H2. rename H2 into H. peel H tok3 t3 l3 H3. apply ent5_inv in H3 as [(l4 & E4 & H4)|(n & l4 & E4 & H4)]; subst l3.
    + exists (External (Public t2 t3)), l4, rn. split; [reflexivity|exact H4].
    + exists (Unparsed (Public t2 t3) n), l4, R_ENTITY_NONE. split; [reflexivity|exact H4].
  - apply (decl_close_inv e F FA) in Hacc as (l2 & E2 & H2). subst l'. exists (Value t), l2, R_ENTITY_NONE. split; [reflexivity|exact H2].
Qed.
Lemma pentity_inv : forall l lv rn i d, acc (St H_entity7 lv rn i d) l ->
  exists x l' rn', l = s_entity x ++ l' /\ (forall y n, x <> Unparsed y n) /\ acc (St (sub d) lv rn' i d) l'.
Proof.
  intros l lv rn i d H. peel H tok t l' Hacc.
  - rename Hacc into H. peel H tok2 t2 l2 H2. rename H2 into H. peel H tok3 t3 l3 H3.
    exists (External (System t2)), l3, rn. split; [reflexivity|]. split; [discriminate|]. destruct d; exact H3.
  - rename Hacc into H. peel H tok2 t2 l2 H2. rename H2 into H. peel H tok3 t3 l3 H3. rename H3 into H. peel H tok4 t4 l4 H4.
    exists (External (Public t2 t3)), l4, rn. split; [reflexivity|]. split; [discriminate|]. destruct d; exact H4.
  - apply (decl_close_inv e F FA) in Hacc as (l2 & E2 & H2). subst l'. exists (Value t), l2, R_ENTITY_NONE.
    split; [reflexivity|]. split; [discriminate|exact H2].
Qed.
Lemma notation_inv : forall l lv rn i d, acc (St H_notation1 lv rn i d) l ->
  exists x l' rn', l = s_notation x ++ l' /\ acc (St (sub d) lv rn' i d) l'.
Proof.
  intros l lv rn i d H. peel H tok t l' Hacc.
  - rename Hacc into H. peel H tok2 t2 l2 H2. apply (decl_close_inv e F FA) in H2 as (l3 & E3 & H3). subst l2.
    exists (NotationExt (System t2)), l3, R_NOTATION_NONE. split; [reflexivity|exact H3].
  - rename Hacc into H. peel H tok2 t2 l2 H2. rename H2 into H. peel H tok3 t3 l3 H3.
    + exists (NotationPublic t2), l3, rn. split; [reflexivity|]. destruct d; exact H3.
    + apply (decl_close_inv e F FA) in H3 as (l4 & E4 & H4). subst l3.
      exists (NotationExt (Public t2 t3)), l4, R_NOTATION_NONE. split; [reflexivity|exact H4].
Qed.
Lemma ent5_fwd : forall l lv rn i d, (forall lv rn, acc (St (sub d) lv rn i d) l) ->
  acc (St H_entity5 lv rn i d) (punct T_DECL_CLOSE R_ENTITY_COMPLETE :: l) /\
  forall n, acc (St H_entity5 lv rn i d) ((T_NAME, kw "NDATA", R_ENTITY_NONE) :: (T_NAME, n, R_ENTITY_NOTATION_NAME) :: punct T_DECL_CLOSE R_ENTITY_NONE :: l).
Proof.
  intros l lv rn i d H. split.
  - unfold punct. fwd. specialize (H lv rn). destruct d; exact H.
  - intros n. fwd. fwd. apply (decl_close_fwd e F); [discriminate|discriminate|exact H].
Qed.
Lemma entity_fwd : forall x l lv rn i d, (forall lv rn, acc (St (sub d) lv rn i d) l) -> acc (St H_entity2 lv rn i d) (s_entity x ++ l).
Proof.
  intros x l lv rn i d H. destruct x as [v|[s|p s]|[s|p s] n]; cbn [SpecRole.s_entity SpecRole.s_ext app].
  - fwd. apply (decl_close_fwd e F); [discriminate|discriminate|exact H].
  - fwd. fwd. now apply ent5_fwd.
  - fwd. fwd. fwd. now apply ent5_fwd.
  - fwd. fwd. now apply ent5_fwd.
  - fwd. fwd. fwd. now apply ent5_fwd.
Qed.
Lemma pentity_fwd : forall x l lv rn i d, (forall y n, x <> Unparsed y n) -> (forall lv rn, acc (St (sub d) lv rn i d) l) -> acc (St H_entity7 lv rn i d) (s_entity x ++ l).
Proof.
  intros x l lv rn i d Hx H. destruct x as [v|[s|p s]|y n]; cbn [SpecRole.s_entity SpecRole.s_ext app].
  - fwd. apply (decl_close_fwd e F); [discriminate|discriminate|exact H].
  - fwd. fwd. unfold punct. fwd. specialize (H lv rn). destruct d; exact H.
  - fwd. fwd. fwd. unfold punct. fwd. specialize (H lv rn). destruct d; exact H.
  - exfalso. exact (Hx y n eq_refl).
Qed.
Lemma notation_fwd : forall x l lv rn i d, (forall lv rn, acc (St (sub d) lv rn i d) l) -> acc (St H_notation1 lv rn i d) (s_notation x ++ l).
Proof.
  intros x l lv rn i d H. destruct x as [[s|p s]|p]; cbn [SpecRole.s_notation SpecRole.s_ext app].
  - fwd. fwd. apply (decl_close_fwd e F); [discriminate|discriminate|exact H].
  - fwd. fwd. fwd. apply (decl_close_fwd e F); [discriminate|discriminate|exact H].
  - fwd. fwd. unfold punct. fwd. specialize (H lv rn). destruct d; exact H.
Qed.

(* after the keyword of a declaration *)
Definition after_open (q : handler) : Prop := q = H_entity0 \/ q = H_attlist0 \/ q = H_element0 \/ q = H_notation0.
Definition open_of (q : handler) : piece :=
  match q with
  | H_entity0 => (T_DECL_OPEN, kw "ENTITY", R_ENTITY_NONE)
  | H_attlist0 => (T_DECL_OPEN, kw "ATTLIST", R_ATTLIST_NONE)
  | H_element0 => (T_DECL_OPEN, kw "ELEMENT", R_ELEMENT_NONE)
  | _ => (T_DECL_OPEN, kw "NOTATION", R_NOTATION_NONE)
  end.
Lemma opened_inv : forall q l lv rn i d, after_open q -> (N.of_nat (List.length l) < 4294967295)%N -> acc (St q lv rn i d) l ->
  exists x l' lv' rn', wf_decl x /\ open_of q :: l = s_decl x ++ l' /\ (List.length l' < List.length l)%nat /\ acc (St (sub d) lv' rn' i d) l'.
Proof.
  intros q l lv rn i d Hq Hb H.
  assert (LL : forall (p : piece) a b c, p :: a = b ++ c -> (2 <= List.length b)%nat -> (List.length c < List.length a)%nat).
  { intros p a b c E L. apply (f_equal (@List.length piece)) in E. rewrite app_length in E. cbn [List.length] in E. lia. }
  destruct Hq as [->|[->|[->| ->]]].
  - peel H tok t l' Hacc.
    + apply entity_inv in Hacc as (x & l2 & rn' & E & H2). exists (DEntity t x), l2, lv, rn'. subst l'.
      split; [exact I|]. split; [reflexivity|]. split; [|exact H2]. cbn [List.length]. rewrite app_length. lia.
    + rename Hacc into H. peel H tok2 t2 l2 H2. apply pentity_inv in H2 as (x & l3 & rn' & E & Hx & H3). exists (DParamEntity t2 x), l3, lv, rn'. subst l2.
      split; [destruct x; try exact I; exact (Hx _ _ eq_refl)|]. split; [reflexivity|]. split; [|exact H3]. cbn [List.length]. rewrite app_length. lia.
  - peel H tok t l' Hacc; apply (atts_inv e enc SH F FA (List.length l') l' ltac:(lia)) in Hacc as (xs & l2 & W & E & H2); subst l'.
    + exists (DAttlist {| prefixed := false; spelt := t |} xs), l2, lv, rn. split; [exact W|].
      split; [cbn [SpecRole.s_decl open_of]; asimp|]. split; [|exact H2]. cbn [List.length]. rewrite app_length. cbn [List.length]. lia.
    + exists (DAttlist {| prefixed := true; spelt := t |} xs), l2, lv, rn. split; [exact W|].
      split; [cbn [SpecRole.s_decl open_of]; asimp|]. split; [|exact H2]. cbn [List.length]. rewrite app_length. cbn [List.length]. lia.
  - peel H tok t l' Hacc; cbn [List.length] in Hb; apply (content_inv e enc SH F FA) in Hacc as (c & l2 & lv' & W & E & H2); try lia; subst l'.
    + exists (DElement {| prefixed := false; spelt := t |} c), l2, lv', R_ELEMENT_NONE. split; [exact W|].
      split; [cbn [SpecRole.s_decl open_of]; asimp|]. split; [|exact H2]. cbn [List.length]. rewrite app_length. cbn [List.length]. lia.
    + exists (DElement {| prefixed := true; spelt := t |} c), l2, lv', R_ELEMENT_NONE. split; [exact W|].
      split; [cbn [SpecRole.s_decl open_of]; asimp|]. split; [|exact H2]. cbn [List.length]. rewrite app_length. cbn [List.length]. lia.
  - peel H tok t l' Hacc. apply notation_inv in Hacc as (x & l2 & rn' & E & H2). subst l'.
    exists (DNotation t x), l2, lv, rn'. split; [exact I|]. split; [reflexivity|]. split; [|exact H2]. cbn [List.length]. rewrite app_length. lia.
Qed.
Lemma decl_fwd : forall x l lv rn i d, wf_decl x -> (N.of_nat (List.length (s_decl x)) < 4294967295)%N ->
  (forall lv rn, acc (St (sub d) lv rn i d) l) -> acc (St (sub d) lv rn i d) (s_decl x ++ l).
Proof.
  intros x l lv rn i d W Hb H. destruct x as [[pf sp] c|[pf sp] xs|n x|n x|n x|t|t|t]; cbn [SpecRole.s_decl app].
  - cbn [SpecRole.s_decl List.length] in Hb. rewrite app_length in Hb. rewrite <- app_assoc. cbn [app]. unfold name. cbn [prefixed spelt].
    assert (K : forall lv rn, acc (St H_element1 lv rn i d) (s_content c ++ punct T_DECL_CLOSE R_ELEMENT_NONE :: l)).
    { intros. apply (content_fwd e enc SH F); auto. lia. }
    destruct d; fwd; destruct pf; fwd; apply K.
  - rewrite <- app_assoc. cbn [app]. unfold name. cbn [prefixed spelt].
    assert (K : forall lv rn, acc (St H_attlist1 lv rn i d) (flat_map s_att xs ++ punct T_DECL_CLOSE R_ATTLIST_NONE :: l)).
    { intros. apply (atts_fwd e enc SH F); auto. }
    destruct d; fwd; destruct pf; fwd; apply K.
  - assert (K : forall lv rn, acc (St H_entity2 lv rn i d) (s_entity x ++ l)) by (intros; now apply entity_fwd).
    destruct d; fwd; fwd; apply K.
  - assert (K : forall lv rn, acc (St H_entity7 lv rn i d) (s_entity x ++ l)).
    { intros. apply pentity_fwd; auto. intros y m E. subst x. exact W. }
    unfold punct at 1. destruct d; fwd; fwd; fwd; apply K.
  - assert (K : forall lv rn, acc (St H_notation1 lv rn i d) (s_notation x ++ l)) by (intros; now apply notation_fwd).
    destruct d; fwd; fwd; apply K.
  - destruct d; fwd; apply H.
  - destruct d; fwd; apply H.
  - destruct d; fwd; apply H.
Qed.
End Gram.
