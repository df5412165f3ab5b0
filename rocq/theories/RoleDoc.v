(* The document type, the prolog and the external subset, and the theorems about whole runs. *)
From Coq Require Import String List NArith Bool Lia Arith.
From Coq Require Import ZifyBool ZifyNat ZifyN.
From Verif Require Import Base Encoding TokMisc SpecText SpecUnicode SpecLex Role SpecRole RoleLaws RoleGram RoleTop.
Import ListNotations.
Local Open Scope list_scope.

Section Gram.
Variable e : EncImpl.
Variable enc : N -> list N.
Hypothesis SH : shape e enc.
Variable F : pstate -> Prop.
Hypothesis FA : accepting F.
Notation rstep := (rstep e).
Notation pick := (pick enc).
Notation acc := (acc e F).
Notation St q lv rn i d := {| hd := q; level := lv; role_none := rn; include := i; doc := d |}.
Notation kw := (kw enc).
Notation sub d := (if d : bool then H_internalSubset else H_externalSubset1).

Ltac ev := unfold RoleLaws.rstep, token_role; cbn [hd]; machine; cbn [pad app]; rewrite ?inc_start_pad; cbn [bind];
  repeat match goal with |- context [tok_eqb ?a ?b] => let v := eval vm_compute in (tok_eqb a b) in change (tok_eqb a b) with v end; cbv iota;
  rewrite ?inc_start_pad; cbn [bind]; rewrite ?(on_kw_pick e enc SH) by alts_asc;
  unfold to, set_level, set_none, set_include, subset; cbn [hd level role_none include doc].
Ltac kwcase Hs E := cbn [RoleLaws.pick] in Hs;
  match type of Hs with
  | (if beq ?t ?k then _ else _) = _ => destruct (beq t k) eqn:E; [apply beq_true in E; injection Hs as <- <-; subst t | clear E; kwcase Hs E]
  | _ => idtac
  end.
Ltac not_end := exfalso; match goal with K : F _ |- _ => apply (not_final F FA) in K; destruct K; discriminate end.
Ltac peel0 H tok t l' Hacc :=
  let HF := fresh in let r := fresh "r" in let s' := fresh "s" in let Hs := fresh in let Hr := fresh in let Hf := fresh in
  let Ht := fresh in let Hh := fresh in let Hc := fresh in let E := fresh in
  inversion H as [?|? tok t r s' l' Hs Hr Hf Ht Hh Hc Hacc]; subst; clear H;
  [|revert Hs; destruct tok; try (exfalso; apply Ht; reflexivity); try discriminate Hf; ev;
    (let H1 := fresh in intros H1;
     first [ exfalso; exact (common_no _ _ _ _ _ H1 Hr Hf)
           | injection H1 as <- <-
           | match type of H1 with context [(?a =? 0)%N] => destruct (N.eqb_spec a 0); [exfalso; exact (common_no _ _ _ _ _ H1 Hr Hf)|injection H1 as <- <-] end
           | kwcase H1 E; try (exfalso; exact (common_no _ _ _ _ _ H1 Hr Hf))
           | match type of H1 with context [if ?c then _ else _] => destruct c eqn:?; [exfalso; exact (common_no _ _ _ _ _ H1 Hr Hf)|injection H1 as <- <-] end ]);
    try (specialize (Hc eq_refl); subst t); clear Hr Hf Ht Hh; try clear Hc].
Ltac peel H tok t l' Hacc := peel0 H tok t l' Hacc; [not_end|..].
Ltac kwgo := repeat (cbn [RoleLaws.pick]; unfold SpecRole.kw; rewrite ?(kw_beq e enc SH) by asc;
  match goal with
  | |- context [beq ?a ?b] => let v := eval vm_compute in (beq a b) in change (beq a b) with v; cbv iota
  end); reflexivity.
Ltac fwd := eapply (go e F); [ev; first [reflexivity | kwgo] | discriminate | discriminate | discriminate | discriminate | discriminate | first [discriminate | reflexivity] |].
Ltac asimp := repeat first [rewrite <- app_assoc | progress cbn [app]]; reflexivity.

Notation s_decl := (s_decl enc). Notation s_ext := (s_ext enc). Notation s_exts := (s_exts enc). Notation s_doctype := (s_doctype enc). Notation s_prolog := (s_prolog enc).

Lemma decls_inv : forall len l, (List.length l <= len)%nat -> (N.of_nat (List.length l) < 4294967295)%N -> forall lv rn i, acc (St H_internalSubset lv rn i true) l ->
  exists ds l' lv' rn', Forall wf_decl ds /\ l = flat_map s_decl ds ++ punct T_CLOSE_BRACKET R_DOCTYPE_NONE :: l' /\ acc (St H_doctype5 lv' rn' i true) l'.
Proof.
  induction len as [|len IH]; intros l Hl Hb lv rn i H.
  - inversion H; subst; [not_end|cbn in Hl; lia].
  - assert (OP : forall q l', after_open q -> (List.length l' <= len)%nat -> (N.of_nat (List.length l') < 4294967295)%N -> acc (St q lv rn i true) l' ->
      exists ds l1 lv' rn', Forall wf_decl ds /\ open_of enc q :: l' = flat_map s_decl ds ++ punct T_CLOSE_BRACKET R_DOCTYPE_NONE :: l1 /\ acc (St H_doctype5 lv' rn' i true) l1).
    { intros q l' Hq Hl' Hb' Hacc. apply (opened_inv e enc SH F FA) in Hacc as (x & l2 & lv2 & rn2 & W & E & L & H2); auto.
      apply IH in H2 as (ds & l3 & lv3 & rn3 & W3 & E3 & H3); [|lia|lia]. exists (x :: ds), l3, lv3, rn3.
      split; [now constructor|]. split; [|exact H3]. rewrite E, E3. cbn [flat_map]. asimp. }
    assert (ON : forall x l', wf_decl x -> (List.length l' <= len)%nat -> (N.of_nat (List.length l') < 4294967295)%N -> acc (St H_internalSubset lv rn i true) l' ->
      exists ds l1 lv' rn', Forall wf_decl ds /\ s_decl x ++ l' = flat_map s_decl ds ++ punct T_CLOSE_BRACKET R_DOCTYPE_NONE :: l1 /\ acc (St H_doctype5 lv' rn' i true) l1).
    { intros x l' W Hl' Hb' Hacc. apply IH in Hacc as (ds & l3 & lv3 & rn3 & W3 & E3 & H3); auto. exists (x :: ds), l3, lv3, rn3.
      split; [now constructor|]. split; [|exact H3]. rewrite E3. cbn [flat_map]. asimp. }
    peel H tok t l' Hacc; cbn [List.length] in Hl, Hb.
    + apply (ON (DPi t)); auto; try lia. exact I.
    + apply (ON (DComment t)); auto; try lia. exact I.
    + apply (OP H_entity0); auto; try lia. unfold after_open. tauto.
    + apply (OP H_attlist0); auto; try lia. unfold after_open. tauto.
    + apply (OP H_element0); auto; try lia. unfold after_open. tauto.
    + apply (OP H_notation0); auto; try lia. unfold after_open. tauto.
    + exists [], l', lv, rn. split; [constructor|]. split; [reflexivity|exact Hacc].
    + apply (ON (DParamRef t)); auto; try lia. exact I.
Qed.
Lemma decls_fwd : forall ds l i, Forall wf_decl ds -> (N.of_nat (List.length (flat_map s_decl ds)) < 4294967295)%N ->
  (forall lv rn, acc (St H_doctype5 lv rn i true) l) ->
  forall lv rn, acc (St H_internalSubset lv rn i true) (flat_map s_decl ds ++ punct T_CLOSE_BRACKET R_DOCTYPE_NONE :: l).
Proof.
  induction ds as [|x ds IH]; intros l i W Hb H lv rn; cbn [flat_map app].
  - unfold punct. fwd. apply H.
  - inversion W as [|y z W1 W2]; subst. cbn [flat_map] in Hb. rewrite app_length in Hb. rewrite <- app_assoc.
    apply (decl_fwd e enc SH F x _ lv rn i true); auto; [lia|]. intros. apply IH; auto. lia.
Qed.

(* what follows the document type *)
Lemma after_inv : forall len l, (List.length l <= len)%nat -> forall lv rn i d, acc (St H_prolog2 lv rn i d) l ->
  exists ms l' lv' rn', ~ In MBom ms /\ l = map s_misc ms ++ punct T_INSTANCE_START R_INSTANCE_START :: l' /\ acc (St H_error lv' rn' i d) l'.
Proof.
  induction len as [|len IH]; intros l Hl lv rn i d H.
  - inversion H; subst; [not_end|cbn in Hl; lia].
  - peel H tok t l' Hacc; cbn [List.length] in Hl.
    + apply IH in Hacc as (ms & l2 & lv2 & rn2 & W & E & H2); [|lia]. exists (MPi t :: ms), l2, lv2, rn2.
      split; [intros [K|K]; [discriminate K|tauto]|]. split; [|exact H2]. now rewrite E.
    + apply IH in Hacc as (ms & l2 & lv2 & rn2 & W & E & H2); [|lia]. exists (MComment t :: ms), l2, lv2, rn2.
      split; [intros [K|K]; [discriminate K|tauto]|]. split; [|exact H2]. now rewrite E.
    + exists [], l', lv, rn. split; [intros []|]. split; [reflexivity|exact Hacc].
Qed.
Lemma after_fwd : forall ms l lv rn i d, ~ In MBom ms -> (forall lv rn, acc (St H_error lv rn i d) l) ->
  acc (St H_prolog2 lv rn i d) (map s_misc ms ++ punct T_INSTANCE_START R_INSTANCE_START :: l).
Proof.
  induction ms as [|[t|t|] ms IH]; intros l lv rn i d W H; cbn [map app s_misc].
  - unfold punct. fwd. apply H.
  - fwd. apply IH; auto. intros K. apply W. now right.
  - fwd. apply IH; auto. intros K. apply W. now right.
  - exfalso. apply W. now left.
Qed.
Definition tail_pieces (s : option (list decl)) : list piece :=
  match s with
  | Some l => punct T_OPEN_BRACKET R_DOCTYPE_INTERNAL_SUBSET :: flat_map s_decl l ++ [punct T_CLOSE_BRACKET R_DOCTYPE_NONE]
  | None => []
  end ++ [punct T_DECL_CLOSE R_DOCTYPE_CLOSE].
Lemma subset_tail_inv : forall l lv rn i, (N.of_nat (List.length l) < 4294967295)%N -> acc (St H_internalSubset lv rn i true) l ->
  exists s l' lv' rn', Forall wf_decl s /\ punct T_OPEN_BRACKET R_DOCTYPE_INTERNAL_SUBSET :: l = tail_pieces (Some s) ++ l' /\
    (List.length l' < List.length l)%nat /\ acc (St H_prolog2 lv' rn' i true) l'.
Proof.
  intros l lv rn i Hb H. apply (decls_inv (List.length l)) in H as (ds & l2 & lv2 & rn2 & W & E & H2); [|lia|lia].
  rename H2 into H. peel H tok t l3 H3. exists ds, l3, lv2, rn2. split; [exact W|]. split; [|split; [|exact H3]].
  - unfold tail_pieces. asimp.
  - rewrite app_length. cbn [List.length]. lia.
Qed.
Lemma doctype_inv : forall l lv rn i, (N.of_nat (List.length l) < 4294967294)%N -> acc (St H_doctype0 lv rn i true) l ->
  exists x l' lv' rn', wf_doctype x /\ (T_DECL_OPEN, kw "DOCTYPE", R_DOCTYPE_NONE) :: l = s_doctype x ++ l' /\ acc (St H_prolog2 lv' rn' i true) l'.
Proof.
  intros l lv rn i Hb H.
  assert (D1 : forall n p l', p = name n R_DOCTYPE_NAME -> (N.of_nat (List.length l') < 4294967294)%N -> acc (St H_doctype1 lv rn i true) l' ->
    exists x l1 lv' rn', wf_doctype x /\ (T_DECL_OPEN, kw "DOCTYPE", R_DOCTYPE_NONE) :: p :: l' = s_doctype x ++ l1 /\ acc (St H_prolog2 lv' rn' i true) l1).
  { clear l Hb H. intros n p l Ep Hb H. subst p.
    assert (D4 : forall x l', (N.of_nat (List.length l') < 4294967294)%N -> acc (St H_doctype4 lv rn i true) l' ->
      exists dt l1 lv' rn', wf_doctype dt /\ (T_DECL_OPEN, kw "DOCTYPE", R_DOCTYPE_NONE) :: name n R_DOCTYPE_NAME ::
        s_ext R_DOCTYPE_NONE R_DOCTYPE_PUBLIC_ID R_DOCTYPE_SYSTEM_ID x ++ l' = s_doctype dt ++ l1 /\ acc (St H_prolog2 lv' rn' i true) l1).
    { clear l Hb H. intros x l Hb H. peel H tok t l' Hacc; cbn [List.length] in Hb.
      - exists {| dt_name := n; dt_ext := Some x; dt_subset := None |}, l', lv, rn. split; [exact I|]. split; [|exact Hacc].
        unfold SpecRole.s_doctype. cbn [dt_name dt_ext dt_subset]. asimp.
      - apply subset_tail_inv in Hacc as (s & l2 & lv2 & rn2 & W & E & L & H2); [|lia].
        exists {| dt_name := n; dt_ext := Some x; dt_subset := Some s |}, l2, lv2, rn2. split; [exact W|]. split; [|exact H2].
        change ((T_OPEN_BRACKET, [], R_DOCTYPE_INTERNAL_SUBSET) :: l') with (punct T_OPEN_BRACKET R_DOCTYPE_INTERNAL_SUBSET :: l').
        rewrite E. unfold SpecRole.s_doctype, tail_pieces. cbn [dt_name dt_ext dt_subset]. asimp. }
    peel H tok t l' Hacc; cbn [List.length] in Hb.
    - exists {| dt_name := n; dt_ext := None; dt_subset := None |}, l', lv, rn. split; [exact I|]. split; [reflexivity|exact Hacc].
    - rename Hacc into H. peel H tok2 t2 l2 H2. cbn [List.length] in Hb. apply (D4 (System t2)) in H2; [exact H2|lia].
    - rename Hacc into H. peel H tok2 t2 l2 H2. rename H2 into H. peel H tok3 t3 l3 H3. cbn [List.length] in Hb. apply (D4 (Public t2 t3)) in H3; [exact H3|lia].
    - apply subset_tail_inv in Hacc as (s & l2 & lv2 & rn2 & W & E & L & H2); [|lia].
      exists {| dt_name := n; dt_ext := None; dt_subset := Some s |}, l2, lv2, rn2. split; [exact W|]. split; [|exact H2].
      change ((T_OPEN_BRACKET, [], R_DOCTYPE_INTERNAL_SUBSET) :: l') with (punct T_OPEN_BRACKET R_DOCTYPE_INTERNAL_SUBSET :: l').
      rewrite E. unfold SpecRole.s_doctype, tail_pieces. cbn [dt_name dt_ext dt_subset]. asimp. }
  peel H tok t l' Hacc; cbn [List.length] in Hb.
  - apply (D1 {| prefixed := false; spelt := t |}); [reflexivity|lia|exact Hacc].
  - apply (D1 {| prefixed := true; spelt := t |}); [reflexivity|lia|exact Hacc].
Qed.
Lemma tail_fwd : forall s l i, match s with Some ds => Forall wf_decl ds | None => True end ->
  (N.of_nat (List.length (tail_pieces s)) < 4294967295)%N -> (forall lv rn, acc (St H_prolog2 lv rn i true) l) ->
  forall lv rn, acc (St H_doctype4 lv rn i true) (tail_pieces s ++ l) /\ acc (St H_doctype1 lv rn i true) (tail_pieces s ++ l).
Proof.
  intros s l i W Hb H lv rn. destruct s as [ds|]; unfold tail_pieces.
  - assert (K : forall lv rn, acc (St H_internalSubset lv rn i true) (flat_map s_decl ds ++ punct T_CLOSE_BRACKET R_DOCTYPE_NONE :: punct T_DECL_CLOSE R_DOCTYPE_CLOSE :: l)).
    { apply decls_fwd; [exact W| |].
      - unfold tail_pieces in Hb. cbn [app List.length] in Hb. rewrite !app_length in Hb. lia.
      - intros. unfold punct. fwd. apply H. }
    rewrite <- app_assoc. cbn [app]. rewrite <- app_assoc. cbn [app]. unfold punct at 1 4. split; fwd; apply K.
  - cbn [app]. unfold punct. split; fwd; apply H.
Qed.
Lemma doctype_fwd : forall x l i, wf_doctype x -> (N.of_nat (List.length (s_doctype x)) < 4294967295)%N -> (forall lv rn, acc (St H_prolog2 lv rn i true) l) ->
  forall lv rn, acc (St H_prolog1 lv rn i true) (s_doctype x ++ l).
Proof.
  intros [[pf sp] x s] l i W Hb H lv rn. unfold SpecRole.s_doctype in *. cbn [dt_name dt_ext dt_subset] in *.
  cbn [app]. fwd.
  assert (T : forall lv rn, acc (St H_doctype1 lv rn i true) ((match x with Some x => s_ext R_DOCTYPE_NONE R_DOCTYPE_PUBLIC_ID R_DOCTYPE_SYSTEM_ID x | None => [] end ++ tail_pieces s) ++ l)).
  { intros lv' rn'. assert (B : (N.of_nat (List.length (tail_pieces s)) < 4294967295)%N).
    { cbn [List.length] in Hb. rewrite app_length in Hb. change (match s with Some l0 => _ | None => [] end ++ [punct T_DECL_CLOSE R_DOCTYPE_CLOSE]) with (tail_pieces s) in Hb. lia. }
    destruct x as [[y|p y]|]; cbn [SpecRole.s_ext app].
    - fwd. fwd. now apply tail_fwd.
    - fwd. fwd. fwd. now apply tail_fwd.
    - now apply tail_fwd. }
  unfold name at 1. cbn [prefixed spelt]. destruct pf; fwd; apply T.
Qed.
Lemma prolog_inv : forall len l, (List.length l <= len)%nat -> (N.of_nat (List.length l) < 4294967294)%N -> forall lv rn i, acc (St H_prolog1 lv rn i true) l ->
  exists p l' lv' rn', wf_prolog p /\ l = s_prolog p ++ l' /\ acc (St H_error lv' rn' i true) l'.
Proof.
  induction len as [|len IH]; intros l Hl Hb lv rn i H.
  - inversion H; subst; [not_end|cbn in Hl; lia].
  - assert (M : forall m l', (List.length l' <= len)%nat -> (N.of_nat (List.length l') < 4294967294)%N -> acc (St H_prolog1 lv rn i true) l' ->
      exists p l1 lv' rn', wf_prolog p /\ s_misc m :: l' = s_prolog p ++ l1 /\ acc (St H_error lv' rn' i true) l1).
    { intros m l' Hl' Hb' Hacc. apply IH in Hacc as ([b x] & l2 & lv2 & rn2 & W & E & H2); auto.
      exists {| before := m :: b; dtd := x |}, l2, lv2, rn2. split; [exact W|]. split; [|exact H2]. rewrite E. reflexivity. }
    peel H tok t l' Hacc; cbn [List.length] in Hl, Hb.
    + apply (M (MPi t)); auto; lia.
    + apply (M (MComment t)); auto; lia.
    + apply (M MBom); auto; lia.
    + apply doctype_inv in Hacc as (x & l2 & lv2 & rn2 & W & E & H2); [|lia].
      apply (after_inv (List.length l2)) in H2 as (ms & l3 & lv3 & rn3 & W3 & E3 & H3); [|lia].
      exists {| before := []; dtd := Some (x, ms) |}, l3, lv3, rn3. split; [split; assumption|]. split; [|exact H3].
      change (flat_map enc KW_DOCTYPE) with (kw "DOCTYPE"). rewrite E, E3. unfold SpecRole.s_prolog. cbn [before dtd map]. asimp.
    + exists {| before := []; dtd := None |}, l', lv, rn. split; [exact I|]. split; [reflexivity|exact Hacc].
Qed.
Lemma prolog_fwd : forall p l i, wf_prolog p -> (N.of_nat (List.length (s_prolog p)) < 4294967295)%N -> (forall lv rn, acc (St H_error lv rn i true) l) ->
  forall lv rn, acc (St H_prolog1 lv rn i true) (s_prolog p ++ l).
Proof.
  intros [b x] l i W Hb H. induction b as [|m b IH]; intros lv rn.
  - unfold SpecRole.s_prolog in *. cbn [before dtd map app] in *. destruct x as [[dt ms]|].
    + destruct W as [W1 W2]. rewrite !app_length in Hb. rewrite <- !app_assoc. apply doctype_fwd; [exact W1|lia|].
      intros. cbn [app]. now apply after_fwd.
    + cbn [app]. unfold punct. fwd. apply H.
  - assert (B : (N.of_nat (List.length (s_prolog {| before := b; dtd := x |})) < 4294967295)%N).
    { unfold SpecRole.s_prolog in *. cbn [before dtd map] in *. cbn [List.length app] in Hb. lia. }
    specialize (IH W B). unfold SpecRole.s_prolog in *. cbn [before dtd map app] in *. destruct m; cbn [s_misc]; unfold punct at 1; try (fwd; apply IH).
    all: try (match goal with |- context [punct T_BOM R_NONE] => unfold punct at 1 end; fwd; apply IH).
Qed.

(* the external subset *)
Hypothesis FI : forall lv rn i, F (St H_externalSubset1 lv rn i false) -> i = 0%N.
Lemma exts_inv : forall len l, (List.length l <= len)%nat -> forall lv rn i, (i + N.of_nat (List.length l) < 4294967295)%N -> acc (St H_externalSubset1 lv rn i false) l ->
  exists x l', wf_exts x /\ l = s_exts x ++ l' /\
    ((l' = [] /\ exists lv' rn', F (St H_externalSubset1 lv' rn' i false)) \/
     exists l2 lv' rn', l' = punct T_COND_SECT_CLOSE R_NONE :: l2 /\ (0 < i)%N /\ acc (St H_externalSubset1 lv' rn' (i - 1) false) l2).
Proof.
  induction len as [|len IH]; intros l Hl lv rn i Hb H.
  - inversion H; subst; [|cbn in Hl; lia]. exists ENil, []. split; [exact I|]. split; [reflexivity|]. left. split; [reflexivity|]. eauto.
  - assert (OP : forall q l', after_open q -> (List.length l' <= len)%nat -> (i + N.of_nat (List.length l') < 4294967295)%N -> acc (St q lv rn i false) l' ->
      exists x l1, wf_exts x /\ open_of enc q :: l' = s_exts x ++ l1 /\
       ((l1 = [] /\ exists lv' rn', F (St H_externalSubset1 lv' rn' i false)) \/
        exists l2 lv' rn', l1 = punct T_COND_SECT_CLOSE R_NONE :: l2 /\ (0 < i)%N /\ acc (St H_externalSubset1 lv' rn' (i - 1) false) l2)).
    { intros q l' Hq Hl' Hb' Hacc. apply (opened_inv e enc SH F FA) in Hacc as (x & l2 & lv2 & rn2 & W & E & L & H2); auto; [|lia].
      apply IH in H2 as (xs & l3 & W3 & E3 & H3); [|lia|lia]. exists (EDecl x xs), l3.
      split; [split; assumption|]. split; [|exact H3]. rewrite E, E3. cbn [SpecRole.s_exts]. asimp. }
    assert (ON : forall x l', wf_decl x -> (List.length l' <= len)%nat -> (i + N.of_nat (List.length l') < 4294967295)%N -> acc (St H_externalSubset1 lv rn i false) l' ->
      exists y l1, wf_exts y /\ s_decl x ++ l' = s_exts y ++ l1 /\
       ((l1 = [] /\ exists lv' rn', F (St H_externalSubset1 lv' rn' i false)) \/
        exists l2 lv' rn', l1 = punct T_COND_SECT_CLOSE R_NONE :: l2 /\ (0 < i)%N /\ acc (St H_externalSubset1 lv' rn' (i - 1) false) l2)).
    { intros x l' W Hl' Hb' Hacc. apply IH in Hacc as (xs & l3 & W3 & E3 & H3); auto. exists (EDecl x xs), l3.
      split; [split; assumption|]. split; [|exact H3]. rewrite E3. cbn [SpecRole.s_exts]. asimp. }
    peel0 H tok t l' Hacc; [|cbn [List.length] in Hl, Hb..].
    + exists ENil, []. split; [exact I|]. split; [reflexivity|]. left. split; [reflexivity|]. eauto.
    + apply (ON (DPi t)); auto; try lia. exact I.
    + apply (ON (DComment t)); auto; try lia. exact I.
    + apply (OP H_entity0); auto; try lia. unfold after_open. tauto.
    + apply (OP H_attlist0); auto; try lia. unfold after_open. tauto.
    + apply (OP H_element0); auto; try lia. unfold after_open. tauto.
    + apply (OP H_notation0); auto; try lia. unfold after_open. tauto.
    + apply (ON (DParamRef t)); auto; try lia. exact I.
    + (* conditional section *) rename Hacc into H. peel H tok2 t2 l2 H2.
      * rename H2 into H. peel H tok3 t3 l3 H3. cbn [List.length] in Hl, Hb. rewrite u32_succ_small in H3 by lia.
        apply IH in H3 as (x & l4 & W4 & E4 & [[E5 (lv' & rn' & H5)]|(l5 & lv5 & rn5 & E5 & _ & H5)]); [| |lia|lia].
        { exfalso. apply FI in H5. lia. }
        replace (i + 1 - 1)%N with i in H5 by lia. subst l3 l4. rewrite app_length in Hl, Hb. cbn [List.length] in Hl, Hb.
        apply IH in H5 as (y & l6 & W6 & E6 & H6); [|lia|lia]. exists (EInclude x y), l6. split; [split; assumption|]. split; [|exact H6].
        rewrite E6. cbn [SpecRole.s_exts]. asimp.
      * rename H2 into H. peel H tok3 t3 l3 H3. cbn [List.length] in Hl, Hb.
        apply IH in H3 as (y & l6 & W6 & E6 & H6); [|lia|lia]. exists (EIgnore y), l6. split; [exact W6|]. split; [|exact H6].
        rewrite E6. cbn [SpecRole.s_exts]. asimp.
    + exists ENil, (punct T_COND_SECT_CLOSE R_NONE :: l'). split; [exact I|]. split; [reflexivity|]. right. exists l', lv, rn.
      rewrite u32_pred_nz in Hacc by lia. split; [reflexivity|]. split; [lia|exact Hacc].
Qed.
Lemma exts_fwd : forall x l i, wf_exts x -> (i + N.of_nat (List.length (s_exts x)) < 4294967295)%N ->
  (forall lv rn, acc (St H_externalSubset1 lv rn i false) l) -> forall lv rn, acc (St H_externalSubset1 lv rn i false) (s_exts x ++ l).
Proof.
  induction x as [|d x IH|b IHb x IH|x IH]; intros l i W Hb H lv rn; cbn [SpecRole.s_exts app wf_exts] in *.
  - apply H.
  - destruct W as [W1 W2]. rewrite app_length in Hb. rewrite <- app_assoc. apply (decl_fwd e enc SH F d _ lv rn i false); auto; [lia|].
    intros. apply IH; auto. lia.
  - destruct W as [W1 W2]. cbn [List.length] in Hb. rewrite app_length in Hb. cbn [List.length] in Hb. unfold punct at 1 2. fwd. fwd. fwd.
    rewrite u32_succ_small by lia. rewrite <- app_assoc. apply IHb; [exact W1|lia|]. intros. cbn [app]. unfold punct.
    eapply (go e F); [ev|..].
    { destruct (N.eqb_spec (i + 1) 0); [lia|]. rewrite u32_pred_nz by lia. replace (i + 1 - 1)%N with i by lia. reflexivity. }
    all: try discriminate. 1: reflexivity.
    apply IH; [exact W2|lia|exact H].
  - cbn [List.length] in Hb. unfold punct. fwd. fwd. fwd. apply IH; [exact W|lia|exact H].
Qed.
End Gram.
