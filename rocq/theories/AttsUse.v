(* Equal names, and the declaration of attributes by the parser. *)
From Coq Require Import List NArith ZArith Bool Lia Arith.
From Verif Require Import Base Encoding SpecText SpecUnicode SpecNames SpecLex Status Role State AttVal Bind Atts Content Prolog SpecNs SpecCtx CtxLaws SpecAttVal SpecAtts AttsLaws AttsTop AttsText AttsDecl.
From Verif Require Nest.
Import ListNotations.
Local Open Scope N_scope.

Lemma prefixed_unique n p l p' l' : prefixed n p l -> prefixed n p' l' -> p = p' /\ l = l'.
Proof.
  intros [E H] [E' H']. rewrite E in E'. clear E n. revert p' H' E'. induction p as [|c p IH]; intros [|c' p'] H' E'; cbn in E'.
  - injection E' as <-. auto.
  - injection E' as X _. destruct H'. left. auto.
  - injection E' as X _. destruct H. left. auto.
  - injection E' as <- E'. destruct (IH (fun h => H (or_intror h)) p' (fun h => H' (or_intror h)) E') as [-> ->]. auto.
Qed.
Lemma bound_unique ds s p u u' : NoDup (map fst ds) -> bound_inside ds s p u -> bound_inside ds s p u' -> u = u'.
Proof.
  intros Nd [(n & I & D & _)|[F (b & B & E)]] [(n' & I' & D' & _)|[F' (b' & B' & E')]].
  - assert (n = n') by (eapply declares_inj; eauto). subst n'.
    clear D D'. induction ds as [|[m v] ds IH]; [destruct I|]. inversion Nd as [|? ? N1 N2]; subst. destruct I as [I|I], I' as [I'|I'].
    + congruence.
    + injection I as -> ->. destruct N1. apply (in_map fst) in I'. exact I'.
    + injection I' as -> ->. destruct N1. apply (in_map fst) in I. exact I.
    + auto.
  - destruct (F' n u I D).
  - destruct (F n' u' I' D').
  - rewrite B in B'. injection B' as <-. rewrite E in E'. eapply separator_inj; eauto.
Qed.
Lemma declared_nodup ns l : NoDup (map fst l) -> NoDup (map fst (declared ns l)).
Proof.
  unfold declared. induction l as [|[n v] l IH]; [auto|]. cbn [map fst filter]. intros H. inversion H as [|? ? H1 H2]; subst.
  destruct (is_declaration ns n); [|auto]. cbn [map fst]. constructor; [|auto]. intros I. apply H1.
  apply in_map_iff in I as (x & <- & I). apply filter_In in I as [I _]. apply in_map. exact I.
Qed.
Lemma colon_name n p l : prefixed n p l -> In COLON n.
Proof. intros [-> _]. apply in_or_app. right. left. reflexivity. Qed.
Lemma forall2_mid {A B} (R : A -> B -> Prop) a x b l : Forall2 R (a ++ x :: b) l -> exists a' y b', l = a' ++ y :: b' /\ Forall2 R a a' /\ R x y /\ Forall2 R b b'.
Proof.
  revert l. induction a as [|z a IH]; intros l H.
  - inversion H as [|? y ? b' H1 H2]; subst. exists [], y, b'. auto.
  - inversion H as [|? y ? b' H1 H2]; subst. destruct (IH _ H2) as (a' & w & c' & -> & F & G & K). exists (y :: a'), w, c'. auto.
Qed.
(* equal names are the reason *)
Theorem equal_names empty s el given o : tables s -> seen_tag empty s el given o -> otherwise_fine s el given ->
  ~ NoDup (map fst given) \/
  (c_ns (s_cfg s) = true /\ c_triplets (s_cfg s) = false /\ clean s (attributes given el s) /\ same_expanded s el given) ->
  exists s', o = Fail XE_DUPLICATE_ATTRIBUTE s'.
Proof.
  intros TA H Fi W. destruct o as [[] s'|x s'|x]; cbn [seen_tag] in H; [exfalso| |destruct H].
  - destruct H as (name & l & k & ix & after & before & _ & _ & _ & [D _ _] & Nd & _ & Dist).
    destruct W as [W|(Ns & Nt & Cl & (l1 & y & l2 & y' & l3 & m & E & X & X'))]; [exact (W Nd)|].
    specialize (Dist (or_intror (conj Nt Cl))). rewrite Ns in D. rewrite E in D.
    apply forall2_mid in D as (a1 & z & r1 & -> & _ & [Nz _] & D). apply forall2_mid in D as (a2 & z' & r2 & -> & _ & [Nz' _] & _).
    set (B := bound_inside (declared true (attributes given el s)) s) in *.
    assert (U : forall p u u', B p u -> B p u' -> u = u').
    { intros p u u'. apply bound_unique. apply declared_nodup, attributes_nodup; assumption. }
    assert (Fst : forall y z, expanded s B y m -> att_name s B y z -> z = m).
    { intros v w (p & q & u & P & Bp & ->) [[C|C]|p' q' u' _ P' Bp']; [congruence|destruct C; eapply colon_name; eauto|].
      destruct (prefixed_unique _ _ _ _ _ P P') as [<- <-]. rewrite Nt, app_nil_r, (U _ _ _ Bp Bp'). reflexivity. }
    rewrite map_app in Dist. cbn [map] in Dist. rewrite map_app in Dist. cbn [map] in Dist.
    rewrite (Fst _ _ X Nz), (Fst _ _ X' Nz') in Dist. apply NoDup_remove_2 in Dist. apply Dist.
    apply in_or_app. right. apply in_or_app. right. left. reflexivity.
  - exists s'. f_equal. destruct H as [_|n v p x Ns I Dc Wr|n v p l Ns I P Nb|p l Ns P Nb|]; try reflexivity; exfalso; destruct (Fi Ns) as [F1 F2].
    + exact (F1 n v p I Dc x Wr).
    + destruct (F2 n v p l (or_introl I) P) as (u & Hu). exact (Nb u Hu).
    + destruct (F2 el [] p l (or_intror eq_refl) P) as (u & Hu). exact (Nb u Hu).
Qed.

(* the end of the declaration of an attribute *)
Theorem attribute_declared s el id et a isId v req :
  tables s -> s_declElement s = Some el -> s_declAttId s = Some id ->
  look el (d_elems (s_dtd s)) = Some et -> look id (d_attids (s_dtd s)) = Some a ->
  exists b s', end_attribute isId v req s = Ret b s' /\ tables s' /\
    (forall e n, declaration_of n (declarations e s') =
       match declaration_of n (declarations e s) with
       | Some x => Some x
       | None => if beqb e el && beqb n id then Some (s_declCdata s, v) else None
       end) /\
    (forall e, defaults e s' = defaults e s ++
       (if beqb e el && match declaration_of id (declarations el s) with Some _ => false | None => true end
        then match v with Some v => [(id, v)] | None => [] end else [])).
Proof.
  intros TA He Hi El Ea.
  assert (X : exists b s', end_attribute isId v req s = Ret b s' /\ s_cfg s' = s_cfg (defined el id (s_declCdata s) isId v s) /\ s_dtd s' = s_dtd (defined el id (s_declCdata s) isId v s)).
  { unfold end_attribute. unfold pbind at 1, get at 1. unfold pbind at 1. rewrite He. cbn [some]. unfold pret at 1. unfold pbind at 1, get at 1.
    unfold pbind at 1. rewrite Hi. cbn [some]. unfold pret at 1. unfold pbind at 1, get at 1. unfold pbind at 1, upd_dtd at 1, upd at 1.
    unfold pbind at 1, handler, get. unfold pbind at 1. fold (defined el id (s_declCdata s) isId v s). set (s1 := defined el id (s_declCdata s) isId v s).
    destruct (h_attlist (c_h (s_cfg s1))); [|eexists _, _; split; [reflexivity|split; reflexivity]].
    destruct (s_declAttType s1) as [ty|]; [|eexists _, _; split; [reflexivity|split; reflexivity]].
    eexists _, _. split; [reflexivity|]. split; reflexivity. }
  destruct X as (b & s' & E & Ec & Ed). exists b, s'. split; [exact E|].
  pose proof (defined_tables el id (s_declCdata s) isId v s et a TA El Ea) as T.
  split; [exact (like_tables _ _ Ec Ed T)|].
  assert (Dc : forall e, declarations e s' = declarations e (defined el id (s_declCdata s) isId v s)) by (intros e; unfold declarations; rewrite Ed; reflexivity).
  split.
  - intros e n. rewrite Dc. eapply defined_first; eassumption.
  - intros e. unfold defaults. rewrite Dc. fold (defaults e (defined el id (s_declCdata s) isId v s)). fold (defaults e s).
    erewrite defined_defaults by eassumption. unfold is_declared. f_equal. destruct (declaration_of id (declarations el s)); reflexivity.
Qed.

Theorem start_tag_seen s e enc dom lat name atts sp given rest : tag_case s e enc dom lat false name atts sp given ->
  exists n0, forall r n, (n0 <= rc_fuel r)%nat ->
    seen_tag false s (utf8 name) given (start_tag r ENormal e (flat_map enc (tag_text name atts sp false) ++ rest) n s).
Proof.
  intros [TE He Hok Hd Hg TA ND Hh].
  destruct (start_tag_out e enc dom lat _ s TE He eq_refl name atts sp rest given Hok TA ND Hg Hh Hd) as (n0 & H). exists n0. intros. apply H. assumption.
Qed.
Theorem empty_tag_seen s e enc dom lat name atts sp given rest : tag_case s e enc dom lat true name atts sp given ->
  exists n0, forall r n, (n0 <= rc_fuel r)%nat ->
    seen_tag true s (utf8 name) given (empty_tag r ENormal e (flat_map enc (tag_text name atts sp true) ++ rest) n s).
Proof.
  intros [TE He Hok Hd Hg TA ND Hh].
  destruct (empty_tag_out e enc dom lat _ s TE He eq_refl name atts sp rest given Hok TA ND Hg Hh Hd) as (n0 & H). exists n0. intros. apply H. assumption.
Qed.
Theorem distinct_delivered s e enc dom lat name atts sp given rest : tag_case s e enc dom lat false name atts sp given ->
  c_ns (s_cfg s) = false \/ (c_triplets (s_cfg s) = false /\ clean s (attributes given (utf8 name) s)) ->
  exists n0, forall r n s', (n0 <= rc_fuel r)%nat ->
    start_tag r ENormal e (flat_map enc (tag_text name atts sp false) ++ rest) n s = Ret tt s' ->
    NoDup (map fst given) /\
    exists m l k ix after before, s_log s' = after ++ (s_pid s', EvStartElement m l k ix) :: before ++ s_log s /\ NoDup (map fst l).
Proof.
  intros C W. destruct (start_tag_seen _ _ _ _ _ _ _ _ _ rest C) as (n0 & H). exists n0. intros r n s' Hf E. specialize (H r n Hf). rewrite E in H.
  destruct H as (m & l & k & ix & after & before & L & _ & _ & _ & Nd & _ & D). split; [exact Nd|]. exists m, l, k, ix, after, before. auto.
Qed.
Theorem duplicate_rejected s e enc dom lat name atts sp given rest : tag_case s e enc dom lat false name atts sp given ->
  otherwise_fine s (utf8 name) given ->
  ~ NoDup (map fst given) \/
  (c_ns (s_cfg s) = true /\ c_triplets (s_cfg s) = false /\ clean s (attributes given (utf8 name) s) /\ same_expanded s (utf8 name) given) ->
  exists n0, forall r n, (n0 <= rc_fuel r)%nat ->
    exists s', start_tag r ENormal e (flat_map enc (tag_text name atts sp false) ++ rest) n s = Fail XE_DUPLICATE_ATTRIBUTE s'.
Proof.
  intros C Fi W. destruct (start_tag_seen _ _ _ _ _ _ _ _ _ rest C) as (n0 & H). exists n0. intros r n Hf.
  exact (equal_names _ _ _ _ _ (tc_tables _ _ _ _ _ _ _ _ _ _ C) (H r n Hf) Fi W).
Qed.
