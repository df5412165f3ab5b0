(* The attributes storeAtts delivers. *)
From Coq Require Import List NArith ZArith Bool Lia Arith.
From Coq Require Import ZifyBool ZifyNat ZifyN.
From Verif Require Import Base Encoding Tok TokMisc Status Role State AttVal Bind Atts.
From Verif Require Import Keep SpecNs NsRules SpecCtx CtxLaws SpecAtts AttsLaws.
From Verif Require Nest.
Import ListNotations.
Local Open Scope N_scope.

(* ---- which defaults are supplied ---- *)
Definition valued (da : defatt) : list (bytes * bytes) := match da_value da with Some v => [(da_id da, v)] | None => [] end.
Lemma defaults_first das : forall pre seen,
  (forall l1 da l2, pre ++ das = l1 ++ da :: l2 -> da_value da <> None -> ~ In (da_id da) (map da_id l1)) ->
  (forall n, In n seen -> In n (map da_id pre)) ->
  defaults_from seen (map (fun da => (da_id da, da_cdata da, da_value da)) das) = flat_map valued das.
Proof.
  induction das as [|da das IH]; intros pre seen H Hs; [reflexivity|]. cbn [map defaults_from flat_map].
  rewrite (IH (pre ++ [da])).
  - f_equal. unfold valued. destruct (da_value da) as [v|] eqn:E.
    + assert (X : ~ In (da_id da) (map da_id pre)) by (eapply H; [reflexivity|congruence]).
      fold (mem (da_id da) seen). assert (Y : mem (da_id da) seen = false) by (apply mem_false; intros I; exact (X (Hs _ I))).
      rewrite Y. reflexivity.
    + destruct (existsb _ _); reflexivity.
  - intros l1 d l2 E. rewrite <- app_assoc in E. exact (H l1 d l2 E).
  - intros n [<-|I]; rewrite map_app; apply in_or_app; [right; left; reflexivity|left; exact (Hs n I)].
Qed.
Lemma mem_given n (given : list (bytes * bytes)) : existsb (fun '(m, _) => beqb n m) given = mem n (map fst given).
Proof. induction given as [|[m v] given IH]; [reflexivity|]. cbn [existsb map fst mem]. rewrite IH. reflexivity. Qed.
Lemma supplied_valued given das : supplied (map fst given) das = omitted given (flat_map valued das).
Proof.
  unfold supplied, omitted. induction das as [|da das IH]; [reflexivity|]. cbn [flat_map]. rewrite filter_app, IH. f_equal.
  unfold valued. destruct (da_value da) as [v|]; [|reflexivity]. cbn [filter]. rewrite mem_given. destruct (mem (da_id da) (map fst given)); reflexivity.
Qed.
Lemma supplied_defaults s el et given : tables s -> look el (d_elems (s_dtd s)) = Some et ->
  supplied (map fst given) (et_defaults et) = omitted given (defaults el s).
Proof.
  intros TA EL. rewrite supplied_valued. f_equal. unfold defaults, declarations. rewrite EL.
  symmetry. apply (defaults_first _ []); [|intros n []]. intros l1 da l2 E. exact (ta_first _ TA _ _ _ _ _ EL E).
Qed.
Lemma valued_nodup das : forall pre,
  (forall l1 da l2, pre ++ das = l1 ++ da :: l2 -> da_value da <> None -> ~ In (da_id da) (map da_id l1)) ->
  NoDup (map fst (flat_map valued das)) /\ forall n, In n (map fst (flat_map valued das)) -> ~ In n (map da_id pre).
Proof.
  induction das as [|da das IH]; intros pre H; [split; [constructor|intros n []]|].
  destruct (IH (pre ++ [da])) as [A B]; [intros l1 d l2 E; rewrite <- app_assoc in E; exact (H l1 d l2 E)|].
  cbn [flat_map]. unfold valued at 1 3. destruct (da_value da) as [v|] eqn:E; cbn [List.app map fst].
  - split; [constructor; [|exact A]|].
    + intros I. apply (B _ I). rewrite map_app. apply in_or_app. right. left. reflexivity.
    + intros n [<-|I] J; [revert J; eapply H; [reflexivity|congruence]|apply (B n I)]. rewrite map_app. apply in_or_app. left. exact J.
  - split; [exact A|]. intros n I J. apply (B n I). rewrite map_app. apply in_or_app. left. exact J.
Qed.
Lemma filter_nodup {A B} (f : A -> B) p l : NoDup (map f l) -> NoDup (map f (filter p l)).
Proof.
  induction l as [|x l IH]; cbn [filter map]; intros H; [constructor|]. inversion H as [|? ? Hx Hl]; subst. destruct (p x); [|exact (IH Hl)].
  cbn [map]. constructor; [|exact (IH Hl)]. intros I. apply Hx. apply in_map_iff in I as (y & <- & I). apply filter_In in I as [I _]. apply in_map. exact I.
Qed.
Lemma attributes_nodup s el given : tables s -> NoDup (map fst given) -> NoDup (map fst (attributes given el s)).
Proof.
  intros TA H. unfold attributes. rewrite map_app.
  assert (Nd : NoDup (map fst (defaults el s))).
  { unfold defaults, declarations. destruct (look el (d_elems (s_dtd s))) as [et|] eqn:E; [|constructor].
    assert (F : forall l1 da l2, [] ++ et_defaults et = l1 ++ da :: l2 -> da_value da <> None -> ~ In (da_id da) (map da_id l1)) by (intros l1 da l2; exact (ta_first _ TA _ _ l1 da l2 E)).
    rewrite (defaults_first _ [] []); [|exact F|intros n []]. apply (valued_nodup _ [] F). }
  assert (Nd' : NoDup (map fst (omitted given (defaults el s)))) by (apply filter_nodup; exact Nd).
  assert (Dj : forall n, In n (map fst given) -> ~ In n (map fst (omitted given (defaults el s)))).
  { intros n I J. apply in_map_iff in J as ([m v] & E & J). cbn [fst] in E. subst m. apply filter_In in J as [_ J].
    rewrite mem_given in J. apply mem_In in I. rewrite I in J. discriminate. }
  induction (map fst given) as [|x l IH]; [exact Nd'|]. cbn [List.app]. inversion H as [|? ? Hx Hl]; subst. constructor.
  - intros I. apply in_app_or in I as [I|I]; [exact (Hx I)|exact (Dj x (or_introl eq_refl) I)].
  - apply IH; [exact Hl|]. intros n I. apply Dj. right. exact I.
Qed.

(* ---- names with prefixes ---- *)
Section Tag.
Variables (s0 : st) (el : bytes) (et : elemtype).
Hypothesis TA : tables s0.
Hypothesis EL : look el (d_elems (s_dtd s0)) = Some et.
Let ns := c_ns (s_cfg s0).
Variables (G : list bytes) (D : list (bytes * bytes)) (bad : Prop).
Notation B := (bound_inside D s0).

Definition prefs (ex : list att) : list bytes := map at_name (filter (fun x => is_pref ns (at_id x)) ex).
Definition ex_ret (Y : list (bytes * bytes)) (T : bytes -> atype) (seen : list bytes) (ex : list att) (s' : st) : Prop :=
  map at_id ex = map fst Y /\ map at_value ex = map snd Y /\ Forall2 (fun y x => att_name s0 B (fst y) (at_name x)) Y ex /\
  (c_triplets (s_cfg s0) = false -> NoDup (prefs ex) /\ forall z, In z (prefs ex) -> ~ In z seen) /\
  exists T', mid s0 G T' D s' /\ forall n, T' n = T n \/ T' n = Unset.
Definition ex_fail (Y : list (bytes * bytes)) (seen : list bytes) (e : XML_Error) : Prop :=
  (e = XE_UNBOUND_PREFIX /\ exists y p l, In y Y /\ prefixed (fst y) p l /\ forall u, ~ B (PNamed p) u) \/
  (e = XE_DUPLICATE_ATTRIBUTE /\ exists Y1 y Y2 m, Y = Y1 ++ y :: Y2 /\ expanded s0 B (fst y) m /\
     (In m seen \/ exists y', In y' Y1 /\ In COLON (fst y') /\ att_name s0 B (fst y') m)).
Lemma no_prefs_ret Y : ns = true -> count ns Y = 0%nat -> map at_id (map mk Y) = map fst Y /\ map at_value (map mk Y) = map snd Y /\
  Forall2 (fun y x => att_name s0 B (fst y) (at_name x)) Y (map mk Y) /\ prefs (map mk Y) = [].
Proof using.
  clear TA EL. intros Hns C. unfold prefs. induction Y as [|[n v] Y IH]; [repeat split; constructor|].
  unfold count in *. cbn [filter fst] in C. destruct (is_pref ns n) eqn:E; [discriminate|]. destruct (IH C) as (A1 & A2 & A3 & A4).
  cbn [map mk at_id at_value fst snd filter]. rewrite A1, A2, E. split; [reflexivity|]. split; [reflexivity|]. split; [|exact A4].
  constructor; [|exact A3]. apply an_plain. right. intros I. apply is_pref_spec in I. rewrite Hns in E. cbn [fst mk at_name] in I. congruence.
Qed.
Lemma expand_list Y : forall s T nP seen, mid s0 G T D s -> ns = true -> nP = count ns Y -> nP <> 0%nat -> NoDup (map fst Y) ->
  (forall n, In n (map fst Y) -> In n G) ->
  (forall n, In n (map fst Y) -> is_declaration ns n = false /\ T n = if is_pref ns n then Prefixed else Normal) ->
  runs bad (expand_atts nP seen (map mk Y)) s (ex_ret Y T seen) (ex_fail Y seen).
Proof using TA.
  induction Y as [|[n v] Y IH]; intros s T nP seen M Hns HP HP0 Nd HG HT; [destruct HP0; exact HP|].
  cbn [map fst] in Nd, HG, HT. inversion Nd as [|? ? Hx Nd']; subst.
  cbn [map expand_atts mk at_id at_name at_value fst snd].
  destruct (HT n (or_introl eq_refl)) as [Dn Tn].
  apply runs_bind. unfold runs at 1, attid_of, pbind at 1, get at 1. rewrite (m_ids _ _ _ _ _ M n).
  assert (Hb : exists a, base s0 G n = Some a).
  { unfold base. destruct (look n (d_attids (s_dtd s0))); [eauto|]. replace (mem n G) with true by (symmetry; apply mem_In, HG; left; reflexivity). eauto. }
  destruct Hb as (a & Hb). rewrite Hb. cbn [option_map]. unfold pret at 1.
  change (ai_type (set_ai_type ?y ?z)) with y. change (ai_prefix (set_ai_type ?y ?z)) with (ai_prefix z).
  apply runs_bind. destruct (mid_type _ _ _ _ _ n Unset M) as (s1 & E1 & M1 & _). unfold runs at 1. rewrite E1.
  assert (HT1 : forall m, In m (map fst Y) -> is_declaration ns m = false /\ upd_fn T n Unset m = if is_pref ns m then Prefixed else Normal).
  { intros m I. destruct (HT m (or_intror I)) as [Dm Tm]. split; [exact Dm|]. unfold upd_fn. destruct (beqb m n) eqn:E; [|exact Tm].
    apply beqb_spec in E. subst. contradiction. }
  assert (HG1 : forall m, In m (map fst Y) -> In m G) by (intros m I; apply HG; right; exact I).
  assert (Hup : forall T', (forall m, T' m = upd_fn T n Unset m \/ T' m = Unset) -> forall m, T' m = T m \/ T' m = Unset).
  { intros T' H m. destruct (H m) as [E|E]; [|auto]. rewrite E. unfold upd_fn. destruct (beqb m n); auto. }
  assert (IDK := base_ok s0 TA G _ _ Hb). fold ns in IDK.
  assert (SP : new_spec ns n a).
  { apply id_ok_spec; [exact IDK|]. destruct IDK as [_ [E|(_ & E & _)]].
    - rewrite E. destruct (new_attid_spec ns n) as ([p' _ _ D' P' _|p' l' _ _ _ P' _|_ _ P' _] & _); rewrite P'; try discriminate. inversion D'; discriminate.
    - exfalso. rewrite E, Hns in Dn. discriminate Dn. }
  destruct (is_pref ns n) eqn:Ip.
  - destruct SP as [p Hn' Hd D' P' XM|p l Hn' Hd Pf P' XM|Hd Hc P' XM]; [congruence| |rewrite (is_pref_false _ _ Hc) in Ip; discriminate].
    rewrite Tn, P'. apply runs_bind. unfold runs at 1, getd at 1, get at 1.
    assert (Cf1 := mid_cfg s0 _ _ _ _ M1).
    destruct (binding_of (PNamed p) (s_dtd s1)) as [b|] eqn:Eb.
    2:{ unfold runs, fail. left. split; [reflexivity|]. exists (n, v), p, l. split; [left; reflexivity|]. split; [exact Pf|]. intros u Hu.
        apply (m_force _ _ _ _ _ M1) in Hu. destruct Hu as (b & X & _). congruence. }
    destruct (m_bound _ _ _ _ _ M1 _ _ Eb) as [Bp (u & Bu)].
    assert (Hsep : separator s1 = separator s0) by (unfold separator; rewrite Cf1; reflexivity).
    assert (Hu : B (PNamed p) u) by (apply (m_force _ _ _ _ _ M1); exists b; auto). rewrite Hsep in Bu.
    unfold after_colon. rewrite (proj2 (split_some n p l) Pf). apply runs_bind. unfold runs at 1, pret at 1. rewrite Bu. rewrite <- app_assoc.
    assert (Ex : expanded s0 B n (u ++ separator s0 ++ l)) by (exists p, l, u; auto).
    fold (mem (u ++ separator s0 ++ l) seen). destruct (mem (u ++ separator s0 ++ l) seen) eqn:Sn.
    { apply mem_In in Sn. unfold runs, fail. right. split; [reflexivity|]. exists [], (n, v), Y, (u ++ separator s0 ++ l). auto. }
    apply mem_false in Sn.
    apply runs_bind. unfold runs at 1, get at 1. apply runs_bind. unfold runs at 1, get at 1. rewrite Cf1. apply runs_bind.
    assert (An := an_prefix s0 B n p l u Hns Pf Hu).
    set (m := u ++ separator s0 ++ l ++ (if c_triplets (s_cfg s0) then c_sep (s_cfg s0) :: p else [])) in *.
    assert (Em : (if c_triplets (s_cfg s0) then match prefix_name (b_prefix b) with Some p => pret ((u ++ separator s0 ++ l) ++ [c_sep (s_cfg s0)] ++ p) | None => die EOob end
                  else pret (u ++ separator s0 ++ l)) s1 = Ret m s1).
    { unfold m. rewrite Bp. cbn [prefix_name]. destruct (c_triplets (s_cfg s0)); [|rewrite app_nil_r; reflexivity]. rewrite <- !app_assoc. reflexivity. }
    unfold runs at 1. rewrite Em.
    assert (Mseen : c_triplets (s_cfg s0) = false -> ~ In m seen) by (intros Tr; unfold m; rewrite Tr, app_nil_r; exact Sn).
    assert (Cn : count ns ((n, v) :: Y) = S (count ns Y)) by (unfold count; cbn [filter fst]; rewrite Ip; reflexivity). rewrite Cn.
    assert (Fin : forall ex s', map at_id ex = map fst Y -> map at_value ex = map snd Y -> Forall2 (fun y x => att_name s0 B (fst y) (at_name x)) Y ex ->
        (c_triplets (s_cfg s0) = false -> NoDup (prefs ex) /\ forall z, In z (prefs ex) -> ~ In z (m :: seen)) ->
        (exists T', mid s0 G T' D s' /\ forall m, T' m = upd_fn T n Unset m \/ T' m = Unset) ->
        ex_ret ((n, v) :: Y) T seen ({| at_id := n; at_name := m; at_value := v |} :: ex) s').
    { intros ex s' X1 X2 X3 X4 (T' & X5 & X6). unfold ex_ret. cbn [map at_id at_value fst snd]. rewrite X1, X2. split; [reflexivity|]. split; [reflexivity|].
      split; [constructor; [exact An|exact X3]|]. split; [|exists T'; split; [exact X5|exact (Hup T' X6)]].
      intros Tr. destruct (X4 Tr) as [Y1 Y2]. unfold prefs in *. cbn [filter at_id]. rewrite Ip. cbn [map at_name]. split.
      - constructor; [|exact Y1]. intros I. apply (Y2 _ I). left. reflexivity.
      - intros z [<-|I]; [exact (Mseen Tr)|]. intros J. apply (Y2 z I). right. exact J. }
    destruct (count ns Y) as [|k] eqn:Ck.
    + unfold runs, pret. destruct (no_prefs_ret Y Hns Ck) as (X1 & X2 & X3 & X4). apply Fin; auto.
      * intros _. rewrite X4. split; [constructor|intros z []].
      * exists (upd_fn T n Unset). auto.
    + cbn [pred]. apply runs_bind. eapply runs_imp; [apply (IH s1 (upd_fn T n Unset) (S k) (m :: seen) M1 Hns eq_refl); auto| |].
      * intros ex s' (X1 & X2 & X3 & X4 & X5). unfold runs, pret. apply Fin; auto.
      * intros e [(-> & y & p' & l' & I & R)|(-> & Y1 & y & Y2 & m' & E & Ex' & R)].
        -- left. split; [reflexivity|]. exists y, p', l'. split; [right; exact I|exact R].
        -- right. split; [reflexivity|]. exists ((n, v) :: Y1), y, Y2, m'. rewrite E. split; [reflexivity|]. split; [exact Ex'|].
           assert (Self : exists y', In y' ((n, v) :: Y1) /\ In COLON (fst y') /\ att_name s0 B (fst y') m).
           { exists (n, v). split; [left; reflexivity|]. split; [eapply prefixed_in; exact Pf|exact An]. }
           destruct R as [[<-|R]|(y' & I & R)]; [right; exact Self|left; exact R|right; exists y'; split; [right; exact I|exact R]].
  - rewrite Tn. apply runs_bind.
    assert (Cn : count ns ((n, v) :: Y) = count ns Y) by (unfold count; cbn [filter fst]; rewrite Ip; reflexivity). rewrite Cn in *.
    eapply runs_imp; [apply (IH s1 (upd_fn T n Unset) (count ns Y) seen M1 Hns eq_refl); auto| |].
    + intros ex s' (X1 & X2 & X3 & X4 & T' & X5 & X6). unfold runs, pret, ex_ret. cbn [map at_id at_value fst snd]. rewrite X1, X2.
      split; [reflexivity|]. split; [reflexivity|]. split.
      { constructor; [|exact X3]. apply an_plain. right. intros I. apply is_pref_spec in I. fold ns in Hns. rewrite Hns in Ip. cbn [fst mk at_name] in I. congruence. }
      split; [|exists T'; split; [exact X5|exact (Hup T' X6)]].
      intros Tr. unfold prefs in *. cbn [filter at_id mk fst]. rewrite Ip. exact (X4 Tr).
    + intros e [(-> & y & p' & l' & I & R)|(-> & Y1 & y & Y2 & m' & E & Ex' & R)].
      -- left. split; [reflexivity|]. exists y, p', l'. split; [right; exact I|exact R].
      -- right. split; [reflexivity|]. exists ((n, v) :: Y1), y, Y2, m'. rewrite E. split; [reflexivity|]. split; [exact Ex'|].
         destruct R as [R|(y' & I & R)]; [left; exact R|right; exists y'; split; [right; exact I|exact R]].
Qed.

(* the flags are reset *)
Lemma clear_list ids : forall T s, mid s0 G T D s ->
  exists s' T', clear_types ids s = Ret tt s' /\ mid s0 G T' D s' /\ s_bindings s' = s_bindings s /\ forall n, T' n = if mem n ids then Unset else T n.
Proof using.
  clear TA EL. induction ids as [|id ids IH]; intros T s M; cbn [clear_types]; [exists s, T; split; [reflexivity|]; split; [exact M|]; auto|].
  destruct (mid_type _ _ _ _ _ id Unset M) as (s1 & E1 & M1 & (x & Es)). destruct (IH _ _ M1) as (s2 & T2 & E2 & M2 & Eb & HT).
  exists s2, T2. unfold pbind. rewrite E1. split; [exact E2|]. split; [exact M2|]. split; [rewrite Eb, Es; reflexivity|].
  intros n. rewrite HT. unfold upd_fn. cbn [mem existsb]. fold (mem n ids). destruct (mem n ids), (beqb n id); reflexivity.
Qed.
Lemma clear_binds bs : forall T s ids, mid s0 G T D s -> map b_att bs = map (fun n => Some n) ids ->
  exists s' T', clear_bindings bs s = Ret tt s' /\ mid s0 G T' D s' /\ forall n, T' n = if mem n ids then Unset else T n.
Proof using.
  clear TA EL. induction bs as [|b bs IH]; intros T s ids M E; destruct ids as [|id ids]; try discriminate E; cbn [clear_bindings]; [exists s, T; split; [reflexivity|]; split; [exact M|]; auto|].
  injection E as Ea Eb. rewrite Ea. destruct (mid_type _ _ _ _ _ id Unset M) as (s1 & E1 & M1 & _). destruct (IH _ _ ids M1 Eb) as (s2 & T2 & E2 & M2 & HT).
  exists s2, T2. unfold pbind. rewrite E1. split; [exact E2|]. split; [exact M2|].
  intros n. rewrite HT. unfold upd_fn. cbn [mem existsb]. fold (mem n ids). destruct (mem n ids), (beqb n id); reflexivity.
Qed.
Lemma mid_tables s T : mid s0 G T D s -> (forall n, T n = Unset) -> tables s.
Proof using TA.
  intros M HT. assert (Cf := mid_cfg s0 _ _ _ _ M). constructor.
  - intros n a. rewrite (m_ids _ _ _ _ _ M), HT. destruct (base s0 G n); [|discriminate]. intros K. injection K as <-. reflexivity.
  - intros n a. rewrite (m_ids _ _ _ _ _ M), Cf. destruct (base s0 G n) as [b|] eqn:Eb; [|discriminate]. intros K. injection K as <-. exact (base_ok s0 TA G _ _ Eb).
  - intros e x da. rewrite (m_elems _ _ _ _ _ M). intros L I. destruct (ta_default _ TA _ _ _ L I) as (a & La & Ma).
    exists (set_ai_type (T (da_id da)) a). rewrite (m_ids _ _ _ _ _ M). unfold base. rewrite La. split; [reflexivity|exact Ma].
  - intros e x l1 da l2. rewrite (m_elems _ _ _ _ _ M). apply (ta_first _ TA).
  - intros e x. rewrite (m_elems _ _ _ _ _ M), Cf. apply (ta_elem _ TA).
  - intros e x id. rewrite (m_elems _ _ _ _ _ M). intros L I. destruct (ta_ident _ TA _ _ _ L I) as (a & La).
    exists (set_ai_type (T id) a). rewrite (m_ids _ _ _ _ _ M). unfold base. rewrite La. reflexivity.
  - exact (m_bound _ _ _ _ _ M).
Qed.

(* the name of the element *)
Lemma expand_name_out s T : mid s0 G T D s -> ns = true ->
  runs bad (expand_name el) s (fun m s' => s' = s /\ el_name s0 B el m)
    (fun e => e = XE_UNBOUND_PREFIX /\ exists p l, prefixed el p l /\ forall u, ~ B (PNamed p) u).
Proof using TA EL.
  intros M Hns. assert (Cf := mid_cfg s0 _ _ _ _ M). unfold expand_name. apply runs_bind. unfold runs at 1, get at 1.
  rewrite (m_elems _ _ _ _ _ M), EL. rewrite (ta_elem _ TA _ _ EL Hns). unfold elem_prefix.
  assert (Hsep : separator s = separator s0) by (unfold separator; rewrite Cf; reflexivity).
  apply runs_bind. destruct (split_colon el) as [[p l]|] eqn:Es.
  - pose proof Es as Pf. apply split_some in Pf. unfold runs at 1. destruct (binding_of (PNamed p) (s_dtd s)) as [b|] eqn:Eb.
    + unfold pbind at 1, after_colon. rewrite Es. unfold pret at 1 2. apply runs_bind. unfold runs at 1, get at 1. apply runs_bind. unfold runs at 1, get at 1.
      destruct (m_bound _ _ _ _ _ M _ _ Eb) as [Bp (u & Bu)].
      assert (Hu : B (PNamed p) u) by (apply (m_force _ _ _ _ _ M); exists b; auto).
      rewrite Cf, Bp, Bu, Hsep. cbn [prefix_name].
      pose proof (en_prefix s0 B el p l u Hns Pf Hu) as En.
      destruct (c_triplets (s_cfg s0)); unfold runs, pret; (split; [reflexivity|]); rewrite <- app_assoc; [exact En|rewrite app_nil_r in En; exact En].
    + unfold fail. split; [reflexivity|]. exists p, l. split; [exact Pf|]. intros u Hu. apply (m_force _ _ _ _ _ M) in Hu. destruct Hu as (b & X & _). congruence.
  - apply split_none in Es. unfold runs at 1. destruct (d_default (s_dtd s)) as [b|] eqn:Eb.
    + unfold pret at 1. apply runs_bind. unfold runs at 1, get at 1. apply runs_bind. unfold runs at 1, get at 1.
      destruct (m_bound _ _ _ _ _ M PDefault b Eb) as [Bp (u & Bu)].
      assert (Hu : B PDefault u) by (apply (m_force _ _ _ _ _ M); exists b; auto).
      rewrite Bp, Bu, Hsep. cbn [prefix_name]. pose proof (en_default s0 B el u Hns Es Hu) as En.
      destruct (c_triplets (s_cfg s)); unfold runs, pret; (split; [reflexivity|]); rewrite <- app_assoc; exact En.
    + unfold pret at 1, runs. unfold pret. split; [reflexivity|]. apply en_plain. right. split; [exact Es|]. intros u Hu.
      apply (m_force _ _ _ _ _ M) in Hu. destruct Hu as (b & X & _). cbn [binding_of] in X. congruence.
Qed.
End Tag.

(* ---- the whole tag ---- *)
Lemma look_insert_elem b el n d : look n (d_elems (insert_elem b el d)) =
  match look n (d_elems d) with
  | Some x => Some x
  | None => if beqb n el then Some {| et_prefix := if b then elem_prefix el else None; et_idAtt := None; et_defaults := [] |} else None
  end.
Proof.
  unfold insert_elem. destruct (look el (d_elems d)) as [x|] eqn:E.
  - destruct (look n (d_elems d)) eqn:En; [reflexivity|]. destruct (beqb n el) eqn:Eb; [|reflexivity]. apply beqb_spec in Eb. subst. congruence.
  - assert (X : look n (put el {| et_prefix := if b then elem_prefix el else None; et_idAtt := None; et_defaults := [] |} (d_elems d)) =
      match look n (d_elems d) with Some x => Some x | None => if beqb n el then Some {| et_prefix := if b then elem_prefix el else None; et_idAtt := None; et_defaults := [] |} else None end).
    { rewrite look_put. destruct (beqb n el) eqn:Eb; [apply beqb_spec in Eb; subst; rewrite E; reflexivity|]. destruct (look n (d_elems d)); reflexivity. }
    destruct (if b then elem_prefix el else None) as [[|p|]|]; try exact X.
    destruct (insert_prefix_rest p (set_d_elems (put el {| et_prefix := Some (PNamed p); et_idAtt := None; et_defaults := [] |} (d_elems d)) d)) as (y & ->). exact X.
Qed.
Lemma insert_elem_rest b el d : exists x y, insert_elem b el d = set_d_prefixes x (set_d_elems y d).
Proof.
  unfold insert_elem. destruct (look el (d_elems d)); [exists (d_prefixes d), (d_elems d); destruct d; reflexivity|].
  set (z := put el _ _).
  destruct (if b then elem_prefix el else None) as [[|p|]|]; try (exists (d_prefixes d), z; destruct d; reflexivity).
  destruct (insert_prefix_rest p (set_d_elems z d)) as (y & E). exists y, z. exact E.
Qed.
Lemma binding_insert_elem b el q d : binding_of q (insert_elem b el d) = binding_of q d.
Proof.
  unfold insert_elem. destruct (look el (d_elems d)); [reflexivity|]. set (z := put el _ _).
  destruct (if b then elem_prefix el else None) as [[|p|]|]; try (destruct q; reflexivity).
  rewrite binding_insert_prefix. destruct q; reflexivity.
Qed.
Definition begun (el : bytes) (s : st) : st := set_bindings [] (set_dtd (insert_elem (c_ns (s_cfg s)) el (s_dtd s)) s).
Section Begun.
Variables (el : bytes) (s : st).
Let s0 := begun el s.
Lemma begun_dtd : exists x y, s0 = set_bindings [] (set_dtd (set_d_prefixes x (set_d_elems y (s_dtd s))) s).
Proof. destruct (insert_elem_rest (c_ns (s_cfg s)) el (s_dtd s)) as (x & y & E). exists x, y. unfold s0, begun. rewrite E. reflexivity. Qed.
Lemma begun_look n : look n (d_elems (s_dtd s0)) =
  match look n (d_elems (s_dtd s)) with
  | Some x => Some x
  | None => if beqb n el then Some {| et_prefix := if c_ns (s_cfg s) then elem_prefix el else None; et_idAtt := None; et_defaults := [] |} else None
  end.
Proof. exact (look_insert_elem (c_ns (s_cfg s)) el n (s_dtd s)). Qed.
Lemma begun_force p u : in_force s0 p u <-> in_force s p u.
Proof. unfold in_force. change (s_dtd s0) with (insert_elem (c_ns (s_cfg s)) el (s_dtd s)). rewrite binding_insert_elem. reflexivity. Qed.
Lemma begun_same : same s s0. Proof. destruct begun_dtd as (x & y & ->). repeat split. Qed.
Lemma begun_attids : d_attids (s_dtd s0) = d_attids (s_dtd s). Proof. destruct begun_dtd as (x & y & ->). reflexivity. Qed.
Lemma begun_cfg : s_cfg s0 = s_cfg s. Proof. reflexivity. Qed.
Lemma begun_declarations e : declarations e s0 = declarations e s.
Proof. unfold declarations. rewrite begun_look. destruct (look e (d_elems (s_dtd s))); [reflexivity|]. destruct (beqb e el); reflexivity. Qed.
Lemma begun_tables : tables s -> tables s0.
Proof.
  intros TA. constructor; try rewrite begun_attids; try rewrite begun_cfg.
  - exact (ta_clear _ TA).
  - exact (ta_id _ TA).
  - intros e et da. rewrite begun_look. destruct (look e (d_elems (s_dtd s))) as [x|] eqn:E; [intros K; injection K as <-; exact (ta_default _ TA _ _ da E)|].
    destruct (beqb e el); [|discriminate]. intros K. injection K as <-. intros [].
  - intros e et l1 da l2. rewrite begun_look. destruct (look e (d_elems (s_dtd s))) as [x|] eqn:E; [intros K; injection K as <-; exact (ta_first _ TA _ _ l1 da l2 E)|].
    destruct (beqb e el); [|discriminate]. intros K. injection K as <-. intros X. destruct l1; discriminate X.
  - intros e et. rewrite begun_look. destruct (look e (d_elems (s_dtd s))) as [x|] eqn:E; [intros K; injection K as <-; exact (ta_elem _ TA _ _ E)|].
    destruct (beqb e el) eqn:Eb; [|discriminate]. apply beqb_spec in Eb. subst e. intros K Hn. injection K as <-. cbn [et_prefix]. rewrite Hn. reflexivity.
  - intros e et id. rewrite begun_look. destruct (look e (d_elems (s_dtd s))) as [x|] eqn:E; [intros K; injection K as <-; exact (ta_ident _ TA _ _ id E)|].
    destruct (beqb e el); [|discriminate]. intros K. injection K as <-. discriminate.
  - intros p b. change (s_dtd s0) with (insert_elem (c_ns (s_cfg s)) el (s_dtd s)). rewrite binding_insert_elem. apply (ta_bound _ TA).
Qed.
Lemma begun_mid : tables s -> mid s0 [] (fun _ => Unset) [] s0.
Proof.
  intros TA. pose proof (begun_tables TA) as TA0. constructor.
  - apply same_refl.
  - reflexivity.
  - intros n. unfold base. cbn [mem existsb]. destruct (look n (d_attids (s_dtd s0))) as [a|] eqn:E; [|reflexivity]. cbn [option_map].
    rewrite <- (ta_clear _ TA0 _ _ E). destruct a; reflexivity.
  - constructor.
  - constructor.
  - reflexivity.
  - exact (ta_bound _ TA0).
  - intros p u. unfold bound_inside. split; [intros H; right; split; [intros n v []|exact H]|]. intros [(n & [] & _)|(_ & H)]. exact H.
Qed.
Lemma bound_begun ds p u : bound_inside ds s0 p u <-> bound_inside ds s p u.
Proof. unfold bound_inside. rewrite begun_force. reflexivity. Qed.
End Begun.

Lemma named_unique t x s n n' : named t x s n -> named t x s n' -> n = n'.
Proof. intros (? & ? & ? & ? & A1 & A2 & A3 & A4 & A5) (? & ? & ? & ? & B1 & B2 & B3 & B4 & B5). congruence. Qed.
Lemma named_same t x s s' n : same s s' -> named t x s n -> named t x s' n.
Proof.
  intros H (e & nm & len & nmb & A1 & A2 & A3 & A4 & A5). exists e, nm, len, nmb.
  pose proof (agree_encoding t s s' H) as K. unfold agree in K. rewrite A1 in K. destruct K as [_ K].
  pose proof (agree_store t nmb s s' H) as L. unfold agree in L. rewrite A5 in L. destruct L as [_ L]. auto.
Qed.
Lemma value_begun fuel t el x n s v : value_of fuel t el x n s = Ret v s -> value_of fuel t el x n (begun el s) = Ret v (begun el s).
Proof.
  unfold value_of. replace (is_cdata el n (begun el s)) with (is_cdata el n s) by (unfold is_cdata; rewrite begun_declarations; reflexivity).
  pose proof (begun_same el s) as H. destruct (a_normalized x).
  - pose proof (agree_store t (a_value x) s _ H) as K. unfold agree in K. intros E. rewrite E in K. apply K.
  - pose proof (value_same fuel false t (is_cdata el n s) (a_value x) s _ H) as K. unfold agree in K. intros E. rewrite E in K. apply K.
Qed.
Lemma read_unique s el fuel t x y y' : read s el fuel t x y -> read s el fuel t x y' -> y = y'.
Proof.
  destruct y as [n v], y' as [n' v']. intros [A1 A2] [B1 B2]. cbn [fst snd] in *. pose proof (named_unique _ _ _ _ _ A1 B1). subst. rewrite A2 in B2. congruence.
Qed.
Lemma read_prefix s el fuel t xs1 : forall x xs2 g1 given, Forall2 (read s el fuel t) xs1 g1 -> Forall2 (read s el fuel t) (xs1 ++ x :: xs2) given ->
  exists y g2, given = g1 ++ y :: g2 /\ read s el fuel t x y.
Proof.
  induction xs1 as [|x1 xs1 IH]; intros x xs2 g1 given H1 H2; inversion H1; subst; cbn [List.app] in H2; inversion H2; subst.
  - eexists _, _. split; [reflexivity|assumption].
  - destruct (IH _ _ _ _ H5 H7) as (y' & g2 & -> & R). exists y', g2. split; [|exact R]. rewrite (read_unique _ _ _ _ _ _ _ H4 H3). reflexivity.
Qed.
Lemma in_declared ns n v l : In (n, v) (declared ns l) <-> In (n, v) l /\ is_declaration ns n = true.
Proof. unfold declared. rewrite filter_In. reflexivity. Qed.
Lemma in_ordinary ns n v l : In (n, v) (ordinary ns l) <-> In (n, v) l /\ is_declaration ns n = false.
Proof. unfold ordinary. rewrite filter_In, negb_true_iff. reflexivity. Qed.
Lemma ordinary_app ns a b : ordinary ns (a ++ b) = ordinary ns a ++ ordinary ns b. Proof. apply filter_app. Qed.
Lemma declared_app ns a b : declared ns (a ++ b) = declared ns a ++ declared ns b. Proof. apply filter_app. Qed.
Lemma count_none Y : count false Y = 0%nat.
Proof. unfold count. induction Y as [|y Y IH]; [reflexivity|exact IH]. Qed.
Lemma plain_ret s B Y : c_ns (s_cfg s) = false \/ count true Y = 0%nat ->
  map at_id (map mk Y) = map fst Y /\ map at_value (map mk Y) = map snd Y /\ Forall2 (fun y x => att_name s B (fst y) (at_name x)) Y (map mk Y).
Proof.
  intros H. assert (Hy : forall y, In y Y -> c_ns (s_cfg s) = false \/ ~ In COLON (fst y)).
  { destruct H as [H|H]; [auto|]. intros y I. right. intros J. apply is_pref_spec in J. unfold count in H.
    assert (K : In y (filter (fun y => is_pref true (fst y)) Y)) by (apply filter_In; auto). destruct (filter (fun y => is_pref true (fst y)) Y); [destruct K|discriminate H]. }
  clear H. induction Y as [|[n v] Y IH]; [repeat split; constructor|]. destruct IH as (A1 & A2 & A3); [intros y I; apply Hy; right; exact I|].
  cbn [map mk at_id at_value fst snd]. rewrite A1, A2. split; [reflexivity|]. split; [reflexivity|]. constructor; [|exact A3]. apply an_plain. exact (Hy (n, v) (or_introl eq_refl)).
Qed.
Lemma att_name_ext s s' B B' n m : s_cfg s' = s_cfg s -> (forall p u, B p u <-> B' p u) -> att_name s B n m -> att_name s' B' n m.
Proof.
  intros Hc HB H. destruct H as [H|p l u H1 H2 H3]; [apply an_plain; rewrite Hc; exact H|].
  replace (separator s) with (separator s') by (unfold separator; rewrite Hc; reflexivity). rewrite <- Hc. apply an_prefix; [rewrite Hc; exact H1|exact H2|apply HB; exact H3].
Qed.
Lemma el_name_ext s s' B B' n m : s_cfg s' = s_cfg s -> (forall p u, B p u <-> B' p u) -> el_name s B n m -> el_name s' B' n m.
Proof.
  intros Hc HB H. destruct H as [[H|[H H']]|u H1 H2 H3|p l u H1 H2 H3].
  - apply en_plain. left. rewrite Hc. exact H.
  - apply en_plain. right. split; [exact H|]. intros u K. apply (H' u), HB, K.
  - replace (separator s) with (separator s') by (unfold separator; rewrite Hc; reflexivity). apply en_default; [rewrite Hc; exact H1|exact H2|apply HB; exact H3].
  - replace (separator s) with (separator s') by (unfold separator; rewrite Hc; reflexivity). rewrite <- Hc. apply en_prefix; [rewrite Hc; exact H1|exact H2|apply HB; exact H3].
Qed.

Record accepted (s : st) (el : bytes) (given : list (bytes * bytes)) (so : stored) (s' : st) : Prop := {
  ac_nodup : NoDup (map fst given);
  ac_allowed : forall n v p, In (n, v) (attributes given el s) -> c_ns (s_cfg s) = true -> declares n p -> allowed (prefix_name p) v;
  ac_atts : exists ex, so_atts so = map (fun x => (at_name x, at_value x)) ex /\
    map at_id ex = map fst (ordinary (c_ns (s_cfg s)) (attributes given el s)) /\
    map at_value ex = map snd (ordinary (c_ns (s_cfg s)) (attributes given el s)) /\
    Forall2 (fun y x => att_name s (bound_inside (declared (c_ns (s_cfg s)) (attributes given el s)) s) (fst y) (at_name x))
      (ordinary (c_ns (s_cfg s)) (attributes given el s)) ex /\
    (c_triplets (s_cfg s) = false -> NoDup (prefs s ex));
  ac_spec : so_spec so = (2 * length (ordinary (c_ns (s_cfg s)) given))%nat;
  ac_name : el_name s (bound_inside (declared (c_ns (s_cfg s)) (attributes given el s)) s) el (so_name so);
  ac_same : same s s';
  ac_tables : tables s';
  ac_decls : forall e, declarations e s' = declarations e s;
  ac_force : forall p u, in_force s' p u <-> bound_inside (declared (c_ns (s_cfg s)) (attributes given el s)) s p u;
  ac_bindings : map b_att (so_bindings so) = map Some (map fst (rev (declared (c_ns (s_cfg s)) (attributes given el s))))
}.

Lemma id_index_out s0 G T D s el et atts : tables s0 -> look el (d_elems (s_dtd s0)) = Some et -> mid s0 G T D s ->
  exists s', id_index el atts s = Ret tt s' /\ mid s0 G T D s'.
Proof.
  intros TA EL M. assert (K : forall z, mid s0 G T D (set_idIx z s)) by (intros z; destruct M; constructor; auto).
  unfold id_index, pbind at 1, get at 1. rewrite (m_elems _ _ _ _ _ M), EL.
  destruct (et_idAtt et) as [id|] eqn:Ei; [|eexists; split; [reflexivity|apply K]].
  destruct (ta_ident _ TA _ _ _ EL Ei) as (a & La). unfold pbind, attid_of, get. unfold pbind. rewrite (m_ids _ _ _ _ _ M). unfold base. rewrite La. cbn [option_map]. unfold pret at 1.
  destruct (is_set _); [destruct (index_of id atts 0)|]; eexists; (split; [reflexivity|]); auto.
Qed.

Lemma storeAtts_out fuel t buf el s e xs given : tables s -> no_dangling s ->
  encoding t s = Ret e s -> getAtts e buf = Ok xs -> Forall2 (read s el fuel t) xs given ->
  runs False (storeAtts fuel t buf el) s (accepted s el given) (rejected s el given).
Proof.
  intros TA ND He Hx Hr. set (s0 := begun el s). pose proof (begun_tables el s TA) as TA0. fold s0 in TA0.
  assert (EL : exists et, look el (d_elems (s_dtd s0)) = Some et).
  { unfold s0. rewrite begun_look. destruct (look el (d_elems (s_dtd s))); [eauto|]. rewrite Nest.beqb_refl. eauto. }
  destruct EL as (et & EL).
  assert (SM : same s s0) by apply begun_same.
  assert (Hr0 : Forall2 (read s0 el fuel t) xs given).
  { clear -Hr SM. induction Hr as [|x [n v] xs given [H1 H2] H IH]; constructor; [|exact IH]. cbn [fst snd] in *. split; cbn [fst snd]; [eapply named_same; eauto|apply value_begun; exact H2]. }
  assert (HB : forall n a, look n (d_attids (s_dtd s0)) = Some a -> ai_prefix a = Some PDangling -> False).
  { intros n a. unfold s0. rewrite begun_attids. intros L X. exact (ND n a L X). }
  assert (Rd : Forall (readable s0 el fuel t False) xs).
  { clear -Hr0. induction Hr0 as [|x [n v] xs given [H1 H2] H IH]; constructor; [|exact IH]. cbn [fst snd] in *. split; [intros X; apply X; eauto|].
    intros n' e N' V'. rewrite (named_unique _ _ _ _ _ N' H1), H2 in V'. discriminate. }
  set (ns := c_ns (s_cfg s)).
  set (all := attributes given el s).
  assert (Bd : forall ds p u, bound_inside ds s0 p u <-> bound_inside ds s p u) by (intros; apply bound_begun).
  assert (Df : omitted given (defaults el s0) = omitted given (defaults el s)) by (unfold defaults; unfold s0; rewrite begun_declarations; reflexivity).
  unfold storeAtts. apply runs_bind. unfold runs at 1, get at 1. apply runs_bind. unfold runs at 1, upd_dtd at 1, upd at 1.
  apply runs_bind. unfold runs at 1, upd at 1. change (set_bindings [] (set_dtd _ s)) with s0.
  apply runs_bind. pose proof (agree_encoding t s s0 SM) as K. unfold agree in K. rewrite He in K. destruct K as [_ K]. unfold runs at 1. rewrite K. clear K.
  apply runs_bind. rewrite Hx. unfold runs at 1, lift at 1. fold ns.
  pose proof (begun_mid el s TA) as M0. fold s0 in M0.
  assert (M0' : mid s0 [] (flag (c_ns (s_cfg s0)) []) [] s0) by exact M0.
  apply runs_bind. change (@nil att) with (map mk []).
  eapply runs_imp; [apply (spec_list s0 el et fuel t TA0 EL False HB xs Rd [] [] s0 [] 0%nat M0'); intros n []| |].
  2:{ (* the tag is rejected *)
      intros x (xs1 & x1 & xs2 & g1 & E & F1 & _ & _ & n & Nm & Sf). rewrite E in Hr0.
      destruct (read_prefix _ _ _ _ _ _ _ _ _ F1 Hr0) as ([n1 v1] & g2 & Eg & [Rn Rv]). cbn [fst snd] in Rn, Rv.
      pose proof (named_unique _ _ _ _ _ Nm Rn) as En. subst n1. destruct Sf as [(I & ->)|[(_ & s' & V)|(_ & v & p & V & Hns & Dp & W)]].
      - apply rj_twice. rewrite Eg, map_app. cbn [map fst]. intros X. apply NoDup_remove_2 in X. apply X. apply in_or_app. left. exact I.
      - rewrite Rv in V. discriminate.
      - rewrite Rv in V. injection V as <-. eapply rj_declaration; [exact Hns| |exact Dp|exact W].
        unfold attributes. apply in_or_app. left. rewrite Eg. apply in_or_app. right. left. reflexivity. }
  intros r1 s1 (given' & F & Fr & Gd & -> & M1). cbn [List.app map] in M1.
  assert (Eg : given' = given).
  { clear -F Hr0. revert given Hr0. induction F as [|x y xs g R F IH]; intros given H; inversion H; subst; [reflexivity|]. rewrite (IH _ H4). f_equal. eapply read_unique; eauto. }
  subst given'. destruct Fr as [Nd _]. cbn [List.app].
  rewrite map_length. change (c_ns (s_cfg s0)) with ns in *.
  apply runs_bind. destruct (id_index_out s0 _ _ _ s1 el et (map mk (ordinary ns given)) TA0 EL M1) as (s2 & E2 & M2). unfold runs at 1. rewrite E2.
  apply runs_bind. unfold runs at 1, get at 1. apply runs_bind. rewrite (m_elems _ _ _ _ _ M2), EL. unfold runs at 1, pret at 1.
  apply runs_bind. eapply runs_imp; [apply (def_list s0 el et TA0 EL False HB (map fst given) (et_defaults et) [] (map fst given) (declared ns given) s2 (ordinary ns given) _ eq_refl M2)| |].
  { intros n I. left. exact I. }
  { intros n I. exact I. }
  { intros n I. left. apply in_map_iff in I as ([m v] & <- & I). apply in_declared in I as [I _]. apply (in_map fst) in I. exact I. }
  2:{ intros x (n & v & p & I & Hns & Dp & W). rewrite (supplied_defaults s0 el et given TA0 EL), Df in I. eapply rj_declaration; [exact Hns| |exact Dp|exact W].
      unfold attributes. apply in_or_app. right. exact I. }
  intros r2 s3 (G' & Gd2 & -> & M3 & HG). rewrite (supplied_defaults s0 el et given TA0 EL), Df in Gd2, M3, HG |- *. change (c_ns (s_cfg s0)) with ns in *.
  rewrite <- ordinary_app, <- declared_app in *. fold (attributes given el s) in *. fold all in M3, HG |- *. rewrite Nat.add_0_l, <- count_app, <- ordinary_app. fold (attributes given el s). fold all.
  set (Y := ordinary ns all) in *. set (D := declared ns all) in *.
  assert (NdA : NoDup (map fst all)) by (apply attributes_nodup; [exact TA|exact Nd]).
  assert (NdY : NoDup (map fst Y)) by (apply filter_nodup; exact NdA).
  (* every flag that is set belongs to one of them *)
  assert (HG1 : forall n, In n G' -> In n (map fst Y) \/ In n (map fst D)).
  { intros n I. apply HG in I as [I|I].
    - apply in_map_iff in I as ([m v] & <- & I). assert (J : In (m, v) all) by (unfold all, attributes; apply in_or_app; left; exact I).
      destruct (is_declaration ns m) eqn:Em; [right|left]; apply (in_map fst (_) (m, v)); [apply in_declared|apply in_ordinary]; auto.
    - left. apply in_map_iff in I as ([m v] & <- & I). apply in_ordinary in I as [I Em]. apply (in_map fst _ (m, v)). apply in_ordinary. split; [|exact Em].
      unfold all, attributes. apply in_or_app. right. exact I. }
  assert (HG2 : forall n, In n (map fst Y) -> In n G').
  { intros n I. apply HG. apply in_map_iff in I as ([m v] & <- & I). apply in_ordinary in I as [I Em]. unfold all, attributes in I. apply in_app_or in I as [I|I].
    - left. apply (in_map fst _ (m, v)). exact I.
    - right. apply (in_map fst _ (m, v)). apply in_ordinary. auto. }
  assert (HT : forall n, In n (map fst Y) -> is_declaration ns n = false /\ flag ns G' n = if is_pref ns n then Prefixed else Normal).
  { intros n I. pose proof (HG2 n I) as J. apply in_map_iff in I as ([m v] & <- & I). cbn [fst] in *. apply in_ordinary in I as [_ Em]. split; [exact Em|].
    unfold flag. apply mem_In in J. rewrite J, Em. reflexivity. }
  (* the end *)
  assert (Fin : forall ex s4 T', mid s0 G' T' D s4 -> (forall n, T' n = flag ns G' n \/ T' n = Unset) ->
    map at_id ex = map fst Y -> map at_value ex = map snd Y -> Forall2 (fun y x => att_name s0 (bound_inside D s0) (fst y) (at_name x)) Y ex ->
    (c_triplets (s_cfg s) = false -> NoDup (prefs s ex)) ->
    runs False (clear_types (map at_id ex) ;;; do bs <- get s_bindings; clear_bindings bs ;;; do name <- (if ns then expand_name el else pret el);
      pret {| so_name := name; so_atts := map (fun x => (at_name x, at_value x)) ex; so_spec := (2 * length (ordinary ns given))%nat; so_bindings := bs |}) s4
      (accepted s el given) (rejected s el given)).
  { intros ex s4 T' M4 HT' X1 X2 X3 X4. apply runs_bind. destruct (clear_list s0 G' D (map at_id ex) T' s4 M4) as (s5 & T5 & E5 & M5 & Eb5 & HT5). unfold runs at 1. rewrite E5.
    apply runs_bind. unfold runs at 1, get at 1. apply runs_bind.
    assert (Ma : map b_att (s_bindings s5) = map (fun n => Some n) (map fst (rev D))).
    { rewrite (m_atts _ _ _ _ _ M5), map_map. apply map_ext. intros [m v]. reflexivity. }
    destruct (clear_binds s0 G' D (s_bindings s5) T5 s5 _ M5 Ma) as (s6 & T6 & E6 & M6 & HT6). unfold runs at 1. rewrite E6.
    assert (Un : forall n, T6 n = Unset).
    { intros n. rewrite HT6. destruct (mem n (map fst (rev D))) eqn:Em; [reflexivity|]. rewrite HT5, X1. destruct (mem n (map fst Y)) eqn:Ey; [reflexivity|].
      destruct (HT' n) as [->| ->]; [|reflexivity]. unfold flag. destruct (mem n G') eqn:Eg; [|reflexivity]. exfalso. apply mem_In, HG1 in Eg. destruct Eg as [I|I].
      - apply mem_In in I. congruence.
      - apply mem_false in Em. apply Em. rewrite map_rev, <- in_rev. exact I. }
    assert (T6' : tables s6) by (apply (mid_tables s0 TA0 G' D s6 T6 M6 Un)).
    assert (Fin2 : forall name, el_name s0 (bound_inside D s0) el name -> accepted s el given {| so_name := name; so_atts := map (fun x => (at_name x, at_value x)) ex; so_spec := (2 * length (ordinary ns given))%nat; so_bindings := s_bindings s5 |} s6).
    { intros name Hn. constructor; cbn [so_name so_atts so_spec so_bindings].
      - exact Nd.
      - intros n v p I Hns Dp. fold all in I.
        unfold all, attributes in I. apply in_app_or in I as [I|I]; [exact (Gd _ _ _ I Hns Dp)|exact (Gd2 _ _ _ I Hns Dp)].
      - exists ex. split; [reflexivity|]. split; [exact X1|]. split; [exact X2|]. split; [|exact X4].
        fold ns. fold all. fold Y. fold D. clear -X3 Bd. clearbody Y. induction X3 as [|y x Y' ex' H X3 IH]; constructor; [|exact IH]. eapply att_name_ext; [| |exact H]; [reflexivity|exact (Bd D)].
      - reflexivity.
      - eapply el_name_ext; [| |exact Hn]; [reflexivity|exact (Bd D)].
      - eapply same_trans; [exact SM|exact (m_same _ _ _ _ _ M6)].
      - exact T6'.
      - intros e'. unfold declarations. rewrite (m_elems _ _ _ _ _ M6). exact (begun_declarations el s e').
      - intros p u. rewrite (m_force _ _ _ _ _ M6). apply Bd.
      - exact Ma. }
    apply runs_bind. destruct ns eqn:Hns.
    - eapply runs_imp; [apply (expand_name_out s0 el et TA0 EL G' D False s6 T6 M6 Hns)| |].
      + intros name s7 [-> Hn]. exact (Fin2 name Hn).
      + intros x (-> & p & l & Pf & Hu). eapply rj_element; [exact Hns|exact Pf|]. intros u Hu'. apply (Hu u), Bd. exact Hu'.
    - unfold runs, pret. apply Fin2. apply en_plain. left. exact Hns. }
  destruct (count ns Y) as [|k] eqn:Ck.
  - (* no name has a prefix *)
    apply runs_bind. unfold runs at 1, pret at 1. destruct (plain_ret s0 (bound_inside D s0) Y) as (X1 & X2 & X3).
    { change (c_ns (s_cfg s0)) with ns. destruct ns; auto. }
    eapply Fin; [exact M3|auto|exact X1|exact X2|exact X3|]. intros _. unfold prefs.
    replace (filter (fun x => is_pref (c_ns (s_cfg s)) (at_id x)) (map mk Y)) with (@nil att); [constructor|].
    clear -Ck. unfold count in Ck. fold ns. induction Y as [|y Y IH]; [reflexivity|]. cbn [map filter mk at_id]. cbn [filter] in Ck. destruct (is_pref ns (fst y)); [discriminate|]. exact (IH Ck).
  - assert (Hns : ns = true) by (destruct ns; [reflexivity|rewrite count_none in Ck; discriminate]).
    apply runs_bind. rewrite <- Ck. eapply runs_imp; [apply (expand_list s0 TA0 G' D False Y s3 (flag ns G') (count ns Y) [] M3 Hns eq_refl)| |]; auto.
    { rewrite Ck. discriminate. }
    + intros ex s4 (X1 & X2 & X3 & X4 & T' & M4 & HT'). eapply Fin; [exact M4|exact HT'|exact X1|exact X2|exact X3|]. intros Tr. apply (X4 Tr).
    + intros x [(-> & [n v] & p & l & I & Pf & Hu)|(-> & Y1 & y & Y2 & m & E & Ex & [[]|(y' & I & Hc & An)])].
      * eapply rj_unbound; [exact Hns| |exact Pf|].
        -- unfold Y in I. rewrite Hns in I. exact I.
        -- intros u Hu'. apply (Hu u), Bd. unfold D. rewrite Hns. exact Hu'.
      * apply in_split in I as (l1 & l2 & ->). rewrite <- app_assoc in E. cbn [List.app] in E. unfold Y, D in *. rewrite Hns in E, An, Ex.
        eapply rj_same; [exact Hns|exact E|exact Hc| |].
        -- eapply att_name_ext; [| |exact An]; [reflexivity|apply Bd].
        -- destruct Ex as (p & l & u & Pf & Hu & ->). exists p, l, u. split; [exact Pf|]. split; [apply Bd; exact Hu|reflexivity].
Qed.
