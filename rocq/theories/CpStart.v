(* Start tags over code points. *)
From Coq Require Import String List NArith ZArith Bool Lia Arith.
From Coq Require Import ZifyBool ZifyNat ZifyN.
From Verif Require Import Base Encoding SpecText SpecUnicode SpecNames SpecLex EncLaws Tok TokWp TokSafe Charset Sim SimTop TextEnc CpBase CpComment CpTag.
Import ListNotations.
Local Open Scope N_scope.

Section Cp.
Variables (lat ns : bool) (dom : N -> bool) (k : cls).
Hypothesis ST : std lat ns dom k.
Notation ce := (cp_enc k).
Notation doms := (all_in dom).
Notation take_name := (take_name lat ns).
Notation name_char := (name_char lat ns).
Notation start_char := (start_char lat ns).

Lemma atts_prog had c r : wp (scanAtts_body ce had) (c :: r) (safe_stop (c :: r)) (fun _ b' => suffix b' (c :: r) /\ length b' < length (c :: r))%nat.
Proof.
  pose proof (cp_enc_ok k) as OK. set (b := c :: r).
  assert (Hb0 : Forall (fun _ : N => True) b) by (apply Forall_forall; auto).
  assert (Hh : has (minbpc ce) b = true) by reflexivity.
  pose proof (suffix_refl b) as Hs. unfold scanAtts_body.
  assert (G : wp (mbind (atts_eq ce) (fun _ => scanAtts_value ce)) b (safe_stop b)
     (fun _ b' => suffix b' b /\ length b' < length b)%nat).
  { apply wp_bind. eapply wp_mono; [apply (atts_eq_safe _ OK b); solve_side | auto |].
    intros _ b1 (S1 & H1 & L1). eapply wp_mono; [apply (scanAtts_value_safe _ OK b); solve_side | auto |].
    intros ? ? [? ?]; split; [auto|lia]. }
  apply wp_bind, (wp_bt _ OK); [solve_side|auto|]. intros t Ht.
  apply (wp_check_name _ OK); [solve_side|auto|solve_side|solve_side|intros; split; solve_side|].
  intros _. destruct t; try exact G; try (apply (scanAtts_value_safe _ OK b); solve_side); repeat wstep.
Qed.
Lemma atts_cont had b s' b' : scanAtts_body ce had b = Ok (Cont s' b') -> (length b' < length b)%nat.
Proof.
  destruct b as [|c r]; [cbn; discriminate|]. intros E. pose proof (atts_prog had c r) as W. unfold wp in W. rewrite E in W. tauto.
Qed.
Lemma lt_prog had c r : wp (lt_name_body ce had) (c :: r) (safe_stop (c :: r)) (fun _ b' => suffix b' (c :: r) /\ length b' < length (c :: r))%nat.
Proof.
  pose proof (cp_enc_ok k) as OK. set (b := c :: r).
  assert (Hb0 : Forall (fun _ : N => True) b) by (apply Forall_forall; auto).
  assert (Hh : has (minbpc ce) b = true) by reflexivity.
  pose proof (suffix_refl b) as Hs. unfold lt_name_body.
  assert (G : wp (adv1 ce ;; lt_space ce ;; scanAtts ce)%scan b (safe_stop b)
     (fun (_ : bool) b' => suffix b' b /\ length b' < length b)%nat).
  { apply wp_bind, wp_adv1; [solve_side|]. intros b1 E1. apply wp_bind.
    eapply wp_mono; [apply (lt_space_safe _ OK b); solve_side | auto |].
    intros _ b2 [S2 L2]. eapply (@safe_use (fun _ => True)); [apply (scanAtts_safe _ OK)| solve_side | auto]. }
  apply wp_bind, (wp_bt _ OK); [solve_side|auto|]. intros t Ht.
  apply (wp_check_name _ OK); [solve_side|auto|solve_side|solve_side|intros; split; solve_side|].
  intros _. destruct t; try exact G; try (eapply wp_mono; [apply (scanLtHelper_safe _ OK _ b); solve_side|auto|intros ? ? []]); repeat wstep.
Qed.
Lemma lt_cont had b s' b' : lt_name_body ce had b = Ok (Cont s' b') -> (length b' < length b)%nat.
Proof.
  destruct b as [|c r]; [cbn; discriminate|]. intros E. pose proof (lt_prog had c r) as W. unfold wp in W. rewrite E in W. tauto.
Qed.

(* ---- the values ---- *)
Definition is_quote (c : N) : bool := (c =? 34) || (c =? 39).
Definition quote_type (o : N) : ByteType := if o =? 34 then BT_QUOT else BT_APOS.
Lemma quote_t o : dom o = true -> is_quote o = true -> ty k o = quote_type o.
Proof.
  intros Hd Hq. unfold quote_type. destruct (o =? 34) eqn:E.
  - apply (t_is _ _ _ _ ST o BT_QUOT 34); auto. lia.
  - apply (t_is _ _ _ _ ST o BT_APOS 39); auto. unfold is_quote in Hq. lia.
Qed.
Lemma at_quote c o : dom c = true -> is_quote o = true -> bt_eqb (ty k c) (quote_type o) = (c =? o).
Proof.
  intros Hd Hq. unfold quote_type. destruct (o =? 34) eqn:E.
  - rewrite (ty_eqb _ _ _ _ ST c BT_QUOT 34) by auto. f_equal. lia.
  - rewrite (ty_eqb _ _ _ _ ST c BT_APOS 39) by auto. f_equal. unfold is_quote in Hq. lia.
Qed.
Lemma atts_ref_eq c r : doms (c :: r) -> atts_ref ce (c :: r) =
  match @ref_fn lat ns Empty_set r with
  | Ok (Stop t (Some p)) => if tok_eqb t T_INVALID then Ok (Stop t (Some p)) else Ok (Cont tt p)
  | _ => Ok (Stop T_PARTIAL None)
  end.
Proof.
  intros Hd. inversion Hd; subst. unfold atts_ref. change (inc_start (minbpc ce) (c :: r)) with (@Ok bytes r). cbn [bind].
  rewrite (scanRef_eq _ _ _ _ ST) by auto.
  destruct (@ref_toks lat ns Empty_set r) as [[p ->]|[[p ->]|[[p ->]| ->]]]; reflexivity.
Qed.
Lemma value_prog open : forall (s : unit) b s' b',
  (require_char ce ;; t <- bt ce ;;
    if bt_eqb t open then ret (inr tt) else
    match_invalid ce t (inl tt) (
      match t with
      | BT_AMP => atts_ref ce ;; ret (inl tt)
      | BT_LT => stop_here T_INVALID
      | _ => adv1 ce ;; ret (inl tt)
      end))%scan b = Ok (Cont (@inl unit unit s') b') -> (length b' < length b)%nat.
Proof.
  intros s [|c r]; [intros ? ?; cbn; discriminate|]. apply wp_prog2. pose proof (cp_enc_ok k) as OK.
  assert (Hb : Forall (fun _ : N => True) (c :: r)) by (apply Forall_forall; auto).
  assert (Hh : has (minbpc ce) (c :: r) = true) by reflexivity.
  repeat wstep. eapply wp_mono; [apply (atts_ref_safe _ OK (c :: r)); solve_side|auto|]. intros ? ? [? ?]. repeat wstep.
Qed.
Lemma value_step o c r : is_quote o = true -> doms (c :: r) ->
  atts_in_value ce (quote_type o) (c :: r) =
  if c =? o then Ok (Cont tt (c :: r))
  else if negb (is_xml_char c) then Ok (Stop T_INVALID (Some (c :: r)))
  else if c =? 38 then
    match @ref_fn lat ns Empty_set r with
    | Ok (Stop t (Some p)) => if tok_eqb t T_INVALID then Ok (Stop t (Some p)) else atts_in_value ce (quote_type o) p
    | _ => Ok (Stop T_PARTIAL None)
    end
  else if c =? 60 then Ok (Stop T_INVALID (Some (c :: r)))
  else atts_in_value ce (quote_type o) r.
Proof.
  intros Hq Hd. unfold atts_in_value at 1. inversion Hd; subst. rewrite loopb_eq by (apply value_prog).
  cps. rewrite at_quote by auto. destruct (c =? o); [reflexivity|].
  rewrite (invalid_iff _ _ _ _ ST) by auto. destruct (is_xml_char c); cbn [negb]; [|reflexivity].
  pose proof (ty_eqb _ _ _ _ ST c BT_AMP 38 H1 eq_refl) as A. pose proof (ty_eqb _ _ _ _ ST c BT_LT 60 H1 eq_refl) as L.
  destruct (ty k c) eqn:Et; cbv [bt_eqb ByteType_eq_dec ByteType_rec ByteType_rect] in A, L; rewrite <- ?A, <- ?L; try reflexivity.
  - unfold mbind. rewrite atts_ref_eq by auto.
    destruct (@ref_toks lat ns Empty_set r) as [[p ->]|[[p ->]|[[p ->]| ->]]]; reflexivity.
Qed.
Lemma value_nil o : atts_in_value ce o [] = Ok (Stop T_PARTIAL None). Proof. reflexivity. Qed.

Lemma ref_suffix {B} r t p : @ref_fn lat ns B r = stop t p -> t <> T_INVALID ->
  exists x, r = x ++ p /\ x <> [] /\ (entity_ref lat ns ([38] ++ x) \/ char_ref ([38] ++ x)).
Proof.
  intros H Ht. destruct (@ref_toks lat ns B r) as [[q E]|[[q E]|[[q E]| E]]]; rewrite E in H.
  - injection H as <- <-. apply (ref_entity _ _ _ _ ST) in E as (n & Hn & ->). exists (n ++ [59]). rewrite <- app_assoc. split; auto.
    split; [destruct n; discriminate|]. left. exists n. auto.
  - injection H as <- <-. apply (ref_char _ _ _ _ ST) in E as [(d & Hd & Ha & ->)|(d & Hd & Ha & ->)].
    + exists ([35] ++ d ++ [59]). rewrite <- !app_assoc. split; auto. split; [discriminate|]. right. left. exists d. auto.
    + exists ([35; 120] ++ d ++ [59]). rewrite <- !app_assoc. split; auto. split; [discriminate|]. right. right. exists d. auto.
  - injection H as <- <-. contradiction.
  - discriminate.
Qed.
Lemma ref_intro {B} x p : entity_ref lat ns ([38] ++ x) \/ char_ref ([38] ++ x) ->
  exists t, @ref_fn lat ns B (x ++ p) = stop t p /\ t <> T_INVALID.
Proof.
  intros [(n & Hn & E)|[(d & Hd & Ha & E)|(d & Hd & Ha & E)]]; injection E as ->.
  - exists T_ENTITY_REF. split; [|discriminate]. apply (ref_entity _ _ _ _ ST). exists n. split; auto. rewrite <- app_assoc. reflexivity.
  - exists T_CHAR_REF. split; [|discriminate]. apply (ref_char _ _ _ _ ST). left. exists d. repeat split; auto. cbn [app]. rewrite <- app_assoc. reflexivity.
  - exists T_CHAR_REF. split; [|discriminate]. apply (ref_char _ _ _ _ ST). right. exists d. repeat split; auto. cbn [app]. rewrite <- app_assoc. reflexivity.
Qed.
Lemma value_sound o : is_quote o = true -> forall n cs p, (length cs < n)%nat -> doms cs ->
  atts_in_value ce (quote_type o) cs = Ok (Cont tt p) -> exists v q, cs = v ++ p /\ p = o :: q /\ att_value lat ns o v.
Proof.
  intros Hq. induction n as [|n IH]; intros cs p Hn Hd H; [lia|]. destruct cs as [|c r]; [discriminate|].
  inversion Hd; subst. rewrite value_step in H by auto.
  destruct (c =? o) eqn:Eo. { injection H as <-. apply N.eqb_eq in Eo. subst. exists [], r. repeat split. constructor. }
  destruct (is_xml_char c) eqn:Ex; cbn [negb] in H; [|discriminate].
  destruct (c =? 38) eqn:Ea.
  - apply N.eqb_eq in Ea. subst c. destruct (@ref_fn lat ns Empty_set r) as [[t [q|]|[]]|] eqn:Er; try discriminate.
    destruct (tok_eqb t T_INVALID) eqn:Et; [discriminate|].
    assert (Ht : t <> T_INVALID) by (intros ->; discriminate).
    destruct (ref_suffix _ _ _ Er Ht) as (x & -> & Hx & Hr). apply Forall_app in H3 as [Hd1 Hd2].
    cbn [length] in Hn. rewrite app_length in Hn. destruct (IH q p ltac:(destruct x; [congruence|cbn in Hn; lia]) Hd2 H) as (v & q' & -> & -> & Hv).
    exists (([38] ++ x) ++ v), q'. split; [cbn [app]; now rewrite <- app_assoc|]. split; auto. apply av_ref; auto.
  - destruct (c =? 60) eqn:El; [discriminate|]. cbn [length] in Hn. destruct (IH r p ltac:(lia) H3 H) as (v & q' & -> & -> & Hv).
    exists (c :: v), q'. repeat split. apply av_char; auto; lia.
Qed.
Lemma value_complete o v q : is_quote o = true -> att_value lat ns o v -> doms (v ++ o :: q) ->
  atts_in_value ce (quote_type o) (v ++ o :: q) = Ok (Cont tt (o :: q)).
Proof.
  intros Hq Hv. induction Hv as [|c v Hx H1 H2 H3 Hv IH|r v Hr Hv IH]; intros Hd.
  - cbn [app] in *. rewrite value_step by auto. now rewrite N.eqb_refl.
  - cbn [app] in *. inversion Hd; subst. rewrite value_step by auto. replace (c =? o) with false by lia. rewrite Hx.
    replace (c =? 38) with false by lia. replace (c =? 60) with false by lia. cbn [negb]. auto.
  - assert (exists x, r = [38] ++ x) as [x ->].
    { destruct Hr as [(n & _ & ->)|[(d & _ & _ & ->)|(d & _ & _ & ->)]]; cbn; eauto. }
    destruct (@ref_intro Empty_set x (v ++ o :: q) Hr) as (t & Er & Ht).
    cbn [app] in *. rewrite <- app_assoc in *. inversion Hd; subst. rewrite value_step by auto.
    replace (38 =? o) with false by (unfold is_quote in Hq; lia). change (38 =? 38) with true.
    change (is_xml_char 38) with true. cbn [negb]. rewrite Er. unfold stop.
    replace (tok_eqb t T_INVALID) with false by (destruct t; try reflexivity; congruence).
    apply IH. now apply Forall_app in H2.
Qed.

(* ---- names with at most one colon, then [fin] ---- *)
Definition qname_k {B} (fin : N -> list N -> res (outc B)) (cs : list N) : res (outc B) :=
  match snd (take_name cs) with
  | [] => partial
  | d :: q =>
      if ns && (d =? 58) then
        match q with
        | [] => partial
        | f :: q' =>
            if start_char f then
              match snd (take_name q') with
              | [] => partial
              | d2 :: q2 => if ns && (d2 =? 58) then stop T_INVALID (d2 :: q2) else fin d2 q2
              end
            else stop T_INVALID q
        end
      else fin d q
  end.
Lemma loop_name {B} (body : bool -> M bool) had cs :
  (forall had b s' b', body had b = Ok (Cont s' b') -> length b' < length b)%nat ->
  (forall c r, doms (c :: r) -> name_char c = true -> body had (c :: r) = Ok (Cont had r)) -> doms cs ->
  @while_ ce _ B body (fun _ => Ok T_PARTIAL) had cs = while_ ce body (fun _ => Ok T_PARTIAL) had (snd (take_name cs)).
Proof.
  intros P Hb. induction cs as [|c r IH]; intros Hd; [reflexivity|]. cbn [CpComment.take_name].
  destruct (name_char c) eqn:En; [|reflexivity]. rewrite while_eq by auto. rewrite Hb by auto. inversion Hd; subst.
  rewrite IH by auto. destruct (take_name r); reflexivity.
Qed.
Lemma name_not_colon c : name_char c = true -> ns && (c =? 58) = false.
Proof.
  intros H. destruct ns eqn:En; [|reflexivity]. destruct (N.eqb_spec c 58) as [->|]; [|reflexivity].
  exfalso. revert H. destruct lat; discriminate.
Qed.
Lemma colon_not_wide c : dom c = true -> ns && (c =? 58) = true -> ty k c = BT_COLON.
Proof. intros Hd H. rewrite <- (colon_t _ _ _ _ ST c Hd) in H. destruct (ty k c); try discriminate; reflexivity. Qed.
Lemma not_colon c : dom c = true -> ns && (c =? 58) = false -> ty k c <> BT_COLON.
Proof. intros Hd H. rewrite <- (colon_t _ _ _ _ ST c Hd) in H. intros E. rewrite E in H. discriminate. Qed.

Section Qname.
Variable B : Type.
Variable body : bool -> M bool.
Variable fin : N -> list N -> res (outc B).
Notation W := (@while_ ce _ B body (fun _ => Ok T_PARTIAL)).
Hypothesis P : forall had b s' b', body had b = Ok (Cont s' b') -> (length b' < length b)%nat.
Hypothesis Hname : forall had c r, doms (c :: r) -> name_char c = true -> body had (c :: r) = Ok (Cont had r).
Hypothesis Hcolon : forall had c r, doms (c :: r) -> ns && (c =? 58) = true -> body had (c :: r) =
  if had then Ok (Stop T_INVALID (Some (c :: r)))
  else match r with [] => Ok (Stop T_PARTIAL None) | f :: r' => if start_char f then Ok (Cont true r') else Ok (Stop T_INVALID (Some r)) end.
Hypothesis Hfin : forall had c r, doms (c :: r) -> name_char c = false -> ns && (c =? 58) = false -> W had (c :: r) = fin c r.
Lemma qname_eq cs : doms cs -> W false cs = qname_k fin cs.
Proof.
  intros Hd. rewrite loop_name by auto. unfold qname_k.
  pose proof (proj2 (take_name_doms lat ns dom cs Hd)) as Hd1. pose proof (take_name_stop lat ns cs) as Hs.
  destruct (snd (take_name cs)) as [|d q]; [reflexivity|]. specialize (Hs d q eq_refl).
  destruct (ns && (d =? 58)) eqn:Ec; [|apply Hfin; auto]. rewrite while_eq by auto. rewrite Hcolon by auto.
  destruct q as [|f q]; [reflexivity|]. destruct (start_char f) eqn:Es; [|reflexivity].
  assert (Hd2 : doms q) by (inversion Hd1 as [|? ? _ X]; now inversion X).
  rewrite loop_name by auto. pose proof (proj2 (take_name_doms lat ns dom q Hd2)) as Hd3. pose proof (take_name_stop lat ns q) as Hs2.
  destruct (snd (take_name q)) as [|d2 q2]; [reflexivity|]. specialize (Hs2 d2 q2 eq_refl).
  destruct (ns && (d2 =? 58)) eqn:Ec2; [|apply Hfin; auto]. rewrite while_eq by auto. rewrite Hcolon by auto. reflexivity.
Qed.
End Qname.

(* ---- the end of a tag ---- *)
Definition slash_k {B} (t : XML_TOK) (q : list N) : res (outc B) :=   (* after '/' *)
  match q with [] => partial | f :: q' => if f =? 62 then stop t q' else stop T_INVALID q end.
(* ---- attributes ---- *)
Notation A := (@scanAtts ce _).
Definition next_k {B} (tg te : XML_TOK) (q : list N) : res (outc B) :=    (* in white space *)
  match skip_sp q with
  | [] => partial
  | f :: q2 =>
      if start_char f then A q2
      else if f =? 62 then stop tg q2
      else if f =? 47 then slash_k te q2
      else stop T_INVALID (f :: q2)
  end.
Definition more_k {B} (tg te : XML_TOK) (d : N) (q : list N) : res (outc B) :=
  if is_space d then next_k tg te q
  else if d =? 62 then stop tg q
  else if d =? 47 then slash_k te q
  else stop T_INVALID (d :: q).
Definition after_k {B} (q : list N) : res (outc B) :=       (* after the closing quote *)
  match q with
  | [] => partial
  | d :: q' => more_k T_START_TAG_WITH_ATTS T_EMPTY_ELEMENT_WITH_ATTS d q'
  end.
Definition val_k {B} (q : list N) : res (outc B) :=         (* after '=' *)
  match skip_sp q with
  | [] => partial
  | o :: q' =>
      if is_quote o then
        match atts_in_value ce (quote_type o) q' with
        | Ok (Cont _ (_ :: q2)) => after_k q2
        | Ok (Cont _ []) => Err EPanic
        | Ok (Stop t n) => Ok (Stop t n)
        | Err x => Err x
        end
      else stop T_INVALID (o :: q')
  end.
Definition eq_k {B} (q : list N) : res (outc B) :=          (* white space before '=' *)
  match skip_sp q with
  | [] => partial
  | f :: q' => if f =? 61 then val_k q' else stop T_INVALID (f :: q')
  end.
Definition at_fin {B} (d : N) (q : list N) : res (outc B) :=
  if is_space d then eq_k q else if d =? 61 then val_k q else stop T_INVALID (d :: q).

Lemma is_start_sp c : is_space c = true -> start_char c = false.
Proof.
  unfold is_space. intros H. assert (c = 32 \/ c = 9 \/ c = 13 \/ c = 10) as K by lia. destruct K as [->|[->|[->| ->]]]; destruct lat, ns; reflexivity.
Qed.
Lemma quot_apos_t c : dom c = true -> (match ty k c with BT_QUOT | BT_APOS => true | _ => false end) = is_quote c.
Proof.
  intros Hd. unfold is_quote. rewrite <- (ty_eqb _ _ _ _ ST c BT_QUOT 34 Hd eq_refl), <- (ty_eqb _ _ _ _ ST c BT_APOS 39 Hd eq_refl).
  destruct (ty k c); reflexivity.
Qed.

(* [c] is the character before the white space: '=' *)
Lemma atts_open_eq c q : doms q -> atts_open ce (c :: q) =
  match skip_sp q with
  | [] => Ok (Stop T_PARTIAL None)
  | o :: q' => if is_quote o then Ok (Cont (quote_type o) (o :: q')) else Ok (Stop T_INVALID (Some (o :: q')))
  end.
Proof.
  revert c. unfold atts_open. induction q as [|d q IH]; intros c Hd; [reflexivity|]. inversion Hd; subst.
  rewrite loopb_eq. 2:{ clear. prog k. }
  cps. cbn [skip_sp]. rewrite <- (sp_t _ _ _ _ ST) by auto. pose proof (quot_apos_t d H1) as Qd. pose proof (quote_t d H1) as Qt.
  destruct (ty k d) eqn:Et; cbn [sp_type] in *; cps; rewrite ?IH by auto; try reflexivity;
    rewrite <- Qd; try reflexivity; rewrite <- Qt by congruence; reflexivity.
Qed.
Lemma atts_eq_eq c q : doms q -> atts_eq ce (c :: q) =
  match skip_sp q with
  | [] => Ok (Stop T_PARTIAL None)
  | f :: q' => if f =? 61 then Ok (Cont tt (f :: q')) else Ok (Stop T_INVALID (Some (f :: q')))
  end.
Proof.
  revert c. unfold atts_eq. induction q as [|d q IH]; intros c Hd; [reflexivity|]. inversion Hd; subst.
  rewrite loopb_eq. 2:{ clear. prog k. }
  cps. cbn [skip_sp]. rewrite <- (sp_t _ _ _ _ ST) by auto. pose proof (ty_eqb _ _ _ _ ST d BT_EQUALS 61 H1 eq_refl) as Qd.
  destruct (ty k d) eqn:Et; cbn [sp_type] in *; cps; rewrite ?IH by auto; try reflexivity; rewrite <- Qd; reflexivity.
Qed.
Lemma atts_after_eq c q : doms q -> atts_after ce (c :: q) =
  match q with
  | [] => Ok (Stop T_PARTIAL None)
  | d :: q' =>
      if is_space d then
        match skip_sp q' with
        | [] => Ok (Stop T_PARTIAL None)
        | f :: q2 =>
            if start_char f then Ok (Cont L_None q2)
            else if f =? 62 then Ok (Cont L_Gt (f :: q2))
            else if f =? 47 then Ok (Cont L_Sol (f :: q2))
            else Ok (Stop T_INVALID (Some (f :: q2)))
        end
      else if d =? 62 then Ok (Cont L_Gt q)
      else if d =? 47 then Ok (Cont L_Sol q)
      else Ok (Stop T_INVALID (Some q))
  end.
Proof.
  intros Hd. unfold atts_after. destruct q as [|d q]; [reflexivity|]. cps. inversion Hd; subst.
  rewrite <- (sp_t _ _ _ _ ST), <- (gt_t _ _ _ _ ST), <- (sol_t _ _ _ _ ST) by auto.
  assert (L : forall d0, loopb (fun _ : unit => (adv1 ce ;; require_char ce ;; t <- bt ce ;;
        check_nmstrt ce t (inr L_None) (match t with BT_S | BT_CR | BT_LF => ret (inl tt) | BT_GT => ret (inr L_Gt)
          | BT_SOL => ret (inr L_Sol) | _ => stop_here T_INVALID end))%scan) tt (d0 :: q) =
    match skip_sp q with
    | [] => Ok (Stop T_PARTIAL None)
    | f :: q2 =>
        if start_char f then Ok (Cont L_None q2)
        else if f =? 62 then Ok (Cont L_Gt (f :: q2))
        else if f =? 47 then Ok (Cont L_Sol (f :: q2))
        else Ok (Stop T_INVALID (Some (f :: q2)))
    end).
  { clear d Hd H1. induction q as [|f q IH]; intros d0; [reflexivity|]. inversion H2; subst.
    rewrite loopb_eq. 2:{ clear. prog k. }
    cps. rewrite (start_iff _ _ _ _ ST) by auto. cbn [skip_sp].
    pose proof (sp_t _ _ _ _ ST f H1) as S1. pose proof (gt_t _ _ _ _ ST f H1) as S2. pose proof (sol_t _ _ _ _ ST f H1) as S3.
    destruct (start_char f) eqn:Es.
    - destruct (is_space f) eqn:Ef; [rewrite is_start_sp in Es by auto; discriminate|]. rewrite Es. reflexivity.
    - destruct (ty k f) eqn:Et; cbn [sp_type] in S1; rewrite <- S1; cbv [bt_eqb ByteType_eq_dec ByteType_rec ByteType_rect] in *;
        cps; rewrite ?IH by auto; try reflexivity; rewrite Es, <- S2, <- ?S3; reflexivity. }
  destruct (ty k d); cbn [sp_type]; rewrite ?L; reflexivity.
Qed.
Lemma scanAtts_value_eq c q : doms q ->
  scanAtts_value ce (c :: q) =
  match skip_sp q with
  | [] => partial
  | o :: q' =>
      if is_quote o then
        match atts_in_value ce (quote_type o) q' with
        | Ok (Cont _ (_ :: q2)) =>
            match q2 with
            | [] => partial
            | d :: q3 =>
                if is_space d then
                  match skip_sp q3 with
                  | [] => partial
                  | f :: q4 =>
                      if start_char f then Ok (Cont false q4)
                      else if f =? 62 then stop T_START_TAG_WITH_ATTS q4
                      else if f =? 47 then slash_k T_EMPTY_ELEMENT_WITH_ATTS q4
                      else stop T_INVALID (f :: q4)
                  end
                else if d =? 62 then stop T_START_TAG_WITH_ATTS q3
                else if d =? 47 then slash_k T_EMPTY_ELEMENT_WITH_ATTS q3
                else stop T_INVALID (d :: q3)
            end
        | Ok (Cont _ []) => Err EPanic
        | Ok (Stop t n) => Ok (Stop t n)
        | Err x => Err x
        end
      else stop T_INVALID (o :: q')
  end.
Proof.
  intros Hd. unfold scanAtts_value. unfold mbind at 1. rewrite atts_open_eq by auto.
  pose proof (skip_sp_doms _ q Hd) as Hd2. destruct (skip_sp q) as [|o q1]; [reflexivity|]. destruct (is_quote o) eqn:Eo; [|reflexivity]. cps.
  inversion Hd2; subst. unfold mbind at 1. destruct (atts_in_value ce (quote_type o) q1) as [[t n|[] q2]|] eqn:Ev; try reflexivity.
  destruct (value_sound o Eo _ q1 q2 (Nat.lt_succ_diag_r _) H2 Ev) as (v & q3 & -> & -> & _).
  assert (Hd3 : doms q3) by (apply Forall_app in H2 as [_ X]; now inversion X).
  unfold mbind at 1. rewrite atts_after_eq by auto. destruct q3 as [|d q3]; [reflexivity|].
  destruct (is_space d) eqn:Esp.
  - destruct (skip_sp q3) as [|f q4]; [reflexivity|]. destruct (start_char f); [reflexivity|].
    destruct (f =? 62); [reflexivity|]. destruct (f =? 47); [|reflexivity]. cps. destruct q4 as [|g q4]; [reflexivity|]. cps.
    change c_GT with 62. cbn [slash_k]. destruct (g =? 62); reflexivity.
  - destruct (d =? 62); [reflexivity|]. destruct (d =? 47); [|reflexivity]. cps. destruct q3 as [|g q4]; [reflexivity|]. cps.
    change c_GT with 62. cbn [slash_k]. destruct (g =? 62); reflexivity.
Qed.

Lemma sp_name c : is_space c = true -> name_char c = false.
Proof.
  unfold is_space. intros H. assert (c = 32 \/ c = 9 \/ c = 13 \/ c = 10) as K by lia. destruct K as [->|[->|[->| ->]]]; destruct lat, ns; reflexivity.
Qed.
Lemma value_then {B} d q : doms q ->
  match scanAtts_value ce (d :: q) with
  | Ok (Cont had b) => @while_ ce _ B (scanAtts_body ce) (fun _ => Ok T_PARTIAL) had b
  | Ok (Stop t n) => Ok (Stop t n)
  | Err x => Err x
  end = val_k q.
Proof.
  intros Hd. rewrite scanAtts_value_eq by auto. unfold val_k. destruct (skip_sp q) as [|o q']; [reflexivity|].
  destruct (is_quote o); [|reflexivity]. destruct (atts_in_value ce (quote_type o) q') as [[t n|[] [|x q2]]|]; try reflexivity.
  unfold after_k, more_k, next_k. destruct q2 as [|d2 q3]; [reflexivity|]. destruct (is_space d2).
  - destruct (skip_sp q3) as [|f q4]; [reflexivity|]. destruct (start_char f); [reflexivity|]. destruct (f =? 62); [reflexivity|].
    destruct (f =? 47); [|reflexivity]. destruct q4 as [|g q4]; [reflexivity|]. cbn [slash_k]. destruct (g =? 62); reflexivity.
  - destruct (d2 =? 62); [reflexivity|].
    destruct (d2 =? 47); [|reflexivity]. destruct q3 as [|g q4]; [reflexivity|]. cbn [slash_k]. destruct (g =? 62); reflexivity.
Qed.
Lemma eq_t c : dom c = true -> bt_eqb (ty k c) BT_EQUALS = (c =? 61). Proof. intros; now apply (ty_eqb _ _ _ _ ST). Qed.
Ltac btc := cbv [bt_eqb ByteType_eq_dec ByteType_rec ByteType_rect] in *.

Lemma body_name (body : bool -> M bool) g had c r : (forall had, body had = (t <- bt ce ;; check_name ce t had (g had t))%scan) ->
  doms (c :: r) -> name_char c = true -> body had (c :: r) = Ok (Cont had r).
Proof. intros -> Hd Hn. inversion Hd; subst. cps. rewrite (name_iff _ _ _ _ ST) by auto. now rewrite Hn. Qed.
Lemma body_colon (g : bool -> ByteType -> M bool) had c r :
  (forall had, g had BT_COLON = (if had then stop_here T_INVALID else
        adv1 ce ;; require_char ce ;; t2 <- bt ce ;; check_nmstrt ce t2 true (stop_here T_INVALID))%scan) ->
  doms (c :: r) -> ns && (c =? 58) = true ->
  (t <- bt ce ;; check_name ce t had (g had t))%scan (c :: r) =
  if had then Ok (Stop T_INVALID (Some (c :: r)))
  else match r with [] => Ok (Stop T_PARTIAL None) | f :: r' => if start_char f then Ok (Cont true r') else Ok (Stop T_INVALID (Some r)) end.
Proof.
  intros Hg Hd Hc. inversion Hd; subst. cps. rewrite (name_iff _ _ _ _ ST) by auto.
  destruct (name_char c) eqn:En; [apply name_not_colon in En; congruence|]. rewrite (colon_not_wide c) by auto. btc. rewrite Hg.
  destruct had; [reflexivity|]. cps. destruct r as [|f r]; [reflexivity|]. cps. inversion H2; subst.
  rewrite (start_iff _ _ _ _ ST) by auto. destruct (start_char f); [reflexivity|]. destruct (ty k f); reflexivity.
Qed.
Lemma scanAtts_eq B cs : doms cs -> @scanAtts ce B cs = qname_k at_fin cs.
Proof.
  intros Hd. unfold scanAtts. apply qname_eq; auto.
  - intros had b s' b'. apply atts_cont.
  - intros had c r Hc Hn. eapply body_name; eauto. intros. reflexivity.
  - intros had c r Hc Hn. unfold scanAtts_body. apply (body_colon (fun had t => match t with
    | BT_COLON =>
        if had then stop_here T_INVALID else
        (adv1 ce ;; require_char ce ;; t2 <- bt ce ;; check_nmstrt ce t2 true (stop_here T_INVALID))%scan
    | BT_S | BT_CR | BT_LF => (atts_eq ce ;; scanAtts_value ce)%scan
    | BT_EQUALS => scanAtts_value ce
    | _ => stop_here T_INVALID end)); auto.
  - intros had c r Hc Hn Hnc. rewrite while_eq by (intros ? ? ? ?; apply atts_cont). inversion Hc; subst.
    unfold scanAtts_body at 1. cps. rewrite (name_iff _ _ _ _ ST), Hn by auto. unfold at_fin.
    pose proof (sp_t _ _ _ _ ST c H1) as S1. pose proof (eq_t c H1) as S2. apply not_colon in Hnc; auto.
    assert (SP : match (atts_eq ce ;; scanAtts_value ce)%scan (c :: r) with
                 | Ok (Cont had b) => @while_ ce _ B (scanAtts_body ce) (fun _ => Ok T_PARTIAL) had b
                 | Ok (Stop t n) => Ok (Stop t n) | Err x => Err x end = eq_k r).
    { unfold mbind at 1. rewrite atts_eq_eq by auto. unfold eq_k. pose proof (skip_sp_doms _ r H2) as Hd2.
      destruct (skip_sp r) as [|f q]; [reflexivity|]. destruct (f =? 61); [|reflexivity].
      apply value_then. now inversion Hd2. }
    destruct (ty k c) eqn:Et; cbn [sp_type] in S1; btc; rewrite <- S1, <- ?S2; try contradiction; try exact SP; try reflexivity.
    apply value_then; auto.
Qed.
Definition lt_fin {B} (d : N) (q : list N) : res (outc B) := more_k T_START_TAG_NO_ATTS T_EMPTY_ELEMENT_NO_ATTS d q.
Lemma helper_eq B d q : @scanLtHelper ce B (d :: q) = slash_k T_EMPTY_ELEMENT_NO_ATTS q.
Proof. unfold scanLtHelper. cps. destruct q as [|g q]; [reflexivity|]. cps. change c_GT with 62. cbn [slash_k]. destruct (g =? 62); reflexivity. Qed.
Lemma slash_cast {A0 B} t q (f : A0 -> M B) : then_ (slash_k t q) f = slash_k t q.
Proof. destruct q as [|g q]; [reflexivity|]. cbn [slash_k]. destruct (g =? 62); reflexivity. Qed.
Lemma lt_space_prog : forall (s : unit) b s' b', (require_char ce ;; t <- bt ce ;;
    check_nmstrt ce t (inr tt) (
      match t with
      | BT_GT => stop_after ce T_START_TAG_NO_ATTS
      | BT_SOL => scanLtHelper ce
      | BT_S | BT_CR | BT_LF => adv1 ce ;; ret (inl tt)
      | _ => stop_here T_INVALID
      end))%scan b = Ok (Cont (@inl unit unit s') b') -> (length b' < length b)%nat.
Proof.
  intros s [|c r]; [intros ? ?; cbn; discriminate|]. apply wp_prog2. pose proof (cp_enc_ok k) as OK.
  assert (Hb : Forall (fun _ : N => True) (c :: r)) by (apply Forall_forall; auto).
  assert (Hh : has (minbpc ce) (c :: r) = true) by reflexivity.
  repeat wstep. eapply wp_mono; [apply (scanLtHelper_safe _ OK _ (c :: r)); solve_side|auto|intros ? ? []].
Qed.
Lemma lt_space_eq q : doms q -> lt_space ce q =
  match skip_sp q with
  | [] => partial
  | f :: q2 =>
      if start_char f then Ok (Cont tt q2)
      else if f =? 62 then stop T_START_TAG_NO_ATTS q2
      else if f =? 47 then slash_k T_EMPTY_ELEMENT_NO_ATTS q2
      else stop T_INVALID (f :: q2)
  end.
Proof.
  unfold lt_space. induction q as [|f q IH]; intros Hd; [reflexivity|]. inversion Hd; subst.
  rewrite loopb_eq by (apply lt_space_prog). cps. rewrite (start_iff _ _ _ _ ST) by auto. cbn [skip_sp].
  pose proof (sp_t _ _ _ _ ST f H1) as S1. pose proof (gt_t _ _ _ _ ST f H1) as S2. pose proof (sol_t _ _ _ _ ST f H1) as S3.
  destruct (start_char f) eqn:Es.
  - destruct (is_space f) eqn:Ef; [rewrite is_start_sp in Es by auto; discriminate|]. rewrite Es. reflexivity.
  - destruct (ty k f) eqn:Et; cbn [sp_type] in S1; rewrite <- S1; btc; cps; rewrite ?IH by auto; try reflexivity;
      rewrite Es, <- S2, <- ?S3; try reflexivity.
    rewrite helper_eq. destruct q as [|g q]; [reflexivity|]. cbn [slash_k]. destruct (g =? 62); reflexivity.
Qed.
Lemma while_cast {S A0 B} (body : S -> M S) fin s b (f : A0 -> M B) :
  then_ (@while_ ce S A0 body fin s b) f = @while_ ce S B body fin s b.
Proof.
  unfold while_. generalize (Datatypes.S (length b)). intros n. revert s b. induction n as [|n IH]; intros s b; cbn [while_fuel].
  - destruct (has_chars ce 1 b); [reflexivity|]. destruct (fin s); reflexivity.
  - destruct (has_chars ce 1 b); [|destruct (fin s); reflexivity].
    destruct (body s b) as [[t m|s' b']|]; try reflexivity. apply IH.
Qed.
Lemma lt_name_eq B cs : doms cs -> @while_ ce _ B (lt_name_body ce) (fun _ => Ok T_PARTIAL) false cs = qname_k lt_fin cs.
Proof.
  intros Hd. apply qname_eq; auto.
  - intros had b s' b'. apply lt_cont.
  - intros had c r Hc Hn. eapply body_name; eauto. intros. reflexivity.
  - intros had c r Hc Hn. unfold lt_name_body. apply (body_colon (fun had t => match t with
    | BT_COLON =>
        if had then stop_here T_INVALID else
        (adv1 ce ;; require_char ce ;; t2 <- bt ce ;; check_nmstrt ce t2 true (stop_here T_INVALID))%scan
    | BT_S | BT_CR | BT_LF => (adv1 ce ;; lt_space ce ;; scanAtts ce)%scan
    | BT_GT => stop_after ce T_START_TAG_NO_ATTS
    | BT_SOL => scanLtHelper ce
    | _ => stop_here T_INVALID end)); auto.
  - intros had c r Hc Hn Hnc. rewrite while_eq by (intros ? ? ? ?; apply lt_cont). inversion Hc; subst.
    unfold lt_name_body at 1. cps. rewrite (name_iff _ _ _ _ ST), Hn by auto. unfold lt_fin, more_k.
    pose proof (sp_t _ _ _ _ ST c H1) as S1. pose proof (gt_t _ _ _ _ ST c H1) as S2. pose proof (sol_t _ _ _ _ ST c H1) as S3.
    apply not_colon in Hnc; auto.
    assert (SP : match (lt_space ce ;; scanAtts ce)%scan r with
                 | Ok (Cont had b) => @while_ ce _ B (lt_name_body ce) (fun _ => Ok T_PARTIAL) had b
                 | Ok (Stop t n) => Ok (Stop t n) | Err x => Err x end = next_k T_START_TAG_NO_ATTS T_EMPTY_ELEMENT_NO_ATTS r).
    { unfold mbind at 1. rewrite lt_space_eq by auto. unfold next_k. destruct (skip_sp r) as [|f q]; [reflexivity|].
      destruct (start_char f).
      - exact (while_cast _ _ _ _ _).
      - destruct (f =? 62); [reflexivity|]. destruct (f =? 47); [|reflexivity]. destruct q as [|g q]; [reflexivity|]. cbn [slash_k]. destruct (g =? 62); reflexivity. }
    destruct (ty k c) eqn:Et; cbn [sp_type] in S1; btc; cps; rewrite <- S1, <- ?S2, <- ?S3; try contradiction; try exact SP; try reflexivity.
    rewrite helper_eq. destruct r as [|g q]; [reflexivity|]. cbn [slash_k]. destruct (g =? 62); reflexivity.
Qed.

(* ---- soundness ---- *)
Lemma value_toks o : is_quote o = true -> forall n cs t p, (length cs < n)%nat -> doms cs ->
  atts_in_value ce (quote_type o) cs = Ok (Stop t (Some p)) -> t = T_INVALID.
Proof.
  intros Hq. induction n as [|n IH]; intros cs t p Hn Hd H; [lia|]. destruct cs as [|c r]; [discriminate|].
  inversion Hd; subst. rewrite value_step in H by auto.
  destruct (c =? o) eqn:Eo; [discriminate|].
  destruct (is_xml_char c) eqn:Ex; cbn [negb] in H; [|congruence].
  destruct (c =? 38) eqn:Ea.
  - destruct (@ref_fn lat ns Empty_set r) as [[t' [q|]|[]]|] eqn:Er; try discriminate.
    destruct (tok_eqb t' T_INVALID) eqn:Et. { destruct t'; try discriminate. congruence. }
    assert (Ht : t' <> T_INVALID) by (intros ->; discriminate).
    destruct (ref_suffix _ _ _ Er Ht) as (x & -> & Hx & Hr). apply Forall_app in H3 as [Hd1 Hd2].
    cbn [length] in Hn. rewrite app_length in Hn. eapply IH; [|exact Hd2|exact H]. destruct x; [congruence|cbn in Hn; lia].
  - destruct (c =? 60) eqn:El; [congruence|]. cbn [length] in Hn. eapply IH; [|exact H3|exact H]. lia.
Qed.
Lemma qname_sound {B} fin cs t p : t <> T_INVALID -> @qname_k B fin cs = stop t p -> doms cs ->
  exists n d q, cs = n ++ d :: q /\ fin d q = stop t p /\ (forall c, start_char c = true -> is_qname lat ns (c :: n)).
Proof.
  intros Ht H Hd. unfold qname_k in H.
  pose proof (take_name_app lat ns cs) as Ea. pose proof (take_name_all lat ns cs) as Eall.
  destruct (take_name cs) as [a b]. cbn [fst snd] in *. destruct b as [|d q]; [discriminate|].
  destruct (ns && (d =? 58)) eqn:Ec.
  - destruct q as [|f q]; [discriminate|]. destruct (start_char f) eqn:Es; [|unfold stop in H; congruence].
    pose proof (take_name_app lat ns q) as Ea2. pose proof (take_name_all lat ns q) as Eall2.
    destruct (take_name q) as [a2 b2]. cbn [fst snd] in *. destruct b2 as [|d2 q2]; [discriminate|].
    destruct (ns && (d2 =? 58)); [unfold stop in H; congruence|].
    exists (a ++ [58] ++ f :: a2), d2, q2. apply andb_prop in Ec as [Ens Ed]. apply N.eqb_eq in Ed. subst.
    split; [rewrite <- !app_assoc; reflexivity|]. split; [auto|]. intros c Hc. right. split; auto.
    exists (c :: a), (f :: a2). split; [reflexivity|]. split; [exists c, a; auto|exists f, a2; auto].
  - exists a, d, q. split; auto. split; auto. intros c Hc. left. exists c, a. auto.
Qed.
Definition close (empty : bool) : list N := if empty then [47; 62] else [62].
Definition tag_tail (q : list N) (t : XML_TOK) (p : list N) (f : list att_src -> bool -> XML_TOK) : Prop :=
  exists atts sp empty, q = flat_map att_text atts ++ sp ++ close empty ++ p /\ t = f atts empty /\
    Forall (att_ok lat ns) atts /\ spaces sp.
Definition with_token (atts : list att_src) (empty : bool) : XML_TOK :=
  if empty then T_EMPTY_ELEMENT_WITH_ATTS else T_START_TAG_WITH_ATTS.
Definition tok_fun (tg te : XML_TOK) (atts : list att_src) (empty : bool) : XML_TOK :=
  match atts with [] => if empty then te else tg | _ => with_token atts empty end.
Lemma tok_fun_no atts empty : tok_fun T_START_TAG_NO_ATTS T_EMPTY_ELEMENT_NO_ATTS atts empty = tag_token atts empty.
Proof. destruct atts, empty; reflexivity. Qed.
Lemma tok_fun_with atts empty : tok_fun T_START_TAG_WITH_ATTS T_EMPTY_ELEMENT_WITH_ATTS atts empty = with_token atts empty.
Proof. destruct atts, empty; reflexivity. Qed.

Lemma slash_sound {B} te q t p : t <> T_INVALID -> @slash_k B te q = stop t p -> q = 62 :: p /\ t = te.
Proof.
  intros Ht. destruct q as [|g q]; [discriminate|]. cbn [slash_k]. destruct (g =? 62) eqn:E; unfold stop; [|congruence].
  intros [= -> ->]. apply N.eqb_eq in E. subst. auto.
Qed.
(* attributes after the first character of a name, the white space before it given *)
Definition atts_claim (cs : list N) : Prop := forall B t p, t <> T_INVALID -> @scanAtts ce B cs = stop t p -> doms cs ->
  forall c s, start_char c = true -> spaces s -> s <> [] ->
  exists a atts sp empty, s ++ c :: cs = flat_map att_text (a :: atts) ++ sp ++ close empty ++ p /\ t = with_token (a :: atts) empty /\
    Forall (att_ok lat ns) (a :: atts) /\ spaces sp.
Lemma more_sound B tg te d q t p : (forall q', (length q' <= length q)%nat -> atts_claim q') ->
  t <> T_INVALID -> @more_k B tg te d q = stop t p -> doms q -> tag_tail (d :: q) t p (tok_fun tg te).
Proof.
  intros IH Ht H Hd. unfold more_k, next_k in H. destruct (is_space d) eqn:Ed.
  - destruct (skip_sp_app q) as (s & Eq & Hs). pose proof (skip_sp_len q) as Hl. pose proof (skip_sp_doms _ q Hd) as Hd2.
    destruct (skip_sp q) as [|f q2]; [discriminate|].
    assert (Hs' : spaces (d :: s)) by (constructor; auto).
    destruct (start_char f) eqn:Ef.
    + inversion Hd2; subst. cbn [length] in Hl.
      destruct (IH q2 ltac:(cbn; lia) B t p Ht H H3 f (d :: s) Ef Hs' ltac:(discriminate)) as (a & atts & sp & empty & E & Et & Ha & Hsp).
      exists (a :: atts), sp, empty. split; [exact E|]. auto.
    + destruct (f =? 62) eqn:E1.
      * injection H as <- <-. apply N.eqb_eq in E1. subst. exists [], (d :: s), false. repeat split; auto.
      * destruct (f =? 47) eqn:E2; [|unfold stop in H; congruence]. apply slash_sound in H as [-> ->]; auto.
        apply N.eqb_eq in E2. subst. exists [], (d :: s), true. repeat split; auto.
  - destruct (d =? 62) eqn:E1.
    + injection H as <- <-. apply N.eqb_eq in E1. subst. exists [], [], false. repeat split; auto. constructor.
    + destruct (d =? 47) eqn:E2; [|unfold stop in H; congruence]. apply slash_sound in H as [-> ->]; auto.
      apply N.eqb_eq in E2. subst. exists [], [], true. repeat split; auto. constructor.
Qed.
Lemma val_sound B q t p : (forall q', (length q' < length q)%nat -> atts_claim q') -> t <> T_INVALID -> @val_k B q = stop t p -> doms q ->
  exists s o v r, q = s ++ [o] ++ v ++ [o] ++ r /\ spaces s /\ (o = 34 \/ o = 39) /\ att_value lat ns o v /\ tag_tail r t p with_token.
Proof.
  intros IH Ht H Hd. unfold val_k in H. destruct (skip_sp_app q) as (s & Eq & Hs). pose proof (skip_sp_len q) as Hl.
  pose proof (skip_sp_doms _ q Hd) as Hd2. destruct (skip_sp q) as [|o q']; [discriminate|].
  destruct (is_quote o) eqn:Eo; [|unfold stop in H; congruence]. inversion Hd2; subst.
  destruct (atts_in_value ce (quote_type o) q') as [[t' n|[] [|x q2]]|] eqn:Ev; try discriminate.
  - exfalso. injection H as -> ->. eapply Ht, value_toks; eauto.
  - destruct (value_sound o Eo _ q' _ (Nat.lt_succ_diag_r _) H3 Ev) as (v & q3 & -> & Ex & Hv). injection Ex as -> ->.
    destruct q3 as [|d q3]; [discriminate|]. cbn [after_k] in H.
    exists s, o, v, (d :: q3). split; [reflexivity|]. split; auto. split; [unfold is_quote in Eo; lia|]. split; auto.
    apply more_sound in H; auto.
    + destruct H as (atts & sp & empty & -> & -> & X & Y). exists atts, sp, empty. rewrite tok_fun_with. auto.
    + intros q4 Hq. apply IH. cbn [length app] in *. rewrite !app_length in *. cbn [length] in *. lia.
    + apply Forall_app in H3 as [_ X]. inversion X as [|? ? _ Y]. now inversion Y.
Qed.
Lemma atts_sound : forall n cs, (length cs < n)%nat -> atts_claim cs.
Proof.
  induction n as [|n IH]; intros cs Hn; [lia|]. intros B t p Ht H Hd c s Hc Hs Hs0.
  rewrite scanAtts_eq in H by auto. apply qname_sound in H as (nm & d & q & -> & H & Hq); auto.
  rewrite app_length in Hn. cbn [length] in Hn. apply Forall_app in Hd as [Hd1 Hd2]. inversion Hd2; subst.
  assert (F : forall s1 q1, spaces s1 -> d :: q = s1 ++ [61] ++ q1 -> @val_k B q1 = stop t p ->
    exists a atts sp empty, s ++ c :: nm ++ d :: q = flat_map att_text (a :: atts) ++ sp ++ close empty ++ p /\
      t = with_token (a :: atts) empty /\ Forall (att_ok lat ns) (a :: atts) /\ spaces sp).
  { intros s1 q1 Hs1 E Hv. assert (Hdq : doms q1) by (rewrite E in Hd2; apply Forall_app in Hd2 as [_ X]; now inversion X).
    apply (f_equal (@length N)) in E as El. rewrite !app_length in El. cbn [length] in El.
    apply val_sound in Hv; auto. 2:{ intros q' Hq'. apply IH. lia. }
    destruct Hv as (s2 & o & v & r & -> & Hs2 & Ho & Hav & (atts & sp & empty & -> & -> & Ha & Hsp)).
    exists {| as_space := s; as_name := c :: nm; as_eq1 := s1; as_eq2 := s2; as_quote := o; as_value := v |}, atts, sp, empty.
    split. { rewrite E. cbn [flat_map att_text as_space as_name as_eq1 as_eq2 as_quote as_value]. unfold att_text. cbn [as_space as_name as_eq1 as_eq2 as_quote as_value].
      change (txt "=") with [61]. repeat (rewrite <- app_assoc; cbn [app]). reflexivity. }
    split; [reflexivity|]. split; [|auto]. constructor; auto. unfold att_ok. cbn [as_space as_name as_eq1 as_eq2 as_quote as_value]. auto 10. }
  unfold at_fin in H. destruct (is_space d) eqn:Ed.
  - unfold eq_k in H. destruct (skip_sp_app q) as (s1 & Eq & Hs1). destruct (skip_sp q) as [|f q']; [discriminate|].
    destruct (f =? 61) eqn:E1; [|unfold stop in H; congruence]. apply N.eqb_eq in E1. subst.
    apply (F (d :: s1) q'); auto. constructor; auto.
  - destruct (d =? 61) eqn:E1; [|unfold stop in H; congruence]. apply N.eqb_eq in E1. subst. apply (F [] q); auto. constructor.
Qed.
Lemma tag_sound B c cs t p : start_char c = true -> doms cs -> t <> T_INVALID ->
  @while_ ce _ B (lt_name_body ce) (fun _ => Ok T_PARTIAL) false cs = stop t p ->
  exists name atts sp empty, [60] ++ c :: cs = tag_text name atts sp empty ++ p /\ tag_ok lat ns name atts sp /\ t = tag_token atts empty.
Proof.
  intros Hc Hd Ht H. rewrite lt_name_eq in H by auto. apply qname_sound in H as (nm & d & q & -> & H & Hq); auto.
  apply Forall_app in Hd as [Hd1 Hd2]. inversion Hd2; subst. apply more_sound in H; auto.
  2:{ intros q' _. eapply atts_sound. apply Nat.lt_succ_diag_r. }
  destruct H as (atts & sp & empty & E & -> & Ha & Hsp). exists (c :: nm), atts, sp, empty. split; [|split].
  - unfold tag_text. change (txt "<") with [60]. rewrite E. change (if empty then txt "/>" else txt ">") with (close empty).
    repeat (rewrite <- app_assoc; cbn [app]). reflexivity.
  - repeat split; auto.
  - apply tok_fun_no.
Qed.

(* ---- completeness ---- *)
Lemma qname_complete {B} fin c n d q : is_qname lat ns (c :: n) -> name_char d = false -> ns && (d =? 58) = false ->
  @qname_k B fin (n ++ d :: q) = fin d q /\ start_char c = true.
Proof.
  intros [(c' & n' & [= <- <-] & Hs & Hn)|(Ens & p & l & E & (c1 & p1 & -> & Hs1 & Hp1) & (c2 & l2 & -> & Hs2 & Hl2))] Hd Hc.
  - split; auto. unfold qname_k. rewrite take_name_intro by auto. cbn [snd]. now rewrite Hc.
  - injection E as -> ->. split; auto. unfold qname_k. cbn [txt]. change (txt ":") with [58].
    rewrite <- app_assoc. cbn [app]. rewrite take_name_intro; auto.
    2:{ destruct lat; rewrite Ens; reflexivity. }
    cbn [snd]. replace (ns && (58 =? 58)) with true by (rewrite Ens; reflexivity). rewrite Hs2, take_name_intro by auto. cbn [snd].
    now rewrite Hc.
Qed.
Lemma sp_not_colon c : is_space c = true -> ns && (c =? 58) = false.
Proof. unfold is_space. intros H. replace (c =? 58) with false by lia. apply andb_false_r. Qed.
Lemma qname_start c n : is_qname lat ns (c :: n) -> start_char c = true.
Proof. intros [(c' & n' & [= <- <-] & Hs & _)|(_ & p & l & E & (c1 & p1 & -> & Hs & _) & _)]; auto. now injection E as -> _. Qed.
Lemma start_not_sp c : start_char c = true -> is_space c = false.
Proof. intros H. destruct (is_space c) eqn:E; auto. apply is_start_sp in E. congruence. Qed.
Lemma skip_close sp empty p : spaces sp -> skip_sp (sp ++ close empty ++ p) = close empty ++ p.
Proof. intros Hs. apply skip_sp_intro; auto. destruct empty; reflexivity. Qed.
Lemma att_head a : att_ok lat ns a -> exists s0 s c n, as_space a = s0 :: s /\ as_name a = c :: n /\ is_space s0 = true /\ spaces s /\ start_char c = true.
Proof.
  intros (Hs & Hs0 & Hq & _). destruct (as_space a) as [|s0 s]; [congruence|]. inversion Hs; subst.
  assert (exists c n, as_name a = c :: n) as (c & n & E).
  { destruct Hq as [(c & n & -> & _)|(_ & p & l & -> & (c & n & -> & _) & _)]; cbn; eauto. }
  rewrite E in Hq. exists s0, s, c, n. repeat split; auto. eapply qname_start; eauto.
Qed.
Lemma more_complete B tg te atts sp empty p :
  spaces sp -> Forall (att_ok lat ns) atts -> doms (flat_map att_text atts ++ sp ++ close empty ++ p) ->
  exists d q, flat_map att_text atts ++ sp ++ close empty ++ p = d :: q /\
    name_char d = false /\ ns && (d =? 58) = false /\ @more_k B tg te d q = stop (tok_fun tg te atts empty) p.
Proof.
  intros Hsp Ha. revert tg te. induction Ha as [|a atts Hat Ha IH]; intros tg te Hd.
  - cbn [flat_map app]. destruct sp as [|d sp].
    + destruct empty; cbn [app close].
      * exists 47, (62 :: p). repeat split; [apply (proj1 (name_char_ascii _ _ _ _ ST 47 ltac:(auto 10)))|apply andb_false_r].
      * exists 62, p. repeat split; [apply (proj1 (name_char_ascii _ _ _ _ ST 62 ltac:(auto 10)))|apply andb_false_r].
    + inversion Hsp; subst. cbn [app]. exists d, (sp ++ close empty ++ p). split; auto. split; [apply sp_name; auto|]. split; [apply sp_not_colon; auto|].
      unfold more_k. rewrite H1. unfold next_k. rewrite skip_close by auto. destruct empty; cbn [close app].
      * rewrite (proj2 (name_char_ascii _ _ _ _ ST 47 ltac:(auto 10))). reflexivity.
      * rewrite (proj2 (name_char_ascii _ _ _ _ ST 62 ltac:(auto 10))). reflexivity.
  - pose proof (att_head a Hat) as (s0 & s & c & n & Es & En & Hs0 & Hs & Hc).
    destruct Hat as (_ & _ & Hq & He1 & He2 & Ho & Hv).
    cbn [flat_map] in *. rewrite <- !app_assoc in *. set (tl := flat_map att_text atts ++ sp ++ close empty ++ p) in *.
    assert (Hdt : doms tl) by (apply Forall_app in Hd; tauto).
    unfold att_text in *. rewrite Es, En in *. change (txt "=") with [61] in *. repeat (rewrite <- app_assoc in *; cbn [app] in * ).
    exists s0. eexists. split; [reflexivity|]. split; [apply sp_name; auto|]. split; [apply sp_not_colon; auto|].
    unfold more_k. rewrite Hs0. unfold next_k. rewrite skip_sp_intro; [|auto|now apply start_not_sp]. rewrite Hc.
    assert (Hd1 : doms (n ++ as_eq1 a ++ 61 :: as_eq2 a ++ as_quote a :: as_value a ++ as_quote a :: tl)).
    { inversion Hd as [|? ? _ X]. apply Forall_app in X as [_ X]. now inversion X. }
    rewrite scanAtts_eq by auto.
    assert (Hd2 : doms (as_eq2 a ++ as_quote a :: as_value a ++ as_quote a :: tl)).
    { apply Forall_app in Hd1 as [_ X]. apply Forall_app in X as [_ X]. now inversion X. }
    assert (Hd3 : doms (as_value a ++ as_quote a :: tl)).
    { apply Forall_app in Hd2 as [_ X]. now inversion X. }
    assert (V : @val_k B (as_eq2 a ++ as_quote a :: as_value a ++ as_quote a :: tl) = stop (with_token (a :: atts) empty) p).
    { unfold val_k. rewrite skip_sp_intro; [|auto|destruct Ho as [-> | ->]; reflexivity].
      assert (Hiq : is_quote (as_quote a) = true) by (unfold is_quote; lia). rewrite Hiq.
      rewrite value_complete by auto. destruct (IH T_START_TAG_WITH_ATTS T_EMPTY_ELEMENT_WITH_ATTS Hdt) as (d & q & E & _ & _ & M).
      rewrite E. cbn [after_k]. rewrite M, tok_fun_with. reflexivity. }
    change (tok_fun tg te (a :: atts) empty) with (with_token (a :: atts) empty).
    destruct (as_eq1 a) as [|e1 s1] eqn:E1; cbn [app].
    + destruct (@qname_complete B at_fin c n 61 (as_eq2 a ++ as_quote a :: as_value a ++ as_quote a :: tl)) as [-> _]; auto.
      { apply (name_char_ascii _ _ _ _ ST 61); auto 10. } { apply andb_false_r. }
    + inversion He1; subst.
      destruct (@qname_complete B at_fin c n e1 (s1 ++ 61 :: as_eq2 a ++ as_quote a :: as_value a ++ as_quote a :: tl)) as [-> _]; auto.
      { now apply sp_name. } { now apply sp_not_colon. }
      unfold at_fin. rewrite H1. unfold eq_k. rewrite skip_sp_intro; [|auto|reflexivity]. exact V.
Qed.
Lemma tag_complete B name atts sp empty p : tag_ok lat ns name atts sp -> doms (tag_text name atts sp empty ++ p) ->
  exists c cs, tag_text name atts sp empty ++ p = [60] ++ c :: cs /\ start_char c = true /\
  @while_ ce _ B (lt_name_body ce) (fun _ => Ok T_PARTIAL) false cs = stop (tag_token atts empty) p.
Proof.
  intros (Hq & Ha & Hs) Hd. unfold tag_text in *. change (txt "<") with [60] in *. change (if empty then txt "/>" else txt ">") with (close empty) in *.
  assert (exists c n, name = c :: n) as (c & n & ->).
  { destruct Hq as [(c & n & -> & _)|(_ & p1 & l & -> & (c & n & -> & _) & _)]; cbn; eauto. }
  rewrite <- !app_assoc in *. exists c, (n ++ flat_map att_text atts ++ sp ++ close empty ++ p). split; [reflexivity|].
  split; [eapply qname_start; eauto|].
  assert (Hd1 : doms (n ++ flat_map att_text atts ++ sp ++ close empty ++ p)) by (inversion Hd as [|? ? _ X]; now inversion X).
  rewrite lt_name_eq by auto. apply Forall_app in Hd1 as [_ Hd1].
  destruct (more_complete B T_START_TAG_NO_ATTS T_EMPTY_ELEMENT_NO_ATTS atts sp empty p Hs Ha Hd1) as (d & q & -> & Hn & Hc & M).
  destruct (@qname_complete B lt_fin c n d q Hq Hn Hc) as [-> _]. unfold lt_fin. rewrite M. now rewrite tok_fun_no.
Qed.
End Cp.
