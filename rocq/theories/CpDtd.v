(* The tokens of the prolog and of DTDs over code points. *)
From Coq Require Import String List NArith ZArith Bool Lia Arith.
From Coq Require Import ZifyBool ZifyNat ZifyN.
From Verif Require Import Base Encoding SpecText SpecUnicode SpecNames SpecLex SpecProlog EncLaws Tok TokWp TokSafe Charset CharsetLaws Sim SimTok SimTop TextEnc CpBase CpComment CpTag CpStart CpContent CpProlog.
Import ListNotations.
Local Open Scope N_scope.

Section Cp.
Variables (lat ns : bool) (dom : N -> bool) (k : cls).
Hypothesis ST : std lat ns dom k.
Notation ce := (cp_enc k).
Notation doms := (all_in dom).
Notation name_char := (name_char lat ns).
Notation start_char := (start_char lat ns).
Notation colon c := (ns && (c =? 58)).

(* from code points to types *)
Ltac to_ty c H := repeat first
  [ rewrite <- (ty_eqb _ _ _ _ ST c BT_GT 62 H eq_refl) | rewrite <- (ty_eqb _ _ _ _ ST c BT_RPAR 41 H eq_refl)
  | rewrite <- (ty_eqb _ _ _ _ ST c BT_COMMA 44 H eq_refl) | rewrite <- (ty_eqb _ _ _ _ ST c BT_VERBAR 124 H eq_refl)
  | rewrite <- (ty_eqb _ _ _ _ ST c BT_LSQB 91 H eq_refl) | rewrite <- (ty_eqb _ _ _ _ ST c BT_PERCNT 37 H eq_refl)
  | rewrite <- (ty_eqb _ _ _ _ ST c BT_PLUS 43 H eq_refl) | rewrite <- (ty_eqb _ _ _ _ ST c BT_AST 42 H eq_refl)
  | rewrite <- (ty_eqb _ _ _ _ ST c BT_QUEST 63 H eq_refl) | rewrite <- (ty_eqb _ _ _ _ ST c BT_QUOT 34 H eq_refl)
  | rewrite <- (ty_eqb _ _ _ _ ST c BT_APOS 39 H eq_refl) | rewrite <- (ty_eqb _ _ _ _ ST c BT_LT 60 H eq_refl)
  | rewrite <- (ty_eqb _ _ _ _ ST c BT_CR 13 H eq_refl) | rewrite <- (ty_eqb _ _ _ _ ST c BT_RSQB 93 H eq_refl)
  | rewrite <- (ty_eqb _ _ _ _ ST c BT_LPAR 40 H eq_refl) | rewrite <- (ty_eqb _ _ _ _ ST c BT_NUM 35 H eq_refl)
  | rewrite <- (ty_eqb _ _ _ _ ST c BT_SEMI 59 H eq_refl) | rewrite <- (colon_t _ _ _ _ ST c H) | rewrite <- (sp_t _ _ _ _ ST c H)
  | rewrite <- (st_start _ _ _ _ ST c H) | rewrite <- (st_name _ _ _ _ ST c H) ].

(* names *)
Definition ends (c : N) : bool := is_space c || ((c =? 62) || ((c =? 41) || ((c =? 44) || ((c =? 124) || ((c =? 91) || (c =? 37)))))).
Lemma ends_spec c : one_of ">),|[%" c = ends c.
Proof using. clear ST dom k. unfold one_of, ends. cbn. rewrite orb_false_r. reflexivity. Qed.
Definition after (t : XML_TOK) (c : N) : XML_TOK :=
  if c =? 43 then T_NAME_PLUS else if c =? 42 then T_NAME_ASTERISK else T_NAME_QUESTION.
Definition occ (c : N) : bool := (c =? 43) || ((c =? 42) || (c =? 63)).
Fixpoint nm {B} (t : XML_TOK) (cs : list N) : res (outc B) :=
  match cs with
  | [] => let* t := tok_negate t in Ok (Stop t None)
  | c :: r =>
      if name_char c then nm t r
      else if colon c then
        match t with
        | T_NAME =>
            match r with
            | [] => partial
            | d :: q => if name_char d then nm T_PREFIXED_NAME q else nm T_NMTOKEN r
            end
        | T_PREFIXED_NAME => nm T_NMTOKEN r
        | _ => nm t r
        end
      else if ends c then stop t cs
      else if occ c then (if tok_eqb t T_NMTOKEN then stop T_INVALID cs else stop (after t c) r)
      else stop T_INVALID cs
  end.
Lemma name_body_prog : forall s b s' b', prolog_name_body ce s b = Ok (Cont s' b') -> (length b' < length b)%nat.
Proof. unfold prolog_name_body. clear. prog k. Qed.
Lemma prolog_name_eq {B} cs : forall t, doms cs -> (t = T_NAME \/ t = T_NMTOKEN \/ t = T_PREFIXED_NAME) -> @prolog_name ce B t cs = nm t cs.
Proof.
  remember (length cs) as n eqn:En. assert (Hn : (length cs <= n)%nat) by lia. clear En. revert cs Hn.
  induction n as [|n IH]; intros [|c r] Hn t Hd Ht; cbn [length] in Hn; try lia; try reflexivity.
  inversion Hd as [|? ? Hc Hr]; subst. unfold prolog_name. rewrite while_eq by apply name_body_prog. fold (@prolog_name ce B).
  unfold prolog_name_body at 1. cps. rewrite (name_iff _ _ _ _ ST) by exact Hc. cbn [nm].
  destruct (name_char c) eqn:Ec; [apply IH; auto; lia|].
  unfold ends, occ, after. to_ty c Hc.
  assert (IH' : forall t, t = T_NAME \/ t = T_NMTOKEN \/ t = T_PREFIXED_NAME -> @prolog_name ce B t r = nm t r) by (intros; apply IH; auto; lia).
  destruct (ty k c) eqn:Et; try reflexivity; cbn [bt_eqb ByteType_eq_dec]; cps;
    try (destruct (tok_eqb t T_NMTOKEN); reflexivity).
  cbn. cps. destruct Ht as [->|[->| ->]]; cps; try (apply IH'; auto).
  destruct r as [|d q]; [reflexivity|]. cps. inversion Hr; subst.
  rewrite (name_iff _ _ _ _ ST) by assumption. destruct (name_char d) eqn:Ed; [apply IH; auto; cbn [length] in Hn; lia|].
  destruct (bt_eqb (ty k d) BT_NONASCII) eqn:Ew; [|apply IH'; auto].
  cbn [nm]. rewrite Ed. unfold ends, occ, after. to_ty d H1. unfold bt_eqb in Ew. destruct (ByteType_eq_dec (ty k d) BT_NONASCII) as [E|]; [|discriminate].
  rewrite E. reflexivity.
Qed.
(* the kind of a run of name characters and colons *)
Definition any (c : N) : bool := name_char c || colon c.
Fixpoint kd (t : XML_TOK) (x : list N) : XML_TOK :=
  match x with
  | [] => t
  | c :: r =>
      if name_char c then kd t r
      else match t with
           | T_NAME => match r with d :: q => if name_char d then kd T_PREFIXED_NAME q else kd T_NMTOKEN r | [] => T_NMTOKEN end
           | _ => kd T_NMTOKEN r
           end
  end.
Definition fin (t : XML_TOK) (c : N) (r : list N) (t' : XML_TOK) (p : list N) : Prop :=
  (ends c = true /\ t' = t /\ p = c :: r) \/ (occ c = true /\ t <> T_NMTOKEN /\ t' = after t c /\ p = r).
Definition stated (t : XML_TOK) : Prop := t = T_NAME \/ t = T_NMTOKEN \/ t = T_PREFIXED_NAME.
Lemma nm_spec {B} n : forall cs t t' p, (length cs <= n)%nat -> stated t -> t' <> T_INVALID ->
  (@nm B t cs = stop t' p <-> exists x c r, cs = x ++ c :: r /\ all_in any x /\ any c = false /\ fin (kd t x) c r t' p).
Proof using. clear ST dom k.
  induction n as [|n IH]; intros [|c r] t t' p Hn Hs Ht; cbn [length] in Hn; try lia.
  1,2: (split; [destruct Hs as [->|[->| ->]]; discriminate|intros (x & c & r & E & _); destruct x; discriminate]).
  cbn [nm].
  assert (Step : any c = true -> forall t1 : XML_TOK, stated t1 -> (forall x c' q, r = x ++ c' :: q -> all_in any x -> any c' = false -> kd t (c :: x) = kd t1 x) ->
     (@nm B t1 r = stop t' p <-> exists x c0 r0, c :: r = x ++ c0 :: r0 /\ all_in any x /\ any c0 = false /\ fin (kd t x) c0 r0 t' p)).
  { intros Ha t1 Hs1 Hk. rewrite (IH r t1 t' p) by (auto; lia). split.
    - intros (x & c' & q & -> & Hx & Hc' & Hf). exists (c :: x), c', q. split; [reflexivity|]. split; [constructor; auto|]. split; [exact Hc'|].
      rewrite (Hk x c' q eq_refl Hx Hc'). exact Hf.
    - intros (x & c' & q & E & Hx & Hc' & Hf). destruct x as [|c1 x]; [cbn in E; injection E as -> ->; congruence|].
      cbn [app] in E. injection E as <- E. inversion Hx; subst. exists x, c', q. split; [reflexivity|]. split; [assumption|]. split; [exact Hc'|].
      rewrite <- (Hk x c' q eq_refl) by assumption. exact Hf. }
  destruct (name_char c) eqn:Ec.
  - apply Step; auto; [unfold any; rewrite Ec; reflexivity|]. intros. cbn [kd]. rewrite Ec. reflexivity.
  - destruct (colon c) eqn:Eo.
    + assert (Ha : any c = true) by (unfold any; rewrite Ec, Eo; reflexivity).
      destruct Hs as [->|[->| ->]].
      * destruct r as [|d q].
        { split; [discriminate|]. intros (x & c' & q & E & Hx & Hc' & Hf). destruct x as [|? [|? ?]]; [|discriminate|discriminate].
          injection E as <- <-. congruence. }
        destruct (name_char d) eqn:Ed.
        -- rewrite (IH q T_PREFIXED_NAME t' p) by (first [cbn [length] in Hn; lia|right; right; reflexivity|exact Ht]). split.
           ++ intros (x & c' & q' & -> & Hx & Hc' & Hf). exists (c :: d :: x), c', q'. split; [reflexivity|]. split; [constructor; [exact Ha|constructor; [unfold any; rewrite Ed; reflexivity|exact Hx]]|].
              split; [exact Hc'|]. cbn [kd]. rewrite Ec, Ed. exact Hf.
           ++ intros (x & c' & q' & E & Hx & Hc' & Hf). destruct x as [|c1 [|d1 x]]; cbn [app] in E.
              ** injection E as -> _. congruence.
              ** injection E as _ -> _. unfold any in Hc'. rewrite Ed in Hc'. discriminate.
              ** injection E as <- <- ->. inversion Hx as [|? ? _ Hx']; subst. inversion Hx'; subst. exists x, c', q'.
                 split; [reflexivity|]. split; [assumption|]. split; [exact Hc'|]. cbn [kd] in Hf. rewrite Ec, Ed in Hf. exact Hf.
        -- apply Step; auto; [right; left; reflexivity|]. intros x c' q' E Hx Hc'. cbn [kd]. rewrite Ec. destruct x as [|d1 x]; [reflexivity|].
           cbn [app] in E. injection E as <- _. rewrite Ed. reflexivity.
      * apply Step; auto; [right; left; reflexivity|]. intros. cbn [kd]. rewrite Ec. reflexivity.
      * apply Step; auto; [right; left; reflexivity|]. intros. cbn [kd]. rewrite Ec. reflexivity.
    + assert (Ha : any c = false) by (unfold any; rewrite Ec, Eo; reflexivity).
      assert (R : (exists x c0 r0, c :: r = x ++ c0 :: r0 /\ all_in any x /\ any c0 = false /\ fin (kd t x) c0 r0 t' p) <-> fin t c r t' p).
      { split.
        - intros (x & c0 & r0 & E & Hx & Hc0 & Hf). destruct x as [|c1 x]; [cbn in E; injection E as <- <-; exact Hf|].
          cbn [app] in E. injection E as <- _. inversion Hx; congruence.
        - intros Hf. exists [], c, r. repeat split; auto. constructor. }
      rewrite R. unfold fin, stop. destruct (ends c) eqn:Ee.
      * split; [intros E; injection E as <- <-; left; auto|]. intros [(_ & -> & ->)|(Ho & _)]; [reflexivity|].
        unfold ends, occ in *. unfold is_space in Ee. lia.
      * destruct (occ c) eqn:Eo'.
        -- destruct (tok_eqb t T_NMTOKEN) eqn:En.
           ++ split; [intros E; injection E; congruence|]. intros [(X & _)|(_ & X & _)]; [discriminate|]. destruct Hs as [->|[->| ->]]; try discriminate En. congruence.
           ++ split; [intros E; injection E as <- <-; right; repeat split; auto; intros ->; discriminate|]. intros [(X & _)|(_ & _ & -> & ->)]; [discriminate|reflexivity].
        -- split; [intros E; injection E; congruence|]. intros [(X & _)|(X & _)]; discriminate.
Qed.
Lemma nm_iff {B} cs t t' p : stated t -> t' <> T_INVALID ->
  (@nm B t cs = stop t' p <-> exists x c r, cs = x ++ c :: r /\ all_in any x /\ any c = false /\ fin (kd t x) c r t' p).
Proof using. clear ST dom k. apply (nm_spec (length cs)), Nat.le_refl. Qed.
Lemma kd_nmtoken x : kd T_NMTOKEN x = T_NMTOKEN.
Proof using. clear ST dom k. induction x as [|c x IH]; cbn [kd]; [reflexivity|]. rewrite IH. destruct (name_char c); reflexivity. Qed.
Lemma kd_prefixed x : kd T_PREFIXED_NAME x = T_PREFIXED_NAME /\ all_in name_char x \/ kd T_PREFIXED_NAME x = T_NMTOKEN /\ ~ all_in name_char x.
Proof using. clear ST dom k.
  induction x as [|c x IH]; cbn [kd]; [left; split; [reflexivity|constructor]|]. destruct (name_char c) eqn:E.
  - destruct IH as [[-> H]|[-> H]]; [left; split; [reflexivity|constructor; auto]|right; split; [reflexivity|]]. intros X. inversion X; auto.
  - right. rewrite kd_nmtoken. split; [reflexivity|]. intros X. inversion X; congruence.
Qed.
Lemma split_colon p l p' l' : name_char 58 = false -> all_in name_char p -> all_in name_char p' -> p ++ 58 :: l = p' ++ 58 :: l' -> p = p' /\ l = l'.
Proof using. clear ST dom k.
  intros Hn. revert p'. induction p as [|c p IH]; intros [|c' p'] H H' E; cbn [app] in E.
  - injection E as ->. auto.
  - injection E as <- E. inversion H'; congruence.
  - injection E as -> E. inversion H; congruence.
  - injection E as <- E. inversion H; inversion H'; subst. destruct (IH p') as [-> ->]; auto.
Qed.
Definition parted (x : list N) : Prop := ns = true /\ exists p l, x = p ++ 58 :: l /\ all_in name_char p /\ l <> [] /\ all_in name_char l.
Lemma colon_out : ns = true -> name_char 58 = false.
Proof using. clear ST dom k. intros ->. unfold SpecLex.name_char. cbn. rewrite andb_false_r. destruct lat; reflexivity. Qed.
Lemma kd_name x : all_in any x ->
  kd T_NAME x = T_NAME /\ all_in name_char x \/ kd T_NAME x = T_PREFIXED_NAME /\ parted x \/ kd T_NAME x = T_NMTOKEN /\ ~ all_in name_char x /\ ~ parted x.
Proof using. clear ST dom k.
  intros Ha. induction x as [|c x IH]; cbn [kd]; [left; split; [reflexivity|constructor]|]. inversion Ha as [|? ? Hc Hx]; subst.
  destruct (name_char c) eqn:E.
  - destruct (IH Hx) as [[-> H]|[[-> H]|(-> & H & H')]].
    + left. split; [reflexivity|constructor; auto].
    + right. left. split; [reflexivity|]. destruct H as (Hns & p & l & -> & Hp & Hl). split; [exact Hns|]. exists (c :: p), l. split; [reflexivity|]. split; [constructor; auto|exact Hl].
    + right. right. split; [reflexivity|]. split; [intros X; inversion X; auto|].
      intros (Hns & p & l & E' & Hp & Hl & Hl'). destruct p as [|c1 p]; cbn [app] in E'; injection E' as E1 E2.
      * subst c. rewrite (colon_out Hns) in E. discriminate.
      * apply H'. split; [exact Hns|]. exists p, l. inversion Hp; auto.
  - unfold any in Hc. rewrite E in Hc. cbn [orb] in Hc. apply andb_prop in Hc as [Hns Hc]. apply N.eqb_eq in Hc. subst c.
    assert (Hall : ~ all_in name_char (58 :: x)) by (intros X; inversion X; congruence).
    destruct x as [|d q].
    + right. right. split; [reflexivity|]. split; [exact Hall|]. intros (_ & p & l & E' & _ & Hl & _). destruct p as [|? [|]]; try discriminate. injection E' as <-. apply Hl. reflexivity.
    + destruct (name_char d) eqn:Ed.
      * destruct (kd_prefixed q) as [[-> H]|[-> H]].
        -- right. left. split; [reflexivity|]. split; [exact Hns|]. exists [], (d :: q). split; [reflexivity|]. split; [constructor|]. split; [discriminate|]. constructor; auto.
        -- right. right. split; [reflexivity|]. split; [exact Hall|]. intros (_ & p & l & E' & Hp & Hl & Hl').
           destruct (split_colon [] (d :: q) p l) as [<- <-]; auto; [constructor|]. inversion Hl'; auto.
      * rewrite kd_nmtoken. right. right. split; [reflexivity|]. split; [exact Hall|]. intros (_ & p & l & E' & Hp & Hl & Hl').
        destruct (split_colon [] (d :: q) p l) as [<- <-]; auto; [constructor|]. inversion Hl'; congruence.
Qed.
(* with the first character *)
Lemma start_name c : start_char c = true -> name_char c = true.
Proof using. clear ST dom k.
  unfold SpecLex.start_char, SpecLex.name_char, is_name_start, is_NameChar. intros H. destruct (lat && latin_extra c); [now rewrite orb_true_r|]. rewrite orb_false_r in *.
  apply andb_prop in H as [H ->]. rewrite andb_true_r. destruct (is_Letter c); [reflexivity|]. cbn [orb] in *.
  apply orb_prop in H as [H|H]; rewrite H; now rewrite ?orb_true_r.
Qed.
Lemma name_of c x : start_char c = true -> (is_name lat ns (c :: x) <-> all_in name_char x).
Proof using. clear ST dom k.
  intros Hc. split; [intros (c' & r & E & _ & H); injection E as <- <-; exact H|]. intros H. exists c, x. auto.
Qed.
Lemma prefixed_of c x : start_char c = true -> (prefixed lat ns (c :: x) <-> parted x).
Proof using. clear ST dom k.
  intros Hc. change (txt ":") with [58]. unfold prefixed, parted. change (txt ":") with [58]. split.
  - intros (Hns & p & l & E & (c' & r & -> & _ & Hr) & Hl). cbn [app] in E. injection E as <- ->. split; [exact Hns|]. exists r, l. auto.
  - intros (Hns & p & l & -> & Hp & Hl). split; [exact Hns|]. exists (c :: p), l. split; [reflexivity|]. split; [|exact Hl]. exists c, p. auto.
Qed.
Lemma not_name c x : start_char c = false -> ~ is_name lat ns (c :: x) /\ ~ prefixed lat ns (c :: x).
Proof using. clear ST dom k.
  intros Hc. split.
  - intros (c' & r & E & H & _). injection E as <- <-. congruence.
  - intros (_ & p & l & E & (c' & r & -> & H & _) & _). cbn [app] in E. injection E as <- _. congruence.
Qed.

(* literals *)
Definition lit_end (c : N) : bool := is_space c || ((c =? 62) || ((c =? 37) || (c =? 91))).
Fixpoint lit {B} (q : N) (cs : list N) : res (outc B) :=
  match cs with
  | [] => partial
  | c :: r =>
      if negb (is_xml_char c) then stop T_INVALID cs
      else if c =? q then
        match r with
        | [] => Ok (Stop T_LITERAL_NEG None)
        | d :: _ => if lit_end d then stop T_LITERAL r else stop T_INVALID r
        end
      else lit q r
  end.
Lemma lit_eq {B} o q cs : o = BT_QUOT /\ q = 34 \/ o = BT_APOS /\ q = 39 -> doms cs -> @scanLit ce B o cs = lit q cs.
Proof.
  intros Ho. unfold scanLit, while_partial. induction cs as [|c r IH]; intros Hd; [reflexivity|]. inversion Hd as [|? ? Hc Hr]; subst.
  rewrite while_eq by (clear; prog k). cps. rewrite (invalid_iff _ _ _ _ ST) by exact Hc. cbn [lit].
  destruct (is_xml_char c); cbn [negb]; [|reflexivity].
  assert (E : forall x y : M unit, match ty k c with BT_QUOT | BT_APOS => x | _ => y end = if (c =? 34) || (c =? 39) then x else y).
  { intros x y. to_ty c Hc. destruct (ty k c); reflexivity. }
  rewrite E. clear E.
  assert (Eq : bt_eqb (ty k c) o = (c =? q)) by (destruct Ho as [[-> ->]|[-> ->]]; apply (ty_eqb _ _ _ _ ST c); auto).
  assert (Hq : q = 34 \/ q = 39) by (destruct Ho as [[_ ->]|[_ ->]]; auto).
  destruct ((c =? 34) || (c =? 39)) eqn:E.
  - cps. rewrite Eq. destruct (c =? q) eqn:Ec; [|cps; apply IH; exact Hr].
    destruct r as [|d r]; [reflexivity|]. cps. unfold lit_end. inversion Hr as [|? ? Hd' _]; subst. to_ty d Hd'. destruct (ty k d); reflexivity.
  - cps. replace (c =? q) with false by lia. apply IH. exact Hr.
Qed.
Lemma lit_spec {B} q cs t p : q = 34 \/ q = 39 -> t <> T_INVALID ->
  (@lit B q cs = stop t p <-> t = T_LITERAL /\ exists body, cs = body ++ [q] ++ p /\ xml_text body /\ ~ In q body /\ next_is (one_of ">%[") p).
Proof using. clear ST dom k.
  intros Hq Ht. unfold next_is.
  assert (Oe : forall c, one_of ">%[" c = lit_end c) by (intros c; unfold one_of, lit_end; cbn; rewrite orb_false_r; reflexivity).
  assert (Xq : is_xml_char q = true) by (destruct Hq as [->| ->]; reflexivity).
  induction cs as [|c r IH]; cbn [lit].
  - split; [discriminate|]. intros (_ & body & E & _). destruct body; discriminate.
  - destruct (is_xml_char c) eqn:Ex; cbn [negb].
    2:{ split; [intros E; injection E; congruence|]. intros (_ & body & E & Hx & _). destruct body as [|b body]; cbn [app] in E; injection E as E1 E2; [congruence|]. subst. inversion Hx; congruence. }
    destruct (c =? q) eqn:Ec.
    + apply N.eqb_eq in Ec. subst c. assert (R : forall body, q :: r = body ++ [q] ++ p -> ~ In q body -> body = [] /\ r = p).
      { intros [|b body] E H; cbn [app] in E; [injection E as E; auto|]. injection E as E1 E2. subst b. elim H. left. reflexivity. }
      destruct r as [|d r].
      { split; [discriminate|]. intros (_ & body & E & _ & H & c & r & -> & _). destruct (R body E H) as [_ X]. discriminate X. }
      destruct (lit_end d) eqn:Ed.
      * split.
        -- intros E. injection E as <- <-. split; [reflexivity|]. exists []. split; [reflexivity|]. split; [constructor|]. split; [intros []|]. exists d, r. split; [reflexivity|]. rewrite Oe. exact Ed.
        -- intros (-> & body & E & _ & H & _). destruct (R body E H) as [_ ->]. reflexivity.
      * split; [intros E; injection E; congruence|]. intros (_ & body & E & _ & H & c' & r' & Hp & X). destruct (R body E H) as [_ Y]. rewrite Hp in Y. injection Y as <- _.
        rewrite Oe in X. congruence.
    + rewrite IH. split; intros (-> & body & E & Hx & Hi & Hn); (split; [reflexivity|]).
      * exists (c :: body). split; [rewrite E; reflexivity|]. split; [constructor; auto|]. split; [|exact Hn]. intros [X|X]; [lia|auto].
      * destruct body as [|b body]; cbn [app] in E; injection E as -> E; [lia|]. exists body. inversion Hx; subst. split; [auto|]. split; [assumption|]. split; [|exact Hn]. intros X. apply Hi. right. exact X.
Qed.

(* names after % and # *)
Fixpoint pe {B} (cs : list N) : res (outc B) :=
  match cs with
  | [] => partial
  | c :: r => if name_char c then pe r else if c =? 59 then stop T_PARAM_ENTITY_REF r else stop T_INVALID cs
  end.
Definition pct {B} (cs : list N) : res (outc B) :=
  match cs with
  | [] => partial
  | c :: r => if start_char c then pe r else if is_space c || (c =? 37) then stop T_PERCENT cs else stop T_INVALID cs
  end.
Lemma pct_eq {B} cs : doms cs -> @scanPercent ce B cs = pct cs.
Proof.
  intros Hd. unfold scanPercent. destruct cs as [|c r]; [reflexivity|]. inversion Hd as [|? ? Hc Hr]; subst. cps.
  unfold mbind at 1. rewrite (start_iff _ _ _ _ ST) by exact Hc. cbn [pct]. destruct (start_char c) eqn:Es.
  - clear -ST Hr. unfold while_partial. induction r as [|c r IH]; [reflexivity|]. inversion Hr as [|? ? Hc Hr']; subst.
    rewrite while_eq by (clear; prog k). cps. rewrite (name_iff _ _ _ _ ST) by exact Hc. cbn [pe]. destruct (name_char c); [apply IH, Hr'|].
    to_ty c Hc. destruct (ty k c); reflexivity.
  - to_ty c Hc. destruct (ty k c); reflexivity.
Qed.
Lemma pe_spec {B} cs t p : t <> T_INVALID -> (@pe B cs = stop t p <-> t = T_PARAM_ENTITY_REF /\ exists n, cs = n ++ [59] ++ p /\ all_in name_char n).
Proof using. clear ST dom k.
  intros Ht. assert (Hs : name_char 59 = false) by (destruct lat, ns; reflexivity).
  induction cs as [|c r IH]; cbn [pe].
  - split; [discriminate|]. intros (_ & n & E & _). destruct n; discriminate.
  - destruct (name_char c) eqn:Ec.
    + rewrite IH. split; intros (-> & n & E & Hn); (split; [reflexivity|]).
      * exists (c :: n). split; [rewrite E; reflexivity|constructor; auto].
      * destruct n as [|b n]; cbn [app] in E; injection E as -> E; [congruence|]. inversion Hn; subst. exists n. auto.
    + assert (R : forall n, c :: r = n ++ [59] ++ p -> all_in name_char n -> c = 59 /\ r = p).
      { intros [|b n] E H; cbn [app] in E; injection E as E1 E2; [auto|]. subst b. inversion H; congruence. }
      destruct (c =? 59) eqn:E59.
      * split; [intros E; injection E as <- <-; apply N.eqb_eq in E59; subst c; split; [reflexivity|]; exists []; split; [reflexivity|constructor]|].
        intros (-> & n & E & Hn). destruct (R n E Hn) as [_ ->]. reflexivity.
      * split; [intros E; injection E; congruence|]. intros (_ & n & E & Hn). destruct (R n E Hn) as [X _]. lia.
Qed.
Fixpoint pn {B} (cs : list N) : res (outc B) :=
  match cs with
  | [] => Ok (Stop T_POUND_NAME_NEG None)
  | c :: r => if name_char c then pn r else if is_space c || ((c =? 41) || ((c =? 62) || ((c =? 37) || (c =? 124)))) then stop T_POUND_NAME cs else stop T_INVALID cs
  end.
Definition pound {B} (cs : list N) : res (outc B) :=
  match cs with
  | [] => partial
  | c :: r => if start_char c then pn r else stop T_INVALID cs
  end.
Lemma pound_eq {B} cs : doms cs -> @scanPoundName ce B cs = pound cs.
Proof.
  intros Hd. unfold scanPoundName. destruct cs as [|c r]; [reflexivity|]. inversion Hd as [|? ? Hc Hr]; subst. cps.
  unfold mbind at 1. rewrite (start_iff _ _ _ _ ST) by exact Hc. cbn [pound]. destruct (start_char c) eqn:Es.
  - clear -ST Hr. induction r as [|c r IH]; [reflexivity|]. inversion Hr as [|? ? Hc Hr']; subst.
    rewrite while_eq by (clear; prog k). cps. rewrite (name_iff _ _ _ _ ST) by exact Hc. cbn [pn]. destruct (name_char c); [apply IH, Hr'|].
    to_ty c Hc. destruct (ty k c); reflexivity.
  - destruct (bt_eqb (ty k c) BT_NONASCII); reflexivity.
Qed.
Lemma pn_spec {B} cs t p : t <> T_INVALID -> (@pn B cs = stop t p <-> t = T_POUND_NAME /\ exists n, cs = n ++ p /\ all_in name_char n /\ next_is (one_of ")>%|") p).
Proof using. clear ST dom k.
  intros Ht. unfold next_is.
  assert (Oe : forall c, one_of ")>%|" c = is_space c || ((c =? 41) || ((c =? 62) || ((c =? 37) || (c =? 124))))) by (intros c; unfold one_of; cbn; rewrite orb_false_r; reflexivity).
  assert (Hn : forall c, one_of ")>%|" c = true -> name_char c = false).
  { intros c. rewrite Oe. unfold is_space. intros H. assert (c = 32 \/ c = 9 \/ c = 13 \/ c = 10 \/ c = 41 \/ c = 62 \/ c = 37 \/ c = 124) as [->|[->|[->|[->|[->|[->|[->| ->]]]]]]] by lia; destruct lat, ns; reflexivity. }
  induction cs as [|c r IH]; cbn [pn].
  - split; [discriminate|]. intros (_ & n & E & _ & c & r & -> & _). destruct n; discriminate.
  - destruct (name_char c) eqn:Ec.
    + rewrite IH. split; intros (-> & n & E & Hc & Hp); (split; [reflexivity|]).
      * exists (c :: n). split; [rewrite E; reflexivity|]. split; [constructor; auto|exact Hp].
      * destruct n as [|b n]; cbn [app] in E.
        { destruct Hp as (c' & r' & -> & X). injection E as -> _. apply Hn in X. congruence. }
        injection E as -> E. inversion Hc; subst. exists n. auto.
    + assert (R : forall n, c :: r = n ++ p -> all_in name_char n -> p = c :: r).
      { intros [|b n] E H; cbn [app] in E; [auto|]. injection E as E1 E2. subst b. inversion H; congruence. }
      rewrite <- Oe. destruct (one_of ")>%|" c) eqn:Eo.
      * split; [intros E; injection E as <- <-; split; [reflexivity|]; exists []; split; [reflexivity|]; split; [constructor|]; exists c, r; auto|].
        intros (-> & n & E & Hc & _). rewrite (R n E Hc). reflexivity.
      * split; [intros E; injection E; congruence|]. intros (_ & n & E & Hc & c' & r' & Hp & X). rewrite (R n E Hc) in Hp. injection Hp as <- _. congruence.
Qed.

(* white space *)
Fixpoint sr {B} (r : list N) : res (outc B) :=
  match r with
  | [] => stop T_PROLOG_S []
  | d :: q => if d =? 13 then (match q with [] => stop T_PROLOG_S r | _ => sr q end) else if is_space d then sr q else stop T_PROLOG_S r
  end.
Lemma sr_eq {B} r : forall f c, (length r < f)%nat -> doms r -> @prolog_s_run ce B f (c :: r) = sr r.
Proof.
  induction r as [|d q IH]; intros f c Hf Hd; (destruct f as [|f]; [cbn in Hf; lia|]); cbn [prolog_s_run].
  - reflexivity.
  - inversion Hd as [|? ? Hc Hr]; subst. change (inc_start (minbpc ce) (c :: d :: q)) with (Ok (d :: q)). cbn [bind].
    change (has_chars ce 1 (d :: q)) with true. cbn [negb]. change (byte_type ce (d :: q)) with (Ok (ty k d)). cbn [bind sr]. change (minbpc ce) with 1%nat.
    specialize (IH f d ltac:(cbn [length] in Hf; lia) Hr). to_ty d Hc.
    destruct (ty k d) eqn:Et; try reflexivity; try exact IH.
    cbn. destruct q; [reflexivity|exact IH].
Qed.
Lemma sr_spec {B} r t p : (@sr B r = stop t p <-> t = T_PROLOG_S /\ exists s, r = s ++ p /\ spaces s /\ (stops is_space p \/ p = [13]) /\ (p = [] -> s <> [] -> last s 0 <> 13)).
Proof using. clear ST dom k.
  assert (S13 : is_space 13 = true) by reflexivity.
  induction r as [|d q IH]; cbn [sr].
  - split; [intros E; injection E as <- <-; split; [reflexivity|]; exists []; repeat split; [constructor|left; exact I|intros _ X; elim X; reflexivity]|].
    intros (-> & s & E & _). destruct s; [cbn in E; rewrite <- E; reflexivity|discriminate].
  - assert (R : is_space d = true -> (q = [] -> d <> 13) ->
       (t = T_PROLOG_S /\ (exists s, q = s ++ p /\ spaces s /\ (stops is_space p \/ p = [13]) /\ (p = [] -> s <> [] -> last s 0 <> 13)) <->
        t = T_PROLOG_S /\ (exists s, d :: q = s ++ p /\ spaces s /\ (stops is_space p \/ p = [13]) /\ (p = [] -> s <> [] -> last s 0 <> 13)))).
    { intros Hs Hq. split; intros (-> & s & E & H1 & H2 & H3); (split; [reflexivity|]).
      - exists (d :: s). split; [rewrite E; reflexivity|]. split; [constructor; auto|]. split; [exact H2|]. intros Hp _.
        destruct s as [|x s]; [cbn; apply Hq; rewrite E, Hp; reflexivity|]. change (last (d :: x :: s) 0) with (last (x :: s) 0). apply H3; [exact Hp|discriminate].
      - destruct s as [|x s]; cbn [app] in E.
        + subst p. destruct H2 as [H2|H2]; [cbn in H2; congruence|]. injection H2 as -> ->. elim (Hq eq_refl). reflexivity.
        + injection E as <- E. inversion H1; subst. exists s. split; [reflexivity|]. split; [assumption|]. split; [exact H2|]. intros Hp Hn.
          destruct s as [|y s]; [elim Hn; reflexivity|]. apply (H3 Hp). discriminate. }
    assert (Z : is_space d = false -> (stop T_PROLOG_S (d :: q) = @stop B t p <-> t = T_PROLOG_S /\ exists s, d :: q = s ++ p /\ spaces s /\ (stops is_space p \/ p = [13]) /\ (p = [] -> s <> [] -> last s 0 <> 13))).
    { intros Hs. split; [intros E; injection E as <- <-; split; [reflexivity|]; exists []; split; [reflexivity|]; split; [constructor|]; split; [left; exact Hs|discriminate]|].
      intros (-> & s & E & H1 & _). destruct s as [|x s]; cbn [app] in E; [rewrite <- E; reflexivity|]. injection E as <- _. inversion H1; congruence. }
    destruct (d =? 13) eqn:E13.
    + apply N.eqb_eq in E13. subst d. destruct q as [|x q].
      * split; [intros E; injection E as <- <-; split; [reflexivity|]; exists []; split; [reflexivity|]; split; [constructor|]; split; [right; reflexivity|discriminate]|].
        intros (-> & s & E & H1 & H2 & H3). destruct s as [|y s]; cbn [app] in E; [rewrite <- E; reflexivity|]. injection E as <- E. destruct s; [|discriminate]. cbn in E. subst p.
        elim (H3 eq_refl ltac:(discriminate)). reflexivity.
      * rewrite <- R by (first [exact S13|discriminate]). exact IH.
    + destruct (is_space d) eqn:Es; [|apply Z; reflexivity]. rewrite <- R; [exact IH|reflexivity|]. intros _ ->. discriminate.
Qed.

(* a token that begins with a name character *)
Definition k0 (c : N) : XML_TOK := if start_char c then T_NAME else T_NMTOKEN.
Lemma k0_stated c : stated (k0 c). Proof using. clear ST dom k. unfold k0, stated. destruct (start_char c); auto. Qed.
Lemma k0_cases c x : any c = true -> all_in any x ->
  kd (k0 c) x = T_NAME /\ is_name lat ns (c :: x) \/ kd (k0 c) x = T_PREFIXED_NAME /\ prefixed lat ns (c :: x) \/
  kd (k0 c) x = T_NMTOKEN /\ ~ is_name lat ns (c :: x) /\ ~ prefixed lat ns (c :: x).
Proof using. clear ST dom k.
  intros Hc Hx. unfold k0. destruct (start_char c) eqn:E.
  - rewrite name_of, prefixed_of by exact E. apply kd_name, Hx.
  - rewrite kd_nmtoken. right. right. split; [reflexivity|]. apply not_name, E.
Qed.
Lemma not_both n : is_name lat ns n -> prefixed lat ns n -> False.
Proof using. clear ST dom k.
  intros (c & x & -> & Hc & Hx) (Hns & p & l & E & (c' & r & -> & Hc' & Hr) & Hl). change (txt ":") with [58] in E. cbn [app] in E. injection E as <- ->.
  apply Forall_app in Hx as [_ Hx]. apply Forall_inv in Hx. rewrite (colon_out Hns) in Hx. discriminate.
Qed.
Lemma name_any n : is_name lat ns n \/ prefixed lat ns n -> all_in any n.
Proof using. clear ST dom k.
  assert (W : forall x, all_in name_char x -> all_in any x) by (intros x H; eapply Forall_impl; [|exact H]; intros a Ha; unfold any; rewrite Ha; reflexivity).
  assert (N1 : forall m, is_name lat ns m -> all_in any m) by (intros m (c & x & -> & Hc & Hx); apply W; constructor; auto using start_name).
  intros [H|(Hns & p & l & -> & Hp & _ & Hl)]; [auto|]. change (txt ":") with [58]. apply Forall_app. split; [exact (N1 p Hp)|]. constructor; [|exact (W l Hl)].
  unfold any. rewrite Hns. cbn. apply orb_true_r.
Qed.
Lemma special_any c : any c = true -> is_space c = false /\ c <> 34 /\ c <> 39 /\ c <> 60 /\ c <> 37 /\ c <> 44 /\ c <> 91 /\ c <> 93 /\ c <> 40 /\ c <> 41 /\ c <> 124 /\ c <> 62 /\ c <> 35 /\ c <> 43 /\ c <> 42 /\ c <> 63.
Proof using. clear ST dom k.
  intros H. unfold is_space.
  assert (Z : forall x, In x [32; 9; 13; 10; 34; 39; 60; 37; 44; 91; 93; 40; 41; 124; 62; 35; 43; 42; 63] -> c <> x).
  { intros x Hx ->. unfold any in H. cbn [In] in Hx. repeat (destruct Hx as [<-|Hx]; [destruct lat, ns; discriminate H|]). exact Hx. }
  pose proof (Z 32) as Z1. pose proof (Z 9) as Z2. pose proof (Z 13) as Z3. pose proof (Z 10) as Z4. cbn [In] in *.
  split; [lia|]. repeat split; apply Z; tauto.
Qed.
Lemma ends_any c : ends c = true \/ occ c = true -> any c = false.
Proof using. clear ST dom k.
  intros H. destruct (any c) eqn:E; [|reflexivity]. exfalso. apply special_any in E. unfold ends, occ in H. destruct H as [H|H]; destruct E as (E & E'); rewrite ?E in H; lia.
Qed.
Definition named (t : XML_TOK) : bool := match t with T_INVALID | T_DECL_OPEN | T_INSTANCE_START => false | _ => true end.
Lemma nm_token {B} c r t p : any c = true -> named t = true ->
  (@nm B (k0 c) r = stop t p <-> exists l, c :: r = l ++ p /\ prolog_token lat ns t l p).
Proof using. clear ST dom k.
  intros Hc Ht. rewrite nm_iff by (first [apply k0_stated|intros ->; discriminate]). split.
  - intros (x & c' & q & -> & Hx & Hc' & Hf). pose proof (k0_cases c x Hc Hx) as K. destruct Hf as [(He & -> & ->)|(Ho & Hn & -> & ->)].
    + exists (c :: x). split; [reflexivity|]. assert (X : next_is (one_of ">),|[%") (c' :: q)) by (exists c', q; rewrite ends_spec; auto).
      destruct K as [[-> K]|[[-> K]|(-> & K & K')]]; constructor; auto. split; [discriminate|]. constructor; auto.
    + exists ((c :: x) ++ [c']). split; [rewrite <- app_assoc; reflexivity|].
      assert (K' : is_name lat ns (c :: x) \/ prefixed lat ns (c :: x)) by (destruct K as [[_ K]|[[_ K]|[K _]]]; [auto|auto|contradiction]).
      unfold after, occ in *. destruct (c' =? 43) eqn:E1; [apply N.eqb_eq in E1; subst; now constructor|]. destruct (c' =? 42) eqn:E2; [apply N.eqb_eq in E2; subst; now constructor|].
      cbn [orb] in Ho. apply N.eqb_eq in Ho. subst. now constructor.
  - intros (l & E & Hl). pose proof (special_any c Hc) as Hsp.
    assert (G : forall n c' q, c :: r = n ++ c' :: q -> n <> [] -> all_in any n -> (forall x, n = c :: x -> all_in any x -> fin (kd (k0 c) x) c' q t p) -> (ends c' = true \/ occ c' = true) ->
       exists x c0 r0, r = x ++ c0 :: r0 /\ all_in any x /\ any c0 = false /\ fin (kd (k0 c) x) c0 r0 t p).
    { intros [|c1 n] c' q E1 Hn Ha Hf He; [congruence|]. cbn [app] in E1. injection E1 as <- ->. inversion Ha; subst. exists n, c', q. split; [reflexivity|]. split; [assumption|].
      split; [apply ends_any, He|]. apply Hf; auto. }
    assert (Gn : forall n, c :: r = n ++ p -> n <> [] -> all_in any n -> next_is (one_of ">),|[%") p -> (forall x, n = c :: x -> all_in any x -> kd (k0 c) x = t) ->
       exists x c0 r0, r = x ++ c0 :: r0 /\ all_in any x /\ any c0 = false /\ fin (kd (k0 c) x) c0 r0 t p).
    { intros n E1 Hn Ha (c' & q & -> & He) Hk. rewrite ends_spec in He. apply (G n c' q E1 Hn Ha); [|auto]. intros x Ex Hx. left. split; [exact He|]. split; [symmetry; auto|reflexivity]. }
    assert (Go : forall n c', c :: r = (n ++ [c']) ++ p -> (is_name lat ns n \/ prefixed lat ns n) -> occ c' = true -> (forall t, after t c' = after T_NAME c') -> t = after T_NAME c' ->
       exists x c0 r0, r = x ++ c0 :: r0 /\ all_in any x /\ any c0 = false /\ fin (kd (k0 c) x) c0 r0 t p).
    { intros n c' E1 Hn Ho Hk ->. rewrite <- app_assoc in E1. apply (G n c' p E1); [destruct Hn as [(? & ? & -> & _)|(_ & p1 & ? & -> & (? & ? & -> & _) & _)]; discriminate|apply name_any, Hn| |auto].
      intros x -> Hx. right. split; [exact Ho|]. split; [|split; [symmetry; apply Hk|reflexivity]].
      destruct (k0_cases c x Hc Hx) as [[-> _]|[[-> _]|(_ & X & Y)]]; [discriminate|discriminate|]. tauto. }
    destruct Hl; try discriminate Ht;
      try (exfalso; cbn [app txt list_ascii_of_string map] in E; injection E as E _; lia).
    + exfalso. inversion H; subst; cbn in E; injection E as E _; lia.
    + exfalso. inversion H; subst; cbn in E; injection E as E _; lia.
    + exfalso. inversion H; subst; cbn in E; injection E as E _; lia.
    + exfalso. destruct s as [|d s]; [congruence|]. cbn [app] in E. injection E as <- _. inversion H0; subst. destruct Hsp as [X _]. congruence.
    + exfalso. cbn in E. injection E as -> _. destruct Hsp as [X _]. discriminate X.
    + apply (Gn n E); [destruct H as (? & ? & -> & _); discriminate|apply name_any; auto|auto|]. intros x -> Hx. destruct (k0_cases c x Hc Hx) as [[-> _]|[[_ K]|(_ & K & _)]]; [reflexivity| |contradiction].
      destruct (not_both _ H K).
    + apply (Gn n E); [destruct H as (_ & ? & ? & -> & (? & ? & -> & _) & _); discriminate|apply name_any; auto|auto|]. intros x -> Hx. destruct (k0_cases c x Hc Hx) as [[_ K]|[[-> _]|(_ & _ & K)]]; [|reflexivity|contradiction].
      destruct (not_both _ K H).
    + destruct H as [Hn Ha]. apply (Gn n E); auto. intros x -> Hx. destruct (k0_cases c x Hc Hx) as [[_ K]|[[_ K]|(-> & _)]]; [contradiction|contradiction|reflexivity].
    + apply (Go n 43 E); auto.
    + apply (Go n 42 E); auto.
    + apply (Go n 63 E); auto.
Qed.

(* the first character *)
Definition lt {B} (r : list N) : res (outc B) :=
  match r with
  | [] => partial
  | d :: q =>
      if d =? 33 then scanDecl ce q
      else if d =? 63 then pi_fn lat ns B q
      else if bt_eqb (ty k d) BT_NMSTRT || (bt_eqb (ty k d) BT_HEX || bt_eqb (ty k d) BT_NONASCII) then stop T_INSTANCE_START (60 :: r)
      else stop T_INVALID r
  end.
Definition rsqb {B} (r : list N) : res (outc B) :=
  match r with
  | [] => Ok (Stop T_CLOSE_BRACKET_NEG None)
  | d :: q => if d =? 93 then match q with [] => partial | g :: q' => if g =? 62 then stop T_COND_SECT_CLOSE q' else stop T_CLOSE_BRACKET r end else stop T_CLOSE_BRACKET r
  end.
Definition rpar {B} (r : list N) : res (outc B) :=
  match r with
  | [] => Ok (Stop T_CLOSE_PAREN_NEG None)
  | d :: q =>
      if d =? 42 then stop T_CLOSE_PAREN_ASTERISK q else if d =? 63 then stop T_CLOSE_PAREN_QUESTION q else if d =? 43 then stop T_CLOSE_PAREN_PLUS q
      else if is_space d || ((d =? 62) || ((d =? 44) || ((d =? 124) || (d =? 41)))) then stop T_CLOSE_PAREN r else stop T_INVALID r
  end.
Definition first {B} (c : N) (r : list N) : res (outc B) :=
  if any c then nm (k0 c) r
  else if c =? 34 then lit 34 r else if c =? 39 then lit 39 r
  else if c =? 60 then lt r
  else if c =? 13 then match r with [] => Ok (Stop T_PROLOG_S_NEG (Some [])) | _ => sr r end
  else if is_space c then sr r
  else if c =? 37 then pct r
  else if c =? 44 then stop T_COMMA r
  else if c =? 91 then stop T_OPEN_BRACKET r
  else if c =? 93 then rsqb r
  else if c =? 40 then stop T_OPEN_PAREN r
  else if c =? 41 then rpar r
  else if c =? 124 then stop T_OR r
  else if c =? 62 then stop T_DECL_CLOSE r
  else if c =? 35 then pound r
  else stop T_INVALID (c :: r).
Lemma scan_first {B} c r : doms (c :: r) -> @prologScan ce B (c :: r) = first c r.
Proof.
  intros Hd. inversion Hd as [|? ? Hc Hr]; subst. unfold prologScan. cps. rewrite (no_lead _ _ _ _ ST) by exact Hc.
  unfold first, k0, any.
  pose proof (fun t H => @prolog_name_eq B r t Hr H) as En. pose proof (@lit_eq B BT_QUOT 34 r (or_introl (conj eq_refl eq_refl)) Hr) as El.
  pose proof (@lit_eq B BT_APOS 39 r (or_intror (conj eq_refl eq_refl)) Hr) as El'. pose proof (@sr_eq B r (S (length (c :: r))) c ltac:(cbn [length]; lia) Hr) as Es.
  pose proof (@pct_eq B r Hr) as Ep. pose proof (@pound_eq B r Hr) as Eh.
  assert (Er : (require_or ce 1 T_CLOSE_BRACKET_NEG ;; m <- matches ce c_RSQB ;;
            if m then require_chars ce 2 ;; g <- matches_at ce 1 c_GT ;; if g then (adv1 ce ;; stop_after ce T_COND_SECT_CLOSE) else stop_here T_CLOSE_BRACKET
            else stop_here T_CLOSE_BRACKET)%scan r = @rsqb B r).
  { destruct r as [|d [|g q]]; [reflexivity| |]; cps; cbn [rsqb]; (change c_RSQB with 93; destruct (d =? 93); [|reflexivity]); cps; [reflexivity|].
    change c_GT with 62. destruct (g =? 62); reflexivity. }
  assert (Ea : (require_or ce 1 T_CLOSE_PAREN_NEG ;; t2 <- bt ce ;;
          match t2 with
          | BT_AST => stop_after ce T_CLOSE_PAREN_ASTERISK
          | BT_QUEST => stop_after ce T_CLOSE_PAREN_QUESTION
          | BT_PLUS => stop_after ce T_CLOSE_PAREN_PLUS
          | BT_CR | BT_LF | BT_S | BT_GT | BT_COMMA | BT_VERBAR | BT_RPAR => stop_here T_CLOSE_PAREN
          | _ => stop_here T_INVALID
          end)%scan r = @rpar B r).
  { destruct r as [|d q]; [reflexivity|]. inversion Hr as [|? ? Hd' _]; subst. cps. cbn [rpar]. to_ty d Hd'. destruct (ty k d); reflexivity. }
  assert (Elt : (t2 <- bt_at ce 1 ;;
          match t2 with
          | BT_EXCL => adv1 ce ;; adv1 ce ;; scanDecl ce
          | BT_QUEST => adv1 ce ;; adv1 ce ;; scanPi ce
          | BT_NMSTRT | BT_HEX | BT_NONASCII | BT_LEAD2 | BT_LEAD3 | BT_LEAD4 => stop_here T_INSTANCE_START
          | _ => adv1 ce ;; stop_here T_INVALID
          end)%scan (60 :: r) = @lt B r \/ r = []).
  { destruct r as [|d q]; [right; reflexivity|]. left. inversion Hr as [|? ? Hd' Hq]; subst. cps. cbn [lt].
    rewrite <- (ty_eqb _ _ _ _ ST d BT_EXCL 33 Hd' eq_refl), <- (ty_eqb _ _ _ _ ST d BT_QUEST 63 Hd' eq_refl). pose proof (no_lead _ _ _ _ ST d) as Hl.
    destruct (ty k d) eqn:Et; try reflexivity; cbn; try (exfalso; discriminate (Hl Hd')). cps. apply (scanPi_eq _ _ _ _ ST), Hq. }
  to_ty c Hc. unfold kname, kstart. destruct (ty k c) eqn:Et;
    match type of Et with
    | _ = BT_QUOT => exact El | _ = BT_APOS => exact El' | _ = BT_PERCNT => exact Ep | _ = BT_NUM => exact Eh
    | _ = BT_RSQB => exact Er | _ = BT_RPAR => exact Ea | _ = BT_S => exact Es | _ = BT_LF => exact Es
    | _ = BT_CR => destruct r; [reflexivity|exact Es]
    | _ = BT_NMSTRT => exact (En T_NAME (or_introl eq_refl)) | _ = BT_HEX => exact (En T_NAME (or_introl eq_refl))
    | _ = BT_DIGIT => exact (En T_NMTOKEN (or_intror (or_introl eq_refl))) | _ = BT_NAME => exact (En T_NMTOKEN (or_intror (or_introl eq_refl)))
    | _ = BT_MINUS => exact (En T_NMTOKEN (or_intror (or_introl eq_refl))) | _ = BT_COLON => exact (En T_NMTOKEN (or_intror (or_introl eq_refl)))
    | _ = BT_LT => idtac
    | _ = BT_NONASCII => idtac
    | _ => reflexivity
    end.
  - assert (E60 : c = 60) by (apply (is_t _ _ _ _ ST c BT_LT 60 Hc eq_refl Et)). subst c. destruct Elt as [E|E]; [|rewrite E; reflexivity]. destruct r as [|d q]; [reflexivity|]. exact E.
  - pose proof (start_name c) as Hs. pose proof (st_start _ _ _ _ ST c Hc) as S1. pose proof (st_name _ _ _ _ ST c Hc) as S2. unfold kstart, kname in S1, S2. rewrite Et in S1, S2.
    rewrite <- S1, <- S2 in Hs. cbn -[prolog_name nm].
    destruct (nst k c) eqn:E1.
    + rewrite (Hs eq_refl). exact (En T_NAME (or_introl eq_refl)).
    + cbn -[prolog_name nm]. destruct (nmc k c); [exact (En T_NMTOKEN (or_intror (or_introl eq_refl)))|reflexivity].
Qed.

(* declarations *)
Definition letter (c : N) : bool := bt_eqb (ty k c) BT_NMSTRT || bt_eqb (ty k c) BT_HEX.
Fixpoint dn {B} (cs : list N) : res (outc B) :=
  match cs with
  | [] => partial
  | c :: r =>
      if c =? 37 then match r with [] => partial | d :: _ => if is_space d || (d =? 37) then stop T_INVALID cs else stop T_DECL_OPEN cs end
      else if is_space c then stop T_DECL_OPEN cs
      else if letter c then dn r
      else stop T_INVALID cs
  end.
Definition decl {B} (q : list N) : res (outc B) :=
  match q with
  | [] => partial
  | x :: y => if x =? 45 then comment_fn y else if x =? 91 then stop T_COND_SECT_OPEN y else if letter x then dn y else stop T_INVALID q
  end.
Lemma decl_eq {B} q : doms q -> @scanDecl ce B q = decl q.
Proof.
  intros Hd. unfold scanDecl. destruct q as [|x y]; [reflexivity|]. inversion Hd as [|? ? Hx Hy]; subst. cps. cbn [decl].
  assert (D : while_partial ce (
        t <- bt ce ;;
        match t with
        | BT_PERCNT =>
            require_chars ce 2 ;;
            t2 <- bt_at ce 1 ;;
            match t2 with
            | BT_S | BT_CR | BT_LF | BT_PERCNT => stop_here T_INVALID
            | _ => stop_here T_DECL_OPEN
            end
        | BT_S | BT_CR | BT_LF => stop_here T_DECL_OPEN
        | BT_NMSTRT | BT_HEX => adv1 ce
        | _ => stop_here T_INVALID
        end)%scan y = @dn B y).
  { clear -ST Hy. unfold while_partial. induction y as [|c r IH]; [reflexivity|]. inversion Hy as [|? ? Hc Hr]; subst.
    rewrite while_eq by (clear; prog k). cps. cbn [dn]. specialize (IH Hr). unfold letter. to_ty c Hc.
    destruct (ty k c) eqn:Et; try reflexivity; try exact IH.
    cps. destruct r as [|d q]; [reflexivity|]. cps. inversion Hr as [|? ? Hd' _]; subst. to_ty d Hd'. destruct (ty k d); reflexivity. }
  pose proof (@scanComment_eq' lat ns dom k ST B y Hy) as Ec. unfold letter. rewrite <- (ty_eqb _ _ _ _ ST x BT_MINUS 45 Hx eq_refl). to_ty x Hx.
  destruct (ty k x) eqn:Et; try reflexivity; [exact D|exact D|exact Ec].
Qed.
Lemma dn_only {B} cs t p : @dn B cs = stop t p -> t = T_INVALID \/ t = T_DECL_OPEN.
Proof using. clear ST dom.
  induction cs as [|c r IH]; cbn [dn]; [discriminate|]. destruct (c =? 37).
  - destruct r as [|d q]; [discriminate|]. destruct (is_space d || (d =? 37)); intros E; injection E as <- _; auto.
  - destruct (is_space c); [intros E; injection E as <- _; auto|]. destruct (letter c); [exact IH|intros E; injection E as <- _; auto].
Qed.

(* every token but two *)
Lemma no_name c r n x : any c = false -> (is_name lat ns n \/ prefixed lat ns n) \/ nmtoken lat ns n -> c :: r = n ++ x -> False.
Proof using. clear ST dom k.
  intros Hc Hn E. assert (Ha : n <> [] /\ all_in any n).
  { destruct Hn as [Hn|Hn]; [|exact Hn]. split; [|apply name_any, Hn]. destruct Hn as [(? & ? & -> & _)|(_ & p1 & ? & -> & (? & ? & -> & _) & _)]; discriminate. }
  destruct Ha as [H1 H2]. destruct n as [|d n]; [congruence|]. cbn [app] in E. injection E as <- _. inversion H2; congruence.
Qed.
Lemma no_space c r s x : is_space c = false -> spaces s -> s <> [] -> c :: r = s ++ x -> False.
Proof using. clear ST dom k. intros Hc Hs Hn E. destruct s as [|d s]; [congruence|]. cbn [app] in E. injection E as <- _. inversion Hs; congruence. Qed.
Lemma no_content c r t l x : c <> 60 -> content_token lat ns t l x -> t = T_COMMENT \/ t = T_PI \/ t = T_XML_DECL -> c :: r = l ++ x -> False.
Proof using. clear ST dom k. intros Hc H Ht E. destruct H; try (destruct Ht as [|[|]]; discriminate); cbn in E; injection E as E _; congruence. Qed.
Ltac refute_tok Ha Hs :=
  match goal with
  | E : _ :: _ = _ ++ _, H : content_token _ _ _ _ _ |- _ => exfalso; refine (no_content _ _ _ _ _ _ H _ E); [assumption|tauto]
  | E : _ :: _ = _ ++ _, H : spaces _ |- _ => exfalso; refine (no_space _ _ _ _ Hs H _ E); assumption
  | E : _ :: _ = (_ ++ _) ++ _, H : _ \/ prefixed _ _ _ |- _ => exfalso; rewrite <- app_assoc in E; refine (no_name _ _ _ _ Ha _ E); tauto
  | E : _ :: _ = ?n ++ _, H : is_name _ _ ?n |- _ => exfalso; refine (no_name _ _ _ _ Ha _ E); tauto
  | E : _ :: _ = ?n ++ _, H : prefixed _ _ ?n |- _ => exfalso; refine (no_name _ _ _ _ Ha _ E); tauto
  | E : _ :: _ = ?n ++ _, H : nmtoken _ _ ?n |- _ => exfalso; refine (no_name _ _ _ _ Ha _ E); tauto
  | E : _ :: _ = ?n ++ _ |- _ => exfalso; cbn in E; first [discriminate E | injection E; intros; (discriminate || lia)]
  end.
Lemma next_one s c r : one_of s c = true -> next_is (one_of s) (c :: r). Proof. intros H. exists c, r. auto. Qed.
Theorem first_iff {B} c r t p : doms (c :: r) -> named t = true -> other t = true ->
  (@first B c r = stop t p <-> exists l, c :: r = l ++ p /\ prolog_token lat ns t l p).
Proof.
  intros Hd Ht Ho. inversion Hd as [|? ? Hc Hr]; subst. assert (Hi : t <> T_INVALID) by (intros ->; discriminate). unfold first.
  destruct (any c) eqn:Ha; [apply nm_token; auto|].
  assert (L : forall q, q = 34 \/ q = 39 -> c = q -> (@lit B q r = stop t p <-> exists l, c :: r = l ++ p /\ prolog_token lat ns t l p)).
  { intros q Hq ->. assert (Hs : is_space q = false) by (destruct Hq as [->| ->]; reflexivity). rewrite lit_spec by auto. split.
    - intros (-> & body & -> & H1 & H2 & H3). exists ([q] ++ body ++ [q]). split; [rewrite <- !app_assoc; reflexivity|]. now constructor.
    - intros (l & E & Hl). assert (Hq60 : q <> 60) by lia. destruct Hl; try discriminate Ho; try refute_tok Ha Hs. rewrite <- !app_assoc in E. cbn [app] in E. injection E as <- E.
      split; [reflexivity|]. exists body. auto. }
  destruct (c =? 34) eqn:E; [apply L; [auto|lia]|]. (let F := fresh "F" in rename E into F). destruct (c =? 39) eqn:E; [apply L; [auto|lia]|]. clear L. (let F := fresh "F" in rename E into F).
  destruct (c =? 60) eqn:E.
  { apply N.eqb_eq in E; subst c. assert (Hs : is_space 60 = false) by reflexivity. unfold lt. destruct r as [|d q].
    - split; [discriminate|]. intros (l & E & Hl). destruct Hl; try refute_tok Ha Hs; try discriminate Ho.
    - inversion Hr as [|? ? Hd' Hq]; subst. destruct (d =? 33) eqn:E33.
      + apply N.eqb_eq in E33. subst d. rewrite decl_eq by exact Hq. destruct q as [|x y]; cbn [decl].
        * split; [discriminate|]. intros (l & E & Hl). destruct Hl; try refute_tok Ha Hs; try discriminate Ho.
        * destruct (x =? 45) eqn:E45.
          -- apply N.eqb_eq in E45. subst x. split.
             ++ intros E. apply comment_spec in E as [-> _]; [discriminate Ho|exact Hi].
             ++ intros (l & E & Hl). destruct Hl; try refute_tok Ha Hs; try discriminate Ho.
          -- destruct (x =? 91) eqn:E91.
             ++ apply N.eqb_eq in E91. subst x. split.
                ** intros E. injection E as <- <-. exists (txt "<!["). split; [reflexivity|constructor].
                ** intros (l & E & Hl). destruct Hl; try refute_tok Ha Hs; try discriminate Ho. cbn in E. injection E as <-. reflexivity.
             ++ split.
                ** intros E. exfalso. destruct (letter x); [apply dn_only in E as [->| ->]; discriminate Ht|]. injection E; congruence.
                ** intros (l & E & Hl). destruct Hl; try refute_tok Ha Hs; try discriminate Ho.
      + destruct (d =? 63) eqn:E63.
        * apply N.eqb_eq in E63. subst d. split.
          -- intros E. apply pi_sound in E as (? & ? & _ & _ & _ & [[-> _]|[-> _]]); try discriminate Ho. exact Hi.
          -- intros (l & E & Hl). destruct Hl; try refute_tok Ha Hs; try discriminate Ho.
        * split.
          -- intros E. exfalso. match type of E with (if ?b then _ else _) = _ => destruct b end; injection E as <- _; discriminate.
          -- intros (l & E & Hl). destruct Hl; try refute_tok Ha Hs; try discriminate Ho. }
  assert (H60 : c <> 60) by lia. clear E.
  assert (Sp : is_space c = true -> (c = 13 -> r <> []) -> (@sr B r = stop t p <-> exists l, c :: r = l ++ p /\ prolog_token lat ns t l p)).
  { intros Hs H13. rewrite sr_spec. split.
    - intros (-> & s & -> & H1 & H2 & H3). exists (c :: s). split; [reflexivity|]. constructor; [discriminate|constructor; auto|exact H2|].
      intros ->. rewrite app_nil_r in *. destruct s as [|x s]; [|apply H3; [reflexivity|discriminate]]. cbn. intros E. apply (H13 E). reflexivity.
    - intros (l & E & Hl). unfold is_space in Hs. destruct Hl; try discriminate Ho; try refute_tok Ha Ha.
      + split; [reflexivity|]. destruct s as [|x s]; [congruence|]. cbn [app] in E. injection E as <- E. exists s. inversion H0; subst. split; [reflexivity|]. split; [assumption|]. split; [assumption|].
        intros Hp Hn. specialize (H2 Hp). destruct s; [congruence|]. exact H2.
      + cbn in E. injection E as -> ->. elim (H13 eq_refl). reflexivity. }
  destruct (c =? 13) eqn:E.
  { apply N.eqb_eq in E; subst c. destruct r as [|d q]; [|apply Sp; [reflexivity|discriminate]]. clear Sp.
    split; [intros E; injection E as <- <-; exists [13]; split; [reflexivity|constructor]|].
    intros (l & E & Hl). destruct Hl; try discriminate Ho; try refute_tok Ha Ha; [|reflexivity].
    exfalso. destruct s as [|x s]; [congruence|]. cbn [app] in E. injection E as <- E. destruct s, rest; try discriminate. elim (H2 eq_refl). reflexivity. }
  destruct (is_space c) eqn:Hs; [apply Sp; [reflexivity|intros ->; discriminate]|]. clear Sp. (let F := fresh "F" in rename E into F).
  destruct (c =? 37) eqn:E.
  { apply N.eqb_eq in E; subst c. unfold pct. destruct r as [|d q].
    - split; [discriminate|]. intros (l & E & Hl). destruct Hl; try discriminate Ho; try refute_tok Ha Hs.
      + destruct H as (? & ? & -> & _). discriminate E.
      + cbn [app txt list_ascii_of_string map] in E. destruct H as (? & ? & -> & _). discriminate E.
    - assert (Hsc : start_char d = true -> any d = true) by (intros H; unfold any; rewrite (start_name d H); reflexivity).
      assert (Ho37 : one_of "%" d = is_space d || (d =? 37)) by (unfold one_of; cbn; rewrite orb_false_r; reflexivity).
      destruct (start_char d) eqn:Es.
      + rewrite pe_spec by exact Hi. split.
        * intros (-> & n & -> & Hn). exists (txt "%" ++ (d :: n) ++ txt ";"). split; [rewrite <- !app_assoc; reflexivity|]. constructor. exists d, n. auto.
        * intros (l & E & Hl). destruct Hl; try discriminate Ho; try refute_tok Ha Hs.
          -- destruct H as (c1 & r1 & -> & H). cbn in E. injection E as -> ->. rewrite Ho37 in H. pose proof (special_any _ (Hsc eq_refl)) as (X & X'). rewrite X in H. lia.
          -- destruct H as (c1 & r1 & -> & H1 & H2). rewrite <- !app_assoc in E. cbn in E. injection E as -> ->. split; [reflexivity|]. exists r1. auto.
      + assert (Hnn : forall n rest, is_name lat ns n -> 37 :: d :: q = (txt "%" ++ n ++ txt ";") ++ rest -> False).
        { intros n rest (c1 & r1 & -> & H1 & _) E. cbn in E. injection E as -> _. congruence. }
        rewrite <- Ho37. destruct (one_of "%" d) eqn:Eo.
        * split; [intros E; injection E as <- <-; exists (txt "%"); split; [reflexivity|constructor; now apply next_one]|].
          intros (l & E & Hl). destruct Hl; try discriminate Ho; try refute_tok Ha Hs; [cbn in E; injection E as <-; reflexivity|destruct (Hnn _ _ H E)].
        * split; [intros E; injection E; congruence|].
          intros (l & E & Hl). destruct Hl; try discriminate Ho; try refute_tok Ha Hs; [|destruct (Hnn _ _ H E)]. destruct H as (? & ? & -> & H). cbn in E. injection E as -> _. congruence. }
  (let F := fresh "F" in rename E into F). destruct (c =? 44) eqn:E.
  { apply N.eqb_eq in E; subst c. split; [intros E; injection E as <- <-; exists (txt ","); split; [reflexivity|constructor]|].
    intros (l & E & Hl). destruct Hl; try discriminate Ho; try refute_tok Ha Hs. cbn in E. injection E as ->. reflexivity. }
  (let F := fresh "F" in rename E into F). destruct (c =? 91) eqn:E.
  { apply N.eqb_eq in E; subst c. split; [intros E; injection E as <- <-; exists (txt "["); split; [reflexivity|constructor]|].
    intros (l & E & Hl). destruct Hl; try discriminate Ho; try refute_tok Ha Hs. cbn in E. injection E as ->. reflexivity. }
  (let F := fresh "F" in rename E into F). destruct (c =? 93) eqn:E.
  { apply N.eqb_eq in E; subst c. unfold rsqb. split.
    - destruct r as [|d q]; [discriminate|]. destruct (d =? 93) eqn:E.
      + apply N.eqb_eq in E. subst d. destruct q as [|g q]; [discriminate|]. destruct (g =? 62) eqn:E.
        * apply N.eqb_eq in E. subst g. intros E; injection E as <- <-. exists (txt "]]>"). split; [reflexivity|constructor].
        * intros E'; injection E' as <- <-. exists (txt "]"). split; [reflexivity|apply pt_rsqb2]. lia.
      + intros E'; injection E' as <- <-. exists (txt "]"). split; [reflexivity|apply pt_rsqb]. lia.
    - intros (l & E & Hl). destruct Hl; try discriminate Ho; try refute_tok Ha Hs; cbn in E; injection E as ->; try reflexivity.
      + destruct (c =? 93) eqn:E; [lia|reflexivity].
      + cbn. destruct (c =? 62) eqn:E; [lia|reflexivity]. }
  (let F := fresh "F" in rename E into F). destruct (c =? 40) eqn:E.
  { apply N.eqb_eq in E; subst c. split; [intros E; injection E as <- <-; exists (txt "("); split; [reflexivity|constructor]|].
    intros (l & E & Hl). destruct Hl; try discriminate Ho; try refute_tok Ha Hs. cbn in E. injection E as ->. reflexivity. }
  (let F := fresh "F" in rename E into F). destruct (c =? 41) eqn:E.
  { apply N.eqb_eq in E; subst c. unfold rpar.
    assert (Oe : forall d, one_of ">,|)" d = is_space d || ((d =? 62) || ((d =? 44) || ((d =? 124) || (d =? 41))))) by (intros d; unfold one_of; cbn; rewrite orb_false_r; reflexivity). split.
    - destruct r as [|d q]; [discriminate|]. rewrite <- Oe. destruct (d =? 42) eqn:E1; [|destruct (d =? 63) eqn:E2; [|destruct (d =? 43) eqn:E3; [|destruct (one_of ">,|)" d) eqn:E4]]].
      + apply N.eqb_eq in E1. subst d. intros E; injection E as <- <-. exists (txt ")*"). split; [reflexivity|constructor].
      + apply N.eqb_eq in E2. subst d. intros E; injection E as <- <-. exists (txt ")?"). split; [reflexivity|constructor].
      + apply N.eqb_eq in E3. subst d. intros E; injection E as <- <-. exists (txt ")+"). split; [reflexivity|constructor].
      + intros E; injection E as <- <-. exists (txt ")"). split; [reflexivity|constructor]. now apply next_one.
      + intros E; injection E; congruence.
    - intros (l & E & Hl). destruct Hl; try discriminate Ho; try refute_tok Ha Hs; cbn in E; injection E as ->; try reflexivity.
      destruct H as (d & q & -> & H). rewrite <- Oe, H. rewrite Oe in H. unfold is_space in H.
      replace (d =? 42) with false by lia. replace (d =? 63) with false by lia. replace (d =? 43) with false by lia. reflexivity. }
  (let F := fresh "F" in rename E into F). destruct (c =? 124) eqn:E.
  { apply N.eqb_eq in E; subst c. split; [intros E; injection E as <- <-; exists (txt "|"); split; [reflexivity|constructor]|].
    intros (l & E & Hl). destruct Hl; try discriminate Ho; try refute_tok Ha Hs. cbn in E. injection E as ->. reflexivity. }
  (let F := fresh "F" in rename E into F). destruct (c =? 62) eqn:E.
  { apply N.eqb_eq in E; subst c. split; [intros E; injection E as <- <-; exists (txt ">"); split; [reflexivity|constructor]|].
    intros (l & E & Hl). destruct Hl; try discriminate Ho; try refute_tok Ha Hs. cbn in E. injection E as ->. reflexivity. }
  (let F := fresh "F" in rename E into F). destruct (c =? 35) eqn:E.
  { apply N.eqb_eq in E; subst c. unfold pound. split.
    - destruct r as [|d q]; [discriminate|]. destruct (start_char d) eqn:Es; [|intros E; injection E; congruence]. rewrite pn_spec by exact Hi.
      intros (-> & n & -> & H1 & H2). exists (txt "#" ++ d :: n). split; [reflexivity|]. constructor; [exists d, n; auto|exact H2].
    - intros (l & E & Hl). destruct Hl; try discriminate Ho; try refute_tok Ha Hs. destruct H as (d & m & -> & H1 & H2). cbn in E. injection E as ->. rewrite H1.
      rewrite pn_spec by exact Hi. split; [reflexivity|]. exists m. auto. }
  split; [intros E'; injection E'; congruence|]. intros (l & E' & Hl).
  exfalso. destruct Hl; try discriminate Ho; try refute_tok Ha Hs; cbn in E'; injection E'; intros; subst; discriminate.
Qed.
End Cp.

(* the start of a declaration and of the document element *)
Definition opens (lat ns : bool) (cs : list N) (p : list N) : Prop := exists name, cs = txt "<!" ++ name ++ p /\ decl_opened lat ns name p.

Section Cp2.
Variables (lat ns : bool) (dom : N -> bool) (k : cls).
Hypothesis ST : std lat ns dom k.
Notation ce := (cp_enc k).
Notation doms := (all_in dom).
Lemma letter_start c : dom c = true -> letter k c = true -> start_char lat ns c = true.
Proof. intros Hc H. rewrite <- (st_start _ _ _ _ ST c Hc). unfold letter, kstart in *. destruct (ty k c); try discriminate H; reflexivity. Qed.
Lemma start_letter c : dom c = true -> c < 128 -> start_char lat ns c = true -> letter k c = true.
Proof.
  intros Hc H1 H. rewrite <- (st_start _ _ _ _ ST c Hc) in H. unfold letter, kstart in *. pose proof (st_ascii _ _ _ _ ST c H1) as E.
  assert (G : bt_eqb (nth (N.to_nat c) (ascii_table ns) BT_NONXML) BT_NONASCII = false).
  { clear -H1. apply negb_true_iff. revert c H1. apply below128. destruct ns; vm_compute; reflexivity. }
  rewrite <- E in G. destruct (ty k c); try discriminate; reflexivity.
Qed.
Lemma dn_sound {B} cs p : doms cs -> @dn k B cs = stop T_DECL_OPEN p ->
  exists n, cs = n ++ p /\ all_in (start_char lat ns) n /\ ((exists c r, p = c :: r /\ is_space c = true) \/ (exists c r, p = 37 :: c :: r /\ one_of "%" c = false)).
Proof.
  intros Hd. induction cs as [|c r IH]; cbn [dn]; [discriminate|]. inversion Hd as [|? ? Hc Hr]; subst. destruct (c =? 37) eqn:E.
  - destruct r as [|d q]; [discriminate|]. destruct (is_space d || (d =? 37)) eqn:Es; [discriminate|]. intros E'. injection E' as <-. exists []. split; [reflexivity|]. split; [constructor|].
    right. exists d, q. split; [f_equal; lia|]. unfold one_of. cbn. rewrite orb_false_r. exact Es.
  - destruct (is_space c) eqn:Es; [intros E'; injection E' as <-; exists []; split; [reflexivity|]; split; [constructor|]; left; eauto|].
    destruct (letter k c) eqn:El; [|discriminate]. intros H. destruct (IH Hr H) as (n & -> & Hn & Hp). exists (c :: n). split; [reflexivity|]. split; [|exact Hp].
    constructor; [apply letter_start; auto|exact Hn].
Qed.
Lemma start_special c : start_char lat ns c = true -> is_space c = false /\ c <> 37 /\ c <> 45 /\ c <> 91.
Proof.
  intros H. pose proof (start_name lat ns c H) as Hn. assert (Ha : any lat ns c = true) by (unfold any; rewrite Hn; reflexivity).
  apply special_any in Ha. destruct Ha as (H1 & H2 & H3 & H4 & H5 & H6 & H7 & _). repeat split; auto. intros ->. clear -H. destruct lat, ns; discriminate H.
Qed.
Lemma dn_complete {B} n p : doms (n ++ p) -> all_in (start_char lat ns) n -> (forall c, In c n -> c < 128) ->
  ((exists c r, p = c :: r /\ is_space c = true) \/ (exists c r, p = 37 :: c :: r /\ one_of "%" c = false)) -> @dn k B (n ++ p) = stop T_DECL_OPEN p.
Proof.
  induction n as [|c n IH]; intros Hd Hn H1 Hp; cbn [app dn].
  - destruct Hp as [(c & r & -> & Hs)|(c & r & -> & Ho)]; cbn [dn].
    + destruct (c =? 37) eqn:E; [unfold is_space in Hs; lia|]. rewrite Hs. reflexivity.
    + change (37 =? 37) with true. unfold one_of in Ho. cbn in Ho. rewrite orb_false_r in Ho. rewrite Ho. reflexivity.
  - inversion Hd as [|? ? Hc Hr]; subst. inversion Hn as [|? ? Hs Hn']; subst. destruct (start_special c Hs) as (X1 & X2 & _). replace (c =? 37) with false by lia. rewrite X1.
    rewrite (start_letter c Hc (H1 c (or_introl eq_refl)) Hs). apply IH; auto. intros x Hx. apply H1. right. exact Hx.
Qed.
Lemma first_decl_sound {B} c r p : doms (c :: r) -> @first lat ns k B c r = stop T_DECL_OPEN p -> opens lat ns (c :: r) p.
Proof.
  intros Hd H. inversion Hd as [|? ? Hc Hr]; subst. unfold first in H.
  destruct (any lat ns c) eqn:Ha.
  { apply nm_iff in H as (x & c' & r' & _ & Hx & _ & Hf); [|apply k0_stated|discriminate]. exfalso.
    destruct (k0_cases lat ns c x Ha Hx) as [[K _]|[[K _]|(K & _)]]; rewrite K in Hf; destruct Hf as [(_ & X & _)|(_ & _ & X & _)]; try discriminate X;
      unfold after in X; destruct (c' =? 43); try discriminate X; destruct (c' =? 42); discriminate X. }
  destruct (c =? 34) eqn:E; [apply lit_spec in H as [X _]; [discriminate X|auto|discriminate]|]. clear E.
  destruct (c =? 39) eqn:E; [apply lit_spec in H as [X _]; [discriminate X|auto|discriminate]|]. clear E.
  destruct (c =? 60) eqn:E.
  { apply N.eqb_eq in E. subst c. unfold lt in H. destruct r as [|d q]; [discriminate|]. inversion Hr as [|? ? Hd' Hq]; subst. destruct (d =? 33) eqn:E.
    - apply N.eqb_eq in E. subst d. rewrite (decl_eq _ _ _ _ ST) in H by exact Hq. destruct q as [|x y]; [discriminate|]. cbn [decl] in H. destruct (x =? 45).
      { apply comment_spec in H as [X _]; [discriminate X|discriminate]. }
      destruct (x =? 91); [discriminate|]. destruct (letter k x) eqn:El; [|discriminate]. inversion Hq as [|? ? Hx Hy]; subst. apply dn_sound in H as (n & -> & Hn & Hp); [|exact Hy].
      exists (x :: n). split; [reflexivity|]. split; [discriminate|]. split; [constructor; [apply letter_start; auto|exact Hn]|exact Hp].
    - destruct (d =? 63); [apply pi_sound in H as (? & ? & _ & _ & _ & [[X _]|[X _]]); try discriminate X; discriminate|].
      match type of H with (if ?b then _ else _) = _ => destruct b end; discriminate H. }
  clear E. destruct (c =? 13) eqn:E.
  { destruct r as [|d q]; [discriminate|]. apply sr_spec in H as [X _]. discriminate X. }
  destruct (is_space c); [apply sr_spec in H as [X _]; discriminate X|].
  destruct (c =? 37). { unfold pct in H. destruct r as [|d q]; [discriminate|]. destruct (start_char lat ns d); [apply pe_spec in H as [X _]; [discriminate X|discriminate]|]. destruct (is_space d || (d =? 37)); discriminate. }
  destruct (c =? 44); [discriminate|]. destruct (c =? 91); [discriminate|].
  destruct (c =? 93). { unfold rsqb in H. destruct r as [|d [|g q]]; [discriminate| |]; destruct (d =? 93); try discriminate. destruct (g =? 62); discriminate. }
  destruct (c =? 40); [discriminate|].
  destruct (c =? 41). { unfold rpar in H. destruct r as [|d q]; [discriminate|]. destruct (d =? 42); [discriminate|]. destruct (d =? 63); [discriminate|]. destruct (d =? 43); [discriminate|].
    match type of H with (if ?b then _ else _) = _ => destruct b end; discriminate. }
  destruct (c =? 124); [discriminate|]. destruct (c =? 62); [discriminate|].
  destruct (c =? 35). { unfold pound in H. destruct r as [|d q]; [discriminate|]. destruct (start_char lat ns d); [apply pn_spec in H as [X _]; [discriminate X|discriminate]|discriminate]. }
  discriminate.
Qed.
Lemma first_decl_complete {B} c r name p : doms (c :: r) -> c :: r = txt "<!" ++ name ++ p -> name <> [] -> all_in (start_char lat ns) name -> (forall c, In c name -> c < 128) ->
  ((exists c r, p = c :: r /\ is_space c = true) \/ (exists c r, p = 37 :: c :: r /\ one_of "%" c = false)) -> @first lat ns k B c r = stop T_DECL_OPEN p.
Proof.
  intros Hd E Hn Ha Hl Hp. cbn in E. injection E as -> ->. assert (Ha60 : any lat ns 60 = false) by (destruct lat, ns; reflexivity). unfold first. rewrite Ha60. cbn [N.eqb Pos.eqb]. unfold lt. cbn [N.eqb Pos.eqb].
  inversion Hd as [|? ? _ Hd1]; subst. inversion Hd1 as [|? ? _ Hd2]; subst. rewrite (decl_eq _ _ _ _ ST) by exact Hd2.
  destruct name as [|x n]; [congruence|]. cbn [app decl]. inversion Ha as [|? ? Hx Hn']; subst. destruct (start_special x Hx) as (_ & _ & X1 & X2).
  replace (x =? 45) with false by lia. replace (x =? 91) with false by lia. cbn [app] in Hd2. inversion Hd2 as [|? ? Hdx Hdn]; subst.
  rewrite (start_letter x Hdx (Hl x (or_introl eq_refl)) Hx). apply dn_complete; auto. intros y Hy. apply Hl. right. exact Hy.
Qed.
Lemma first_instance {B} c r p : doms (c :: r) ->
  (@first lat ns k B c r = stop T_INSTANCE_START p <-> c = 60 /\ p = c :: r /\ exists d q, r = d :: q /\ (bt_eqb (ty k d) BT_NMSTRT || (bt_eqb (ty k d) BT_HEX || bt_eqb (ty k d) BT_NONASCII) = true)).
Proof.
  intros Hd. split.
  2:{ intros (-> & -> & d & q & -> & H). assert (Ha60 : any lat ns 60 = false) by (destruct lat, ns; reflexivity). unfold first. rewrite Ha60. cbn [N.eqb Pos.eqb]. unfold lt.
      inversion Hd as [|? ? _ Hd1]; subst. inversion Hd1 as [|? ? Hdd _]; subst.
      rewrite <- (ty_eqb _ _ _ _ ST d BT_EXCL 33 Hdd eq_refl), <- (ty_eqb _ _ _ _ ST d BT_QUEST 63 Hdd eq_refl). destruct (ty k d); try discriminate H; reflexivity. }
  intros H. inversion Hd as [|? ? Hc Hr]; subst. unfold first in H.
  destruct (any lat ns c) eqn:Ha.
  { apply nm_iff in H as (x & c' & r' & _ & Hx & _ & Hf); [|apply k0_stated|discriminate]. exfalso.
    destruct (k0_cases lat ns c x Ha Hx) as [[K _]|[[K _]|(K & _)]]; rewrite K in Hf; destruct Hf as [(_ & X & _)|(_ & _ & X & _)]; try discriminate X;
      unfold after in X; destruct (c' =? 43); try discriminate X; destruct (c' =? 42); discriminate X. }
  destruct (c =? 34) eqn:E; [apply lit_spec in H as [X _]; [discriminate X|auto|discriminate]|]. clear E.
  destruct (c =? 39) eqn:E; [apply lit_spec in H as [X _]; [discriminate X|auto|discriminate]|]. clear E.
  destruct (c =? 60) eqn:E.
  { apply N.eqb_eq in E. subst c. unfold lt in H. destruct r as [|d q]; [discriminate|]. inversion Hr as [|? ? Hd' Hq]; subst. destruct (d =? 33) eqn:E.
    - rewrite (decl_eq _ _ _ _ ST) in H by exact Hq. destruct q as [|x y]; [discriminate|]. cbn [decl] in H. destruct (x =? 45).
      { apply comment_spec in H as [X _]; [discriminate X|discriminate]. }
      destruct (x =? 91); [discriminate|]. destruct (letter k x) eqn:El; [|discriminate]. apply dn_only in H as [X|X]; discriminate X.
    - destruct (d =? 63); [apply pi_sound in H as (? & ? & _ & _ & _ & [[X _]|[X _]]); try discriminate X; discriminate|].
      match type of H with (if ?b then _ else _) = _ => destruct b eqn:Eb end; [|discriminate H]. injection H as <-. split; [reflexivity|]. split; [reflexivity|]. exists d, q. auto. }
  clear E. exfalso. destruct (c =? 13) eqn:E.
  { destruct r as [|d q]; [discriminate|]. apply sr_spec in H as [X _]. discriminate X. }
  destruct (is_space c); [apply sr_spec in H as [X _]; discriminate X|].
  destruct (c =? 37). { unfold pct in H. destruct r as [|d q]; [discriminate|]. destruct (start_char lat ns d); [apply pe_spec in H as [X _]; [discriminate X|discriminate]|]. destruct (is_space d || (d =? 37)); discriminate. }
  destruct (c =? 44); [discriminate|]. destruct (c =? 91); [discriminate|].
  destruct (c =? 93). { unfold rsqb in H. destruct r as [|d [|g q]]; [discriminate| |]; destruct (d =? 93); try discriminate. destruct (g =? 62); discriminate. }
  destruct (c =? 40); [discriminate|].
  destruct (c =? 41). { unfold rpar in H. destruct r as [|d q]; [discriminate|]. destruct (d =? 42); [discriminate|]. destruct (d =? 63); [discriminate|]. destruct (d =? 43); [discriminate|].
    match type of H with (if ?b then _ else _) = _ => destruct b end; discriminate. }
  destruct (c =? 124); [discriminate|]. destruct (c =? 62); [discriminate|].
  destruct (c =? 35). { unfold pound in H. destruct r as [|d q]; [discriminate|]. destruct (start_char lat ns d); [apply pn_spec in H as [X _]; [discriminate X|discriminate]|discriminate]. }
  discriminate.
Qed.
End Cp2.

(* over the bytes *)
Lemma prolog_lift e enc dom lat ns cs : text_encoding e enc dom lat ns -> all_in dom cs -> (forall c, In c cs -> 128 <= c -> is_xml_char c = true) ->
  exists dom' k, std lat ns dom' k /\ all_in dom' cs /\
   forall t n, (forall c r p, cs = c :: r -> @first lat ns k Empty_set c r = stop t p -> exists l, cs = l ++ p) ->
    (prologTok e (flat_map enc cs) = Ok (t, Some n) <->
     exists lexeme rest c r, cs = lexeme ++ rest /\ cs = c :: r /\ @first lat ns k Empty_set c r = stop t rest /\ n = length (flat_map enc lexeme)).
Proof.
  intros TE Hd0 Hw. destruct (text_encoding_std _ _ _ _ _ TE) as (k & CS0 & ST0).
  set (dom' c := dom c && ((c <? 128) || is_xml_char c)).
  assert (Sub : forall c, dom' c = true -> dom c = true) by (unfold dom'; intros c H; now apply andb_prop in H).
  pose proof (charset_sub _ _ _ _ _ Sub CS0) as CS. pose proof (std_sub _ _ _ _ _ Sub ST0) as ST. clear CS0 ST0 Sub.
  assert (Hd : all_in dom' cs).
  { unfold all_in in *. rewrite Forall_forall in *. intros c Hc. unfold dom'. rewrite (Hd0 c Hc). cbn [andb]. specialize (Hw c Hc).
    destruct (c <? 128) eqn:E; [reflexivity|]. apply Hw. lia. }
  assert (Hx : forall c, dom' c = true -> 128 <= c -> is_xml_char c = true).
  { intros c Hc H128. unfold dom' in Hc. replace (c <? 128) with false in Hc by lia. now apply andb_prop in Hc. }
  exists dom', k. split; [exact ST|]. split; [exact Hd|]. intros t n Hsuf.
  rewrite (lift_tok enc false cs _ _ t n (prologTok_sim _ _ _ _ CS cs Hx Hd)) by discriminate.
  destruct cs as [|c r].
  { split; [intros (m & H & _); discriminate H|]. intros (l & p & c & r & _ & E & _). discriminate E. }
  assert (Ek : prologTok (cp_enc k) (c :: r) = tok_of (c :: r) (@prologScan (cp_enc k) Empty_set (c :: r))) by reflexivity.
  rewrite Ek, (scan_first _ _ _ _ ST) by exact Hd. split.
  - intros (m & H & ->). apply tok_of_some in H as (p & H & ->).
    assert (exists l, c :: r = l ++ p) as (l & E) by (apply (Hsuf c r p); auto).
    exists l, p, c, r. split; [exact E|]. split; [reflexivity|]. split; [exact H|].
    rewrite E, app_length. replace (length l + length p - length p)%nat with (length l) by lia. apply at_char_app.
  - intros (l & p & c0 & r0 & E & E0 & H & ->). injection E0 as <- <-. exists (length l). split; [|rewrite E; symmetry; apply at_char_app].
    rewrite H, E, tok_of_stop. do 3 f_equal. rewrite app_length. lia.
Qed.

Theorem prologTok_tokens e enc dom lat ns cs t n : text_encoding e enc dom lat ns -> all_in dom cs ->
  (forall c, In c cs -> 128 <= c -> is_xml_char c = true) ->
  t <> T_INVALID -> t <> T_DECL_OPEN -> t <> T_INSTANCE_START ->
  (prologTok e (flat_map enc cs) = Ok (t, Some n) <->
   exists lexeme rest, cs = lexeme ++ rest /\ prolog_token lat ns t lexeme rest /\ n = length (flat_map enc lexeme)).
Proof.
  intros TE Hd0 Hw T1 T2 T3. destruct (other t) eqn:Ho.
  - destruct (prolog_lift _ _ _ _ _ _ TE Hd0 Hw) as (dom' & k & ST & Hd & L).
    assert (Hn : named t = true) by (destruct t; try reflexivity; congruence).
    assert (G : forall c r p, cs = c :: r -> (@first lat ns k Empty_set c r = stop t p <-> exists l, cs = l ++ p /\ prolog_token lat ns t l p)).
    { intros c r p ->. apply (first_iff _ _ _ _ ST); auto. }
    rewrite L. 2:{ intros c r p E H. apply (G c r p E) in H as (l & El & _). exists l. exact El. }
    split.
    + intros (l & p & c & r & E & E0 & H & ->). apply (G c r p E0) in H as (l' & E' & H). rewrite E in E'. apply app_inv_tail in E'. subst l'. exists l, p. auto.
    + intros (l & p & E & H & ->). destruct cs as [|c r] eqn:Ec.
      { exfalso. destruct l; [|discriminate E]. 
        destruct p; [|discriminate E]. inversion H; subst; try match goal with K : content_token _ _ _ _ _ |- _ => apply content_token_ne in K; congruence end; try congruence;
        try match goal with K : is_name _ _ _ |- _ => destruct K as (? & ? & K & _); discriminate K end.
        all: match goal with
             | K : _ ++ _ = [] |- _ => apply app_eq_nil in K as [_ K]; discriminate K
             | K : prefixed _ _ _ |- _ => destruct K as (_ & ? & ? & K & (? & ? & -> & _) & _); discriminate K
             | K : nmtoken _ _ _ |- _ => destruct K as [K _]; congruence
             end. }
      exists l, p, c, r. split; [exact E|]. split; [reflexivity|]. split; [|reflexivity]. apply (G c r p eq_refl). exists l. auto.
  - assert (Ht : t = T_COMMENT \/ t = T_PI \/ t = T_XML_DECL) by (destruct t; try discriminate Ho; auto).
    rewrite (prologTok_exact _ _ _ _ _ _ _ _ TE Hd0 Hw Ht). split; intros (l & p & E & H & ->); exists l, p; (split; [exact E|split; [|reflexivity]]).
    + destruct Ht as [->|[->| ->]]; now constructor.
    + inversion H; subst; try discriminate Ho; assumption.
Qed.

Theorem prologTok_open_sound e enc dom lat ns cs n : text_encoding e enc dom lat ns -> all_in dom cs ->
  (forall c, In c cs -> 128 <= c -> is_xml_char c = true) ->
  prologTok e (flat_map enc cs) = Ok (T_DECL_OPEN, Some n) ->
  exists name rest, cs = (txt "<!" ++ name) ++ rest /\ decl_opened lat ns name rest /\ n = length (flat_map enc (txt "<!" ++ name)).
Proof.
  intros TE Hd0 Hw H. destruct (prolog_lift _ _ _ _ _ _ TE Hd0 Hw) as (dom' & k & ST & Hd & L).
  assert (G : forall c r p, cs = c :: r -> @first lat ns k Empty_set c r = stop T_DECL_OPEN p -> exists name, cs = (txt "<!" ++ name) ++ p /\ decl_opened lat ns name p).
  { intros c r p ->. intros F. apply (first_decl_sound _ _ _ _ ST) in F as (name & E & Hn); [|exact Hd]. exists name. split; [rewrite <- app_assoc; exact E|exact Hn]. }
  apply L in H. 2:{ intros c r p E F. destruct (G c r p E F) as (name & E' & _). eauto. }
  destruct H as (l & p & c & r & E & E0 & F & ->). destruct (G c r p E0 F) as (name & E' & Hn). exists name, p. split; [exact E'|]. split; [exact Hn|].
  rewrite E in E'. apply app_inv_tail in E'. rewrite E'. reflexivity.
Qed.
Theorem prologTok_open_complete e enc dom lat ns name rest : text_encoding e enc dom lat ns -> all_in dom (txt "<!" ++ name ++ rest) ->
  (forall c, In c (txt "<!" ++ name ++ rest) -> 128 <= c -> is_xml_char c = true) ->
  decl_opened lat ns name rest -> (forall c, In c name -> c < 128) ->
  prologTok e (flat_map enc (txt "<!" ++ name ++ rest)) = Ok (T_DECL_OPEN, Some (length (flat_map enc (txt "<!" ++ name)))).
Proof.
  intros TE Hd0 Hw (Hn & Ha & Hp) Hl. destruct (prolog_lift _ _ _ _ _ _ TE Hd0 Hw) as (dom' & k & ST & Hd & L). apply L.
  { intros c r p E F. assert (Hd' := Hd). rewrite E in Hd'. apply (first_decl_sound _ _ _ _ ST) in F as (nm & E' & _); [|exact Hd']. exists (txt "<!" ++ nm). rewrite <- app_assoc. rewrite E. exact E'. }
  exists (txt "<!" ++ name), rest, 60, (33 :: name ++ rest). split; [rewrite <- app_assoc; reflexivity|]. split; [reflexivity|]. split; [|reflexivity].
  apply (first_decl_complete _ _ _ _ ST _ _ name rest); auto.
Qed.
Theorem prologTok_instance e enc dom lat ns cs n : text_encoding e enc dom lat ns -> all_in dom cs ->
  (forall c, In c cs -> 128 <= c -> is_xml_char c = true) ->
  prologTok e (flat_map enc cs) = Ok (T_INSTANCE_START, Some n) -> n = 0%nat /\ exists c rest, cs = txt "<" ++ c :: rest /\ (start_char lat ns c = true \/ 128 <= c).
Proof.
  intros TE Hd0 Hw H. destruct (prolog_lift _ _ _ _ _ _ TE Hd0 Hw) as (dom' & k & ST & Hd & L). apply L in H.
  2:{ intros c r p -> F. apply (first_instance _ _ _ _ ST) in F as (_ & -> & _); [|exact Hd]. exists []. reflexivity. }
  destruct H as (l & p & c & r & E & E0 & F & ->). assert (Hd' := Hd). rewrite E0 in Hd'. apply (first_instance _ _ _ _ ST) in F as (-> & Ep & d & q & -> & Hb); [|exact Hd'].
  rewrite Ep, <- E0 in E. assert (l = []) as -> by (apply (app_inv_tail cs); symmetry; exact E). split; [reflexivity|]. exists d, q. split; [exact E0|].
  inversion Hd' as [|? ? _ Hr]; subst. inversion Hr as [|? ? Hdd _]; subst. destruct (d <? 128) eqn:E1; [|right; lia]. left.
  rewrite <- (st_start _ _ _ _ ST d Hdd). unfold kstart. pose proof (st_ascii _ _ _ _ ST d ltac:(lia)) as Et.
  assert (G : bt_eqb (nth (N.to_nat d) (ascii_table ns) BT_NONXML) BT_NONASCII = false).
  { assert (H1 : d < 128) by lia. clear -H1. apply negb_true_iff. revert d H1. apply below128. destruct ns; vm_compute; reflexivity. }
  rewrite <- Et in G. destruct (ty k d); try discriminate; reflexivity.
Qed.
Theorem prologTok_instance_complete e enc dom lat ns c rest : text_encoding e enc dom lat ns -> all_in dom (txt "<" ++ c :: rest) ->
  (forall x, In x (txt "<" ++ c :: rest) -> 128 <= x -> is_xml_char x = true) ->
  start_char lat ns c = true -> prologTok e (flat_map enc (txt "<" ++ c :: rest)) = Ok (T_INSTANCE_START, Some 0%nat).
Proof.
  intros TE Hd0 Hw Hs. destruct (prolog_lift _ _ _ _ _ _ TE Hd0 Hw) as (dom' & k & ST & Hd & L). apply L.
  { intros x r p E F. assert (Hd' := Hd). rewrite E in Hd'. apply (first_instance _ _ _ _ ST) in F as (_ & -> & _); [|exact Hd']. exists []. exact E. }
  exists [], (60 :: c :: rest), 60, (c :: rest). split; [reflexivity|]. split; [reflexivity|]. split; [|reflexivity].
  apply (first_instance _ _ _ _ ST); [exact Hd|]. split; [reflexivity|]. split; [reflexivity|]. exists c, rest. split; [reflexivity|].
  inversion Hd as [|? ? _ Hr]; subst. inversion Hr as [|? ? Hdd _]; subst. rewrite <- (st_start _ _ _ _ ST c Hdd) in Hs. unfold kstart in Hs. destruct (ty k c); try discriminate Hs; reflexivity.
Qed.
