(* Comments and processing instructions over code points. *)
From Coq Require Import String List NArith ZArith Bool Lia Arith.
From Coq Require Import ZifyBool ZifyNat ZifyN.
From Verif Require Import Base Encoding SpecText SpecUnicode SpecNames SpecLex Tok TokWp Charset Sim SimTop TextEnc CpBase.
Import ListNotations.
Local Open Scope N_scope.

Section Cp.
Variables (lat ns : bool) (dom : N -> bool) (k : cls).
Hypothesis ST : std lat ns dom k.
Notation ce := (cp_enc k).
Notation doms := (all_in dom).

Lemma invalid_iff {A} c (x : A) (other : M A) r : dom c = true ->
  match_invalid ce (ty k c) x other (c :: r) = if is_xml_char c then other (c :: r) else Ok (Stop T_INVALID (Some (c :: r))).
Proof.
  intros Hd. unfold match_invalid. rewrite (no_lead _ _ _ _ ST) by auto.
  pose proof (st_xml _ _ _ _ ST c Hd) as X. pose proof (no_trail _ _ _ _ ST c Hd) as [Y Z].
  destruct (ty k c) eqn:E; try congruence; destruct (is_xml_char c) eqn:E2; auto.
  all: first [discriminate (proj2 X eq_refl) | discriminate (proj1 X eq_refl)].
Qed.
Lemma name_iff {A} c (x : A) (other : M A) r : dom c = true ->
  check_name ce (ty k c) x other (c :: r) =
  if name_char lat ns c then Ok (Cont x r)
  else if bt_eqb (ty k c) BT_NONASCII then Ok (Stop T_INVALID (Some (c :: r))) else other (c :: r).
Proof.
  intros Hd. rewrite <- (st_name _ _ _ _ ST c Hd). unfold check_name, kname. rewrite (no_lead _ _ _ _ ST) by auto.
  destruct (ty k c) eqn:E; try reflexivity. ev. destruct (nmc k c); reflexivity.
Qed.
Lemma start_iff {A} c (x : A) (other : M A) r : dom c = true ->
  check_nmstrt ce (ty k c) x other (c :: r) =
  if start_char lat ns c then Ok (Cont x r)
  else if bt_eqb (ty k c) BT_NONASCII then Ok (Stop T_INVALID (Some (c :: r))) else other (c :: r).
Proof.
  intros Hd. rewrite <- (st_start _ _ _ _ ST c Hd). unfold check_nmstrt, kstart. rewrite (no_lead _ _ _ _ ST) by auto.
  destruct (ty k c) eqn:E; try reflexivity. ev. destruct (nst k c); reflexivity.
Qed.
Lemma ty_eqb c t x : dom c = true -> type_char t = Some x -> bt_eqb (ty k c) t = (c =? x).
Proof.
  intros Hd Ht. pose proof (type_char_iff _ _ _ _ ST c t x Hd Ht) as I. unfold bt_eqb.
  destruct (ByteType_eq_dec (ty k c) t) as [E|E]; [rewrite (proj1 I E); lia|].
  destruct (c =? x) eqn:X; auto. apply N.eqb_eq in X. tauto.
Qed.

(* ---- comments ---- *)
Variable B : Type.
Notation out := (res (outc B)).
Fixpoint cm (cs : list N) : out :=
  match cs with
  | [] => Ok (Stop T_PARTIAL None)
  | c :: r =>
      if negb (is_xml_char c) then Ok (Stop T_INVALID (Some cs))
      else if c =? 45 then
        match r with
        | [] => Ok (Stop T_PARTIAL None)
        | d :: r' =>
            if d =? 45 then
              match r' with
              | [] => Ok (Stop T_PARTIAL None)
              | f :: r'' => if f =? 62 then Ok (Stop T_COMMENT (Some r'')) else Ok (Stop T_INVALID (Some r'))
              end
            else cm r
        end
      else cm r
  end.

Lemma minus_iff {A} c (x y : A) : dom c = true ->
  match ty k c with BT_MINUS => x | _ => y end = if c =? 45 then x else y.
Proof.
  intros Hd. rewrite <- (ty_eqb c BT_MINUS 45 Hd eq_refl). destruct (ty k c); reflexivity.
Qed.
Lemma quest_iff {A} c (x y : A) : dom c = true ->
  match ty k c with BT_QUEST => x | _ => y end = if c =? 63 then x else y.
Proof.
  intros Hd. rewrite <- (ty_eqb c BT_QUEST 63 Hd eq_refl). destruct (ty k c); reflexivity.
Qed.

Lemma scanComment_eq c r : doms (c :: r) -> @scanComment ce B (c :: r) =
  if c =? 45 then cm r else Ok (Stop T_INVALID (Some (c :: r))).
Proof.
  intros Hd. unfold scanComment. cps. change c_MINUS with 45. change c_GT with 62.
  destruct (c =? 45); cbn [negb]; [|reflexivity]. cps. apply Forall_inv_tail in Hd. clear c.
  unfold while_partial.
  induction r as [|c r IH]; [reflexivity|].
  inversion Hd; subst. rewrite while_eq.
  2:{ clear. prog k. }
  cbn [cm]. cps. rewrite invalid_iff by auto.
  destruct (is_xml_char c); cbn [negb]; [|reflexivity]. rewrite minus_iff by auto.
  destruct (c =? 45).
  - cps. destruct r as [|d r]; [reflexivity|]. cps. destruct (d =? 45); [|apply IH; auto]. cps.
    destruct r as [|f r]; [reflexivity|]. cps. destruct (f =? 62); reflexivity.
  - cps. apply IH; auto.
Qed.

Lemma occurs_cons w c cs : occurs w (c :: cs) <-> prefix_of w (c :: cs) \/ occurs w cs.
Proof.
  unfold occurs, prefix_of. split.
  - intros ([|a x] & b & E); [left; exists b; exact E|]. right. injection E as _ E. eauto.
  - intros [[b E]|(a & b & ->)]; [exists [], b; exact E|exists (c :: a), b; reflexivity].
Qed.
Lemma occurs_nil w : w <> [] -> ~ occurs w [].
Proof. intros Hw ([|] & b & E); [destruct w; [auto|discriminate]|discriminate]. Qed.
Lemma prefix_cons {A} (a c : A) w cs : prefix_of (a :: w) (c :: cs) <-> c = a /\ prefix_of w cs.
Proof.
  unfold prefix_of. split; [intros [b E]; injection E as <- E; eauto|intros (<- & b & ->); exists b; reflexivity].
Qed.
Lemma prefix_nil {A} (a : A) w : ~ prefix_of (a :: w) [].
Proof. intros [b E]. discriminate. Qed.
Lemma prefix_any {A} (cs : list A) : prefix_of [] cs. Proof. exists cs. reflexivity. Qed.

Lemma cm_spec cs p : cm cs = Ok (Stop T_COMMENT (Some p)) <->
  exists body, cs = body ++ txt "-->" ++ p /\ comment_body body.
Proof.
  unfold comment_body. change (txt "-->") with [45; 45; 62]. change (txt "--") with [45; 45]. change (txt "-") with [45].
  split.
  - induction cs as [|c r IH]; [discriminate|]. cbn [cm]. destruct (is_xml_char c) eqn:X; cbn [negb]; [|discriminate].
    destruct (c =? 45) eqn:C.
    + apply N.eqb_eq in C; subst c. destruct r as [|d r]; [discriminate|]. destruct (d =? 45) eqn:D.
      * apply N.eqb_eq in D; subst d. destruct r as [|f r]; [discriminate|]. destruct (f =? 62) eqn:F; [|discriminate].
        apply N.eqb_eq in F; subst f. intros [= ->]. exists []. repeat split; auto; [constructor|].
        cbn [app]. rewrite occurs_cons, !prefix_cons. intros [[_ H]|H]; [now apply prefix_nil in H| now apply occurs_nil in H].
      * intros H. destruct (IH H) as (body & E & Hx & Ho). exists (45 :: body). split; [rewrite E; reflexivity|]. cbn [app] in *. split.
        { constructor; auto. }
        rewrite occurs_cons, prefix_cons. intros [[_ H1]|H1]; [|auto].
        destruct body as [|b body]; cbn [app] in *; injection E as -> _; [discriminate|].
        apply prefix_cons in H1 as [H1 _]. subst. discriminate.
    + intros H. destruct (IH H) as (body & E & Hx & Ho). exists (c :: body). split; [rewrite E; reflexivity|]. cbn [app] in *. split.
      { constructor; auto. }
      rewrite occurs_cons, prefix_cons. intros [[H1 _]|H1]; [subst; discriminate|auto].
  - intros (body & -> & Hx & Ho). induction body as [|c body IH]; [reflexivity|].
    inversion Hx; subst. cbn [app cm]. rewrite H1. cbn [negb]. cbn [app] in Ho. rewrite occurs_cons, prefix_cons in Ho.
    assert (G : cm (body ++ [45; 45; 62] ++ p) = Ok (Stop T_COMMENT (Some p))) by (apply IH; tauto).
    destruct (c =? 45) eqn:C; [|exact G]. apply N.eqb_eq in C. subst c.
    destruct body as [|d body]; cbn [app] in *.
    + exfalso. apply Ho. left. split; auto. exists []. reflexivity.
    + destruct (d =? 45) eqn:D; [|exact G]. apply N.eqb_eq in D. subst d. exfalso. apply Ho. left. split; auto.
      apply prefix_cons. split; auto. apply prefix_any.
Qed.

(* "--" not followed by ">" *)
Lemma cm_bad body f q : comment_body body -> f <> 62 -> cm (body ++ txt "--" ++ f :: q) = Ok (Stop T_INVALID (Some (f :: q))).
Proof.
  unfold comment_body. change (txt "--") with [45; 45]. change (txt "-") with [45]. intros [Hx Ho] Hf.
  induction body as [|c body IH].
  - cbn. destruct (N.eqb_spec f 62); [contradiction|reflexivity].
  - inversion Hx; subst. cbn [app cm]. rewrite H1. cbn [negb]. cbn [app] in Ho. rewrite occurs_cons, prefix_cons in Ho.
    assert (G : cm (body ++ [45; 45] ++ f :: q) = Ok (Stop T_INVALID (Some (f :: q)))) by (apply IH; tauto).
    destruct (c =? 45) eqn:C; [|exact G]. apply N.eqb_eq in C. subst c.
    destruct body as [|d body]; cbn [app] in *.
    + exfalso. apply Ho. left. split; auto. exists []. reflexivity.
    + destruct (d =? 45) eqn:D; [|exact G]. apply N.eqb_eq in D. subst d. exfalso. apply Ho. left. split; auto.
      apply prefix_cons. split; auto. apply prefix_any.
Qed.
Lemma cm_toks cs t n : cm cs = Ok (Stop t n) -> t = T_COMMENT \/ t = T_INVALID \/ t = T_PARTIAL.
Proof.
  induction cs as [|c r IH]; cbn [cm]; [intros [= <- _]; auto|].
  destruct (negb _); [intros [= <- _]; auto|]. destruct (c =? 45); auto.
  destruct r as [|d r]; [intros [= <- _]; auto|]. destruct (d =? 45); auto.
  destruct r as [|f r]; [intros [= <- _]; auto|]. destruct (f =? 62); intros [= <- _]; auto.
Qed.

(* ---- names ---- *)
Fixpoint take_name (cs : list N) : list N * list N :=
  match cs with
  | [] => ([], [])
  | c :: r => if name_char lat ns c then let (a, b) := take_name r in (c :: a, b) else ([], cs)
  end.
Lemma take_name_app cs : cs = fst (take_name cs) ++ snd (take_name cs).
Proof.
  induction cs as [|c r IH]; [reflexivity|]. cbn [take_name]. destruct (name_char lat ns c); [|reflexivity].
  destruct (take_name r) as [a b]. cbn [fst snd app] in *. now rewrite <- IH.
Qed.
Lemma take_name_all cs : all_in (name_char lat ns) (fst (take_name cs)).
Proof.
  induction cs as [|c r IH]; [constructor|]. cbn [take_name]. destruct (name_char lat ns c) eqn:E; [|constructor].
  destruct (take_name r) as [a b]. constructor; auto.
Qed.
Lemma take_name_stop cs c r : snd (take_name cs) = c :: r -> name_char lat ns c = false.
Proof.
  induction cs as [|d q IH]; [discriminate|]. cbn [take_name]. destruct (name_char lat ns d) eqn:E.
  - destruct (take_name q) as [a b]. auto.
  - cbn. intros [= <- _]. auto.
Qed.
Lemma take_name_intro n rest : all_in (name_char lat ns) n ->
  (match rest with [] => True | c :: _ => name_char lat ns c = false end) -> take_name (n ++ rest) = (n, rest).
Proof.
  intros Hn Hr. induction Hn as [|c n Hc Hn IH].
  - cbn [app]. destruct rest as [|c r]; [reflexivity|]. cbn [take_name]. now rewrite Hr.
  - cbn [app take_name]. now rewrite Hc, IH.
Qed.
Lemma take_name_doms cs : doms cs -> doms (fst (take_name cs)) /\ doms (snd (take_name cs)).
Proof. intros H. rewrite (take_name_app cs) in H. now apply Forall_app in H. Qed.

(* ---- processing instructions ---- *)
Definition pi_stop (c : N) : bool := is_space c || (c =? 63).
Lemma pi_stop_iff {A} c (x y : A) : dom c = true ->
  match ty k c with BT_S | BT_CR | BT_LF | BT_QUEST => x | _ => y end = if pi_stop c then x else y.
Proof.
  intros Hd. unfold pi_stop. rewrite <- (sp_iff _ _ _ _ ST c Hd), <- (ty_eqb c BT_QUEST 63 Hd eq_refl).
  destruct (ty k c); reflexivity.
Qed.
Lemma stop_not_name c : pi_stop c = true -> name_char lat ns c = false.
Proof.
  unfold pi_stop, is_space. intros H. assert (c = 32 \/ c = 9 \/ c = 13 \/ c = 10 \/ c = 63) as K by lia.
  destruct K as [->|[->|[->|[->| ->]]]]; destruct lat, ns; reflexivity.
Qed.
Lemma stop_not_wide c : dom c = true -> pi_stop c = true -> bt_eqb (ty k c) BT_NONASCII = false.
Proof.
  intros Hd H. unfold pi_stop in H. rewrite <- (sp_iff _ _ _ _ ST c Hd), <- (ty_eqb c BT_QUEST 63 Hd eq_refl) in H.
  destruct (ty k c); try reflexivity; discriminate.
Qed.
Lemma pi_loop_eq cs : doms cs ->
  loopb (fun _ : unit => (require_char ce ;; t <- bt ce ;;
    check_name ce t (inl tt) (match t with BT_S | BT_CR | BT_LF | BT_QUEST => ret (inr t) | _ => stop_here T_INVALID end))%scan) tt cs
  = match snd (take_name cs) with
    | [] => Ok (Stop T_PARTIAL None)
    | c :: r => if pi_stop c then Ok (Cont (ty k c) (c :: r)) else Ok (Stop T_INVALID (Some (c :: r)))
    end.
Proof.
  induction cs as [|c r IH]; intros Hd; [reflexivity|]. inversion Hd; subst.
  rewrite loopb_eq. 2:{ clear. prog k. }
  cps. rewrite name_iff by auto. cbn [take_name]. destruct (name_char lat ns c) eqn:En.
  - rewrite IH by auto. destruct (take_name r); reflexivity.
  - cbn [snd]. destruct (pi_stop c) eqn:E.
    + rewrite stop_not_wide by auto. rewrite pi_stop_iff, E by auto. reflexivity.
    + destruct (bt_eqb (ty k c) BT_NONASCII); [reflexivity|]. rewrite pi_stop_iff, E by auto. reflexivity.
Qed.

Fixpoint pt (tok : XML_TOK) (cs : list N) : out :=
  match cs with
  | [] => Ok (Stop T_PARTIAL None)
  | c :: r =>
      if negb (is_xml_char c) then Ok (Stop T_INVALID (Some cs))
      else if c =? 63 then
        match r with
        | [] => Ok (Stop T_PARTIAL None)
        | d :: r' => if d =? 62 then Ok (Stop tok (Some r')) else pt tok r
        end
      else pt tok r
  end.
Lemma pi_text_eq tok cs : doms cs -> @pi_text ce B tok cs = pt tok cs.
Proof.
  unfold pi_text, while_partial. induction cs as [|c r IH]; intros Hd; [reflexivity|]. inversion Hd; subst.
  rewrite while_eq. 2:{ clear. prog k. }
  cbn [pt]. cps. rewrite invalid_iff by auto. destruct (is_xml_char c); cbn [negb]; [|reflexivity].
  rewrite quest_iff by auto. destruct (c =? 63).
  - cps. destruct r as [|d r]; [reflexivity|]. cps. change c_GT with 62. destruct (d =? 62); [reflexivity|]. cps. auto.
  - cps. auto.
Qed.
Lemma pt_spec tok cs p : tok <> T_INVALID -> (pt tok cs = Ok (Stop tok (Some p)) <->
  exists d, cs = d ++ txt "?>" ++ p /\ xml_text d /\ ~ occurs (txt "?>") (d ++ txt "?")).
Proof.
  intros Ht. change (txt "?>") with [63; 62]. change (txt "?") with [63]. split.
  - induction cs as [|c r IH]; [discriminate|]. cbn [pt]. destruct (is_xml_char c) eqn:X; cbn [negb]; [|intros [= E _]; now symmetry in E].
    destruct (c =? 63) eqn:C.
    + apply N.eqb_eq in C; subst c. destruct r as [|d r]; [discriminate|]. destruct (d =? 62) eqn:D.
      * apply N.eqb_eq in D; subst d. intros [= ->]. exists []. repeat split; auto; [constructor|].
        cbn [app]. rewrite occurs_cons, !prefix_cons. intros [[_ H]|H]; [now apply prefix_nil in H| now apply occurs_nil in H].
      * intros H. destruct (IH H) as (body & E & Hx & Ho). exists (63 :: body). split; [rewrite E; reflexivity|]. cbn [app] in *. split.
        { constructor; auto. }
        rewrite occurs_cons, prefix_cons. intros [[_ H1]|H1]; [|auto].
        destruct body as [|b body]; cbn [app] in *; [apply prefix_cons in H1 as [H1 _]; discriminate|].
        injection E as -> _. apply prefix_cons in H1 as [H1 _]. subst. discriminate.
    + intros H. destruct (IH H) as (body & E & Hx & Ho). exists (c :: body). split; [rewrite E; reflexivity|]. cbn [app] in *. split.
      { constructor; auto. }
      rewrite occurs_cons, prefix_cons. intros [[H1 _]|H1]; [subst; discriminate|auto].
  - intros (body & -> & Hx & Ho). induction body as [|c body IH]; [reflexivity|].
    inversion Hx; subst. cbn [app pt]. rewrite H1. cbn [negb]. cbn [app] in Ho. rewrite occurs_cons, prefix_cons in Ho.
    assert (G : pt tok (body ++ [63; 62] ++ p) = Ok (Stop tok (Some p))) by (apply IH; tauto).
    destruct (c =? 63) eqn:C; [|exact G]. apply N.eqb_eq in C. subst c.
    destruct body as [|d body]; cbn [app] in *; [exact G|].
    destruct (d =? 62) eqn:D; [|exact G]. apply N.eqb_eq in D. subst d. exfalso. apply Ho. left. split; auto.
    apply prefix_cons. split; auto. apply prefix_any.
Qed.
Lemma pt_toks tok cs t n : pt tok cs = Ok (Stop t n) -> t = tok \/ t = T_INVALID \/ t = T_PARTIAL.
Proof.
  induction cs as [|c r IH]; cbn [pt]; [intros [= <- _]; auto|].
  destruct (negb _); [intros [= <- _]; auto|]. destruct (c =? 63); auto.
  destruct r as [|d r]; [intros [= <- _]; auto|]. destruct (d =? 62); auto. intros [= <- _]; auto.
Qed.

(* the target *)
Definition target (n : list N) : option XML_TOK :=
  if list_eq_dec N.eq_dec (map lower n) (txt "xml") then
    if list_eq_dec N.eq_dec n (txt "xml") then Some T_XML_DECL else None
  else Some T_PI.
Lemma lower_iff c x : 97 <= x <= 122 -> (lower c = x <-> c = x \/ c = x - 32).
Proof. intros Hx. unfold lower. destruct ((65 <=? c) && (c <=? 90)) eqn:E; lia. Qed.
Lemma checkPiTarget_eq n : checkPiTarget ce n = Ok (target n).
Proof.
  unfold checkPiTarget, target. change (txt "xml") with [120; 109; 108]. change (minbpc ce * 3)%nat with 3%nat.
  destruct n as [|a [|b [|c [|d n]]]]; cbn [length Nat.eqb negb];
    try (destruct (list_eq_dec N.eq_dec _ _) as [E|E]; [discriminate|reflexivity]).
  cbn [cp_enc byte_to_ascii minbpc peek nth_error inc_start bind map].
  assert (H1 : forall z x, 97 <= x <= 122 -> (((if z <? 128 then z else 255) =? x) || ((if z <? 128 then z else 255) =? x - 32)) = (lower z =? x)).
  { intros z x Hx. apply eq_true_iff_eq. rewrite orb_true_iff, !N.eqb_eq, lower_iff by lia. destruct (z <? 128) eqn:E; lia. }
  pose proof (H1 a 120 ltac:(lia)) as Ha. change (120 - 32) with 88 in Ha. rewrite Ha.
  pose proof (H1 b 109 ltac:(lia)) as Hb. change (109 - 32) with 77 in Hb. rewrite Hb.
  pose proof (H1 c 108 ltac:(lia)) as Hc. change (108 - 32) with 76 in Hc. rewrite Hc.
  destruct (list_eq_dec N.eq_dec [lower a; lower b; lower c] [120; 109; 108]) as [E|E].
  - injection E as Ea Eb Ec. rewrite Ea, Eb, Ec, !N.eqb_refl. cbn [negb].
    apply lower_iff in Ea, Eb, Ec; try lia.
    destruct (list_eq_dec N.eq_dec [a; b; c] [120; 109; 108]) as [E|E].
    + injection E as -> -> ->. reflexivity.
    + clear H1 Ha Hb Hc. replace (a <? 128) with true by lia. replace (b <? 128) with true by lia. replace (c <? 128) with true by lia.
      assert (~ (a = 120 /\ b = 109 /\ c = 108)) as K by (intros (-> & -> & ->); auto). clear E.
      replace ((a =? 88) || (b =? 77) || (c =? 76)) with true by lia. reflexivity.
  - destruct (lower a =? 120) eqn:Ea; cbn [negb]; [|reflexivity].
    destruct (lower b =? 109) eqn:Eb; cbn [negb]; [|reflexivity].
    destruct (lower c =? 108) eqn:Ec; cbn [negb]; [|reflexivity].
    apply N.eqb_eq in Ea, Eb, Ec. exfalso. apply E. congruence.
Qed.

Definition pi_fn (cs : list N) : out :=
  match cs with
  | [] => Ok (Stop T_PARTIAL None)
  | c :: r =>
      if start_char lat ns c then
        match snd (take_name r) with
        | [] => Ok (Stop T_PARTIAL None)
        | d :: q =>
            if pi_stop d then
              match target (c :: fst (take_name r)) with
              | None => Ok (Stop T_INVALID (Some (d :: q)))
              | Some tok =>
                  if d =? 63 then
                    match q with
                    | [] => Ok (Stop T_PARTIAL None)
                    | f :: q' => if f =? 62 then Ok (Stop tok (Some q')) else Ok (Stop T_INVALID (Some q))
                    end
                  else pt tok q
              end
            else Ok (Stop T_INVALID (Some (d :: q)))
        end
      else Ok (Stop T_INVALID (Some cs))
  end.
Lemma pi_name_eq cs : doms cs -> pi_name ce cs =
  match cs with
  | [] => Ok (Stop T_PARTIAL None)
  | c :: r => if start_char lat ns c then
      match snd (take_name r) with
      | [] => Ok (Stop T_PARTIAL None)
      | d :: q => if pi_stop d then Ok (Cont (ty k d) (d :: q)) else Ok (Stop T_INVALID (Some (d :: q)))
      end else Ok (Stop T_INVALID (Some cs))
  end.
Proof.
  intros Hd. unfold pi_name. destruct cs as [|c r]; [reflexivity|]. inversion Hd; subst. cps. unfold mbind at 1. rewrite start_iff by auto.
  destruct (start_char lat ns c).
  - rewrite pi_loop_eq by auto. reflexivity.
  - destruct (bt_eqb _ _); reflexivity.
Qed.
Lemma scanPi_eq cs : doms cs -> @scanPi ce B cs = pi_fn cs.
Proof.
  intros Hd. unfold scanPi, mbind at 1, capture. rewrite pi_name_eq by auto. unfold pi_fn.
  destruct cs as [|c r]; [reflexivity|]. destruct (start_char lat ns c); [|reflexivity].
  destruct (snd (take_name r)) as [|d q] eqn:Eq; [reflexivity|]. destruct (pi_stop d) eqn:Ep; [|reflexivity].
  pose proof (take_name_app r) as Er. rewrite Eq in Er. inversion Hd; subst.
  assert (Hdq : doms (d :: q)) by (rewrite <- Eq; now apply take_name_doms). inversion Hdq; subst.
  cbn [fst snd].
  replace (firstn (length (c :: r) - length (d :: q)) (c :: r)) with (c :: fst (take_name r)).
  2:{ rewrite Er at 2 3. cbn [length]. rewrite app_length. cbn [length].
      replace (S (length (fst (take_name r)) + S (length q)) - S (length q))%nat with (S (length (fst (take_name r)))) by lia.
      cbn [firstn]. now rewrite firstn_app, firstn_all, Nat.sub_diag, app_nil_r. }
  set (n := c :: fst (take_name r)).
  unfold mbind, check_pi_target. rewrite checkPiTarget_eq. cbn [bind].
  transitivity (if d =? 63 then
     (match target n with None => stop_here T_INVALID | Some tok =>
        (adv1 ce ;; require_char ce ;; g <- matches ce c_GT ;; if g then stop_after ce tok else stop_here T_INVALID)%scan end) (d :: q)
     else (match target n with None => stop_here T_INVALID | Some tok => (adv1 ce ;; @pi_text ce B tok)%scan end) (d :: q)).
  - unfold pi_stop in Ep. rewrite <- (sp_iff _ _ _ _ ST d H3) in Ep. pose proof (ty_eqb d BT_QUEST 63 H3 eq_refl) as Q. rewrite <- Q in *.
    destruct (ty k d); try discriminate; reflexivity.
  - destruct (d =? 63).
    + destruct (target n); [|reflexivity]. cps. destruct q as [|f q]; [reflexivity|]. cps. change c_GT with 62.
      destruct (f =? 62); reflexivity.
    + destruct (target n); [|reflexivity]. cps. now apply pi_text_eq.
Qed.
End Cp.
