(* Comments and processing instructions in the prolog, over code points. *)
From Coq Require Import String List NArith ZArith Bool Lia Arith.
From Coq Require Import ZifyBool ZifyNat ZifyN.
From Verif Require Import Base Encoding SpecText SpecUnicode SpecNames SpecLex EncLaws Tok TokWp TokSafe Charset CharsetLaws Sim SimTop TextEnc CpBase CpComment CpTag CpStart CpContent.
Import ListNotations.
Local Open Scope N_scope.

(* which tokens a scanner can stop with, and which values it can continue with *)
Definition toks {A} (P : XML_TOK -> bool) (Q : A -> Prop) (m : M A) : Prop :=
  forall b, match m b with Ok (Stop t _) => P t = true | Ok (Cont a _) => Q a | Err _ => True end.
Section Toks.
Variable e : EncImpl.
Variable P : XML_TOK -> bool.
Lemma tk_bind {A B} (m : M A) (f : A -> M B) Q R : toks P Q m -> (forall a, Q a -> toks P R (f a)) -> toks P R (mbind m f).
Proof. intros H K b. unfold mbind. specialize (H b). destruct (m b) as [[t n|a b']|]; auto. apply K; auto. Qed.
Lemma tk_ret {A} (a : A) (Q : A -> Prop) : Q a -> toks P Q (ret a). Proof. intros H b. exact H. Qed.
Lemma tk_here {A} t (Q : A -> Prop) : P t = true -> toks P Q (stop_here t). Proof. intros H b. exact H. Qed.
Lemma tk_adv n (Q : unit -> Prop) : Q tt -> toks P Q (adv n).
Proof. intros H b. unfold adv, bind. destruct (inc_start n b); auto. Qed.
Lemma tk_after {A} t (Q : A -> Prop) : P t = true -> toks P Q (stop_after e t).
Proof. intros H. eapply tk_bind; [apply (tk_adv _ (fun _ => True)); auto|]. intros. now apply tk_here. Qed.
Lemma tk_or k t (Q : unit -> Prop) : P t = true -> Q tt -> toks P Q (require_or e k t).
Proof. intros H H' b. unfold require_or. destruct (has_chars e k b); auto. Qed.
Lemma tk_bytes k t (Q : unit -> Prop) : P t = true -> Q tt -> toks P Q (require_bytes k t).
Proof. intros H H' b. unfold require_bytes. destruct (has k b); auto. Qed.
Lemma tk_bt (Q : ByteType -> Prop) : (forall t, Q t) -> toks P Q (bt e).
Proof. intros H b. unfold bt, bind. destruct (byte_type e b); auto. Qed.
Lemma tk_bt_at k (Q : ByteType -> Prop) : (forall t, Q t) -> toks P Q (bt_at e k).
Proof. intros H b. unfold bt_at, bind. destruct (inc_start _ b); auto. destruct (byte_type e _); auto. Qed.
Lemma tk_matches c (Q : bool -> Prop) : (forall t, Q t) -> toks P Q (matches e c).
Proof. intros H b. unfold matches, bind. destruct (char_matches e b c); auto. Qed.
Lemma tk_matches_at k c (Q : bool -> Prop) : (forall t, Q t) -> toks P Q (matches_at e k c).
Proof. intros H b. unfold matches_at, bind. destruct (inc_start _ b); auto. destruct (char_matches e _ c); auto. Qed.
Lemma tk_check f (Q : bool -> Prop) : (forall t, Q t) -> toks P Q (lift_check f).
Proof. intros H b. unfold lift_check, bind. destruct (f b); auto. Qed.
Lemma tk_while {S B} (body : S -> M S) fin (I : S -> Prop) s (Q : B -> Prop) :
  (forall s, I s -> toks P I (body s)) -> (forall s, I s -> match fin s with Ok t => P t = true | _ => True end) -> I s -> toks P Q (while_ e body fin s).
Proof.
  intros Hb Hf Hs b. unfold while_. generalize (Datatypes.S (length b)). intros n. revert s Hs b.
  induction n as [|n IH]; intros s Hs b; cbn [while_fuel].
  - destruct (has_chars e 1 b); auto. specialize (Hf s Hs). destruct (fin s); auto.
  - destruct (has_chars e 1 b). 2:{ specialize (Hf s Hs). destruct (fin s); auto. }
    specialize (Hb s Hs b). destruct (body s b) as [[]|]; auto. apply IH; auto.
Qed.
Lemma tk_match_invalid {A} t (k : A) m (Q : A -> Prop) : P T_INVALID = true -> P T_PARTIAL_CHAR = true -> Q k -> toks P Q m -> toks P Q (match_invalid e t k m).
Proof.
  intros H1 H2 Hk Hm. unfold match_invalid. destruct (lead_len t).
  - eapply tk_bind; [apply (tk_bytes _ _ (fun _ => True)); auto|]. intros _ _. eapply tk_bind; [apply (tk_check _ (fun _ => True)); auto|].
    intros [] _; [now apply tk_here|]. eapply tk_bind; [apply (tk_adv _ (fun _ => True)); auto|]. intros. now apply tk_ret.
  - destruct t; auto; now apply tk_here.
Qed.
Lemma tk_check_name {A} t (k : A) m (Q : A -> Prop) : P T_INVALID = true -> P T_PARTIAL_CHAR = true -> Q k -> toks P Q m -> toks P Q (check_name e t k m).
Proof.
  intros H1 H2 Hk Hm. unfold check_name. destruct (lead_len t).
  - eapply tk_bind; [apply (tk_bytes _ _ (fun _ => True)); auto|]. intros _ _. eapply tk_bind; [apply (tk_check _ (fun _ => True)); auto|].
    intros [] _; [|now apply tk_here]. eapply tk_bind; [apply (tk_adv _ (fun _ => True)); auto|]. intros. now apply tk_ret.
  - destruct t; auto; try (eapply tk_bind; [apply (tk_adv _ (fun _ => True)); auto|]; intros; now apply tk_ret).
    eapply tk_bind; [apply (tk_check _ (fun _ => True)); auto|]. intros [] _; [|now apply tk_here].
    eapply tk_bind; [apply (tk_adv _ (fun _ => True)); auto|]. intros. now apply tk_ret.
Qed.
Lemma tk_check_nmstrt {A} t (k : A) m (Q : A -> Prop) : P T_INVALID = true -> P T_PARTIAL_CHAR = true -> Q k -> toks P Q m -> toks P Q (check_nmstrt e t k m).
Proof.
  intros H1 H2 Hk Hm. unfold check_nmstrt. destruct (lead_len t).
  - eapply tk_bind; [apply (tk_bytes _ _ (fun _ => True)); auto|]. intros _ _. eapply tk_bind; [apply (tk_check _ (fun _ => True)); auto|].
    intros [] _; [|now apply tk_here]. eapply tk_bind; [apply (tk_adv _ (fun _ => True)); auto|]. intros. now apply tk_ret.
  - destruct t; auto; try (eapply tk_bind; [apply (tk_adv _ (fun _ => True)); auto|]; intros; now apply tk_ret).
    eapply tk_bind; [apply (tk_check _ (fun _ => True)); auto|]. intros [] _; [|now apply tk_here].
    eapply tk_bind; [apply (tk_adv _ (fun _ => True)); auto|]. intros. now apply tk_ret.
Qed.
End Toks.
Ltac tkb := match goal with
  | |- toks _ _ (mbind (bt _) _) => eapply tk_bind; [apply (tk_bt _ _ (fun _ => True)); trivial | intros ? _]
  | |- toks _ _ (mbind (bt_at _ _) _) => eapply tk_bind; [apply (tk_bt_at _ _ _ (fun _ => True)); trivial | intros ? _]
  | |- toks _ _ (mbind (matches _ _) _) => eapply tk_bind; [apply (tk_matches _ _ _ (fun _ => True)); trivial | intros [|] _; cbn [negb]]
  | |- toks _ _ (mbind (matches_at _ _ _) _) => eapply tk_bind; [apply (tk_matches_at _ _ _ _ (fun _ => True)); trivial | intros [|] _; cbn [negb]]
  | |- toks _ _ (mbind (lift_check _) _) => eapply tk_bind; [apply (tk_check _ _ (fun _ => True)); trivial | intros [|] _]
  | |- toks _ _ (mbind (adv1 _) _) => eapply tk_bind; [apply (tk_adv _ _ (fun _ => True)); trivial | intros _ _]
  | |- toks _ _ (mbind (adv _) _) => eapply tk_bind; [apply (tk_adv _ _ (fun _ => True)); trivial | intros _ _]
  | |- toks _ _ (mbind (require_char _) _) => eapply tk_bind; [apply (tk_or _ _ _ _ (fun _ => True)); [reflexivity|trivial] | intros _ _]
  | |- toks _ _ (mbind (require_chars _ _) _) => eapply tk_bind; [apply (tk_or _ _ _ _ (fun _ => True)); [reflexivity|trivial] | intros _ _]
  | |- toks _ _ (mbind (require_or _ _ _) _) => eapply tk_bind; [apply (tk_or _ _ _ _ (fun _ => True)); [reflexivity|trivial] | intros _ _]
  | |- toks _ _ (mbind (require_bytes _ _) _) => eapply tk_bind; [apply (tk_bytes _ _ _ (fun _ => True)); [reflexivity|trivial] | intros _ _]
  | |- toks _ _ (mbind (check_nmstrt _ _ _ _) _) => eapply (tk_bind _ _ _ (fun _ => True)); [apply tk_check_nmstrt; [reflexivity|reflexivity|exact I|] | intros ? _]
  | |- toks _ _ (stop_here _) => apply tk_here; reflexivity
  | |- toks _ _ (stop_after _ _) => apply tk_after; reflexivity
  | |- toks _ _ (ret _) => apply tk_ret; auto
  | |- toks _ _ (adv1 _) => apply tk_adv; auto
  | |- toks _ _ (check_name _ _ _ _) => apply tk_check_name; [reflexivity|reflexivity|auto|]
  | |- toks _ _ (match_invalid _ _ _ _) => apply tk_match_invalid; [reflexivity|reflexivity|auto|]
  | |- toks _ _ (while_partial _ _) => unfold while_partial; apply (tk_while _ _ _ _ (fun _ => True)); [intros ? _ | intros ? _; reflexivity | trivial]
  | |- toks _ _ (if ?c then _ else _) => destruct c
  | |- toks _ _ (match ?c with _ => _ end) => destruct c
  end.

(* the tokens that are neither comments nor processing instructions *)
Definition other (t : XML_TOK) : bool := match t with T_COMMENT | T_PI | T_XML_DECL => false | _ => true end.
Section Other.
Variable e : EncImpl.
Lemma lit_other {B} o (Q : B -> Prop) : toks other Q (scanLit e o).
Proof. unfold scanLit. repeat tkb. Qed.
Lemma percent_other {B} (Q : B -> Prop) : toks other Q (scanPercent e).
Proof. unfold scanPercent. repeat tkb. Qed.
Lemma pound_other {B} (Q : B -> Prop) : toks other Q (scanPoundName e).
Proof.
  unfold scanPoundName. tkb. tkb. tkb. { repeat tkb. }
  apply (tk_while _ _ _ _ (fun _ => True)); [intros ? _; repeat tkb | intros ? _; reflexivity | trivial].
Qed.
Lemma name_other {B} t (Q : B -> Prop) : t = T_NAME \/ t = T_NMTOKEN -> toks other Q (prolog_name e t).
Proof.
  intros Ht. unfold prolog_name. set (I t := t = T_NAME \/ t = T_NMTOKEN \/ t = T_PREFIXED_NAME).
  assert (Io : forall t, I t -> other t = true) by (intros ? [->|[->| ->]]; reflexivity).
  apply (tk_while _ _ _ _ I); unfold I; [|intros ? [->|[->| ->]]; reflexivity|tauto].
  intros s Hs. unfold prolog_name_body. tkb. apply tk_check_name; [reflexivity|reflexivity|exact Hs|].
  destruct a; try (apply tk_here; first [reflexivity | now apply Io]); try (destruct (tok_eqb s T_NMTOKEN); repeat tkb).
Qed.
Lemma srun_other {B} f (Q : B -> Prop) : toks other Q (prolog_s_run e f).
Proof.
  induction f as [|f IH]; intros b; [exact I|]. cbn [prolog_s_run]. unfold bind. destruct (inc_start _ b); [|exact I].
  destruct (negb _); [reflexivity|]. destruct (byte_type e a) as [t|]; [|exact I].
  destruct t; try reflexivity; try apply IH. destruct (_ =? _)%nat; [reflexivity|apply IH].
Qed.
End Other.

Section Cp.
Variables (lat ns : bool) (dom : N -> bool) (k : cls).
Hypothesis ST : std lat ns dom k.
Notation ce := (cp_enc k).
Notation doms := (all_in dom).
Definition pcp (t : XML_TOK) : Prop := other t = false.
Lemma decl_comment {B} cs t p : doms cs -> pcp t -> (@scanDecl ce B cs = stop t p <-> exists r, cs = 45 :: r /\ @comment_fn B r = stop t p).
Proof.
  intros Hd Ht. unfold scanDecl. destruct cs as [|c r]; [split; [discriminate|intros (? & ? & _); discriminate]|]. inversion Hd; subst. cps.
  pose proof (mi_t _ _ _ _ ST c H1) as S1.
  destruct (bt_eqb (ty k c) BT_MINUS) eqn:Em.
  - assert (E : c = 45) by lia. subst c. destruct (ty k 45); try discriminate. cps. rewrite (scanComment_eq' _ _ _ _ ST) by auto.
    split; [eauto|]. intros (r' & [= <-] & H). exact H.
  - split; [|intros (r' & [= -> _] & _); rewrite N.eqb_refl in S1; discriminate].
    assert (O : toks other (fun _ : B => True) (adv1 ce ;; while_partial ce (
        t <- bt ce ;;
        match t with
        | BT_PERCNT =>
            require_chars ce 2 ;;
            t2 <- bt_at ce 1 ;;
            match t2 with
            | BT_S | BT_CR | BT_LF | BT_PERCNT => stop_here T_INVALID
            | _ => stop_here T_DECL_OPEN
            end
        | BT_S | BT_CR | BT_LF => stop_here T_DECL_OPEN
        | BT_NMSTRT | BT_HEX => adv1 ce
        | _ => stop_here T_INVALID
        end))%scan) by (repeat tkb).
    intros H. exfalso. specialize (O (c :: r)). unfold pcp in Ht. clear S1 Hd.
    destruct (ty k c); try discriminate; cps; unfold stop in *; try (injection H as <- _; discriminate); rewrite H in O; congruence.
Qed.
Lemma prolog_pcp {B} cs t p : doms cs -> pcp t -> (@prologScan ce B cs = stop t p <->
  (exists r, cs = 60 :: 33 :: 45 :: r /\ @comment_fn B r = stop t p) \/ (exists r, cs = 60 :: 63 :: r /\ pi_fn lat ns B r = stop t p)).
Proof.
  intros Hd Ht. destruct cs as [|c r]. { split; [discriminate|]. intros [(? & ? & _)|(? & ? & _)]; discriminate. }
  inversion Hd; subst. unfold prologScan. cps. rewrite (no_lead _ _ _ _ ST) by auto.
  pose proof (lt_t _ _ _ _ ST c H1) as S1. destruct (bt_eqb (ty k c) BT_LT) eqn:El.
  - assert (E : c = 60) by lia. subst c. destruct (ty k 60); try discriminate. clear S1 El H1.
    destruct r as [|d q]. { split; [discriminate|]. intros [(? & ? & _)|(? & ? & _)]; discriminate. }
    cps. inversion H2; subst. pose proof (ex_t _ _ _ _ ST d H1) as S1. pose proof (qu_t _ _ _ _ ST d H1) as S2.
    destruct (bt_eqb (ty k d) BT_EXCL) eqn:Ee; [|destruct (bt_eqb (ty k d) BT_QUEST) eqn:Eq].
    + assert (E : d = 33) by lia. subst d. destruct (ty k 33); try discriminate. cps. etransitivity; [apply decl_comment; auto|]. split.
      * intros (r & -> & H). left. eauto.
      * intros [(r & [= ->] & H)|(r & E & _)]; [eauto|discriminate].
    + assert (E : d = 63) by lia. subst d. destruct (ty k 63); try discriminate. cps. rewrite (scanPi_eq _ _ _ _ ST) by auto. split.
      * intros H. right. eauto.
      * intros [(r & E & _)|(r & [= ->] & H)]; [discriminate|auto].
    + split.
      * intros H. exfalso. unfold pcp in Ht. destruct (ty k d); try discriminate; cps; unfold stop in H; injection H as <- _; discriminate.
      * intros [(r & [= -> _] & _)|(r & [= -> _] & _)]; rewrite N.eqb_refl in *; discriminate.
  - split; [|intros [(q & [= -> _] & _)|(q & [= -> _] & _)]; rewrite N.eqb_refl in S1; discriminate].
    intros H. exfalso. unfold pcp in Ht.
    assert (O : forall m : M B, toks other (fun _ => True) m -> m (c :: r) = stop t p -> False).
    { intros m Hm E. specialize (Hm (c :: r)). rewrite E in Hm. cbn in Hm. congruence. }
    clear S1 Hd. destruct (ty k c); try discriminate; try (eapply O; [|exact H]);
      repeat first [tkb | apply lit_other | apply percent_other | apply pound_other | apply name_other; auto | apply srun_other].
    destruct (_ =? _)%nat; [unfold stop in H; injection H as <- _; discriminate|exact (O _ (srun_other _ _ _) H)].
Qed.
End Cp.
(* restricting the repertoire *)
Lemma charset_sub e enc dom dom' k : (forall c, dom' c = true -> dom c = true) -> charset e enc dom k -> charset e enc dom' k.
Proof. intros H []. constructor; auto. Qed.
Lemma std_sub lat ns dom dom' k : (forall c, dom' c = true -> dom c = true) -> std lat ns dom k -> std lat ns dom' k.
Proof. intros H []. constructor; auto. Qed.

(* In the prolog: the same comments and processing instructions as in content. *)
Theorem prologTok_exact e enc dom lat ns cs t n : text_encoding e enc dom lat ns -> all_in dom cs ->
  (forall c, In c cs -> 128 <= c -> is_xml_char c = true) ->
  t = T_COMMENT \/ t = T_PI \/ t = T_XML_DECL ->
  (prologTok e (flat_map enc cs) = Ok (t, Some n) <->
   exists lexeme rest, cs = lexeme ++ rest /\ content_token lat ns t lexeme rest /\ n = length (flat_map enc lexeme)).
Proof.
  intros TE Hd0 Hw Ht. destruct (text_encoding_std _ _ _ _ _ TE) as (k & CS0 & ST0).
  set (dom' c := dom c && ((c <? 128) || is_xml_char c)).
  assert (Sub : forall c, dom' c = true -> dom c = true) by (unfold dom'; intros c H; now apply andb_prop in H).
  pose proof (charset_sub _ _ _ _ _ Sub CS0) as CS. pose proof (std_sub _ _ _ _ _ Sub ST0) as ST. clear CS0 ST0 Sub.
  assert (Hd : all_in dom' cs).
  { unfold all_in in *. rewrite Forall_forall in *. intros c Hc. unfold dom'. rewrite (Hd0 c Hc). cbn [andb]. specialize (Hw c Hc).
    destruct (c <? 128) eqn:E; [reflexivity|]. apply Hw. lia. }
  assert (Hx : forall c, dom' c = true -> 128 <= c -> is_xml_char c = true).
  { intros c Hc H128. unfold dom' in Hc. replace (c <? 128) with false in Hc by lia. now apply andb_prop in Hc. }
  rewrite (lift_tok enc false cs _ _ t n (prologTok_sim _ _ _ _ CS cs Hx Hd)) by discriminate.
  assert (Hp : pcp t) by (destruct Ht as [->|[->| ->]]; reflexivity).
  assert (Ht' : t <> T_INVALID) by (destruct Ht as [->|[->| ->]]; discriminate).
  assert (Ek : cs <> [] -> prologTok (cp_enc k) cs = tok_of cs (@prologScan (cp_enc k) Empty_set cs)) by (destruct cs; [congruence|reflexivity]).
  split.
  - intros (m & H & ->). destruct cs as [|c0 r0] eqn:Ec; [discriminate|]. rewrite <- Ec in *. rewrite Ek in H by (subst; discriminate).
    apply tok_of_some in H as (p & H & ->). apply (prolog_pcp _ _ _ _ ST) in H; auto.
    assert (exists l, cs = l ++ p /\ content_token lat ns t l p) as (l & E & Hl).
    { destruct H as [(r & -> & H)|(r & -> & H)].
      - apply comment_spec in H as (-> & b & -> & Hb); auto. exists (txt "<!--" ++ b ++ txt "-->"). split; [rewrite <- !app_assoc; reflexivity|now constructor].
      - apply pi_sound in H as (name & d & -> & Hn & Hpd & [[-> Hx']|[-> ->]]); auto.
        + exists (txt "<?" ++ name ++ d ++ txt "?>"). split; [rewrite <- !app_assoc; reflexivity|]. now constructor.
        + exists (txt "<?xml" ++ d ++ txt "?>"). split; [rewrite <- !app_assoc; reflexivity|]. now constructor. }
    exists l, p. split; auto. split; auto.
    rewrite E, app_length. replace (length l + length p - length p)%nat with (length l) by lia. apply at_char_app.
  - intros (l & p & E & Hl & ->). exists (length l). split; [|rewrite E; symmetry; apply at_char_app].
    rewrite Ek. 2:{ apply content_token_ne in Hl. destruct l; [congruence|subst; discriminate]. }
    assert (@prologScan (cp_enc k) Empty_set cs = stop t p) as ->.
    2:{ rewrite E, tok_of_stop. do 3 f_equal. rewrite app_length. lia. }
    apply (prolog_pcp _ _ _ _ ST); auto. rewrite E in *. clear E Ek.
    inversion Hl; subst; try (exfalso; destruct Ht as [|[|]]; discriminate); try (destruct atts, empty; discriminate).
    + left. exists (txt "-" ++ body ++ txt "-->" ++ p). split; [rewrite <- !app_assoc; reflexivity|]. apply comment_spec; auto. split; auto. exists body. auto.
    + right. exists (name ++ d ++ txt "?>" ++ p). split; [rewrite <- !app_assoc; reflexivity|]. apply (pi_complete _ _ _ _ ST); auto.
      unfold target. destruct (list_eq_dec _ _ _); [contradiction|reflexivity].
    + right. exists (txt "xml" ++ d ++ txt "?>" ++ p). split; [rewrite <- !app_assoc; reflexivity|]. apply (pi_complete _ _ _ _ ST); auto. apply (xml_is_name _ _ _ _ ST).
Qed.
