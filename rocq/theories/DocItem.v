(* A document as a sequence of pieces, and the tokens of this sequence in a buffer that may end anywhere. *)
From Coq Require Import String List NArith ZArith Bool Lia Arith.
From Coq Require Import ZifyBool ZifyNat ZifyN.
From Verif Require Import Base Encoding SpecText SpecUnicode SpecNames SpecLex SpecMisc SpecTok Tok EncLaws UniLaws TokWp TokEmit TokTop TokStabTop TokInst Charset CharsetLaws TextEnc CpContent CpUse.
From Verif Require Import Status State SpecAttVal SpecDoc DocTok.
From Coq Require Import List.
Import ListNotations.
Local Open Scope N_scope.

Inductive item :=
| IOpen (name : list N) (atts : list att_src) (given : list (list N * list N)) (sp : list N)
| IClose (name sp : list N)
| IPiece (p : piece).
Definition item_text (i : item) : list N :=
  match i with IOpen name atts _ sp => tag_text name atts sp false | IClose name sp => etag_text name sp | IPiece p => piece_text p end.
Definition text (l : list item) : list N := flat_map item_text l.
Definition item_reports (i : item) : list report :=
  match i with IOpen name _ given _ => [begins name given] | IClose name _ => [Ends (utf8 name)] | IPiece p => piece_reports p end.
Definition ireports (l : list item) : list report := flat_map item_reports l.
Definition is_chars (p : piece) : bool := match p with Chars _ => true | _ => false end.
(* what can follow character data *)
Definition markup (l : list item) : Prop := match l with [] => False | IPiece (Chars _) :: _ => False | _ => True end.
Inductive inside : list (list N) -> list item -> Prop :=
| in_nil : inside [] []
| in_open stk name atts given sp l : tag_good name atts given sp -> inside (name :: stk) l -> inside stk (IOpen name atts given sp :: l)
| in_close stk name sp l : is_name false false name -> spaces sp -> inside stk l -> (stk = [] -> l = []) -> inside (name :: stk) (IClose name sp :: l)
| in_piece stk p l : stk <> [] -> piece_good p -> inside stk l -> (is_chars p = true -> markup l) -> inside stk (IPiece p :: l)
| in_root name atts given sp : tag_good name atts given sp -> inside [] [IPiece (Empty name atts given sp)].

(* ---- from trees to sequences ---- *)
Fixpoint items (n : node) : list item :=
  match n with
  | Leaf p => [IPiece p]
  | Element name atts given sp kids sp' => IOpen name atts given sp :: flat_map items kids ++ [IClose name sp']
  end.
Section NodeInd.
Variable Q : node -> Prop.
Hypothesis Hl : forall p, Q (Leaf p).
Hypothesis He : forall name atts given sp kids sp', Forall Q kids -> Q (Element name atts given sp kids sp').
Fixpoint node_rec' (n : node) : Q n :=
  match n with
  | Leaf p => Hl p
  | Element name atts given sp kids sp' =>
      He name atts given sp kids sp' ((fix go (l : list node) : Forall Q l := match l with [] => Forall_nil Q | k :: l => Forall_cons k (node_rec' k) (go l) end) kids)
  end.
End NodeInd.
Lemma text_app a b : text (a ++ b) = text a ++ text b. Proof. apply flat_map_app. Qed.
Lemma items_text n : text (items n) = source n.
Proof.
  induction n as [p|name atts given sp kids sp' F] using node_rec'; [apply app_nil_r|]. cbn [items source text flat_map item_text]. f_equal.
  rewrite flat_map_app. cbn [flat_map item_text]. rewrite app_nil_r. f_equal. clear -F. induction F as [|n l H F IH]; [reflexivity|]. cbn [flat_map]. rewrite flat_map_app. f_equal; [exact H|exact IH].
Qed.
Lemma items_reports n : ireports (items n) = reports n.
Proof.
  induction n as [p|name atts given sp kids sp' F] using node_rec'; [apply app_nil_r|]. cbn [items reports ireports flat_map item_reports List.app]. f_equal.
  rewrite flat_map_app. cbn [flat_map item_reports List.app]. f_equal. clear -F. induction F as [|n l H F IH]; [reflexivity|]. cbn [flat_map]. rewrite flat_map_app. f_equal; [exact H|exact IH].
Qed.
Definition chars_node (n : node) : bool := match n with Leaf (Chars _) => true | _ => false end.
Lemma qname_name name : is_qname false false name -> is_name false false name.
Proof. intros [H|[H _]]; [exact H|discriminate]. Qed.
Lemma items_ne n : items n <> []. Proof. destruct n; discriminate. Qed.
Lemma items_markup n l : chars_node n = false -> markup (items n ++ l).
Proof. destruct n as [[]|]; cbn; auto; discriminate. Qed.
Lemma items_inside n : good n -> forall stk l, stk <> [] -> inside stk l -> (chars_node n = true -> markup l) -> inside stk (items n ++ l).
Proof.
  induction n as [p|name atts given sp kids sp' F] using node_rec'; intros G stk l Hs Hl Hm.
  - inversion G; subst. cbn [items List.app]. apply in_piece; auto.
  - inversion G as [|? ? ? ? ? ? Ht Hsp Hk Ha]; subst. cbn [items List.app]. constructor; [exact Ht|]. rewrite <- app_assoc.
    assert (End : inside (name :: stk) ([IClose name sp'] ++ l)).
    { cbn [List.app]. constructor; [apply qname_name; apply Ht|exact Hsp|exact Hl|intros; congruence]. }
    assert (ME : markup ([IClose name sp'] ++ l)) by exact I. revert End ME. generalize ([IClose name sp'] ++ l). clear Hl Hm G. intros l' End ME.
    induction F as [|k kids Hq F IH]; cbn [flat_map List.app]; [exact End|].
    inversion Hk as [|? ? Gk Hk']; subst. rewrite <- app_assoc. apply Hq; auto; [discriminate| |].
    + apply IH; auto. destruct k as [[]|]; try exact Ha. destruct kids as [|[[]|] kids]; cbn in Ha; tauto.
    + intros X. destruct kids as [|k' kids]; [exact ME|]. cbn [flat_map]. rewrite <- app_assoc. apply items_markup.
      destruct k as [[]|]; try discriminate. destruct k' as [[]|]; cbn in Ha |- *; tauto.
Qed.
Lemma root_inside n : good n -> is_element n = true -> inside [] (items n).
Proof.
  intros G E. destruct n as [[]|]; try discriminate.
  - inversion G as [p Hp|]; subst. apply in_root. exact Hp.
  - inversion G as [|? ? ? ? ? ? Ht Hsp Hk Ha]; subst. cbn [items]. constructor; [exact Ht|].
    assert (End : inside [name] [IClose name sp']) by (constructor; [apply qname_name; apply Ht|exact Hsp|constructor|reflexivity]).
    assert (ME : markup [IClose name sp']) by exact I. revert End ME. generalize [IClose name sp']. clear G E. intros l' End ME.
    induction kids as [|k kids IH]; cbn [flat_map List.app]; [exact End|]. inversion Hk as [|? ? Gk Hk']; subst. rewrite <- app_assoc. apply items_inside; auto; [discriminate| |].
    + apply IH; auto. destruct k as [[]|]; try exact Ha. destruct kids as [|[[]|] kids]; cbn in Ha; tauto.
    + intros X. destruct kids as [|k' kids]; [exact ME|]. cbn [flat_map]. rewrite <- app_assoc. apply items_markup.
      destruct k as [[]|]; try discriminate. destruct k' as [[]|]; cbn in Ha |- *; tauto.
Qed.

(* ---- steps: one token ---- *)
Inductive place := Content (l : list item) | Sect (cs : list N) (l : list item).
Definition place_text (p : place) : list N := match p with Content l => text l | Sect cs l => cs ++ txt "]]>" ++ text l end.
Definition chars (cs : list N) (l : list item) : list item := match cs with [] => l | _ => IPiece (Chars cs) :: l end.
Lemma chars_text cs l : text (chars cs l) = cs ++ text l. Proof. destruct cs; reflexivity. Qed.
(* a line end [e] before [r] *)
Definition line_end (e r : list N) : Prop := e = [10] \/ e = [13; 10] \/ (e = [13] /\ hd_error r <> Some 10).
Inductive step : list item -> XML_TOK -> list N -> place -> Prop :=
| sp_open name atts given sp l : step (IOpen name atts given sp :: l) (tag_token atts false) (tag_text name atts sp false) (Content l)
| sp_close name sp l : step (IClose name sp :: l) T_END_TAG (etag_text name sp) (Content l)
| sp_empty name atts given sp l : step (IPiece (Empty name atts given sp) :: l) (tag_token atts true) (tag_text name atts sp true) (Content l)
| sp_char r c l : char_ref r -> refers r c -> step (IPiece (Reference r c) :: l) T_CHAR_REF r (Content l)
| sp_name n c l : In (n, c) predefined -> step (IPiece (Reference (txt "&" ++ n ++ txt ";") c) :: l) T_ENTITY_REF (txt "&" ++ n ++ txt ";") (Content l)
| sp_section cs l : step (IPiece (Section cs) :: l) T_CDATA_SECT_OPEN (txt "<![CDATA[") (Sect cs l)
| sp_comment body l : step (IPiece (Comment body) :: l) T_COMMENT (comment_text body) (Content l)
| sp_instruction target data l : step (IPiece (Instruction target data) :: l) T_PI (pi_text target data) (Content l)
| sp_data a r l : a <> [] -> all_in data_char a -> step (IPiece (Chars (a ++ r)) :: l) T_DATA_CHARS a (Content (chars r l))
| sp_newline e r l : line_end e r -> step (IPiece (Chars (e ++ r)) :: l) T_DATA_NEWLINE e (Content (chars r l)).
Lemma step_text l t lx p : step l t lx p -> text l = lx ++ place_text p.
Proof.
  intros H. destruct H; cbn [place_text text flat_map item_text piece_text]; rewrite ?chars_text; try reflexivity.
  - unfold section_text. rewrite <- !app_assoc. reflexivity.
  - rewrite <- app_assoc. reflexivity.
  - rewrite <- app_assoc. reflexivity.
Qed.
Lemma markup_head stk l : inside stk l -> markup l -> exists c r, text l = c :: r /\ (c = 60 \/ c = 38).
Proof.
  intros H M. inversion H; subst; try contradiction; cbn [text flat_map item_text]; unfold tag_text, etag_text;
    try (eexists _, _; split; [change (txt "<") with [60]; change (txt "</") with [60; 47]; cbn [List.app]; reflexivity|]; tauto).
  - destruct p; cbn [piece_text] in *; try (exfalso; exact M); unfold tag_text, section_text, comment_text, pi_text;
      try (eexists _, _; split; [match goal with |- context [txt ?s] => let x := eval vm_compute in (txt s) in change (txt s) with x end; cbn [List.app]; reflexivity|tauto]).
    cbn in H1. inversion H1; subst; (eexists _, _; split; [match goal with |- context [txt ?s] => let x := eval vm_compute in (txt s) in change (txt s) with x end; cbn [List.app]; reflexivity|tauto]).
Qed.
Lemma predefined_name n c : In (n, c) predefined -> is_name false false n.
Proof.
  unfold predefined. cbn [In]. intros H. repeat destruct H as [H|H]; try contradiction; injection H as <- <-; eexists _, _; (split; [reflexivity|]); (split; [vm_compute; reflexivity|]); repeat constructor.
Qed.
Lemma name_etag name sp : is_name false false name -> spaces sp -> etag_ok false false name sp.
Proof. intros (c & r & -> & Hc & Hr) Hs. split; [exists c, r; auto|exact Hs]. Qed.
Lemma text_data c : text_char c = true -> data_char c = false -> c = 13 \/ c = 10.
Proof. unfold text_char, data_char. destruct (is_xml_char c); cbn [andb]; [|discriminate]. lia. Qed.
Lemma suffix_good a r : r <> [] -> piece_good (Chars (a ++ r)) -> piece_good (Chars r).
Proof.
  intros Hr (_ & Hc & Ho). split; [exact Hr|]. split; [apply Forall_app in Hc; apply Hc|]. intros K. apply Ho. now apply occurs_tail.
Qed.
Lemma chars_no_close a r c q : ~ occurs (txt "]]>") (a ++ r) -> (c = 60 \/ c = 38) -> no_close a (r ++ c :: q).
Proof.
  intros Ho Hc a1 a2 -> Hn [(y & K)|[K|K]].
  - change (txt "]]>") with [93; 93; 62] in *. cbn [List.app] in K. apply Ho. rewrite <- app_assoc. apply occurs_tail.
    assert (E : exists z, a2 ++ r = [93; 93; 62] ++ z).
    { rewrite app_assoc in K. destruct (a2 ++ r) as [|x1 [|x2 [|x3 z]]]; cbn [List.app] in K; injection K; intros; subst; try (destruct Hc; discriminate). exists z. reflexivity. }
    destruct E as (z & ->). exists [], z. reflexivity.
  - change (txt "]") with [93] in K. rewrite app_assoc in K. apply (f_equal (@rev N)) in K.
    destruct (a2 ++ r) as [|x z] eqn:E; [destruct a2; [congruence|discriminate]|]. apply (f_equal (@length N)) in K. rewrite !rev_length, app_length in K. cbn in K. lia.
  - change (txt "]]") with [93; 93] in K. rewrite app_assoc in K. destruct (a2 ++ r) as [|x [|y z]] eqn:E; [destruct a2; [congruence|discriminate]| |].
    + cbn in K. injection K as _ K _. destruct Hc; congruence.
    + apply (f_equal (@length N)) in K. cbn in K. rewrite app_length in K. cbn in K. lia.
Qed.
Lemma step_token stk l : inside stk l -> l <> [] -> exists t lx p, step l t lx p /\ content_token false false t lx (place_text p).
Proof.
  intros H Hn. inversion H; subst; [congruence|..].
  - eexists _, _, _. split; [apply sp_open|]. constructor. apply H0.
  - eexists _, _, _. split; [apply sp_close|]. constructor. apply name_etag; assumption.
  - rename l0 into l. destruct p; cbn [piece_good] in H1.
    + eexists _, _, _. split; [apply sp_empty|]. constructor. apply H1.
    + destruct H1 as (Hne & Hc & Ho). destruct (markup_head stk l H2 (H3 eq_refl)) as (m & q & Em & Hm).
      destruct cs as [|c cs]; [congruence|]. destruct (data_char c) eqn:Ed.
      * destruct (span data_char cs) as (a & r & -> & Ha & Hs). eexists _, _, _. split; [apply (sp_data (c :: a) r l); [discriminate|constructor; auto]|].
        cbn [place_text]. rewrite chars_text, Em. constructor; [discriminate|constructor; auto| |].
        -- apply chars_no_close; auto.
        -- left. destruct r as [|x r]; [cbn; destruct Hm; subst; reflexivity|exact Hs].
      * inversion Hc as [|? ? Hc1 Hc2]; subst. destruct (text_data c Hc1 Ed) as [-> | ->].
        -- destruct cs as [|d cs].
           ++ eexists _, _, _. split; [apply (sp_newline [13] [] l); right; right; split; [reflexivity|discriminate]|]. cbn [place_text chars]. rewrite Em. constructor. destruct Hm; subst; discriminate.
           ++ destruct (N.eq_dec d 10) as [-> |Nd].
              ** eexists _, _, _. split; [apply (sp_newline [13; 10] cs l); right; left; reflexivity|]. constructor.
              ** eexists _, _, _. split; [apply (sp_newline [13] (d :: cs) l); right; right; split; [reflexivity|cbn; congruence]|]. cbn [place_text]. rewrite chars_text. now constructor.
        -- eexists _, _, _. split; [apply (sp_newline [10] cs l); left; reflexivity|]. constructor.
    + inversion H1; subst.
      * eexists _, _, _. split; [apply sp_char; [left; eauto|now constructor]|]. constructor. left; eauto.
      * eexists _, _, _. split; [apply sp_char; [right; eauto|now constructor]|]. constructor. right; eauto.
      * eexists _, _, _. split; [apply sp_name; eassumption|]. constructor. eexists. split; [eapply predefined_name; eassumption|reflexivity].
    + eexists _, _, _. split; [apply sp_section|]. constructor.
    + eexists _, _, _. split; [apply sp_comment|]. constructor. exact H1.
    + eexists _, _, _. split; [apply sp_instruction|]. constructor; apply H1.
  - eexists _, _, _. split; [apply sp_empty|]. constructor. apply H0.
Qed.
Lemma split_app {A} (u v b x : list A) : b ++ x = u ++ v -> (length u <= length b)%nat -> exists b', b = u ++ b' /\ b' ++ x = v.
Proof.
  revert b. induction u as [|c u IH]; intros b H L; [exists b; auto|]. destruct b as [|d b]; [cbn in L; lia|]. cbn in H. injection H as -> H.
  destruct (IH b H) as (b' & -> & E); [cbn in L; lia|]. exists b'. auto.
Qed.
Lemma prefix_stop (f : N -> bool) a q cs m z : a ++ q = cs ++ m :: z -> all_in f a -> f m = false -> exists r, cs = a ++ r /\ q = r ++ m :: z.
Proof.
  revert cs. induction a as [|c a IH]; intros cs H Ha Hm; [exists cs; auto|]. inversion Ha; subst. destruct cs as [|d cs]; cbn in H; injection H as -> H.
  - congruence.
  - destruct (IH cs H) as (r & -> & ->); auto. exists r. auto.
Qed.
Lemma scalar_max c : is_scalar c = true -> c < 1114112.
Proof. unfold is_scalar. lia. Qed.
Lemma scalar_bytes cs : all_in is_scalar cs -> bytes_ok (utf8 cs).
Proof. intros H. apply utf8_bytes. eapply Forall_impl; [|exact H]. intros c. apply scalar_max. Qed.
Lemma stub_content p n : stub p -> contentTok u8 p <> Ok (T_DATA_CHARS, Some n).
Proof.
  intros Sp H. destruct (stub_run p Sp) as [-> |(_ & t & k & H1 & H2 & H3)]; [discriminate|]. unfold contentTok in H. change (round_down u8 p) with p in H.
  destruct (is_nil p); [discriminate|]. apply tok_stop in H as (y & H & _). unfold contentScan, mbind, bt in H. rewrite H1 in H. cbn [bind] in H.
  unfold match_invalid in H. rewrite H2 in H. unfold mbind, require_bytes, stop_none in H. rewrite H3 in H. cbn [bind negb] in H. discriminate.
Qed.
Lemma stub_cdata p n : stub p -> cdataSectionTok u8 p <> Ok (T_DATA_CHARS, Some n).
Proof.
  intros Sp H. destruct (stub_run p Sp) as [-> |(_ & t & k & H1 & H2 & H3)]; [discriminate|]. unfold cdataSectionTok in H. change (round_down u8 p) with p in H.
  destruct (is_nil p); [discriminate|]. apply tok_stop in H as (y & H & _). unfold cdataSectionScan, mbind, bt in H. rewrite H1 in H. cbn [bind] in H.
  unfold match_invalid in H. rewrite H2 in H. unfold mbind, require_bytes, stop_none in H. rewrite H3 in H. cbn [bind negb] in H. discriminate.
Qed.
Lemma step_cut stk l b x : inside stk l -> l <> [] -> all_in is_scalar (text l) -> b ++ x = utf8 (text l) ->
  (exists t, contentTok u8 b = Ok (t, None) /\ waits t /\ x <> []) \/
  (exists t lx p b', contentTok u8 b = Ok (t, Some (length (utf8 lx))) /\ step l t lx p /\ b = utf8 lx ++ b' /\ b' ++ x = utf8 (place_text p)).
Proof.
  intros Hi Hn Hs E. destruct (step_token stk l Hi Hn) as (t0 & lx0 & p0 & S0 & T0). pose proof (step_text _ _ _ _ S0) as Et.
  assert (Hti : t0 <> T_INVALID) by (inversion T0; try discriminate; destruct atts, empty; discriminate).
  assert (W : contentTok u8 (utf8 (text l)) = Ok (t0, Some (length (utf8 lx0)))).
  { apply (contentTok_exact u8 utf8_encode is_scalar false false (text l) t0 _ te_utf8 Hs Hti). exists lx0, (place_text p0). auto. }
  pose proof (scalar_bytes _ Hs) as Hb. rewrite <- E in Hb, W. apply Forall_app in Hb as [Hb Hx].
  pose proof (contentTok_ok u8 (doc_encoding_ok u8 de_utf8) b Hb) as K. destruct (contentTok u8 b) as [[t [n|]]|] eqn:Eb; [| |destruct K].
  2:{ left. exists t. split; [reflexivity|]. split; [exact (content_wait u8 b t de_utf8 Hb Eb)|]. intros ->. rewrite app_nil_r, Eb in W. discriminate. }
  right. cbn in K. destruct K as [Kn _].
  assert (D : {t = T_DATA_CHARS} + {t <> T_DATA_CHARS}) by (destruct t; try (right; discriminate); left; reflexivity). destruct D as [-> |D].
  - destruct (contentTok_data u8 (doc_encoding_ok u8 de_utf8) b x n Hb Hx Eb) as [(n' & _ & Ed)|(k & _ & Ed & _)]; rewrite W in Ed; [|congruence].
    injection Ed as -> Ed. clear T0. assert (X : exists a0 r0 l1, l = IPiece (Chars (a0 ++ r0)) :: l1 /\ a0 <> [] /\ all_in data_char a0).
    { inversion S0; subst; try (destruct atts; discriminate). eauto 10. }
    destruct X as (a0 & r0 & l1 & -> & Ha0 & Da0). clear S0 Et p0.
    destruct (cut _ b x Hs E) as (c1 & c2 & p & Ec & Eb' & Sp & Ex). subst b.
    destruct c1 as [|c c1]; [exfalso; exact (stub_content p n Sp Eb)|].
    assert (M : exists m z, text l1 = m :: z /\ (m = 60 \/ m = 38)).
    { inversion Hi; subst. eapply markup_head; eauto. }
    destruct M as (m & z & Em & Hm). cbn [text flat_map item_text piece_text] in Ec, Hs. change (flat_map item_text l1) with (text l1) in Ec, Hs. rewrite Em in Ec.
    assert (Hc : c <> 60 /\ c <> 38).
    { destruct a0 as [|y a0]; [congruence|]. cbn in Ec. injection Ec as -> _. inversion Da0 as [|? ? Hy _]; subst. unfold data_char in Hy. destruct (is_xml_char c); cbn in Hy; [|discriminate]. lia. }
    assert (S1 : all_in is_scalar (c :: c1)).
    { rewrite Em, Ec in Hs. apply Forall_app in Hs. apply Hs. }
    destruct (content_data_cut (c :: c1) p n Sp S1) as (a & r & Ea & Na & En & Da); [exists c, c1; tauto|exact Eb|].
    rewrite Ea in Ec. symmetry in Ec. rewrite <- (app_assoc a r c2) in Ec. destruct (prefix_stop data_char a (r ++ c2) (a0 ++ r0) m z Ec Da) as (q & Eq & Er); [destruct Hm; subst; reflexivity|].
    rewrite Eq, Ea. exists T_DATA_CHARS, a, (Content (chars q l1)), (utf8 r ++ p). split; [rewrite En; reflexivity|]. split; [constructor; auto|].
    split; [rewrite utf8_app, <- app_assoc; reflexivity|]. cbn [place_text]. rewrite chars_text, Em, <- Er, <- app_assoc, Ex, utf8_app. reflexivity.
  - pose proof (contentTok_stable u8 (doc_encoding_ok u8 de_utf8) b x t n Hb Hx Eb D) as Es. rewrite W in Es. injection Es as <- <-.
    rewrite Et, utf8_app in E. destruct (split_app _ _ _ _ E Kn) as (b' & -> & E'). exists t0, lx0, p0, b'. auto.
Qed.

(* ---- the same inside a section ---- *)
Definition section_good (cs : list N) : Prop := xml_text cs /\ ~ occurs (txt "]]>") (cs ++ txt "]]").
Inductive cstep : list N -> XML_TOK -> list N -> option (list N) -> Prop :=
| cs_close : cstep [] T_CDATA_SECT_CLOSE (txt "]]>") None
| cs_data a r : a <> [] -> ~ In 13 a -> cstep (a ++ r) T_DATA_CHARS a (Some r)
| cs_newline e r : line_end e r -> cstep (e ++ r) T_DATA_NEWLINE e (Some r).
Definition after (o : option (list N)) (more : list N) : list N := match o with Some cs => cs ++ txt "]]>" ++ more | None => more end.
Lemma cstep_text cs t lx o more : cstep cs t lx o -> cs ++ txt "]]>" ++ more = lx ++ after o more.
Proof. intros H. destruct H; cbn [after]; rewrite <- ?app_assoc; reflexivity. Qed.
Lemma section_suffix a r : section_good (a ++ r) -> section_good r.
Proof. intros [H1 H2]. split; [apply Forall_app in H1; apply H1|]. intros K. apply H2. rewrite <- app_assoc. now apply occurs_tail. Qed.
Lemma cdata_not_cr a : all_in cdata_char a -> ~ In 13 a.
Proof. intros H I. unfold all_in in H. rewrite Forall_forall in H. apply H in I. unfold cdata_char in I. destruct (is_xml_char 13); discriminate. Qed.
Lemma cstep_token cs more : section_good cs -> exists t lx o, cstep cs t lx o /\ cdata_token t lx (after o more).
Proof.
  intros [Hx Ho]. destruct cs as [|c cs].
  - eexists _, _, _. split; [apply cs_close|]. constructor.
  - destruct (cdata_char c) eqn:Ec.
    + destruct (span cdata_char cs) as (a & r & -> & Ha & Hr). eexists _, _, _. split; [apply (cs_data (c :: a) r); [discriminate|apply cdata_not_cr; constructor; auto]|].
      cbn [after]. constructor; [discriminate|constructor; auto|]. destruct r; [reflexivity|exact Hr].
    + inversion Hx as [|? ? Hc Hx']; subst. unfold cdata_char in Ec. rewrite Hc in Ec. cbn [andb] in Ec.
      assert (c = 93 \/ c = 13 \/ c = 10) as [-> |[-> | ->]] by lia.
      * destruct (span cdata_char cs) as (a & r & -> & Ha & Hr). eexists _, _, _. split; [apply (cs_data (93 :: a) r); [discriminate|intros [X|X]; [discriminate|exact (cdata_not_cr a Ha X)]]|].
        cbn [after]. change (93 :: a) with (txt "]" ++ a). constructor; auto; [destruct r; [reflexivity|exact Hr]|].
        change (txt "]") with [93] in *. change (txt "]]") with [93; 93] in *. change (txt "]]>") with [93; 93; 62] in *. cbn [app] in *.
        intros K. unfold may_close in K. change (txt "]") with [93] in *. change (txt "]]") with [93; 93] in *. change (txt "]]>") with [93; 93; 62] in *.
        assert (exists q, 93 :: a ++ r ++ 93 :: 93 :: 62 :: more = 93 :: 93 :: 62 :: q) as (q & K').
        { destruct K as [(q & K)|[K|K]]; [exists q; exact K| |]; exfalso; apply (f_equal (@length N)) in K; cbn [length] in K; rewrite !app_length in K; cbn [length] in K; lia. }
        injection K' as K'. apply Ho. exists []. rewrite app_assoc in K'. clear - K'.
        destruct (a ++ r) as [|x s] eqn:E; cbn in K'; [discriminate K'|].
        injection K' as -> K'. destruct s as [|y s]; cbn in K'; [discriminate K'|]. injection K' as -> K'.
        exists (s ++ [93; 93]). reflexivity.
      * destruct cs as [|d cs]; [|destruct (N.eq_dec d 10) as [-> |Nd]].
        -- eexists _, _, _. split; [apply (cs_newline [13] []); right; right; split; [reflexivity|discriminate]|]. constructor. discriminate.
        -- eexists _, _, _. split; [apply (cs_newline [13; 10] cs); right; left; reflexivity|]. constructor.
        -- eexists _, _, _. split; [apply (cs_newline [13] (d :: cs)); right; right; split; [reflexivity|cbn; congruence]|]. now constructor.
      * eexists _, _, _. split; [apply (cs_newline [10] cs); left; reflexivity|]. constructor.
Qed.
Lemma cstep_cut cs more b x : section_good cs -> all_in is_scalar (cs ++ txt "]]>" ++ more) -> b ++ x = utf8 (cs ++ txt "]]>" ++ more) ->
  (exists t, cdataSectionTok u8 b = Ok (t, None) /\ cwaits t /\ x <> []) \/
  (exists t lx o b', cdataSectionTok u8 b = Ok (t, Some (length (utf8 lx))) /\ cstep cs t lx o /\ b = utf8 lx ++ b' /\ b' ++ x = utf8 (after o more)).
Proof.
  intros Hg Hs E. destruct (cstep_token cs more Hg) as (t0 & lx0 & p0 & S0 & T0). pose proof (cstep_text _ _ _ _ more S0) as Et.
  assert (Hti : t0 <> T_INVALID) by (inversion T0; discriminate).
  assert (W : cdataSectionTok u8 (utf8 (cs ++ txt "]]>" ++ more)) = Ok (t0, Some (length (utf8 lx0)))).
  { apply (cdataTok_exact u8 utf8_encode is_scalar false false _ t0 _ te_utf8 Hs Hti). exists lx0, (after p0 more). auto. }
  pose proof (scalar_bytes _ Hs) as Hb. rewrite <- E in Hb, W. apply Forall_app in Hb as [Hb Hx].
  pose proof (cdataSectionTok_ok u8 (doc_encoding_ok u8 de_utf8) b Hb) as K. destruct (cdataSectionTok u8 b) as [[t [n|]]|] eqn:Eb; [| |destruct K].
  2:{ left. exists t. split; [reflexivity|]. split; [exact (cdata_wait u8 b t de_utf8 Hb Eb)|]. intros ->. rewrite app_nil_r, Eb in W. discriminate. }
  right. cbn in K. destruct K as [Kn _].
  assert (D : {t = T_DATA_CHARS} + {t <> T_DATA_CHARS}) by (destruct t; try (right; discriminate); left; reflexivity). destruct D as [-> |D].
  - destruct (cdataSectionTok_data u8 (doc_encoding_ok u8 de_utf8) b x n Hb Hx Eb) as (n' & _ & Ed & _). rewrite W in Ed.
    injection Ed as -> Ed. clear T0. assert (X : exists c0 cs', cs = c0 :: cs').
    { inversion S0; subst. destruct lx0; [congruence|]. eexists _, _. reflexivity. }
    destruct X as (c0 & cs' & ->). clear S0 Et p0.
    destruct (cut _ b x Hs E) as (c1 & c2 & p & Ec & Eb' & Sp & Ex). subst b.
    destruct c1 as [|c c1]; [exfalso; exact (stub_cdata p n Sp Eb)|].
    cbn [List.app] in Ec, Hs. injection Ec as -> Ec.
    assert (S1 : all_in is_scalar (c :: c1)) by (change (all_in is_scalar (c :: cs' ++ 93 :: 93 :: 62 :: more)) in Hs; change (cs' ++ 93 :: 93 :: 62 :: more = c1 ++ c2) in Ec; rewrite Ec, app_comm_cons in Hs; apply Forall_app in Hs; apply Hs).
    destruct (cdata_data_cut (c :: c1) p n Sp S1) as (c' & a & r & Ea & En & Da & Dc); [eauto|exact Eb|]. injection Ea as <- ->.
    symmetry in Ec. rewrite <- (app_assoc a r c2) in Ec. change (txt "]]>" ++ more) with (93 :: 93 :: 62 :: more) in Ec.
    destruct (prefix_stop cdata_char a (r ++ c2) cs' 93 _ Ec Da eq_refl) as (q & -> & Er).
    exists T_DATA_CHARS, (c :: a), (Some q), (utf8 r ++ p). split; [rewrite En; reflexivity|]. split.
    { apply (cs_data (c :: a) q); [discriminate|]. intros [X|X]; [|exact (cdata_not_cr a Da X)]. subst c. destruct Dc as [Dc|Dc]; discriminate. }
    split; [rewrite !utf8_cons, utf8_app, <- !app_assoc; reflexivity|]. cbn [after]. change (txt "]]>" ++ more) with (93 :: 93 :: 62 :: more). rewrite <- Er, <- app_assoc, Ex, utf8_app. reflexivity.
  - pose proof (cdataSectionTok_stable u8 (doc_encoding_ok u8 de_utf8) b x t n Hb Hx Eb D) as Es. rewrite W in Es. injection Es as <- <-.
    rewrite Et, utf8_app in E. destruct (split_app _ _ _ _ E Kn) as (b' & -> & E'). exists t0, lx0, p0, b'. auto.
Qed.
(* line ends *)
Lemma norm_line e r : line_end e r -> norm_eol (e ++ r) = 10 :: norm_eol r.
Proof. intros [-> |[-> |[-> H]]]; try reflexivity. destruct r as [|d r]; [reflexivity|]. cbn [List.app norm_eol]. change (13 =? 13) with true. cbn in H |- *. replace (d =? 10) with false by (cbn in H; destruct (d =? 10) eqn:E; [exfalso; apply H; f_equal; lia|reflexivity]). reflexivity. Qed.
Lemma norm_data a r : ~ In 13 a -> norm_eol (a ++ r) = a ++ norm_eol r.
Proof. induction a as [|c a IH]; intros H; [reflexivity|]. cbn [List.app norm_eol]. replace (c =? 13) with false by (destruct (c =? 13) eqn:E; [exfalso; apply H; left; lia|reflexivity]). f_equal. apply IH. intros I. apply H. right. exact I. Qed.
