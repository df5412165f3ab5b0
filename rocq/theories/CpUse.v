(* Consequences of the exact description of the tokens. *)
From Coq Require Import String List NArith ZArith Bool Lia Arith.
From Coq Require Import ZifyBool ZifyNat ZifyN.
From Verif Require Import Base Encoding SpecText SpecUnicode SpecNames SpecLex EncLaws Tok TokWp TokSafe Charset CharsetLaws Sim SimTop TextEnc CpBase CpComment CpTag CpStart CpContent CpProlog.
Import ListNotations.
Local Open Scope N_scope.

Section Use.
Variables (e : EncImpl) (enc : N -> list N) (dom : N -> bool) (lat ns : bool).
Hypothesis TE : text_encoding e enc dom lat ns.

(* a text on which the content tokeniser reports an error *)
Lemma content_inv k cs p : charset e enc dom k -> std lat ns dom k -> all_in dom cs -> cs <> [] ->
  @content_fn lat ns k Empty_set cs = stop T_INVALID p -> forall a, cs = a ++ p ->
  contentTok e (flat_map enc cs) = Ok (T_INVALID, Some (length (flat_map enc a))).
Proof.
  intros CS ST Hd Hc H a E. pose proof (contentTok_sim _ _ _ _ CS _ Hd) as S.
  rewrite (contentTok_eq _ _ _ _ ST), H in S; auto. rewrite tok_of_stop in S. cbn [same_tok] in S. rewrite S. do 3 f_equal.
  rewrite E, app_length. replace (length a + length p - length p)%nat with (length a) by lia. apply at_char_app.
Qed.
Lemma content_comment cs t n : all_in dom cs -> t = T_COMMENT ->
  (contentTok e (flat_map enc cs) = Ok (t, Some n) <->
   exists body rest, cs = txt "<!--" ++ body ++ txt "-->" ++ rest /\ comment_body body /\ n = length (flat_map enc (txt "<!--" ++ body ++ txt "-->"))).
Proof.
  intros Hd ->. rewrite (contentTok_exact _ _ _ _ _ _ _ _ TE Hd) by discriminate. split.
  - intros (l & r & -> & H & ->). inversion H; subst; try (destruct atts, empty; discriminate). exists body, r. rewrite <- !app_assoc. auto.
  - intros (body & r & -> & H & ->). exists (txt "<!--" ++ body ++ txt "-->"), r. rewrite <- !app_assoc. split; auto. split; auto. now constructor.
Qed.
Lemma prolog_comment cs n : all_in dom cs -> (forall c, In c cs -> 128 <= c -> is_xml_char c = true) ->
  (prologTok e (flat_map enc cs) = Ok (T_COMMENT, Some n) <->
   exists body rest, cs = txt "<!--" ++ body ++ txt "-->" ++ rest /\ comment_body body /\ n = length (flat_map enc (txt "<!--" ++ body ++ txt "-->"))).
Proof.
  intros Hd Hx. rewrite (prologTok_exact _ _ _ _ _ _ _ _ TE Hd Hx) by auto. split.
  - intros (l & r & -> & H & ->). inversion H; subst; try (destruct atts, empty; discriminate). exists body, r. rewrite <- !app_assoc. auto.
  - intros (body & r & -> & H & ->). exists (txt "<!--" ++ body ++ txt "-->"), r. rewrite <- !app_assoc. split; auto. split; auto. now constructor.
Qed.
Lemma comment_hyphens body f q : all_in dom (txt "<!--" ++ body ++ txt "--" ++ f :: q) -> comment_body body -> f <> 62 ->
  contentTok e (flat_map enc (txt "<!--" ++ body ++ txt "--" ++ f :: q)) = Ok (T_INVALID, Some (length (flat_map enc (txt "<!--" ++ body ++ txt "--")))).
Proof.
  intros Hd Hb Hf. destruct (text_encoding_std _ _ _ _ _ TE) as (k & CS & ST).
  apply (content_inv k _ (f :: q) CS ST); auto; [discriminate| |rewrite <- !app_assoc; reflexivity].
  change (txt "<!--" ++ body ++ txt "--" ++ f :: q) with (60 :: 33 :: 45 :: 45 :: body ++ txt "--" ++ f :: q).
  transitivity (@cast unit Empty_set (cm unit (body ++ txt "--" ++ f :: q))); [destruct lat, ns; reflexivity|]. now rewrite cm_bad.
Qed.
Lemma content_pi cs n : all_in dom cs ->
  (contentTok e (flat_map enc cs) = Ok (T_PI, Some n) <->
   exists name d rest, cs = txt "<?" ++ name ++ d ++ txt "?>" ++ rest /\ is_name lat ns name /\ ~ is_xml_name name /\ pi_data d /\
     n = length (flat_map enc (txt "<?" ++ name ++ d ++ txt "?>"))).
Proof.
  intros Hd. rewrite (contentTok_exact _ _ _ _ _ _ _ _ TE Hd) by discriminate. split.
  - intros (l & r & -> & H & ->). inversion H; subst; try (destruct atts, empty; discriminate). exists name, d, r. rewrite <- !app_assoc. auto.
  - intros (name & d & r & -> & H1 & H2 & H3 & ->). exists (txt "<?" ++ name ++ d ++ txt "?>"), r. rewrite <- !app_assoc. split; auto. split; auto. now constructor.
Qed.
Lemma prolog_pi cs n : all_in dom cs -> (forall c, In c cs -> 128 <= c -> is_xml_char c = true) ->
  (prologTok e (flat_map enc cs) = Ok (T_PI, Some n) <->
   exists name d rest, cs = txt "<?" ++ name ++ d ++ txt "?>" ++ rest /\ is_name lat ns name /\ ~ is_xml_name name /\ pi_data d /\
     n = length (flat_map enc (txt "<?" ++ name ++ d ++ txt "?>"))).
Proof.
  intros Hd Hx. rewrite (prologTok_exact _ _ _ _ _ _ _ _ TE Hd Hx) by auto. split.
  - intros (l & r & -> & H & ->). inversion H; subst; try (destruct atts, empty; discriminate). exists name, d, r. rewrite <- !app_assoc. auto.
  - intros (name & d & r & -> & H1 & H2 & H3 & ->). exists (txt "<?" ++ name ++ d ++ txt "?>"), r. rewrite <- !app_assoc. split; auto. split; auto. now constructor.
Qed.
Lemma prolog_decl cs n : all_in dom cs -> (forall c, In c cs -> 128 <= c -> is_xml_char c = true) ->
  (prologTok e (flat_map enc cs) = Ok (T_XML_DECL, Some n) <->
   exists d rest, cs = txt "<?xml" ++ d ++ txt "?>" ++ rest /\ pi_data d /\ n = length (flat_map enc (txt "<?xml" ++ d ++ txt "?>"))).
Proof.
  intros Hd Hx. rewrite (prologTok_exact _ _ _ _ _ _ _ _ TE Hd Hx) by auto. split.
  - intros (l & r & -> & H & ->). inversion H as [| |d' r' Hp| | | | | | | | | ]; subst; try (destruct atts, empty; discriminate). exists d', r. rewrite <- !app_assoc. auto.
  - intros (d & r & -> & H3 & ->). exists (txt "<?xml" ++ d ++ txt "?>"), r. rewrite <- !app_assoc. split; auto. split; auto. now constructor.
Qed.
Lemma pi_reserved name d q : all_in dom (txt "<?" ++ name ++ d :: q) ->
  is_name lat ns name -> is_xml_name name -> name <> txt "xml" -> is_space d = true \/ d = 63 ->
  contentTok e (flat_map enc (txt "<?" ++ name ++ d :: q)) = Ok (T_INVALID, Some (length (flat_map enc (txt "<?" ++ name)))).
Proof.
  intros Hd Hn Hx Hne Hs. destruct (text_encoding_std _ _ _ _ _ TE) as (k & CS & ST).
  apply (content_inv k _ (d :: q) CS ST); auto; [discriminate|].
  destruct Hn as (c & r & -> & Hc & Hr).
  change (txt "<?" ++ (c :: r) ++ d :: q) with (60 :: 63 :: c :: r ++ d :: q).
  assert (Hp : pi_stop d = true) by (unfold pi_stop; destruct Hs as [H| ->]; [rewrite H|]; reflexivity).
  transitivity (@cast unit Empty_set (pi_fn lat ns unit (c :: r ++ d :: q))); [destruct lat, ns; reflexivity|]. unfold pi_fn. rewrite Hc, take_name_intro; auto. cbn [fst snd].
  2:{ now rewrite (stop_not_name _ _ _ _ ST d). }
  rewrite Hp. clear Hp. unfold target. destruct (list_eq_dec _ _ _) as [E|E]; [|exfalso; apply E; exact Hx].
  destruct (list_eq_dec _ _ _) as [E'|E']; [exfalso; apply Hne; exact E'|]. reflexivity.
Qed.
(* no run of data contains "]]>", or begins one, whatever comes after *)
Lemma data_no_close cs n : all_in dom cs -> contentTok e (flat_map enc cs) = Ok (T_DATA_CHARS, Some n) ->
  exists run rest, cs = run ++ rest /\ run <> [] /\ n = length (flat_map enc run) /\
    forall more a1 a2 r, run = a1 ++ a2 -> a2 <> [] -> a2 ++ rest ++ more <> txt "]]>" ++ r.
Proof.
  intros Hd. rewrite (contentTok_exact _ _ _ _ _ _ _ _ TE Hd) by discriminate. intros (l & rest & -> & H & ->).
  inversion H; subst; try (destruct atts, empty; discriminate). exists l, rest. split; auto. split; auto. split; auto.
  intros more a1 a2 r E Hne Hc. apply (H2 a1 a2 E Hne). unfold may_close. rewrite app_assoc in Hc. clear - Hc Hne.
  assert (a2 ++ rest <> []) by (destruct a2; [congruence|discriminate]). revert H Hc. generalize (a2 ++ rest). intros s Hs Hc.
  change (txt "]]>" ++ r) with (93 :: 93 :: 62 :: r) in Hc. change (txt "]") with [93]. change (txt "]]") with [93; 93].
  destruct s as [|x s]; [congruence|]. cbn in Hc. injection Hc as -> Hc. destruct s as [|y s]; auto. cbn in Hc. injection Hc as -> Hc.
  destruct s as [|z s]; auto. cbn in Hc. injection Hc as -> Hc. left. exists s. reflexivity.
Qed.
Lemma cdata_open cs n : all_in dom cs ->
  (contentTok e (flat_map enc cs) = Ok (T_CDATA_SECT_OPEN, Some n) <-> exists rest, cs = txt "<![CDATA[" ++ rest /\ n = length (flat_map enc (txt "<![CDATA["))).
Proof.
  intros Hd. rewrite (contentTok_exact _ _ _ _ _ _ _ _ TE Hd) by discriminate. split.
  - intros (l & r & -> & H & ->). inversion H; subst; try (destruct atts, empty; discriminate). eauto.
  - intros (r & -> & ->). exists (txt "<![CDATA["), r. split; auto. split; auto. constructor.
Qed.
Lemma cdata_close cs n : all_in dom cs ->
  (cdataSectionTok e (flat_map enc cs) = Ok (T_CDATA_SECT_CLOSE, Some n) <-> exists rest, cs = txt "]]>" ++ rest /\ n = length (flat_map enc (txt "]]>"))).
Proof.
  intros Hd. rewrite (cdataTok_exact _ _ _ _ _ _ _ _ TE Hd) by discriminate. split.
  - intros (l & r & -> & H & ->). inversion H; subst; eauto.
  - intros (r & -> & ->). exists (txt "]]>"), r. split; auto. split; auto. constructor.
Qed.
Lemma doms_app a b : all_in dom (a ++ b) <-> all_in dom a /\ all_in dom b.
Proof. unfold all_in. apply Forall_app. Qed.
Lemma occurs_tail w a b : occurs w b -> occurs w (a ++ b).
Proof. intros (x & y & ->). exists (a ++ x), y. now rewrite app_assoc. Qed.
(* the maximal run of a class *)
Lemma span (f : N -> bool) (l : list N) : exists a b, l = a ++ b /\ all_in f a /\ stops f b.
Proof.
  induction l as [|x l (a & b & -> & Ha & Hb)]; [exists [], []; repeat split; constructor|].
  destruct (f x) eqn:E; [exists (x :: a), b|exists [], (x :: a ++ b)]; repeat split; auto; constructor; auto.
Qed.
Lemma stops_app f a b : a <> [] -> stops f a -> stops f (a ++ b).
Proof. destruct a; [congruence|auto]. Qed.
(* the text of a section is delivered, in order, by data tokens, and then the section ends *)
Lemma cdata_section body rest : all_in dom (body ++ txt "]]>" ++ rest) -> xml_text body -> ~ occurs (txt "]]>") (body ++ txt "]]") ->
  exists l, lexes (cdataSectionTok e) (flat_map enc (body ++ txt "]]>" ++ rest)) (l ++ [(T_CDATA_SECT_CLOSE, flat_map enc (txt "]]>"))]) (flat_map enc rest) /\
    Forall (fun x => is_data (fst x) = true) l /\ concat (map snd l) = flat_map enc body.
Proof.
  remember (length body) as n eqn:En. revert body En. induction n as [n IH] using lt_wf_ind. intros body -> Hd Hx Ho.
  assert (Step : forall t a b, body = a ++ b -> a <> [] -> is_data t = true -> cdata_token t a (b ++ txt "]]>" ++ rest) ->
    exists l, lexes (cdataSectionTok e) (flat_map enc (body ++ txt "]]>" ++ rest)) (l ++ [(T_CDATA_SECT_CLOSE, flat_map enc (txt "]]>"))]) (flat_map enc rest) /\
    Forall (fun x => is_data (fst x) = true) l /\ concat (map snd l) = flat_map enc body).
  { intros t a b -> Ha Ht Hc. destruct (IH (length b)) with (body := b) as (l & L1 & L2 & L3); auto.
    - rewrite app_length. destruct a; [congruence|cbn; lia].
    - rewrite <- app_assoc in Hd. now apply doms_app in Hd.
    - apply Forall_app in Hx. tauto.
    - intros K. apply Ho. rewrite <- app_assoc. now apply occurs_tail.
    - exists ((t, flat_map enc a) :: l). split; [|split].
      + rewrite <- app_assoc, flat_map_app. cbn [app]. constructor; auto. rewrite <- flat_map_app, app_assoc. rewrite <- app_assoc in Hd.
        apply (cdataTok_exact _ _ _ _ _ _ _ _ TE); [rewrite <- app_assoc; auto|destruct t; discriminate|].
        exists a, (b ++ txt "]]>" ++ rest). rewrite <- app_assoc. auto.
      + constructor; auto.
      + cbn [map concat snd]. rewrite L3. now rewrite flat_map_app. }
  destruct body as [|c b].
  - exists []. split; [|split; [constructor|reflexivity]]. cbn [app]. rewrite flat_map_app. constructor; [|constructor].
    rewrite <- flat_map_app. apply (cdataTok_exact _ _ _ _ _ _ _ _ TE); [exact Hd|discriminate|]. exists (txt "]]>"), rest. split; auto. split; [constructor|reflexivity].
  - destruct (cdata_char c) eqn:Ec.
    + destruct (span cdata_char b) as (a & b' & -> & Ha & Hb). apply (Step T_DATA_CHARS (c :: a) b'); auto; [discriminate|].
      constructor; [discriminate|constructor; auto|]. destruct b'; [reflexivity|exact Hb].
    + inversion Hx; subst. unfold cdata_char in Ec. rewrite H1 in Ec. cbn [andb] in Ec.
      assert (c = 93 \/ c = 13 \/ c = 10) as [-> |[-> | ->]] by lia.
      * destruct (span cdata_char b) as (a & b' & -> & Ha & Hb). apply (Step T_DATA_CHARS (txt "]" ++ a) b'); auto; [discriminate|].
        constructor; auto; [destruct b'; [reflexivity|exact Hb]|].
        change (txt "]") with [93] in *. change (txt "]]") with [93; 93] in *. change (txt "]]>") with [93; 93; 62] in *. cbn [app] in *.
        intros K. unfold may_close in K. change (txt "]") with [93] in *. change (txt "]]") with [93; 93] in *. change (txt "]]>") with [93; 93; 62] in *.
        assert (exists r, 93 :: a ++ b' ++ 93 :: 93 :: 62 :: rest = 93 :: 93 :: 62 :: r) as (r & K').
        { destruct K as [(r & K)|[K|K]]; [exists r; exact K| |]; exfalso; apply (f_equal (@length N)) in K; cbn [length] in K; rewrite !app_length in K; cbn [length] in K; lia. }
        injection K' as K'. apply Ho. exists []. rewrite app_assoc in K'. clear - K'.
        destruct (a ++ b') as [|x s] eqn:E; cbn in K'; [discriminate K'|].
        injection K' as -> K'. destruct s as [|y s]; cbn in K'; [discriminate K'|]. injection K' as -> K'.
        exists (s ++ [93; 93]). reflexivity.
      * destruct b as [|d b]; [|destruct (N.eq_dec d 10) as [-> |]].
        -- apply (Step T_DATA_NEWLINE [13] []); auto; [discriminate|]. constructor. discriminate.
        -- apply (Step T_DATA_NEWLINE [13; 10] b); auto; [discriminate|]. constructor.
        -- apply (Step T_DATA_NEWLINE [13] (d :: b)); auto; [discriminate|]. now constructor.
      * apply (Step T_DATA_NEWLINE [10] b); auto; [discriminate|]. constructor.
Qed.
(* tags and references *)
Definition tag_tok (t : XML_TOK) : bool :=
  match t with T_START_TAG_NO_ATTS | T_EMPTY_ELEMENT_NO_ATTS | T_START_TAG_WITH_ATTS | T_EMPTY_ELEMENT_WITH_ATTS => true | _ => false end.
Lemma content_tag cs t n : all_in dom cs -> tag_tok t = true ->
  (contentTok e (flat_map enc cs) = Ok (t, Some n) <->
   exists name atts sp empty rest, cs = tag_text name atts sp empty ++ rest /\ tag_ok lat ns name atts sp /\ t = tag_token atts empty /\
     n = length (flat_map enc (tag_text name atts sp empty))).
Proof.
  intros Hd Ht. rewrite (contentTok_exact _ _ _ _ _ _ _ _ TE Hd) by (destruct t; discriminate). split.
  - intros (l & r & -> & H & ->). inversion H; subst; try discriminate. exists name, atts, sp, empty, r. auto.
  - intros (name & atts & sp & empty & r & -> & H1 & -> & ->). exists (tag_text name atts sp empty), r. split; auto. split; auto. now constructor.
Qed.
Lemma content_etag cs n : all_in dom cs ->
  (contentTok e (flat_map enc cs) = Ok (T_END_TAG, Some n) <->
   exists name sp rest, cs = etag_text name sp ++ rest /\ etag_ok lat ns name sp /\ n = length (flat_map enc (etag_text name sp))).
Proof.
  intros Hd. rewrite (contentTok_exact _ _ _ _ _ _ _ _ TE Hd) by discriminate. split.
  - intros (l & r & -> & H & ->). inversion H; subst; try (destruct atts, empty; discriminate). exists name, sp, r. auto.
  - intros (name & sp & r & -> & H1 & ->). exists (etag_text name sp), r. split; auto. split; auto. now constructor.
Qed.
Lemma content_entity cs n : all_in dom cs ->
  (contentTok e (flat_map enc cs) = Ok (T_ENTITY_REF, Some n) <->
   exists name rest, cs = txt "&" ++ name ++ txt ";" ++ rest /\ is_name lat ns name /\ n = length (flat_map enc (txt "&" ++ name ++ txt ";"))).
Proof.
  intros Hd. rewrite (contentTok_exact _ _ _ _ _ _ _ _ TE Hd) by discriminate. split.
  - intros (l & r & -> & H & ->). inversion H; subst; try (destruct atts, empty; discriminate). destruct H0 as (name & Hn & ->). exists name, r. rewrite <- !app_assoc. auto.
  - intros (name & r & -> & H1 & ->). exists (txt "&" ++ name ++ txt ";"), r. rewrite <- !app_assoc. split; auto. split; auto. constructor. exists name. auto.
Qed.
Lemma content_charref cs n : all_in dom cs ->
  (contentTok e (flat_map enc cs) = Ok (T_CHAR_REF, Some n) <->
   exists r rest, cs = r ++ rest /\ char_ref r /\ n = length (flat_map enc r)).
Proof.
  intros Hd. rewrite (contentTok_exact _ _ _ _ _ _ _ _ TE Hd) by discriminate. split.
  - intros (l & r & -> & H & ->). inversion H; subst; try (destruct atts, empty; discriminate). exists l, r. auto.
  - intros (l & r & -> & H1 & ->). exists l, r. split; auto. split; auto. now constructor.
Qed.
End Use.
(* the bytes 3C C3 29 3E are not the UTF-8 form of any text *)
Lemma not_utf8_c329 : ~ exists cs, all_in is_scalar cs /\ [60; 195; 41; 62] = flat_map utf8_encode cs.
Proof.
  intros (cs & Hs & E). destruct cs as [|a cs]; [discriminate|]. cbn [flat_map] in E. unfold utf8_encode in E at 1.
  assert (Hl : forall (x y : N) l l', x :: l = y :: l' -> x = y /\ l = l') by (intros; split; congruence).
  destruct (a <? 0x80) eqn:A1.
  2:{ destruct (a <? 0x800); [|destruct (a <? 0x10000)]; cbn [app] in E; apply Hl in E as [E _]; exfalso; lia. }
  cbn [app] in E. apply Hl in E as [_ E]. destruct cs as [|b cs]; [discriminate|]. cbn [flat_map] in E. unfold utf8_encode in E at 1.
  destruct (b <? 0x80) eqn:B1; [cbn [app] in E; apply Hl in E as [E _]; exfalso; lia|].
  destruct (b <? 0x800); [|destruct (b <? 0x10000)]; cbn [app] in E; apply Hl in E as [_ E]; apply Hl in E as [E _]; exfalso; lia.
Qed.
