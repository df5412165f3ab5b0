(* UTF-16BE text without U+0080..U+00FF is tokenised without panics. *)
From Coq Require Import List NArith ZArith Bool Lia ZifyBool ZifyN.
From Verif Require Import Base Encoding SpecText SpecUnicode SpecNames SpecLex Tok SpecTok Charset Sim SimTop TextEnc CpProlog.
Import ListNotations.
Local Open Scope N_scope.

Lemma same_answers D e enc dom k (cs : list N) (r r' : tokres) : charset e enc dom k -> same_tok enc D cs r r' -> exists t n, r = Ok (t, n).
Proof.
  intros _. unfold same_tok. destruct r' as [[t [n|]]|]; [|intros [H|(_ & _ & n & H)]|intros []]; intros; eauto.
Qed.
Theorem text_answers e enc dom lat ns cs : text_encoding e enc dom lat ns -> all_in dom cs ->
  forall tok, In tok [contentTok e; cdataSectionTok e; ignoreSectionTok e; attributeValueTok e; entityValueTok e] ->
  exists t n, tok (flat_map enc cs) = Ok (t, n).
Proof.
  intros TE Hd tok I. destruct (text_encoding_std _ _ _ _ _ TE) as (k & CS & _).
  cbn [In] in I. destruct I as [<-|[<-|[<-|[<-|[<-|[]]]]]].
  - eapply same_answers; [exact CS|]. apply (contentTok_sim _ _ _ _ CS cs Hd).
  - eapply same_answers; [exact CS|]. apply (cdataSectionTok_sim _ _ _ _ CS cs Hd).
  - eapply same_answers; [exact CS|]. apply (ignoreSectionTok_sim _ _ _ _ CS cs Hd).
  - eapply same_answers; [exact CS|]. apply (attributeValueTok_sim _ _ _ _ CS cs Hd).
  - eapply same_answers; [exact CS|]. apply (entityValueTok_sim _ _ _ _ CS cs Hd).
Qed.
Theorem prolog_answers e enc dom lat ns cs : text_encoding e enc dom lat ns -> all_in dom cs -> (forall c, In c cs -> 128 <= c -> is_xml_char c = true) ->
  exists t n, prologTok e (flat_map enc cs) = Ok (t, n).
Proof.
  intros TE Hd0 Hw. destruct (text_encoding_std _ _ _ _ _ TE) as (k & CS0 & _).
  set (dom' c := dom c && ((c <? 128) || is_xml_char c)).
  assert (Sub : forall c, dom' c = true -> dom c = true) by (unfold dom'; intros c H; now apply andb_prop in H).
  pose proof (charset_sub _ _ _ _ _ Sub CS0) as CS.
  assert (Hd : all_in dom' cs).
  { unfold all_in in *. rewrite Forall_forall in *. intros c Hc. unfold dom'. rewrite (Hd0 c Hc). cbn [andb]. specialize (Hw c Hc).
    destruct (c <? 128) eqn:E; [reflexivity|]. apply Hw. lia. }
  assert (Hx : forall c, dom' c = true -> 128 <= c -> is_xml_char c = true).
  { intros c Hc H128. unfold dom' in Hc. replace (c <? 128) with false in Hc by lia. now apply andb_prop in Hc. }
  eapply same_answers; [exact CS|]. apply (prologTok_sim _ _ _ _ CS cs Hx Hd).
Qed.
Theorem big_endian_answers : forall ns cs, all_in is_scalar_be cs ->
  let e := if ns : bool then big2_encoding_ns else big2_encoding in
  (forall tok, In tok [contentTok e; cdataSectionTok e; ignoreSectionTok e; attributeValueTok e; entityValueTok e] ->
     exists t n, tok (utf16be cs) = Ok (t, n)) /\
  ((forall c, In c cs -> 128 <= c -> is_xml_char c = true) -> exists t n, prologTok e (utf16be cs) = Ok (t, n)).
Proof.
  intros ns cs H e. assert (TE : text_encoding e utf16be_encode is_scalar_be true ns) by (unfold e; destruct ns; constructor). split.
  - exact (text_answers _ _ _ _ _ cs TE H).
  - exact (prolog_answers _ _ _ _ _ cs TE H).
Qed.
