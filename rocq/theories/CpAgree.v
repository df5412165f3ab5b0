(* The tokens do not depend on how the text is encoded. *)
From Coq Require Import String List NArith ZArith Bool Lia Arith.
From Coq Require Import ZifyBool ZifyNat ZifyN.
From Verif Require Import Base Encoding SpecText SpecUnicode SpecNames SpecLex Tok CpContent CpProlog.
Import ListNotations.
Local Open Scope N_scope.

Definition plain : list N -> Prop := all_in (fun c => negb (latin_extra c)).
Lemma plain_app a b : plain (a ++ b) <-> plain a /\ plain b. Proof. apply Forall_app. Qed.
Section Lat.
Variables (lat lat' ns : bool).
Lemma start_lat c : latin_extra c = false -> start_char lat ns c = start_char lat' ns c.
Proof. unfold start_char. intros ->. now rewrite !andb_false_r. Qed.
Lemma nchar_lat n c : latin_extra c = false -> name_char lat n c = name_char lat' n c.
Proof. unfold name_char. intros ->. now rewrite !andb_false_r. Qed.
Lemma nchars_lat n r : plain r -> all_in (name_char lat n) r -> all_in (name_char lat' n) r.
Proof.
  intros Hp H. unfold plain, all_in in *. rewrite Forall_forall in *. intros c Hc. rewrite <- nchar_lat; auto.
  specialize (Hp c Hc). now apply negb_true_iff in Hp.
Qed.
Lemma name_lat n : plain n -> is_name lat ns n -> is_name lat' ns n.
Proof.
  intros Hp (c & r & -> & Hc & Hr). inversion Hp; subst. exists c, r. split; auto. split.
  - rewrite <- start_lat; auto. now apply negb_true_iff in H1.
  - now apply nchars_lat.
Qed.
Lemma qname_lat n : plain n -> is_qname lat ns n -> is_qname lat' ns n.
Proof.
  intros Hp [H|(En & p & l & -> & H1 & H2)]; [left; now apply name_lat|]. right. split; auto. exists p, l.
  apply plain_app in Hp as [P1 P2]. apply plain_app in P2 as [_ P2]. split; auto. split; now apply name_lat.
Qed.
Lemma eref_lat r : plain r -> entity_ref lat ns r -> entity_ref lat' ns r.
Proof. intros Hp (n & Hn & ->). apply plain_app in Hp as [_ Hp]. apply plain_app in Hp as [Hp _]. exists n. split; auto. now apply name_lat. Qed.
Lemma attv_lat q v : plain v -> att_value lat ns q v -> att_value lat' ns q v.
Proof.
  intros Hp H. revert Hp. induction H; intros Hp; [constructor| |].
  - inversion Hp; subst. apply av_char; auto.
  - apply plain_app in Hp as [P1 P2]. apply av_ref; auto. destruct H as [H|H]; [left; now apply eref_lat|now right].
Qed.
Lemma att_lat a : plain (att_text a) -> att_ok lat ns a -> att_ok lat' ns a.
Proof.
  unfold att_text. rewrite !plain_app. intros (_ & P1 & _ & _ & _ & _ & P2 & _) (H1 & H2 & H3 & H4 & H5 & H6 & H7).
  repeat split; auto; [now apply qname_lat|now apply attv_lat].
Qed.
Lemma token_lat t l r : plain l -> content_token lat ns t l r -> content_token lat' ns t l r.
Proof.
  intros Hp H. inversion H; subst; try (now constructor).
  - rewrite !plain_app in Hp. constructor; auto. now apply name_lat.
  - unfold tag_text in Hp. rewrite !plain_app in Hp. destruct Hp as (_ & P1 & P2 & _). constructor. destruct H0 as (H1 & H2 & H3). split; [now apply qname_lat|].
    split; auto. clear - P2 H2. induction atts as [|a atts IH]; [constructor|]. inversion H2; subst. cbn [flat_map] in P2. apply plain_app in P2 as [? ?].
    constructor; auto. now apply att_lat.
  - unfold etag_text in Hp. rewrite !plain_app in Hp. destruct Hp as (_ & P1 & _). destruct H0 as ((c & q & -> & Hc & Hq) & Hs). constructor. split; auto.
    inversion P1; subst. exists c, q. split; auto. split; [|now apply nchars_lat]. rewrite <- start_lat; auto. now apply negb_true_iff in H2.
  - constructor. now apply eref_lat.
Qed.
End Lat.
Lemma content_agree e enc dom lat e' enc' dom' lat' ns cs t :
  text_encoding e enc dom lat ns -> text_encoding e' enc' dom' lat' ns -> all_in dom cs -> all_in dom' cs ->
  (forall c, In c cs -> latin_extra c = false) -> t <> T_INVALID ->
  forall m, contentTok e (flat_map enc cs) = Ok (t, Some m) ->
  exists n, m = length (flat_map enc (firstn n cs)) /\ contentTok e' (flat_map enc' cs) = Ok (t, Some (length (flat_map enc' (firstn n cs)))).
Proof.
  intros T1 T2 D1 D2 Hp Ht m H. apply (contentTok_exact _ _ _ _ _ _ _ _ T1 D1 Ht) in H as (l & r & -> & Hl & ->).
  exists (length l). rewrite firstn_app, firstn_all, Nat.sub_diag, app_nil_r. split; auto.
  apply (contentTok_exact _ _ _ _ _ _ _ _ T2 D2 Ht). exists l, r. split; auto. split; auto. apply (token_lat lat); auto.
  apply Forall_forall. intros c Hc. rewrite Hp; auto. apply in_or_app; auto.
Qed.
Lemma cdata_agree e enc dom lat ns e' enc' dom' lat' ns' cs t :
  text_encoding e enc dom lat ns -> text_encoding e' enc' dom' lat' ns' -> all_in dom cs -> all_in dom' cs -> t <> T_INVALID ->
  forall m, cdataSectionTok e (flat_map enc cs) = Ok (t, Some m) ->
  exists n, m = length (flat_map enc (firstn n cs)) /\ cdataSectionTok e' (flat_map enc' cs) = Ok (t, Some (length (flat_map enc' (firstn n cs)))).
Proof.
  intros T1 T2 D1 D2 Ht m H. apply (cdataTok_exact _ _ _ _ _ _ _ _ T1 D1 Ht) in H as (l & r & -> & Hl & ->).
  exists (length l). rewrite firstn_app, firstn_all, Nat.sub_diag, app_nil_r. split; auto.
  apply (cdataTok_exact _ _ _ _ _ _ _ _ T2 D2 Ht). exists l, r. auto.
Qed.
