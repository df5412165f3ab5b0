(* The default handler gets what is consumed: the prolog. *)
From Coq Require Import String List NArith ZArith Bool Lia Arith.
From Verif Require Import Base Encoding Tok TokMisc Norm XmlDecl Status Role State AttVal Bind Atts Scaf Content Prolog Core.
From Verif Require Import Keep SpecEnc SpecPass PassTok Pass PassTop.
From Coq Require Import List.
Import ListNotations.
Local Open Scope nat_scope.

Definition told (f : bool) (G tok : bytes) (b : bool) (s : st) : Prop := lone f s /\ gave s = (if b then G else G ++ tok).
Lemma W_ev f ext G tx fuel : forall b s, lone f s -> gave s = G -> W (some_of G tx) (entity_value ext fuel ENormal b) s (fun _ s' => lone f s' /\ gave s' = G).
Proof.
  induction fuel as [|fuel IH]; intros b s L E; cbn [entity_value]; [exact I|]. unfold append_ev, upd_dtd, set_event, set_event_opt. cbn [is_internal].
  repeat first [w3|progress cbn [orb]; cbv iota]; fin.
  all: try (apply IH; [assumption|congruence]).
  all: split; [assumption|congruence].
Qed.
Lemma W_value f ext G tx fuel b s (Q : XML_Error -> st -> Prop) : lone f s -> gave s = G -> (forall x s', lone f s' -> gave s' = G -> Q x s') ->
  W (some_of G tx) (storeEntityValue ext fuel ENormal b) s Q.
Proof.
  intros L E HQ. unfold storeEntityValue. repeat w3.
  eapply W_imp; [apply W_ev; [eassumption|congruence]|]. intros x sx [L' E']. cbv beta. repeat w3. apply HQ; [assumption|congruence].
Qed.
Ltac w4 := first
  [ match goal with
    | L : lone _ ?s |- W _ (storeEntityValue _ _ ENormal _) ?s _ => apply (W_value _ _ _ _ _ _ s _ L); [congruence|intros ? ? ?L ?E; cbv beta]
    | L : lone _ ?s |- W _ (processXmlDecl _ _ _) ?s _ => apply (W_decl _ _ _ _ _ _ s _ L); [congruence|intros ? ?L ?E; cbv beta]
    end
  | w3 | progress cbn [orb andb negb when]; cbv iota | match goal with |- W _ (when _ _) _ _ => unfold when end ].
Lemma W_role r f G buf role k e ac n after s (Q : bool -> st -> Prop) : lone f s -> gave s = G -> k <> T_BOM -> role <> R_INSTANCE_START -> role <> R_IGNORE_SECT ->
  (forall b s', told f G (firstn n buf) b s' -> Q b s') -> W (some_of G buf) (role_action r role k ENormal e ac (firstn n buf) after) s Q.
Proof.
  intros L E Hk Hr1 Hr2 HQ. unfold told in HQ. unfold role_action.
  destruct role; try congruence;
    unfold quiet, quiet_kept, declare_entity, param_entity_ref, content_element, group_close, end_attribute, external_subset, check_standalone, keep_if_standalone, public_id, literal, check_public_id, some, entity_at, insert_subset, upd_entity, upd_dtd, set_event_n in *.
  all: repeat w4; fin.
  all: rewrite ?andb_false_r; cbn [negb]; try (apply HQ; split; [assumption|cbv iota; congruence]).
  all: try (rewrite andb_false_r in Hq; discriminate Hq).
  replace (negb (tok_eqb k T_BOM)) with true by (destruct k; try reflexivity; congruence). apply HQ. auto.
Qed.

Lemma ignore_cut f G buf s : lone f s -> gave s = G -> W (some_of G buf) (doIgnoreSection ENormal buf (negb f)) s (cut_at f G buf).
Proof. intros L E. unfold doIgnoreSection. repeat w4; fin. Qed.
Lemma W_ignore f G buf k rest s (Q : bytes + bytes -> st -> Prop) : lone f s -> buf = firstn k buf ++ rest -> gave s = G ++ firstn k buf ->
  (forall j r s', lone f s' -> buf = firstn j buf ++ r -> gave s' = G ++ firstn j buf -> (f = true -> s_parsing s' = SUSPENDED) -> Q (inl r) s') ->
  (forall j r s', lone f s' -> buf = firstn j buf ++ r -> gave s' = G ++ firstn j buf -> Q (inr r) s') ->
  W (some_of G buf) (doIgnoreSection ENormal rest (negb f)) s Q.
Proof.
  intros L E1 E2 H1 H2. eapply W_impF; [apply ignore_cut; [exact L|exact E2]| |].
  - intros s' S. rewrite E1. now apply some_more.
  - intros a s' S. apply cut_more in S. rewrite <- E1 in S. destruct S as [L' S].
    destruct a as [r|r]; [destruct S as [(c & S1 & S2) S3]|destruct S as (c & S1 & S2)]; pose proof (cut_as _ _ _ S1) as S0; [apply (H1 (length c))|apply (H2 (length c))]; auto; congruence.
Qed.

Definition prolog_passes (f : bool) (m : enctype -> bytes -> XML_TOK -> option nat -> bool -> bool -> P bytes) : Prop :=
  forall G buf k n ac s, lone f s -> gave s = G -> k <> T_BOM -> pass f G buf (m ENormal buf k n (negb f) ac) s.
(* one token of the prolog *)
Definition one_token (r : recs) (e : EncImpl) (buf : bytes) (haveMore ac : bool) (k : XML_TOK) (rest : bytes) : P bytes :=
  let tok := before buf rest in
  do role <- role_of e k tok;
  do x <- role_step r role k ENormal e haveMore ac buf tok rest;
  match x with
  | Return rest => pret rest
  | Next hd rest =>
      when hd (reportDefault ENormal tok (length rest)) ;;;
      do p <- get s_parsing;
      match p with
      | SUSPENDED => pret rest
      | FINISHED => fail XE_ABORTED
      | _ => do (k, n) <- scan_as ENormal false rest; rc_prolog r ENormal rest k n haveMore ac
      end
  end.
Definition stepped (f : bool) (G buf tok rest : bytes) (x : step) (s : st) : Prop :=
  match x with
  | Return y => goes_on f G buf y s
  | Next true y => lone f s /\ y = rest /\ gave s = G
  | Next false y => lone f s /\ exists j, buf = firstn j buf ++ y /\ gave s = G ++ firstn j buf
  end.
Lemma step_pass r f G buf e ac k role n rest s : content_passes f (rc_content r) -> lone f s -> gave s = G -> k <> T_BOM -> buf = firstn n buf ++ rest ->
  W (some_of G buf) (role_step r role k ENormal e (negb f) ac buf (firstn n buf) rest) s (stepped f G buf (firstn n buf) rest).
Proof.
  intros IC L E Hk Hb. unfold role_step.
  assert (A : role <> R_INSTANCE_START -> role <> R_IGNORE_SECT -> W (some_of G buf) (do hd <- role_action r role k ENormal e ac (firstn n buf) (length rest); pret (Next hd rest)) s (stepped f G buf (firstn n buf) rest)).
  { intros H1 H2. apply W_bind. eapply W_role; eauto. intros b s' [L' E']. apply W_ret. destruct b; cbn [stepped]; eauto. }
  destruct role; try (apply A; discriminate); clear A.
  - unfold external_subset, contentProcessor, when. repeat w4; fin.
    all: eapply W_imp; [apply IC; [assumption|congruence]|]; intros y sy Hy; exact Hy.
  - apply W_bind. apply (W_default _ _ _ _ _ _ L). intros s1 L1 E1. apply W_bind.
    apply (W_ignore f G buf n rest s1); auto; [congruence| |].
    + intros j y s2 L2 B2 E2 P2. repeat w4. cbn [stepped]. split; [assumption|]. split; [exists (firstn j buf); split; [exact B2|congruence]|]. intros Hf. left. rewrite Hp. auto.
    + intros j y s2 L2 B2 E2. apply W_ret. cbn [stepped]. eauto.
Qed.
Lemma hs_role e k tok : keeps hush hush (role_of e k tok).
Proof. unfold role_of. sm. hs nope. Qed.
Lemma token_pass r f G buf e ac k rest c s : content_passes f (rc_content r) -> prolog_passes f (rc_prolog r) ->
  lone f s -> gave s = G -> k <> T_BOM -> buf = c ++ rest -> pass f G buf (one_token r e buf (negb f) ac k rest) s.
Proof.
  intros IC IP L E Hk Hb. unfold one_token, pass, before. cbv zeta.
  assert (Hb' : buf = firstn (length buf - length rest) buf ++ rest).
  { pose proof (cut_as _ _ _ Hb) as Hc. replace (length buf - length rest) with (length c); [congruence|]. rewrite Hb, app_length. lia. }
  set (n := length buf - length rest) in *. clearbody n.
  apply W_bind. eapply (W_keeps _ _ _ s); [apply hs_role|exact L|intros; apply some_none; congruence|]. intros role s1 L1 E1.
  apply W_bind. eapply W_imp; [apply step_pass; auto; congruence|]. intros [hd y|y] s2 S; cbn [stepped] in S; [|exact S].
  assert (Z : forall j s', lone f s' -> buf = firstn j buf ++ y -> gave s' = G ++ firstn j buf ->
    W (some_of G buf) (do p <- get s_parsing; match p with SUSPENDED => pret y | FINISHED => fail XE_ABORTED | _ => do (k, n) <- scan_as ENormal false y; rc_prolog r ENormal y k n (negb f) ac end) s' (goes_on f G buf)).
  { intros j s' L' B' E'. clear S. repeat w4; fin.
    all: eapply pass_step; [eassumption|]; apply IP; [assumption|congruence|].
    all: match goal with H : prologTok _ _ = _ |- _ => apply prolog_plain_tok in H; [|apply one_byte]; destruct H as [[-> _]|[[? _]|[-> _]]]; [discriminate|assumption|discriminate] end. }
  destruct hd.
  - destruct S as (L2 & -> & E2). apply W_bind. cbn [when]. apply (W_default _ _ _ _ _ _ L2). intros s3 L3 E3. apply (Z n); auto. congruence.
  - destruct S as (L2 & j & B2 & E2). apply W_bind. cbn [when]. apply W_ret. apply (Z j); auto.
Qed.
Lemma not_bom k k' : tok_negate k = Ok k' -> k' <> T_BOM.
Proof. destruct k; cbn; intros H; try discriminate H; injection H as <-; discriminate. Qed.
Lemma prolog_pass r f : content_passes f (rc_content r) -> prolog_passes f (rc_prolog r) -> prolog_passes f (doProlog r).
Proof.
  intros IC IP G buf k n ac s L E Hk. unfold doProlog, pass.
  apply W_bind. eapply (W_keeps _ _ _ s); [hush|exact L|intros; apply some_none; congruence|]. intros [] s1 L1 E1.
  apply W_bind. eapply (W_keeps _ _ _ s1); [hush|exact L1|intros; apply some_none; congruence|]. intros [] s2 L2 E2.
  apply W_bind. apply (W_encoding _ _ _ _ L2). cbv zeta. set (e := utf8_for _).
  assert (T : forall k rest c, k <> T_BOM -> buf = c ++ rest -> pass f G buf (one_token r e buf (negb f) ac k rest) s2) by (intros; eapply token_pass; eauto; congruence).
  destruct (tok_is_error k) eqn:Ek.
  - destruct (negb f && negb (tok_eqb k T_INVALID)) eqn:Eh.
    + destruct f; [discriminate Eh|]. apply W_ret. apply on_here; [assumption|congruence].
    + destruct k; try discriminate Ek; try (apply W_bind, W_lift; intros k' Hk'; apply (T k' [] buf); [exact (not_bom _ _ Hk')|now rewrite app_nil_r]).
      * repeat w4.
      * apply W_fail. so.
      * apply W_fail. so.
      * repeat w4.
      * apply W_bind, W_rest. intros c rest Hb. apply (T T_PROLOG_S rest c); [discriminate|exact Hb].
  - apply W_bind, W_rest. intros c rest Hb. apply (T k rest c); assumption.
Qed.
Lemma knot_pass f n : content_passes f (rc_content (knot n)) /\ prolog_passes f (rc_prolog (knot n)).
Proof.
  induction n as [|n [IC IP]]; [split; red; intros; exact I|]. cbn [knot rc_content rc_prolog]. split; [now apply content_pass|now apply prolog_pass].
Qed.
Lemma prologProcessor_pass f n G buf s : lone f s -> gave s = G -> pass f G buf (prologProcessor (knot n) buf) s.
Proof.
  intros L E. unfold prologProcessor, pass. repeat w4. apply knot_pass; [assumption|exact E|].
  match goal with H : prologTok _ _ = _ |- _ => apply prolog_plain_tok in H; [|apply one_byte]; destruct H as [[-> _]|[[? _]|[-> _]]]; [discriminate|assumption|discriminate] end.
Qed.
Lemma contentProcessor_pass f n G buf s : lone f s -> gave s = G -> pass f G buf (contentProcessor (knot n) buf) s.
Proof. intros L E. unfold contentProcessor, pass. repeat w4. apply knot_pass; [assumption|exact E]. Qed.
Lemma process_pass f n G buf s : lone f s -> gave s = G -> pass f G buf (process (knot n) buf) s.
Proof.
  intros L E. unfold process, pass. apply W_bind, W_get. pose proof (lo_proc _ _ L) as N. destruct (s_processor s) eqn:Ep; try discriminate N.
  - now apply prologProcessor_pass.
  - now apply contentProcessor_pass.
  - unfold cdataSectionProcessor. w4. w4. w4.
    eapply W_imp; [apply section_cut; [exact L|exact E]|]. intros x s1 [L1 S]. cbv beta. destruct x as [y|y].
    + apply W_ret. destruct S as [S1 S2]. split; [exact L1|]. split; [exact S1|auto].
    + destruct S as (c & -> & S). repeat w4. apply pass_after, contentProcessor_pass; [assumption|congruence].
  - now apply pass_epilog.
  - unfold ignoreSectionProcessor. w4. w4. w4.
    eapply W_imp; [apply ignore_cut; [exact L|exact E]|]. intros x s1 [L1 S]. cbv beta. destruct x as [y|y].
    + apply W_ret. destruct S as [S1 S2]. split; [exact L1|]. split; [exact S1|auto].
    + destruct S as (c & -> & S). repeat w4. apply pass_after, prologProcessor_pass; [assumption|congruence].
Qed.
