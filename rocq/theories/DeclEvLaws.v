(* The events of notation, entity and document type declarations. *)
From Coq Require Import String List NArith ZArith Bool Lia.
From Verif Require Import Base Encoding SpecText SpecUnicode SpecLex Role SpecRole SpecMisc Tok TokMisc MiscTop Status State Bind AttVal SpecAttVal AttTop AttsText Content Prolog
  SpecEnt SpecAttDecl AttDeclLaws SpecDeclEv.
From Verif Require EntInv.
From Coq Require Import List.
Import ListNotations.
Local Open Scope N_scope.

Lemma acts_spoken r e l : forall s, acts r e l s = acts r e (map bare (filter speaks l)) s.
Proof.
  induction l as [|[[k cs] ro] l IH]; intros s; [reflexivity|]. cbn [filter].
  assert (D : speaks (k, cs, ro) = false /\ (exists b, role_action r ro k ENormal e false cs 0 s = Ret b s) \/
              speaks (k, cs, ro) = true /\ exists cs', bare (k, cs, ro) = (k, cs', ro) /\ role_action r ro k ENormal e false cs 0 s = role_action r ro k ENormal e false cs' 0 s).
  { destruct ro; try (right; split; [reflexivity|]; eexists; split; reflexivity); left; (split; [reflexivity|]); eexists; reflexivity. }
  destruct D as [(D & b & X)|(D & cs' & B & X)]; rewrite D; cbn [map]; [|rewrite B]; cbn [acts]; unfold pbind at 1.
  - rewrite X. apply IH.
  - rewrite X. clear X. unfold pbind. destruct (role_action _ _ _ _ _ _ _ _ s) as [a s1|? ?|?]; [apply IH|reflexivity|reflexivity].
Qed.
Lemma c_str_cstr a : c_str a = cstr a. Proof. reflexivity. Qed.

Section Decl.
Variables (e : EncImpl) (enc : N -> list N) (dom : N -> bool) (lat ns : bool).
Hypothesis TE : text_encoding e enc dom lat ns.

Lemma literal_read x s : lit_ok dom x -> literal e (quoted enc x) s = Ret (utf8 (snd x)) s.
Proof.
  intros [Q D]. unfold literal, quoted. destruct (AttDeclLaws.quoted e enc dom lat ns TE (fst x) (snd x) Q) as (b & I1 & I2 & I3).
  unfold pbind, inc, dec, lift. rewrite I1, I2. unfold pret. rewrite I3, (te_conv e enc dom lat ns TE _ D). reflexivity.
Qed.
Lemma pubid_ascii p : all_in pubid_char p -> utf8 p = p /\ ~ In 0 p.
Proof.
  intros H. assert (K : forall c, pubid_char c = true -> 0 < c < 128).
  { intros c Hc. unfold pubid_char in Hc. repeat (apply orb_true_iff in Hc as [Hc|Hc]); try discriminate Hc;
      first [apply N.eqb_eq in Hc; subst c; split; reflexivity|apply andb_true_iff in Hc as [H1 H2]; apply N.leb_le in H1, H2; lia]. }
  induction H as [|c p Hc H IH]; [split; [reflexivity|auto]|]. destruct IH as [IH1 IH2]. specialize (K c Hc). split.
  - unfold utf8 in *. cbn [flat_map]. rewrite IH1. unfold utf8_encode. replace (c <? 0x80) with true by (symmetry; apply N.ltb_lt; lia). reflexivity.
  - intros [X|X]; [lia|contradiction].
Qed.
Lemma public_read x s : lit_ok dom x -> all_in pubid_char (snd x) -> public_id e (quoted enc x) s = Ret (pub_shown x) s.
Proof.
  intros L H. unfold public_id. unfold pbind at 1. rewrite (literal_read x s L). destruct (pubid_ascii _ H) as [-> N0].
  destruct (normalizePublicId_in (snd x) [] N0) as (a & E & C). unfold pbind, lift. rewrite E. unfold pret. rewrite c_str_cstr, C. reflexivity.
Qed.
Lemma public_checked x s : lit_ok dom x -> all_in pubid_char (snd x) -> check_public_id ENormal e (quoted enc x) 0 s = Ret tt s.
Proof.
  intros [Q D] H. unfold check_public_id, pbind, lift, quoted. rewrite (proj2 (proj1 (te_pubid_iff e enc dom lat ns (fst x) (snd x) TE Q D)) H). reflexivity.
Qed.

(* ---- notations ---- *)
Lemma notation_told n (x : ident + lit) ps s : all_in dom n -> (match x with inl x => ident_ok dom x | inr p => lit_ok dom p /\ all_in pubid_char (snd p) end) ->
  h_notation (c_h (s_cfg s)) = true -> spells ps (s_decl enc (DNotation (flat_map enc n) (notation_of enc x))) ->
  exists s', (forall r, acts r e ps s = Ret tt s') /\
    s_log s' = (s_pid s, EvNotationDecl (utf8 n) (s_base s) (match x with inl x => system_shown x | inr _ => None end)
                           (match x with inl x => public_shown x | inr p => Some (pub_shown p) end)) :: s_log s.
Proof.
  intros Dn Hx H Sp. assert (Red : forall r, acts r e ps s = acts r e (filter speaks (s_decl enc (DNotation (flat_map enc n) (notation_of enc x)))) s) by (intros r; rewrite <- Sp; apply acts_spoken). clear Sp.
  set (s1 := set_notName (Some (utf8 n)) (set_notPub None (set_notName None s))).
  assert (A1 : forall r k, role_action r R_NOTATION_NAME k ENormal e false (flat_map enc n) 0 s = Ret false s1).
  { intros r k. cbn [role_action]. unfold pbind at 1, upd at 1. unfold pbind at 1, handler at 1, get at 1.
    change (h_notation (c_h (s_cfg (set_notPub None (set_notName None s))))) with (h_notation (c_h (s_cfg s))). rewrite H. unfold pbind, lift. rewrite (te_conv e enc dom lat ns TE n Dn). reflexivity. }
  assert (F1 : s_notName s1 = Some (utf8 n) /\ s_notPub s1 = None /\ s_base s1 = s_base s /\ s_log s1 = s_log s /\ s_pid s1 = s_pid s /\ h_notation (c_h (s_cfg s1)) = true) by (repeat split; exact H).
  clearbody s1. destruct F1 as (F1 & F2 & F3 & F4 & F5 & F6).
  assert (Pub : forall p, lit_ok dom p -> all_in pubid_char (snd p) -> exists s2, (forall r k, role_action r R_NOTATION_PUBLIC_ID k ENormal e false (quoted enc p) 0 s1 = Ret false s2) /\
    s_notName s2 = Some (utf8 n) /\ s_notPub s2 = Some (pub_shown p) /\ s_base s2 = s_base s /\ s_log s2 = s_log s /\ s_pid s2 = s_pid s /\ h_notation (c_h (s_cfg s2)) = true).
  { intros p L P. exists (set_notPub (Some (pub_shown p)) s1). split; [|repeat split; assumption].
    intros r k. cbn [role_action]. unfold pbind at 1. rewrite (public_checked p s1 L P). unfold pbind at 1, get at 1. rewrite F1. unfold pbind at 1. rewrite (public_read p s1 L P). reflexivity. }
  assert (Sys : forall x s2, lit_ok dom x -> s_notName s2 = Some (utf8 n) -> h_notation (c_h (s_cfg s2)) = true -> exists s3,
    (forall r k, role_action r R_NOTATION_SYSTEM_ID k ENormal e false (quoted enc x) 0 s2 = Ret false s3) /\
    s_log s3 = (s_pid s2, EvNotationDecl (utf8 n) (s_base s2) (Some (utf8 (snd x))) (s_notPub s2)) :: s_log s2).
  { intros x0 s2 L Q1 Q2. eexists. split; [intros r k; cbn [role_action]; unfold pbind, get; cbv beta; rewrite Q1, (literal_read x0 s2 L); unfold emit, handler, pbind, get; rewrite Q2; reflexivity|reflexivity]. }
  destruct x as [[[p|] sy]|p].
  - destruct Hx as [L1 [L2 L3]]. cbn [id_public id_system] in *. destruct (Pub p L2 L3) as (s2 & A2 & G1 & G2 & G3 & G4 & G5 & G6). destruct (Sys sy s2 L1 G1 G6) as (s3 & A3 & L).
    exists s3. split.
    + intros r. rewrite Red. cbn [s_decl notation_of ext_of id_public id_system s_notation s_ext List.app filter speaks snd punct acts]. unfold pbind at 1. rewrite A1. unfold pbind at 1. rewrite A2. unfold pbind at 1. rewrite A3. reflexivity.
    + rewrite L, G2, G3, G4, G5. reflexivity.
  - destruct Hx as [L1 _]. cbn [id_public id_system] in *. destruct (Sys sy s1 L1 F1 F6) as (s3 & A3 & L).
    exists s3. split.
    + intros r. rewrite Red. cbn [s_decl notation_of ext_of id_public id_system s_notation s_ext List.app filter speaks snd punct acts]. unfold pbind at 1. rewrite A1. unfold pbind at 1. rewrite A3. reflexivity.
    + rewrite L, F2, F3, F4, F5. reflexivity.
  - destruct Hx as [L2 L3]. destruct (Pub p L2 L3) as (s2 & A2 & G1 & G2 & G3 & G4 & G5 & G6).
    assert (A3 : exists s3, (forall r k tok, role_action r R_NOTATION_NO_SYSTEM_ID k ENormal e false tok 0 s2 = Ret false s3) /\
      s_log s3 = (s_pid s2, EvNotationDecl (utf8 n) (s_base s2) None (Some (pub_shown p))) :: s_log s2).
    { eexists. split; [intros r k tok; cbn [role_action]; unfold pbind, get; cbv beta; rewrite G1, G2; unfold emit, handler, pbind, get; rewrite G6; reflexivity|reflexivity]. }
    destruct A3 as (s3 & A3 & L). exists s3. split.
    + intros r. rewrite Red. cbn [s_decl notation_of s_notation s_ext List.app filter speaks snd punct acts]. unfold pbind at 1. rewrite A1. unfold pbind at 1. rewrite A2. unfold pbind at 1. rewrite A3. reflexivity.
    + rewrite L, G3, G4, G5. reflexivity.
Qed.

(* ---- entities ---- *)
Record kin (ref : entref) (s s1 : st) : Prop := {
  ki_log : s_log s1 = s_log s; ki_pid : s_pid s1 = s_pid s; ki_cfg : s_cfg s1 = s_cfg s; ki_base : s_base s1 = s_base s;
  ki_decl : s_declEntity s1 = s_declEntity s; ki_keep : d_keep (s_dtd s1) = d_keep (s_dtd s); ki_other : only_declared ref s s1 }.
Lemma kin_refl ref s : kin ref s s. Proof. constructor; try reflexivity. intros ? ?. reflexivity. Qed.
Lemma kin_trans ref a b c : kin ref a b -> kin ref b c -> kin ref a c.
Proof. intros [] []. constructor; try congruence. intros x Hx. rewrite ki_other1 by exact Hx. apply ki_other0, Hx. Qed.
Lemma upd_known ref f s y : entity_of s ref = Some y -> exists s1, upd_entity ref f s = Ret tt s1 /\ entity_of s1 ref = Some (f y) /\ kin ref s s1.
Proof.
  intros E. exists (EntInv.put_in ref f s). split; [reflexivity|]. split.
  - unfold entity_of. fold (EntInv.ent (EntInv.put_in ref f s) ref). rewrite EntInv.ent_put_same. unfold EntInv.ent. unfold entity_of in E. rewrite E. reflexivity.
  - constructor; try reflexivity.
    + unfold EntInv.put_in. change (s_dtd (set_dtd ?x s)) with x. destruct (look_entity ref (s_dtd s)); [|reflexivity]. unfold put_entity. destruct (fst ref); reflexivity.
    + intros x Hx. unfold entity_of. fold (EntInv.ent (EntInv.put_in ref f s) x). rewrite EntInv.ent_put_other by exact Hx. reflexivity.
Qed.
Lemma entity_ident x ps s ref y : ident_ok dom x -> s_declEntity s = Some ref -> d_keep (s_dtd s) = true -> entity_of s ref = Some y -> e_pub y = None ->
  spells ps (s_ext enc R_ENTITY_NONE R_ENTITY_PUBLIC_ID R_ENTITY_SYSTEM_ID (ext_of enc x)) ->
  exists s1 y1, (forall r, acts r e ps s = Ret tt s1) /\ kin ref s s1 /\ entity_of s1 ref = Some y1 /\
    e_text y1 = e_text y /\ e_sys y1 = system_shown x /\ e_pub y1 = public_shown x /\ e_base y1 = s_base s /\ e_notation y1 = e_notation y /\ e_is_param y1 = e_is_param y.
Proof.
  intros Hx De Ke En Pu Sp. assert (Red : forall r, acts r e ps s = acts r e (filter speaks (s_ext enc R_ENTITY_NONE R_ENTITY_PUBLIC_ID R_ENTITY_SYSTEM_ID (ext_of enc x))) s) by (intros r; rewrite <- Sp; apply acts_spoken). clear Sp.
  assert (Sys : forall l s2 y2, lit_ok dom l -> s_declEntity s2 = Some ref -> d_keep (s_dtd s2) = true -> entity_of s2 ref = Some y2 -> exists s3 b,
    (forall r k, role_action r R_ENTITY_SYSTEM_ID k ENormal e false (quoted enc l) 0 s2 = Ret b s3) /\ kin ref s2 s3 /\
    entity_of s3 ref = Some (set_e_base (s_base s2) (set_e_sys (@Some bytes (utf8 (snd l))) y2))).
  { intros l s2 y2 L Q1 Q2 Q3. destruct (upd_known ref (fun y => set_e_base (s_base s2) (set_e_sys (@Some bytes (utf8 (snd l))) y)) s2 y2 Q3) as (s3 & U & E3 & K3).
    exists s3, (negb (h_entityDecl (c_h (s_cfg s3)))). split; [|split; assumption].
    intros r k. cbn [role_action]. unfold pbind at 1, getd at 1, get at 1. cbv beta. unfold pbind at 1, get at 1. unfold pbind at 1, get at 1. rewrite Q2, Q1. cbv beta iota. unfold pbind at 1. rewrite (literal_read l s2 L). unfold pbind at 1. rewrite U. reflexivity. }
  destruct x as [[p|] sy]; destruct Hx as [L1 L2]; cbn [id_public id_system] in *.
  - destruct L2 as [L2 L3]. destruct (upd_known ref (set_e_pub (Some (pub_shown p))) s y En) as (s2 & U & E2 & K2).
    assert (A2 : exists b, forall r k, role_action r R_ENTITY_PUBLIC_ID k ENormal e false (quoted enc p) 0 s = Ret b s2).
    { exists (negb (h_entityDecl (c_h (s_cfg s2)))). intros r k. cbn [role_action]. unfold pbind at 1. rewrite (public_checked p s L2 L3). unfold pbind at 1, getd at 1, get at 1. cbv beta. unfold pbind at 1, get at 1. rewrite Ke, De. cbv beta iota.
      unfold pbind at 1. rewrite (public_read p s L2 L3). unfold pbind at 1. rewrite U. reflexivity. }
    destruct A2 as (b2 & A2). destruct (Sys sy s2 _ L1 (eq_trans (ki_decl _ _ _ K2) De) (eq_trans (ki_keep _ _ _ K2) Ke) E2) as (s3 & b3 & A3 & K3 & E3).
    exists s3. eexists. split.
    + intros r. rewrite Red. cbn [ext_of id_public id_system s_ext List.app filter speaks snd acts]. unfold pbind at 1. rewrite A2. unfold pbind at 1. rewrite A3. reflexivity.
    + split; [eapply kin_trans; eassumption|]. split; [exact E3|]. repeat split. exact (ki_base _ _ _ K2).
  - destruct (Sys sy s y L1 De Ke En) as (s3 & b3 & A3 & K3 & E3). exists s3. eexists. split.
    + intros r. rewrite Red. cbn [ext_of id_public id_system s_ext List.app filter speaks snd acts]. unfold pbind at 1. rewrite A3. reflexivity.
    + split; [exact K3|]. split; [exact E3|]. repeat split. exact Pu.
Qed.
Lemma external_told x ps s ref : ident_ok dom x -> introduced s ref -> h_entityDecl (c_h (s_cfg s)) = true ->
  spells ps (s_entity enc (External (ext_of enc x))) ->
  exists s' y, (forall r, acts r e ps s = Ret tt s') /\
    s_log s' = (s_pid s, EvEntityDecl (snd ref) (fst ref) None (s_base s) (system_shown x) (public_shown x) None) :: s_log s /\
    entity_of s' ref = Some y /\ definition y = (None, system_shown x, s_base s, public_shown x, None, fst ref, e_is_internal y) /\ only_declared ref s s'.
Proof.
  intros Hx [De Ke (y & En & Y1 & Y2 & Y3 & Y4 & Y5)] H Sp.
  assert (Red : forall r, acts r e ps s = acts r e (filter speaks (s_entity enc (External (ext_of enc x)))) s) by (intros r; rewrite <- Sp; apply acts_spoken). clear Sp.
  destruct (entity_ident x (filter speaks (s_ext enc R_ENTITY_NONE R_ENTITY_PUBLIC_ID R_ENTITY_SYSTEM_ID (ext_of enc x))) s ref y Hx De Ke En Y3) as (s1 & y1 & A & K & E1 & Z1 & Z2 & Z3 & Z4 & Z5 & Z6).
  { clear. destruct x as [[p|] sy]; reflexivity. }
  assert (B : exists s2 b, (forall r k tok, role_action r R_ENTITY_COMPLETE k ENormal e false tok 0 s1 = Ret b s2) /\ s_dtd s2 = s_dtd s1 /\
    s_log s2 = (s_pid s1, EvEntityDecl (snd ref) (e_is_param y1) None (e_base y1) (e_sys y1) (e_pub y1) None) :: s_log s1).
  { eexists _, false. split.
    - intros r k tok. cbn [role_action]. unfold pbind at 1, getd at 1, get at 1. cbv beta. unfold pbind at 1, get at 1. rewrite (ki_keep _ _ _ K), Ke, (ki_decl _ _ _ K), De. cbv beta iota.
      unfold pbind at 1, entity_at at 1, pbind at 1, get at 1. unfold entity_of in E1. rewrite E1. unfold pret at 1. unfold emit, pbind, handler, get. rewrite (ki_cfg _ _ _ K), H. reflexivity.
    - split; reflexivity. }
  destruct B as (s2 & b & B1 & B2 & B3). exists s2, y1. split; [|split; [|split; [|split]]].
  - intros r. rewrite Red. cbn [s_entity]. rewrite filter_app. rewrite acts_app. unfold pbind at 1. rewrite A. cbn [filter speaks snd punct acts]. unfold pbind at 1. rewrite B1. reflexivity.
  - rewrite B3, (ki_log _ _ _ K), (ki_pid _ _ _ K), Z2, Z3, Z4, Z6, Y5. reflexivity.
  - unfold entity_of. rewrite B2. exact E1.
  - unfold definition. rewrite Z1, Z2, Z3, Z4, Z5, Z6, Y1, Y4, Y5. reflexivity.
  - intros r Hr. rewrite <- (ki_other _ _ _ K r Hr). unfold entity_of. rewrite B2. reflexivity.
Qed.
Lemma unparsed_told x n ps s ref : ident_ok dom x -> all_in dom n -> introduced s ref -> fst ref = false -> h_unparsed (c_h (s_cfg s)) = true \/ h_entityDecl (c_h (s_cfg s)) = true ->
  spells ps (s_entity enc (Unparsed (ext_of enc x) (flat_map enc n))) ->
  exists s' y, (forall r, acts r e ps s = Ret tt s') /\
    s_log s' = (s_pid s, if h_unparsed (c_h (s_cfg s)) then EvUnparsedEntityDecl (snd ref) (s_base s) (system_shown x) (public_shown x) (Some (utf8 n))
                         else EvEntityDecl (snd ref) false None (s_base s) (system_shown x) (public_shown x) (Some (utf8 n))) :: s_log s /\
    entity_of s' ref = Some y /\ definition y = (None, system_shown x, s_base s, public_shown x, Some (utf8 n), false, e_is_internal y) /\ only_declared ref s s'.
Proof.
  intros Hx Dn [De Ke (y & En & Y1 & Y2 & Y3 & Y4 & Y5)] Fr H Sp.
  assert (Red : forall r, acts r e ps s = acts r e (filter speaks (s_entity enc (Unparsed (ext_of enc x) (flat_map enc n)))) s) by (intros r; rewrite <- Sp; apply acts_spoken). clear Sp.
  destruct (entity_ident x (filter speaks (s_ext enc R_ENTITY_NONE R_ENTITY_PUBLIC_ID R_ENTITY_SYSTEM_ID (ext_of enc x))) s ref y Hx De Ke En Y3) as (s1 & y1 & A & K & E1 & Z1 & Z2 & Z3 & Z4 & Z5 & Z6).
  { clear. destruct x as [[p|] sy]; reflexivity. }
  destruct (upd_known ref (set_e_notation (@Some bytes (utf8 n))) s1 y1 E1) as (s2 & U & E2 & K2). pose proof (kin_trans _ _ _ _ K K2) as K3.
  assert (B : exists s3 b, (forall r k, role_action r R_ENTITY_NOTATION_NAME k ENormal e false (flat_map enc n) 0 s1 = Ret b s3) /\ s_dtd s3 = s_dtd s2 /\
    s_log s3 = (s_pid s2, if h_unparsed (c_h (s_cfg s)) then EvUnparsedEntityDecl (snd ref) (e_base y1) (e_sys y1) (e_pub y1) (Some (utf8 n))
                         else EvEntityDecl (snd ref) false None (e_base y1) (e_sys y1) (e_pub y1) (Some (utf8 n))) :: s_log s2).
  { assert (X : forall r k, role_action r R_ENTITY_NOTATION_NAME k ENormal e false (flat_map enc n) 0 s1 =
      (do on <- emit h_unparsed (EvUnparsedEntityDecl (snd ref) (e_base y1) (e_sys y1) (e_pub y1) (Some (utf8 n)));
          if on then pret false
          else do on <- emit h_entityDecl (EvEntityDecl (snd ref) false None (e_base y1) (e_sys y1) (e_pub y1) (Some (utf8 n))); pret (negb on)) s2).
    { intros r k. cbn [role_action]. unfold pbind at 1, getd at 1, get at 1. cbv beta. unfold pbind at 1, get at 1. rewrite (ki_keep _ _ _ K), Ke, (ki_decl _ _ _ K), De. cbv beta iota.
      unfold pbind at 1, lift at 1. rewrite (te_conv e enc dom lat ns TE n Dn). unfold pbind at 1. rewrite U. unfold pbind at 1, entity_at at 1, pbind at 1, get at 1. unfold entity_of in E2. rewrite E2. reflexivity. }
    unfold emit, pbind, handler, get in X. rewrite (ki_cfg _ _ _ K3) in X. destruct (h_unparsed (c_h (s_cfg s))) eqn:Hu.
    - eexists _, false. split; [exact X|]. split; reflexivity.
    - destruct H as [H|H]; [congruence|]. unfold pret in X. cbv beta iota in X. rewrite (ki_cfg _ _ _ K3), H in X. eexists _, false. split; [exact X|]. split; reflexivity. }
  destruct B as (s3 & b & B1 & B2 & B3). exists s3, (set_e_notation (Some (utf8 n)) y1). split; [|split; [|split; [|split]]].
  - intros r. rewrite Red. cbn [s_entity]. rewrite filter_app. rewrite acts_app. unfold pbind at 1. rewrite A. cbn [filter speaks snd punct acts]. unfold pbind at 1. rewrite B1. reflexivity.
  - rewrite B3, (ki_log _ _ _ K3), (ki_pid _ _ _ K3), Z2, Z3, Z4. reflexivity.
  - unfold entity_of. rewrite B2. exact E2.
  - unfold definition. cbn [e_text e_sys e_base e_pub e_notation e_is_param e_is_internal set_e_notation]. rewrite Z1, Z2, Z3, Z4, Z6, Y1, Y5, Fr. reflexivity.
  - intros r Hr. rewrite <- (ki_other _ _ _ K3 r Hr). unfold entity_of. rewrite B2. reflexivity.
Qed.

(* ---- the document type ---- *)
Record dk (s0 : st) (n sys pub : option bytes) (s : st) : Prop := {
  dk_name : s_doctypeName s = n; dk_sys : s_doctypeSysid s = sys; dk_pub : s_doctypePubid s = pub;
  dk_log : s_log s = s_log s0; dk_pid : s_pid s = s_pid s0; dk_cfg : s_cfg s = s_cfg s0; dk_ask : unasked s }.
Definition HT (P : st -> Prop) {A} (m : State.P A) (Q : A -> st -> Prop) : Prop := forall s, P s -> exists a s', m s = Ret a s' /\ Q a s'.
Lemma HT_bind (P : st -> Prop) {A B} (m : State.P A) (k : A -> State.P B) Q R : HT P m Q -> (forall a, HT (Q a) (k a) R) -> HT P (pbind m k) R.
Proof. intros H1 H2 s Hs. destruct (H1 s Hs) as (a & s1 & E & Q1). destruct (H2 a s1 Q1) as (b & s2 & E2 & R2). exists b, s2. split; [|exact R2]. unfold pbind. rewrite E. exact E2. Qed.
Lemma HT_upd s0 n sys pub n' sys' pub' f : (forall s, dk s0 n sys pub s -> dk s0 n' sys' pub' (f s)) -> HT (dk s0 n sys pub) (upd f) (fun _ => dk s0 n' sys' pub').
Proof. intros H s Hs. exists tt, (f s). split; [reflexivity|auto]. Qed.
Lemma HT_dtd s0 n sys pub f : (forall d, d_standalone (f d) = d_standalone d) -> HT (dk s0 n sys pub) (upd_dtd f) (fun _ => dk s0 n sys pub).
Proof. intros H. apply HT_upd. intros s [A1 A2 A3 A4 A5 A6 A7]. constructor; auto. destruct A7 as [Y|[Y|Y]]; [left; exact Y|right; left|right; right; exact Y]. change (s_dtd (set_dtd ?x s)) with x. rewrite H. exact Y. Qed.
Lemma HT_ent s0 n sys pub ref f : HT (dk s0 n sys pub) (upd_entity ref f) (fun _ => dk s0 n sys pub).
Proof. apply HT_dtd. intros d. destruct (look_entity ref d); [|reflexivity]. unfold put_entity. destruct (fst ref); reflexivity. Qed.
Lemma HT_get s0 n sys pub {A} (f : st -> A) : HT (dk s0 n sys pub) (get f) (fun _ => dk s0 n sys pub).
Proof. intros s Hs. exists (f s), s. auto. Qed.
Lemma HT_ret s0 n sys pub {A} (a : A) : HT (dk s0 n sys pub) (pret a) (fun _ => dk s0 n sys pub).
Proof. intros s Hs. exists a, s. auto. Qed.
Lemma HT_on s0 n sys pub h (b : bool) : h (c_h (s_cfg s0)) = b -> HT (dk s0 n sys pub) (handler h) (fun x s => x = b /\ dk s0 n sys pub s).
Proof. intros H s Hs. exists b, s. split; [unfold handler, get; rewrite (dk_cfg _ _ _ _ _ Hs), H; reflexivity|auto]. Qed.
Lemma HT_stand s0 n sys pub p : HT (fun s => p = s_pep s /\ dk s0 n sys pub s) (match p with PEP_NEVER => check_standalone | _ => pret tt end) (fun _ => dk s0 n sys pub).
Proof.
  intros s [-> Hs]. exists tt, s. split; [|exact Hs]. destruct (s_pep s) eqn:Ep; try reflexivity. unfold check_standalone, pbind, getd, handler, get.
  destruct (dk_ask _ _ _ _ _ Hs) as [Y|[Y|Y]]; [congruence|rewrite Y; reflexivity|rewrite Y, andb_false_r; reflexivity].
Qed.
Ltac dkk := intros ? ? ? ? ? [?D ?D ?D ?D ?D ?D ?D]; constructor; first [assumption|reflexivity].

Definition inert (f : st -> st) : Prop := forall s0 n sys pub s, dk s0 n sys pub s -> dk s0 n sys pub (f s).
Lemma HT_inert s0 n sys pub f : inert f -> HT (dk s0 n sys pub) (upd f) (fun _ => dk s0 n sys pub).
Proof. intros H. apply HT_upd. apply H. Qed.
Lemma HT_insert s0 n sys pub : HT (dk s0 n sys pub) insert_subset (fun _ => dk s0 n sys pub).
Proof. apply HT_dtd. intros d. destruct (look_entity subset d); reflexivity. Qed.
Lemma public_told r k s0 n sys pub p : lit_ok dom p -> all_in pubid_char (snd p) -> h_startDoctype (c_h (s_cfg s0)) = true ->
  HT (dk s0 n sys pub) (role_action r R_DOCTYPE_PUBLIC_ID k ENormal e false (quoted enc p) 0) (fun _ => dk s0 n sys (Some (pub_shown p))).
Proof.
  intros L P H. cbn [role_action]. eapply HT_bind; [apply HT_inert; unfold inert; dkk|intros ?; cbv beta].
  eapply HT_bind; [apply HT_insert|intros ?; cbv beta].
  eapply HT_bind; [apply HT_inert; unfold inert; dkk|intros ?; cbv beta]. eapply HT_bind; [apply HT_dtd; reflexivity|intros ?; cbv beta].
  eapply HT_bind; [apply HT_on, H|intros on; cbv beta]. eapply (HT_bind _ _ _ (fun _ s => on = true /\ dk s0 n sys pub s)).
  { intros s Hs. exists tt, s. split; [apply (public_checked p s L P)|exact Hs]. }
  intros ?; cbv beta. eapply (HT_bind _ _ _ (fun _ => dk s0 n sys (Some (pub_shown p)))).
  { intros s [-> Hs]. exists tt, (set_doctypePubid (Some (pub_shown p)) s). split; [unfold pbind; rewrite (public_read p s L P); reflexivity|]. destruct Hs; constructor; try assumption; reflexivity. }
  intros ?; cbv beta. eapply HT_bind; [apply HT_get|intros keep; cbv beta]. eapply HT_bind; [|intros ?; cbv beta; apply HT_ret].
  destruct keep; [|apply HT_ret]. eapply HT_bind; [|intros q; cbv beta; apply HT_ent].
  intros s Hs. exists (pub_shown p), s. split; [apply (public_read p s L P)|exact Hs].
Qed.
Lemma system_told r k s0 n sys pub x : lit_ok dom x -> h_startDoctype (c_h (s_cfg s0)) = true ->
  HT (dk s0 n sys pub) (role_action r R_DOCTYPE_SYSTEM_ID k ENormal e false (quoted enc x) 0) (fun _ => dk s0 n (Some (utf8 (snd x))) pub).
Proof.
  intros L H. cbn [role_action]. eapply HT_bind; [apply HT_inert; unfold inert; dkk|intros ?; cbv beta].
  eapply HT_bind; [apply HT_dtd; reflexivity|intros ?; cbv beta]. eapply HT_bind; [apply HT_on, H|intros on; cbv beta].
  eapply (HT_bind _ _ _ (fun _ => dk s0 n (Some (utf8 (snd x))) pub)).
  { intros s [-> Hs]. exists tt, (set_doctypeSysid (Some (utf8 (snd x))) s). split; [unfold pbind; rewrite (literal_read x s L); reflexivity|]. destruct Hs; constructor; try assumption; reflexivity. }
  intros ?; cbv beta. eapply (HT_bind _ _ _ (fun p s => p = s_pep s /\ dk s0 n (Some (utf8 (snd x))) pub s)). { intros s Hs. exists (s_pep s), s. auto. }
  intros p. eapply HT_bind; [apply HT_stand|intros ?; cbv beta]. eapply HT_bind; [apply HT_get|intros ent; cbv beta].
  eapply HT_bind.
  { destruct ent; [apply HT_ret|]. eapply HT_bind; [apply HT_insert|intros ?; cbv beta]. eapply HT_bind; [apply HT_inert; unfold inert; dkk|intros ?; cbv beta; apply HT_ent]. }
  intros ?; cbv beta. eapply HT_bind; [apply HT_get|intros keep; cbv beta]. eapply HT_bind; [apply HT_get|intros en; cbv beta]. eapply HT_bind; [apply HT_get|intros base; cbv beta].
  eapply HT_bind; [|intros ?; cbv beta; apply HT_ret]. destruct keep, en; try apply HT_ret. eapply HT_bind; [|intros q; cbv beta; apply HT_ent].
  intros s Hs. exists (utf8 (snd x)), s. split; [apply (literal_read x s L)|exact Hs].
Qed.
Lemma name_told r k s0 n : all_in dom n -> h_startDoctype (c_h (s_cfg s0)) = true -> unasked s0 ->
  exists b s1, role_action r R_DOCTYPE_NAME k ENormal e false (flat_map enc n) 0 s0 = Ret b s1 /\ dk s0 (Some (utf8 n)) None None s1.
Proof.
  intros Dn H U. eexists _, _. split.
  - cbn [role_action]. unfold pbind at 1, handler at 1, get at 1. rewrite H. unfold pbind at 1. unfold pbind at 1, lift at 1. rewrite (te_conv e enc dom lat ns TE n Dn). reflexivity.
  - constructor; try reflexivity. exact U.
Qed.
Lemma idents_told r s0 x s1 nm : (match x with Some x => ident_ok dom x | None => True end) -> h_startDoctype (c_h (s_cfg s0)) = true -> dk s0 nm None None s1 ->
  exists s2, acts r e (filter speaks (match x with Some x => s_ext enc R_DOCTYPE_NONE R_DOCTYPE_PUBLIC_ID R_DOCTYPE_SYSTEM_ID (ext_of enc x) | None => [] end)) s1 = Ret tt s2 /\
    dk s0 nm (sys_of x) (pub_of x) s2.
Proof.
  intros Hx H D. destruct x as [[[p|] sy]|]; [destruct Hx as [L1 [L2 L3]]|destruct Hx as [L1 _]|exists s1; split; [reflexivity|exact D]]; cbn [id_public id_system] in *.
  - destruct (public_told r T_LITERAL s0 nm None None p L2 L3 H s1 D) as (b1 & s2 & A2 & D2). destruct (system_told r T_LITERAL s0 nm None _ sy L1 H s2 D2) as (b2 & s3 & A3 & D3).
    exists s3. split; [|exact D3]. cbn [ext_of id_public id_system s_ext List.app filter speaks snd acts]. unfold pbind at 1. rewrite A2. unfold pbind at 1. rewrite A3. reflexivity.
  - destruct (system_told r T_LITERAL s0 nm None _ sy L1 H s1 D) as (b2 & s3 & A3 & D3).
    exists s3. split; [|exact D3]. cbn [ext_of id_public id_system s_ext List.app filter speaks snd acts]. unfold pbind at 1. rewrite A3. reflexivity.
Qed.
Lemma doctype_told pre n x ps s : all_in dom n -> (match x with Some x => ident_ok dom x | None => True end) -> h_startDoctype (c_h (s_cfg s)) = true -> unasked s ->
  spells ps (doctype_head enc pre n x) ->
  forall r, exists s', acts r e ps s = Ret tt s' /\ s_log s' = (s_pid s, EvStartDoctype (utf8 n) (sys_of x) (pub_of x) true) :: s_log s.
Proof.
  intros Dn Hx H U Sp r. rewrite acts_spoken. rewrite Sp. clear Sp. destruct (name_told r (if pre then T_PREFIXED_NAME else T_NAME) s n Dn H U) as (b & s1 & A1 & D1).
  destruct (idents_told r s x s1 _ Hx H D1) as (s2 & A2 & D2). eexists. split.
  - unfold doctype_head. cbn [filter speaks snd name fst]. rewrite filter_app. cbn [acts]. unfold pbind at 1. unfold name. cbn [prefixed spelt]. cbv beta iota. rewrite A1. rewrite acts_app. unfold pbind at 1. rewrite A2.
    cbn [filter speaks snd punct acts]. unfold pbind at 1. cbn [role_action]. unfold pbind at 1, handler at 1, get at 1. rewrite (dk_cfg _ _ _ _ _ D2), H.
    unfold pbind at 1, get at 1. rewrite (dk_name _ _ _ _ _ D2). unfold pbind at 1, some at 1. unfold pret at 1. unfold pbind at 1, get at 1. unfold pbind at 1, get at 1.
    rewrite (dk_sys _ _ _ _ _ D2), (dk_pub _ _ _ _ _ D2). reflexivity.
  - rewrite <- (dk_log _ _ _ _ _ D2), <- (dk_pid _ _ _ _ _ D2). reflexivity.
Qed.
End Decl.
