(* The event of an attribute declaration. *)
From Coq Require Import String List NArith ZArith Bool Lia.
From Verif Require Import Base Encoding SpecText SpecUnicode SpecLex Role SpecRole SpecMisc Tok Status State Bind AttVal SpecAttVal Atts RoleLaws AttTop AttsText Content Prolog SpecAttDecl.
From Coq Require Import List.
Import ListNotations.
Local Open Scope N_scope.

(* what the declaration of the type leaves alone *)
Record held (s s1 : st) : Prop := {
  he_dtd : s_dtd s1 = s_dtd s; he_cfg : s_cfg s1 = s_cfg s; he_enc : s_enc s1 = s_enc s; he_log : s_log s1 = s_log s; he_pid : s_pid s1 = s_pid s;
  he_el : s_declElement s1 = s_declElement s; he_att : s_declAttId s1 = s_declAttId s; he_role : s_role s1 = s_role s; he_open : s_open s1 = s_open s }.
Lemma held_refl s : held s s. Proof. constructor; reflexivity. Qed.
Lemma held_trans a b c : held a b -> held b c -> held a c.
Proof. intros [] []. constructor; congruence. Qed.
Lemma acts_app r e l1 l2 s : acts r e (l1 ++ l2) s = pbind (acts r e l1) (fun _ => acts r e l2) s.
Proof.
  revert s. induction l1 as [|[[k cs] ro] l1 IH]; intros s; [reflexivity|]. cbn [List.app acts]. unfold pbind.
  destruct (role_action _ _ _ _ _ _ _ _ s) as [a s1|? ?|?]; [apply IH|reflexivity|reflexivity].
Qed.
Lemma acts_told r e l : forall s, acts r e l s = acts r e (filter tells l) s.
Proof.
  induction l as [|[[k cs] ro] l IH]; intros s; [reflexivity|]. cbn [filter].
  assert (D : ro = R_ATTLIST_NONE \/ tells (k, cs, ro) = true) by (destruct ro; auto). destruct D as [->|D].
  - cbn [tells snd acts]. unfold pbind at 1. cbn [role_action]. unfold quiet_kept, pbind, getd, get, handler, pret. apply IH.
  - rewrite D. cbn [acts]. unfold pbind. destruct (role_action _ _ _ _ _ _ _ _ s) as [a s1|? ?|?]; [apply IH|reflexivity|reflexivity].
Qed.

Section Decl.
Variables (e : EncImpl) (enc : N -> list N) (dom : N -> bool) (lat ns : bool).
Hypothesis TE : text_encoding e enc dom lat ns.

Definition values (ro : ROLE) (l : list (list N)) (ps : list piece) : Prop := map (fun p => (snd (fst p), snd p)) ps = map (fun cs => (flat_map enc cs, ro)) l.
(* further names *)
Lemma names_more ro : ro = R_ATTRIBUTE_ENUM_VALUE \/ ro = R_ATTRIBUTE_NOTATION_VALUE -> forall l ps s p, values ro l ps -> Forall (all_in dom) l ->
  d_keep (s_dtd s) = true -> h_attlist (c_h (s_cfg s)) = true -> s_declAttType s = Some p ->
  exists s1, (forall r, acts r e ps s = Ret tt s1) /\ held s s1 /\ s_declAttType s1 = Some (p ++ utf8 (flat_map (fun y => txt "|" ++ y) l)) /\
    s_declCdata s1 = s_declCdata s /\ s_declIsId s1 = s_declIsId s.
Proof.
  intros Ro. induction l as [|y l IH]; intros ps s p V D K H T.
  - destruct ps; [|discriminate]. exists s. split; [reflexivity|]. split; [apply held_refl|]. cbn. rewrite app_nil_r. auto.
  - destruct ps as [|[[k cs] ro'] ps]; [discriminate|]. injection V as -> -> V. inversion D as [|? ? Dy D']; subst.
    set (s0 := set_declAttType (Some ((p ++ ascii "|") ++ utf8 y)) s).
    assert (A : forall r, acts r e ((k, flat_map enc y, ro) :: ps) s = acts r e ps s0).
    { intros r. cbn [acts]. unfold pbind at 1. assert (X : exists b, role_action r ro k ENormal e false (flat_map enc y) 0 s = Ret b s0).
      { exists false. destruct Ro as [->| ->]; cbn [role_action]; unfold pbind, getd, handler, get, lift; cbv beta; rewrite K, H; cbn [andb]; rewrite T, (te_conv e enc dom lat ns TE y Dy); reflexivity. }
      destruct X as (b & ->). reflexivity. }
    destruct (IH ps s0 ((p ++ ascii "|") ++ utf8 y) V D' K H eq_refl) as (s1 & B & He & Ty & C1 & C2).
    exists s1. split; [intros r; rewrite A; apply B|]. split; [eapply held_trans; [|exact He]; constructor; reflexivity|].
    split; [|split; assumption]. rewrite Ty. cbn [flat_map]. f_equal. unfold utf8. rewrite !flat_map_app. rewrite <- !app_assoc. reflexivity.
Qed.
Definition first_text (ro : ROLE) : list N := match ro with R_ATTRIBUTE_NOTATION_VALUE => txt "NOTATION(" | _ => txt "(" end.
Lemma names_all ro : ro = R_ATTRIBUTE_ENUM_VALUE \/ ro = R_ATTRIBUTE_NOTATION_VALUE -> forall x l ps s, values ro (x :: l) ps -> Forall (all_in dom) (x :: l) ->
  d_keep (s_dtd s) = true -> h_attlist (c_h (s_cfg s)) = true -> s_declAttType s = None ->
  exists s1, (forall r, acts r e ps s = Ret tt s1) /\ held s s1 /\ s_declAttType s1 = Some (utf8 (first_text ro ++ x ++ flat_map (fun y => txt "|" ++ y) l)) /\
    s_declCdata s1 = s_declCdata s /\ s_declIsId s1 = s_declIsId s.
Proof.
  intros Ro x l ps s V D K H T. destruct ps as [|[[k cs] ro'] ps]; [discriminate|]. injection V as -> -> V. inversion D as [|? ? Dx D']; subst.
  set (s0 := set_declAttType (Some (first_text ro ++ utf8 x)) s).
  assert (A : forall r, acts r e ((k, flat_map enc x, ro) :: ps) s = acts r e ps s0).
  { intros r. cbn [acts]. unfold pbind at 1. assert (X : exists b, role_action r ro k ENormal e false (flat_map enc x) 0 s = Ret b s0).
    { exists false. destruct Ro as [->| ->]; cbn [role_action]; unfold pbind, getd, handler, get, lift; cbv beta; rewrite K, H; cbn [andb]; rewrite T, (te_conv e enc dom lat ns TE x Dx); reflexivity. }
    destruct X as (b & ->). reflexivity. }
  destruct (names_more ro Ro l ps s0 (first_text ro ++ utf8 x) V D' K H eq_refl) as (s1 & B & He & Ty & C1 & C2).
  exists s1. split; [intros r; rewrite A; apply B|]. split; [eapply held_trans; [|exact He]; constructor; reflexivity|].
  split; [|split; assumption]. rewrite Ty. f_equal. unfold utf8. rewrite !flat_map_app. rewrite <- app_assoc. f_equal. destruct Ro as [->| ->]; reflexivity.
Qed.
Lemma more_pieces {A B} (f : A -> XML_TOK * bytes) (h : B -> A) (g : B -> list N) ro l : (forall y, snd (f (h y)) = flat_map enc (g y)) -> ro <> R_ATTLIST_NONE ->
  values ro (map g l) (filter tells (flat_map (fun y => [punct T_OR R_ATTLIST_NONE; (fst (f y), snd (f y), ro)]) (map h l) ++ [punct T_CLOSE_PAREN R_ATTLIST_NONE])).
Proof.
  intros G Ro. unfold values. induction l as [|y l IH]; [reflexivity|]. cbn [map flat_map List.app filter].
  assert (X : tells (fst (f (h y)), snd (f (h y)), ro) = true) by (destruct ro; try reflexivity; congruence). rewrite X. cbn [tells punct snd map fst].
  f_equal; [rewrite G; reflexivity|exact IH].
Qed.
(* the type with the parenthesis that is added at the end *)
Definition closed (ty : bytes) : bytes :=
  if match ty with c :: ty' => (c =? 40) || (c =? 78) && match ty' with c' :: _ => c' =? 79 | [] => false end | [] => false end then ty ++ [41] else ty.
Lemma type_read t ps s el id : Forall (all_in dom) (type_names t) -> filter tells ps = pieces_of enc t -> declaring s el id ->
  exists s1 ty, (forall r, acts r e ps s = Ret tt s1) /\ held s s1 /\ s_declAttType s1 = Some ty /\ closed ty = utf8 (type_shown t) /\ s_declCdata s1 = is_cdata t.
Proof.
  intros D F [E1 E2 E3 E4 E5 E6 E7].
  assert (Red : forall r, acts r e ps s = acts r e (pieces_of enc t) s) by (intros r; rewrite <- F; apply acts_told). clear F.
  destruct t as [t|x l|x l].
  - exists (match t with TCdata => set_declCdata true (set_declAttType (Some (ascii "CDATA")) s) | TId => set_declIsId true (set_declAttType (Some (ascii "ID")) s)
      | TIdref => set_declAttType (Some (ascii "IDREF")) s | TIdrefs => set_declAttType (Some (ascii "IDREFS")) s
      | TEntity => set_declAttType (Some (ascii "ENTITY")) s | TEntities => set_declAttType (Some (ascii "ENTITIES")) s
      | TNmtoken => set_declAttType (Some (ascii "NMTOKEN")) s | TNmtokens => set_declAttType (Some (ascii "NMTOKENS")) s end), (utf8 (simple_name t)).
    split; [intros r; rewrite Red; destruct t; reflexivity|]. split; [destruct t; constructor; reflexivity|]. split; [destruct t; reflexivity|].
    split; [destruct t; reflexivity|]. destruct t; [reflexivity|exact E4..].
  - destruct (names_all R_ATTRIBUTE_ENUM_VALUE (or_introl eq_refl) (snd x) (map snd l) (pieces_of enc (Enum x l)) s) as (s1 & B & He & Ty & C1 & C2); auto.
    { unfold pieces_of, values. cbn [encoded s_type filter tells punct snd fst map]. f_equal. exact (more_pieces (fun y => y) (fun y => (fst y, flat_map enc (snd y))) snd R_ATTRIBUTE_ENUM_VALUE l (fun y => eq_refl) ltac:(discriminate)). }
    eexists s1, _. split; [intros r; rewrite Red; apply B|]. split; [exact He|]. split; [exact Ty|]. split; [|rewrite C1; exact E4].
    cbn [type_shown first_text]. unfold listed. rewrite !app_assoc. unfold utf8. rewrite !flat_map_app. reflexivity.
  - destruct (names_all R_ATTRIBUTE_NOTATION_VALUE (or_intror eq_refl) x l (pieces_of enc (NotationType x l)) s) as (s1 & B & He & Ty & C1 & C2); auto.
    { unfold pieces_of, values. cbn [encoded s_type filter tells punct snd fst map]. f_equal.
      pose proof (more_pieces (fun y => (T_NAME, y)) (flat_map enc) (fun y => y) R_ATTRIBUTE_NOTATION_VALUE l (fun y => eq_refl) ltac:(discriminate)) as K. unfold values in K. rewrite map_id in K. exact K. }
    eexists s1, _. split; [intros r; rewrite Red; apply B|]. split; [exact He|]. split; [exact Ty|]. split; [|rewrite C1; exact E4].
    cbn [type_shown first_text]. unfold listed. rewrite !app_assoc. unfold utf8. rewrite !flat_map_app. reflexivity.
Qed.
Lemma end_told isId v req s el id ty : s_declElement s = Some el -> s_declAttId s = Some id -> s_declAttType s = Some ty -> h_attlist (c_h (s_cfg s)) = true ->
  exists s', end_attribute isId v req s = Ret false s' /\ s_log s' = (s_pid s, EvAttlistDecl el id (closed ty) v req) :: s_log s.
Proof.
  intros A B C D. unfold end_attribute. unfold pbind at 1, get at 1. rewrite A. unfold pbind at 1, some at 1, pret at 1. unfold pbind at 1, get at 1. rewrite B. unfold pbind at 1, some at 1, pret at 1.
  unfold pbind at 1, get at 1. unfold pbind at 1, upd_dtd at 1, upd at 1. set (s1 := set_dtd _ s).
  assert (X : h_attlist (c_h (s_cfg s1)) = true /\ s_declAttType s1 = Some ty /\ s_log s1 = s_log s /\ s_pid s1 = s_pid s) by (repeat split; assumption). clearbody s1. destruct X as (X1 & X2 & X3 & X4).
  unfold pbind at 1, handler at 1, get at 1. unfold pbind at 1, get at 1. rewrite X1, X2. unfold pbind at 1, upd at 1. rewrite <- X3, <- X4. fold (closed ty).
  unfold pbind, call, pret. eexists. split; reflexivity.
Qed.
Lemma told_plain t ps s el id k tok req : Forall (all_in dom) (type_names t) -> filter tells ps = pieces_of enc t -> declaring s el id ->
  exists s', (forall r, acts r e (ps ++ [(k, tok, if req : bool then R_REQUIRED_ATTRIBUTE_VALUE else R_IMPLIED_ATTRIBUTE_VALUE)]) s = Ret tt s') /\
    s_log s' = (s_pid s, EvAttlistDecl el id (utf8 (type_shown t)) None req) :: s_log s.
Proof.
  intros D F Dc. destruct (type_read t ps s el id D F Dc) as (s1 & ty & A & He & Ty & Cl & Cd). destruct Dc as [E1 E2 E3 E4 E5 E6 E7], He as [H1 H2 H3 H4 H5 H6 H7 H8 H9].
  destruct (end_told (s_declIsId s1) None req s1 el id ty) as (s' & B & L); try congruence.
  exists s'. split; [|rewrite L, Cl, H4, H5; reflexivity]. intros r. rewrite acts_app. unfold pbind at 1. rewrite A. cbn [acts]. unfold pbind at 1.
  assert (X : role_action r (if req then R_REQUIRED_ATTRIBUTE_VALUE else R_IMPLIED_ATTRIBUTE_VALUE) k ENormal e false tok 0 s1 = Ret false s').
  { destruct req; cbn [role_action]; unfold pbind, getd, get; cbv beta; rewrite H1, E6; exact B. }
  rewrite X. reflexivity.
Qed.
Lemma quoted q cs : q = 34 \/ q = 39 -> exists b, inc_start (minbpc e) (flat_map enc (q :: cs ++ [q])) = Ok b /\
  (minbpc e <=? length b)%nat = true /\ firstn (length b - minbpc e) b = flat_map enc cs.
Proof.
  intros Q. assert (L : length (enc q) = minbpc e).
  { assert (q < 128) by (destruct Q; subst; reflexivity). destruct (ascii_shape e enc (aw_text e enc dom lat ns TE)) as [? ? M _ E|? ? M _ E|? ? M _ E]; rewrite M, E by assumption; reflexivity. }
  exists (flat_map enc cs ++ enc q). cbn [flat_map]. rewrite flat_map_app. cbn [flat_map]. rewrite app_nil_r. split; [|split].
  - apply CpMisc.inc_app, L.
  - rewrite app_length. apply Nat.leb_le. lia.
  - rewrite app_length, L. replace (_ + _ - _)%nat with (length (flat_map enc cs)) by lia. rewrite firstn_app, firstn_all, Nat.sub_diag. cbn [firstn]. apply app_nil_r.
Qed.
Lemma told_value t ps s el id k fixed q cs v : Forall (all_in dom) (type_names t) -> filter tells ps = pieces_of enc t -> declaring s el id ->
  known (c_ns (s_cfg s)) (s_enc s) = e -> c_ns (s_cfg s) = ns -> all_in dom cs -> q = 34 \/ q = 39 ->
  attval ns (must_be_declared true s) lat false (d_gents (s_dtd s)) cs (Value v) ->
  exists n0, forall r, (n0 <= rc_fuel r)%nat ->
    exists s', acts r e (ps ++ [(k, flat_map enc (q :: cs ++ [q]), if fixed : bool then R_FIXED_ATTRIBUTE_VALUE else R_DEFAULT_ATTRIBUTE_VALUE)]) s = Ret tt s' /\
      s_log s' = (s_pid s, EvAttlistDecl el id (utf8 (type_shown t)) (Some (utf8 (normalised (is_cdata t) v))) fixed) :: s_log s.
Proof.
  intros D F Dc Kn Ns Dcs Q Av. destruct (type_read t ps s el id D F Dc) as (s1 & ty & A & He & Ty & Cl & Cd). destruct Dc as [E1 E2 E3 E4 E5 E6 E7], He as [H1 H2 H3 H4 H5 H6 H7 H8 H9].
  destruct (value_delivered e enc dom lat ns true (is_cdata t) s1 cs (Value v) TE) as (n0 & St); try congruence.
  { unfold must_be_declared in *. rewrite H1, H8, H9. exact Av. }
  exists n0. intros r Hr. specialize (St (rc_fuel r) Hr). cbn in St.
  destruct (end_told false (Some (utf8 (normalised (is_cdata t) v))) fixed s1 el id ty) as (s' & B & L); try congruence.
  exists s'. split; [|rewrite L, Cl, H4, H5; reflexivity]. rewrite acts_app. unfold pbind at 1. rewrite A. cbn [acts]. unfold pbind at 1.
  destruct (quoted q cs Q) as (b & I1 & I2 & I3).
  assert (X : role_action r (if fixed then R_FIXED_ATTRIBUTE_VALUE else R_DEFAULT_ATTRIBUTE_VALUE) k ENormal e false (flat_map enc (q :: cs ++ [q])) 0 s1 = Ret false s').
  { destruct fixed; cbn [role_action]; unfold pbind, getd, get, inc, lift, dec; cbv beta; rewrite H1, E6, I1, I2; unfold pret; rewrite I3, Cd, St; exact B. }
  rewrite X. reflexivity.
Qed.
Lemma named r k n s el : known (c_ns (s_cfg s)) (s_enc s) = e -> all_in dom n -> s_declElement s = Some el -> d_keep (s_dtd s) = true -> h_attlist (c_h (s_cfg s)) = true ->
  exists s', acts r e [(k, flat_map enc n, R_ATTRIBUTE_NAME)] s = Ret tt s' /\ declaring s' el (utf8 n) /\ s_log s' = s_log s.
Proof.
  intros Kn D E K H.
  assert (G : exists s1, getAttributeId ENormal (flat_map enc n) s = Ret (utf8 n) s1 /\ s_cfg s1 = s_cfg s /\ s_declElement s1 = Some el /\ d_keep (s_dtd s1) = true /\ s_log s1 = s_log s).
  { unfold getAttributeId, store, pbind, encoding, lift. rewrite Kn, (te_conv e enc dom lat ns TE n D). eexists. split; [reflexivity|]. repeat split; [exact E|].
    unfold upd_dtd, upd. change (s_dtd (set_dtd ?x s)) with x. unfold insert_attid. destruct (look (utf8 n) (d_attids (s_dtd s))); [exact K|]. destruct (ai_prefix _) as [[| |]|]; try exact K.
    unfold insert_prefix. destruct (look _ _); exact K. }
  destruct G as (s1 & G1 & G2 & G3 & G4 & G5). cbn [acts]. unfold pbind at 1. cbn [role_action]. unfold pbind at 1. rewrite G1.
  unfold pbind at 1, upd at 1. unfold quiet_kept, pbind, getd, get, handler, pret.
  eexists. split; [reflexivity|]. split; [|exact G5]. constructor; try reflexivity; try assumption. cbn [s_cfg]. change (h_attlist (c_h (s_cfg s1)) = true). rewrite G2. exact H.
Qed.
End Decl.
