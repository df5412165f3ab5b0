(* What the functions of the parser keep, for any relation that ignores the fields of the state that [view] does not
   show: one walk through the whole parser, used for several properties. *)
From Coq Require Import List NArith ZArith Bool Arith.
From Verif Require Import Base Encoding Tok TokMisc Norm XmlDecl Status Role State AttVal Bind Atts Scaf Content Prolog Core.
From Verif Require Import Keep.
From Verif Require Nest.
Import ListNotations.
#[local] Hint Resolve Nest.tok_end_code : codes.

Definition dview (d : dtd) := (d_gents d, d_pents d, d_prefixes d, d_default d).
Definition view (s : st) :=
  (s_cfg s, s_pid s, s_child s, s_isParam s, s_log s, s_tags s, s_inherited s, s_open s, s_declEntity s,
   (s_bindings s, s_role s, s_processor s, s_tagLevel s), dview (s_dtd s)).

(* an event that is not about elements and bindings *)
Definition mild (e : event) : bool :=
  match e with EvStartElement _ _ _ _ | EvEndElement _ | EvStartNs _ _ | EvEndNs _ | EvElementDecl _ _ => false | _ => true end.

Lemma dv_upd_attid n f d : dview (upd_attid n f d) = dview d.
Proof. unfold upd_attid. destruct (look n (d_attids d)); reflexivity. Qed.
Lemma dv_upd_elem n f d : dview (upd_elem n f d) = dview d.
Proof. unfold upd_elem. destruct (look n (d_elems d)); reflexivity. Qed.
Lemma dv_define el id a b v d : dview (defineAttribute el id a b v d) = dview d.
Proof.
  unfold defineAttribute. destruct (look el _); [|reflexivity]. destruct (look id _); [|reflexivity].
  destruct (_ && has_default _ _); [reflexivity|]. destruct a; cbv zeta; unfold dview; cbn; [reflexivity|].
  change (dview (upd_attid id (set_ai_maybe true) d) = dview d). apply dv_upd_attid.
Qed.
Lemma dv_part f d x : (let* (scaf, i) := next_part (d_scaf d) (d_index d) in f scaf i) = Ok x ->
  (forall scaf i y, f scaf i = Ok y -> dview y = dview d) -> dview x = dview d.
Proof. destruct (next_part _ _) as [[scaf i]|]; cbn [bind]; [|discriminate]. eauto. Qed.
Lemma dv_open d d' : scaf_open d = Ok d' -> dview d' = dview d.
Proof.
  unfold scaf_open. intros E. eapply dv_part; [exact E|]. cbv beta. intros scaf i y Ey.
  destruct (modify _ _ _); [|discriminate]. injection Ey as <-. reflexivity.
Qed.
Lemma dv_name q n d d' : scaf_name q n d = Ok d' -> dview d' = dview d.
Proof.
  unfold scaf_name. intros E. eapply dv_part; [exact E|]. cbv beta. intros scaf i y Ey.
  destruct (modify _ _ _); [|discriminate]. injection Ey as <-. reflexivity.
Qed.
Lemma dv_top f d d' : scaf_top f d = Ok d' -> dview d' = dview d.
Proof.
  unfold scaf_top. destruct (d_index d); [discriminate|]. destruct (modify _ _ _); [|discriminate].
  intros E. injection E as <-. reflexivity.
Qed.
Lemma dv_close q d d' b : scaf_close q d = Ok (d', b) -> dview d' = dview d.
Proof.
  unfold scaf_close. destruct (d_index d); [discriminate|]. destruct (modify _ _ _); [|discriminate].
  intros E. injection E as <- <-. reflexivity.
Qed.

Record leafs (N : st -> st -> Prop) : Prop := {
  l_frame : frame N N;
  l_same : forall s s', view s' = view s -> N s s';
  l_call : forall ev, mild ev = true -> keeps N N (call ev);
  l_decl : forall el m, keeps N N (call (EvElementDecl el m));
  l_insert : forall n s, look n (d_prefixes (s_dtd s)) = None ->
    N s (set_dtd (set_d_prefixes (put n None (d_prefixes (s_dtd s))) (s_dtd s)) s)
}.

Create HintDb lw discriminated.
Section Leafs.
Variable N : st -> st -> Prop.
Hypothesis L : leafs N.
Let fr := l_frame N L.

Lemma lw_same f : (forall s, view (f s) = view s) -> keeps N N (upd f).
Proof. intros H. apply keeps_upd. intros s. apply (l_same N L), H. Qed.
Lemma lw_upd_dtd f : (forall d, dview (f d) = dview d) -> keeps N N (upd_dtd f).
Proof. intros H. unfold upd_dtd. apply lw_same. intros s. unfold view. cbn. rewrite H. reflexivity. Qed.
Ltac same := first [apply lw_same; intros; reflexivity | apply lw_upd_dtd; intros; reflexivity].
Ltac lf := first [ solve [eauto 3 with lw nocore] | same ].
Ltac wk := walk fr lf.
Lemma lw_set_event t b : keeps N N (set_event t b). Proof. unfold set_event. wk. Qed.
Lemma lw_set_event_n t n : keeps N N (set_event_n t n). Proof. unfold set_event_n. wk. Qed.
Lemma lw_set_event_end_n t n : keeps N N (set_event_end_n t n). Proof. unfold set_event_end_n. wk. Qed.
Lemma lw_set_event_end_tok t b u n : keeps N N (set_event_end_tok t b u n). Proof. unfold set_event_end_tok. wk. Qed.
Hint Resolve lw_set_event lw_set_event_n lw_set_event_end_n lw_set_event_end_tok : lw.
Lemma lw_inc n b : keeps N N (inc n b). Proof. unfold inc. wk. Qed.
Lemma lw_dec n b : keeps N N (dec n b). Proof. unfold dec. wk. Qed.
Lemma lw_need n : keeps N N (need n). Proof. unfold need. wk. Qed.
Lemma lw_store t b : keeps N N (store t b). Proof. unfold store. wk. Qed.
Hint Resolve lw_inc lw_dec lw_need lw_store : lw.
Lemma lw_rest_after b n : keeps N N (rest_after b n). Proof. unfold rest_after. wk. Qed.
Lemma lw_set_event_opt t b n : keeps N N (set_event_opt t b n). Proof. unfold set_event_opt. wk. Qed.
Lemma lw_ref_name e b n : keeps N N (ref_name e b n). Proof. unfold ref_name. wk. Qed.
Lemma lw_some {A} (x : option A) : keeps N N (some x). Proof. unfold some. wk. Qed.
Hint Resolve lw_rest_after lw_set_event_opt lw_ref_name lw_some : lw.
Lemma lw_scan c b : keeps N N (scan c b).
Proof.
  intros s. unfold scan. destruct (s_enc s).
  - destruct (initScan _ _ _ _) as [[[t n] [e|]]|]; [apply (l_same N L); reflexivity|apply (f_refl _ _ fr)|exact I].
  - apply (keeps_lift _ _ fr).
Qed.
Hint Resolve lw_scan : lw.
Lemma lw_scan_as t c b : keeps N N (scan_as t c b). Proof. unfold scan_as. wk. Qed.
Hint Resolve lw_scan_as : lw.
Lemma lw_call ev : mild ev = true -> keeps N N (call ev). Proof. apply (l_call N L). Qed.
Lemma lw_emit h ev : mild ev = true -> keeps N N (emit h ev).
Proof. intros H. unfold emit. wk. apply lw_call, H. Qed.
Hint Extern 2 (keeps N N (call _)) => apply lw_call; reflexivity : lw.
Hint Extern 2 (keeps N N (emit _ _)) => apply lw_emit; reflexivity : lw.
Lemma lw_send_chunks mk (H : forall b, mild (mk b) = true) fuel t e after : forall b, keeps N N (send_chunks fuel mk t e b after).
Proof. induction fuel as [|fuel IH]; intros b; cbn [send_chunks]; wk; apply lw_call, H. Qed.
Lemma lw_send mk (H : forall b, mild (mk b) = true) t b after : keeps N N (send mk t b after).
Proof. unfold send. wk. apply lw_call, H. apply lw_send_chunks, H. Qed.
Lemma lw_reportDefault t b n : keeps N N (reportDefault t b n).
Proof. unfold reportDefault. wk. apply lw_send. reflexivity. Qed.
Hint Resolve lw_reportDefault : lw.
Lemma lw_reportPI t b n : keeps N N (reportPI t b n). Proof. unfold reportPI. wk. Qed.
Lemma lw_reportComment t b n : keeps N N (reportComment t b n). Proof. unfold reportComment. wk. Qed.
Lemma lw_char_data t d b n : keeps N N (char_data t d b n). Proof. unfold char_data. wk. Qed.
Lemma lw_char_data_text t b n : keeps N N (char_data_text t b n).
Proof. unfold char_data_text. wk. apply lw_send. reflexivity. Qed.
Lemma lw_after_token t b : keeps N N (after_token t b). Proof. unfold after_token. wk. Qed.
Hint Resolve lw_reportPI lw_reportComment lw_char_data lw_char_data_text lw_after_token : lw.
Lemma lw_doCdataSection fuel t h : forall b, keeps N N (doCdataSection fuel t b h).
Proof. induction fuel as [|fuel IH]; intros b; cbn [doCdataSection]; wk. Qed.
Lemma lw_epilog_loop fuel : forall b, keeps N N (epilog_loop fuel b).
Proof. induction fuel as [|fuel IH]; intros b; cbn [epilog_loop]; wk. Qed.
Hint Resolve lw_doCdataSection lw_epilog_loop : lw.

Lemma lw_insert n s : N s (set_dtd (insert_prefix n (s_dtd s)) s).
Proof.
  unfold insert_prefix. destruct (look n (d_prefixes (s_dtd s))) eqn:E; [apply (l_same N L); reflexivity|].
  apply (l_insert N L), E.
Qed.
Lemma lw_insert_attid ns n : keeps N N (upd_dtd (insert_attid ns n)).
Proof.
  apply keeps_upd. intros s. unfold insert_attid. destruct (look n (d_attids (s_dtd s))); [apply (l_same N L); reflexivity|].
  cbv zeta. set (s1 := set_dtd (set_d_attids (put n (new_attid ns n) (d_attids (s_dtd s))) (s_dtd s)) s).
  assert (H1 : N s s1) by (apply (l_same N L); reflexivity).
  destruct (ai_prefix (new_attid ns n)) as [[|p|]|]; try exact H1.
  apply (f_trans _ _ fr _ _ _ H1 (lw_insert p s1)).
Qed.
Lemma lw_insert_elem ns n : keeps N N (upd_dtd (insert_elem ns n)).
Proof.
  apply keeps_upd. intros s. unfold insert_elem. destruct (look n (d_elems (s_dtd s))); [apply (l_same N L); reflexivity|].
  cbv zeta. set (pp := if ns then elem_prefix n else None).
  set (s1 := set_dtd (set_d_elems (put n {| et_prefix := pp; et_idAtt := None; et_defaults := [] |} (d_elems (s_dtd s))) (s_dtd s)) s).
  assert (H1 : N s s1) by (apply (l_same N L); reflexivity).
  destruct pp as [[|p|]|]; try exact H1.
  apply (f_trans _ _ fr _ _ _ H1 (lw_insert p s1)).
Qed.
Hint Resolve lw_insert_attid lw_insert_elem : lw.
Lemma lw_getAttributeId t b : keeps N N (getAttributeId t b). Proof. unfold getAttributeId. wk. Qed.
Lemma lw_getElementType t b : keeps N N (getElementType t b). Proof. unfold getElementType. wk. Qed.
Lemma lw_attid_of i : keeps N N (attid_of i). Proof. unfold attid_of. wk. Qed.
Lemma lw_set_type i t : keeps N N (set_type i t). Proof. unfold set_type. apply lw_upd_dtd. intros. apply dv_upd_attid. Qed.
Hint Resolve lw_getAttributeId lw_getElementType lw_attid_of lw_set_type : lw.
Lemma lw_tag_raw e k b : keeps N N (tag_raw e k b). Proof. unfold tag_raw. wk. Qed.
Hint Resolve lw_tag_raw : lw.
Lemma lw_after_colon n : keeps N N (after_colon n). Proof. unfold after_colon. wk. Qed.
Hint Resolve lw_after_colon : lw.
Lemma lw_expand_atts atts : forall n seen, keeps N N (expand_atts n seen atts).
Proof. induction atts as [|x xs IH]; intros n seen; cbn [expand_atts]; wk. Qed.
Lemma lw_clear_types l : keeps N N (clear_types l). Proof. induction l; cbn [clear_types]; wk. Qed.
Lemma lw_clear_bindings l : keeps N N (clear_bindings l). Proof. induction l; cbn [clear_bindings]; wk. Qed.
Lemma lw_expand_name l : keeps N N (expand_name l). Proof. unfold expand_name. wk. Qed.
Lemma lw_id_index el l : keeps N N (id_index el l). Proof. unfold id_index. wk. Qed.
Hint Resolve lw_expand_atts lw_clear_types lw_clear_bindings lw_expand_name lw_id_index : lw.

(* functions that work on a part of the DTD that they have read *)
Lemma lw_scaf {A} (f : dtd -> res dtd) (k : dtd -> P A) : (forall d d', f d = Ok d' -> dview d' = dview d) ->
  (forall d, keeps N N (k d)) -> keeps N N (do d <- get s_dtd; do d' <- lift (f d); upd (set_dtd d') ;;; k d').
Proof.
  intros Hf Hk s. unfold pbind, get, lift. destruct (f (s_dtd s)) as [d'|] eqn:E; [|exact I].
  unfold upd. specialize (Hk d' (set_dtd d' s)).
  assert (H : N s (set_dtd d' s)) by (apply (l_same N L); unfold view; cbn; rewrite (Hf _ _ E); reflexivity).
  destruct (k d' (set_dtd d' s)); [exact (f_trans _ _ fr _ _ _ H Hk)| |exact I].
  destruct Hk as [He Hk]. split; [exact He|]. exact (f_trans _ _ fr _ _ _ H Hk).
Qed.
Lemma lw_close {A} q (k : dtd -> bool -> P A) : (forall d b, keeps N N (k d b)) ->
  keeps N N (do d <- get s_dtd; do (d, last) <- lift (scaf_close q d); upd (set_dtd d) ;;; k d last).
Proof.
  intros Hk s. unfold pbind, get, lift. destruct (scaf_close q (s_dtd s)) as [[d' b]|] eqn:E; [|exact I].
  unfold upd. specialize (Hk d' b (set_dtd d' s)).
  assert (H : N s (set_dtd d' s)) by (apply (l_same N L); unfold view; cbn; rewrite (dv_close _ _ _ _ E); reflexivity).
  destruct (k d' b (set_dtd d' s)); [exact (f_trans _ _ fr _ _ _ H Hk)| |exact I].
  destruct Hk as [He Hk]. split; [exact He|]. exact (f_trans _ _ fr _ _ _ H Hk).
Qed.
Lemma lw_quiet h : keeps N N (quiet h). Proof. unfold quiet. wk. Qed.
Lemma lw_quiet_kept h : keeps N N (quiet_kept h). Proof. unfold quiet_kept. wk. Qed.
Hint Resolve lw_quiet lw_quiet_kept : lw.
Lemma lw_content_element a b c d : keeps N N (content_element a b c d).
Proof.
  unfold content_element. walk fr ltac:(first [lf|match goal with |- keeps _ _ (pbind (get s_dtd) _) => apply (lw_scaf (scaf_name _ _)); [intros ? ?; apply dv_name|intros] end]).
Qed.
Lemma lw_group_close q : keeps N N (group_close q).
Proof.
  unfold group_close. apply (keeps_bind _ _ fr); [wk|]. intros on. destruct on; [|wk].
  apply (keeps_bind _ _ fr); [wk|]. intros h. apply lw_close. intros d b. wk. apply (l_decl N L).
Qed.
Hint Resolve lw_content_element lw_group_close : lw.
(* the roles that change the scaffold *)
Lemma lw_open {A} (k : dtd -> P A) : (forall d, keeps N N (k d)) ->
  keeps N N (do d <- get s_dtd; do d' <- lift (scaf_open d); upd (set_dtd d') ;;; k d').
Proof. apply (lw_scaf scaf_open). intros. eapply dv_open; eassumption. Qed.
Lemma lw_mixed {A} (k : dtd -> P A) : (forall d, keeps N N (k d)) ->
  keeps N N (do d <- get s_dtd; do d' <- lift (scaf_mixed d); upd (set_dtd d') ;;; k d').
Proof. apply (lw_scaf scaf_mixed). intros. eapply dv_top; eassumption. Qed.
Lemma lw_choice c : keeps N N c -> keeps N N (do d <- get s_dtd; do i <- some (hd_error (d_index d)); do n <- lift (nth_error_res (d_scaf d) i);
  match sn_type n with CT_MIXED => pret true | _ => do d <- lift (scaf_choice d); upd (set_dtd d) ;;; c end).
Proof.
  intros Hc s. pose proof (lw_scaf scaf_choice (fun _ => c) (fun d d' => dv_top _ d d') (fun _ => Hc) s) as H.
  unfold pbind, get, some, lift, pret in *. destruct (hd_error _); [|exact I].
  destruct (nth_error_res _ _); [|exact I]. destruct (sn_type _); first [exact H|apply (f_refl _ _ fr)].
Qed.
Lemma lw_handleUnknownEncoding n : keeps N N (handleUnknownEncoding n). Proof. unfold handleUnknownEncoding. wk. Qed.
Hint Resolve lw_handleUnknownEncoding : lw.
Lemma lw_initializeEncoding : keeps N N initializeEncoding. Proof. unfold initializeEncoding. wk. Qed.
Hint Resolve lw_initializeEncoding : lw.
Lemma lw_processXmlDecl g b n : keeps N N (processXmlDecl g b n).
Proof.
  unfold processXmlDecl. wk; apply lw_same; intros s; destruct (s_pep s); reflexivity.
Qed.
Lemma lw_doIgnoreSection t b h : keeps N N (doIgnoreSection t b h). Proof. unfold doIgnoreSection. wk. Qed.
Lemma lw_check_standalone : keeps N N check_standalone. Proof. unfold check_standalone. wk. Qed.
Lemma lw_keep : keeps N N keep_if_standalone. Proof. unfold keep_if_standalone. wk. Qed.
Lemma lw_entity_at e : keeps N N (entity_at e). Proof. unfold entity_at. wk. Qed.
Hint Resolve lw_processXmlDecl lw_doIgnoreSection lw_check_standalone lw_keep lw_entity_at : lw.
Lemma lw_literal e b : keeps N N (literal e b). Proof. unfold literal. wk. Qed.
Hint Resolve lw_literal : lw.
Lemma lw_public_id e b : keeps N N (public_id e b). Proof. unfold public_id. wk. Qed.
Lemma lw_check_public_id t e b n : keeps N N (check_public_id t e b n). Proof. unfold check_public_id. wk. Qed.
Hint Resolve lw_public_id lw_check_public_id : lw.
Lemma lw_end_attribute a b c : keeps N N (end_attribute a b c).
Proof. unfold end_attribute. wk. apply lw_upd_dtd. intros. apply dv_define. Qed.
Lemma lw_end_of_text n : keeps N N (end_of_text n). Proof. unfold end_of_text. wk. Qed.
End Leafs.

(* attributes and tags, for relations that ignore them *)
Record tagleafs (N : st -> st -> Prop) : Prop := {
  t_leafs : leafs N;
  t_append : forall fuel prolog t cd b acc, keeps N N (appendAttributeValue fuel prolog t cd b acc);
  t_bind : forall p a u bs, keeps N N (addBinding p a u bs);
  t_unbind : forall b, keeps N N (upd_dtd (bind_prefix (b_prefix b) (b_prev b)));
  t_endns : forall n, keeps N N (call (EvEndNs n));
  t_startel : forall a b c d, keeps N N (call (EvStartElement a b c d));
  t_endel : forall n, keeps N N (call (EvEndElement n));
  t_tags : forall l s, N s (set_tags l s);
  t_bindings : forall l s, N s (set_bindings l s);
  t_level : forall n s, N s (set_tagLevel n s)
}.
Ltac lw_all H :=
  match goal with
  | |- keeps _ _ (set_event _ _) => apply (lw_set_event _ H)
  | |- keeps _ _ (set_event_n _ _) => apply (lw_set_event_n _ H)
  | |- keeps _ _ (set_event_end_n _ _) => apply (lw_set_event_end_n _ H)
  | |- keeps _ _ (set_event_end_tok _ _ _ _) => apply (lw_set_event_end_tok _ H)
  | |- keeps _ _ (inc _ _) => apply (lw_inc _ H)
  | |- keeps _ _ (dec _ _) => apply (lw_dec _ H)
  | |- keeps _ _ (need _) => apply (lw_need _ H)
  | |- keeps _ _ (store _ _) => apply (lw_store _ H)
  | |- keeps _ _ (rest_after _ _) => apply (lw_rest_after _ H)
  | |- keeps _ _ (set_event_opt _ _ _) => apply (lw_set_event_opt _ H)
  | |- keeps _ _ (ref_name _ _ _) => apply (lw_ref_name _ H)
  | |- keeps _ _ (some _) => apply (lw_some _ H)
  | |- keeps _ _ (scan _ _) => apply (lw_scan _ H)
  | |- keeps _ _ (scan_as _ _ _) => apply (lw_scan_as _ H)
  | |- keeps _ _ (call _) => apply (lw_call _ H); reflexivity
  | |- keeps _ _ (emit _ _) => apply (lw_emit _ H); reflexivity
  | |- keeps _ _ (reportDefault _ _ _) => apply (lw_reportDefault _ H)
  | |- keeps _ _ (reportPI _ _ _) => apply (lw_reportPI _ H)
  | |- keeps _ _ (reportComment _ _ _) => apply (lw_reportComment _ H)
  | |- keeps _ _ (char_data _ _ _ _) => apply (lw_char_data _ H)
  | |- keeps _ _ (char_data_text _ _ _) => apply (lw_char_data_text _ H)
  | |- keeps _ _ (after_token _ _) => apply (lw_after_token _ H)
  | |- keeps _ _ (doCdataSection _ _ _ _) => apply (lw_doCdataSection _ H)
  | |- keeps _ _ (epilog_loop _ _) => apply (lw_epilog_loop _ H)
  | |- keeps _ _ (getAttributeId _ _) => apply (lw_getAttributeId _ H)
  | |- keeps _ _ (getElementType _ _) => apply (lw_getElementType _ H)
  | |- keeps _ _ (attid_of _) => apply (lw_attid_of _ H)
  | |- keeps _ _ (set_type _ _) => apply (lw_set_type _ H)
  | |- keeps _ _ (tag_raw _ _ _) => apply (lw_tag_raw _ H)
  | |- keeps _ _ (expand_atts _ _ _) => apply (lw_expand_atts _ H)
  | |- keeps _ _ (clear_types _) => apply (lw_clear_types _ H)
  | |- keeps _ _ (clear_bindings _) => apply (lw_clear_bindings _ H)
  | |- keeps _ _ (expand_name _) => apply (lw_expand_name _ H)
  | |- keeps _ _ (id_index _ _) => apply (lw_id_index _ H)
  | |- keeps _ _ (quiet _) => apply (lw_quiet _ H)
  | |- keeps _ _ (quiet_kept _) => apply (lw_quiet_kept _ H)
  | |- keeps _ _ (content_element _ _ _ _) => apply (lw_content_element _ H)
  | |- keeps _ _ (group_close _) => apply (lw_group_close _ H)
  | |- keeps _ _ initializeEncoding => apply (lw_initializeEncoding _ H)
  | |- keeps _ _ (processXmlDecl _ _ _) => apply (lw_processXmlDecl _ H)
  | |- keeps _ _ (doIgnoreSection _ _ _) => apply (lw_doIgnoreSection _ H)
  | |- keeps _ _ check_standalone => apply (lw_check_standalone _ H)
  | |- keeps _ _ keep_if_standalone => apply (lw_keep _ H)
  | |- keeps _ _ (entity_at _) => apply (lw_entity_at _ H)
  | |- keeps _ _ (literal _ _) => apply (lw_literal _ H)
  | |- keeps _ _ (public_id _ _) => apply (lw_public_id _ H)
  | |- keeps _ _ (check_public_id _ _ _ _) => apply (lw_check_public_id _ H)
  | |- keeps _ _ (end_attribute _ _ _) => apply (lw_end_attribute _ H)
  | |- keeps _ _ (end_of_text _) => apply (lw_end_of_text _ H)
  | |- keeps _ _ (upd_dtd (insert_elem _ _)) => apply (lw_insert_elem _ H)
  | |- keeps _ _ (upd_dtd _) => apply (lw_upd_dtd _ H); intros; reflexivity
  | |- keeps _ _ (upd _) => apply (lw_same _ H); intros; reflexivity
  end.
Section Tags.
Variable N : st -> st -> Prop.
Hypothesis Tl : tagleafs N.
Let L := t_leafs N Tl.
Let fr := l_frame N L.
Ltac own := nope.
Ltac wk x := walk fr ltac:(idtac; first [x | lw_all L]).
Lemma tw_storeAttributeValue fuel p t cd b : keeps N N (storeAttributeValue fuel p t cd b).
Proof. unfold storeAttributeValue. wk ltac:(apply (t_append N Tl)). Qed.
Lemma tw_freeBindings bs : keeps N N (freeBindings bs).
Proof.
  induction bs as [|b bs IH]; cbn [freeBindings]; unfold emit; wk ltac:(first [apply IH|apply (t_unbind N Tl)|apply (t_endns N Tl)]).
Qed.
Lemma tw_declare p i v : keeps N N (declare p i v).
Proof. unfold declare. wk ltac:(first [apply (t_bind N Tl)|apply keeps_upd; intros; apply (t_bindings N Tl)]). Qed.
Lemma tw_specified_att f t el x st : keeps N N (specified_att f t el x st).
Proof. unfold specified_att. wk ltac:(first [apply tw_declare|apply tw_storeAttributeValue]). Qed.
Lemma tw_specified_atts f t el xs : forall st, keeps N N (specified_atts f t el xs st).
Proof. induction xs as [|x xs IH]; intros st; cbn [specified_atts]; wk ltac:(first [apply IH|apply tw_specified_att]). Qed.
Lemma tw_default_att d st : keeps N N (default_att d st).
Proof. unfold default_att. wk ltac:(apply tw_declare). Qed.
Lemma tw_default_atts ds : forall st, keeps N N (default_atts ds st).
Proof. induction ds as [|x xs IH]; intros st; cbn [default_atts]; wk ltac:(first [apply IH|apply tw_default_att]). Qed.
Lemma tw_storeAtts f t b el : keeps N N (storeAtts f t b el).
Proof.
  unfold storeAtts.
  wk ltac:(first [apply tw_specified_atts|apply tw_default_atts|apply keeps_upd; intros; apply (t_bindings N Tl)]).
Qed.
Lemma tw_start_tag r t e b n : keeps N N (start_tag r t e b n).
Proof.
  unfold start_tag, emit. wk ltac:(first [apply tw_storeAtts|apply (t_startel N Tl)|apply keeps_upd; intros; first [apply (t_tags N Tl)|apply (t_level N Tl)]]).
Qed.
Lemma tw_empty_tag r t e b n : keeps N N (empty_tag r t e b n).
Proof.
  unfold empty_tag, emit.
  wk ltac:(first [apply tw_storeAtts|apply (t_startel N Tl)|apply (t_endel N Tl)|apply tw_freeBindings]).
Qed.
Lemma tw_end_tag t e b n : keeps N N (end_tag t e b n).
Proof.
  unfold end_tag, emit. wk ltac:(first [apply (t_endel N Tl)|apply tw_freeBindings|apply keeps_upd; intros; first [apply (t_tags N Tl)|apply (t_level N Tl)]]).
Qed.
End Tags.

(* the functions that call each other.  [N]: leaves nothing behind; [G], [Gf]: content and prolog, if they return and
   if they fail; [K], [Kf]: a whole call of the processor. *)
Record callees (N G Gf : st -> st -> Prop) (r : recs) : Prop := {
  c_content : forall l t b h, keeps G Gf (rc_content r l t b h);
  c_prolog : forall t b k n h a, keeps G Gf (rc_prolog r t b k n h a);
  c_ext : forall a b c d, keeps N N (rc_ext r a b c d)
}.
(* the roles that change entities *)
Definition entity_role (ro : ROLE) : bool :=
  match ro with
  | R_DOCTYPE_PUBLIC_ID | R_ENTITY_PUBLIC_ID | R_ENTITY_VALUE | R_DOCTYPE_SYSTEM_ID | R_ENTITY_SYSTEM_ID | R_ENTITY_NOTATION_NAME => true
  | _ => false
  end.
(* the processors that a parser for a parameter entity goes through *)
Definition prolog_proc (p : processor) : bool :=
  match p with PrProlog | PrIgnore | PrParEnt | PrEVInit | PrEV => true | _ => false end.
(* the prolog, without the role of the first tag *)
Record pwalker (N G Gf : st -> st -> Prop) : Prop := {
  w_leafs : leafs N;
  w_frame : frame G Gf;
  w_NG : forall a b, N a b -> G a b;
  w_append : forall fuel prolog t cd b acc, keeps N N (appendAttributeValue fuel prolog t cd b acc);
  w_value : forall x fuel t b, (forall a b c d, keeps N N (x a b c d)) -> keeps N N (entity_value x fuel t b);
  w_parameter : forall r n b, callees N G Gf r -> keeps G Gf (handleEntityRef r (true, n) b);
  w_subset : forall r a b, callees N G Gf r -> keeps N N (external_subset r a b);
  w_declare : forall a b c, keeps G Gf (declare_entity a b c);
  w_undeclare : forall s, G s (set_declEntity None s);
  w_role : forall ro k t e a b n r, entity_role ro = true -> callees N G Gf r -> keeps G Gf (role_action r ro k t e a b n);
  w_prolog : forall p s, prolog_proc p = true -> G s (set_processor p s)
}.
Record walker (N G Gf K Kf : st -> st -> Prop) : Prop := {
  w_p : pwalker N G Gf;
  w_top : frame K Kf;
  w_GK : forall a b, G a b -> K a b;
  w_GKf : forall a b, Gf a b -> Kf a b;
  w_start : forall r t e b n, keeps G Gf (start_tag r t e b n);
  w_empty : forall r t e b n, keeps G Gf (empty_tag r t e b n);
  w_end : forall t e b n, keeps G Gf (end_tag t e b n);
  w_reference : forall r t e b n, callees N G Gf r -> keeps G Gf (content_entity r t e b n);
  w_internal : forall r b, callees N G Gf r -> keeps K Kf (internalEntityProcessor r b);
  w_processor : forall p s, G s (set_processor p s);
  w_state : forall p s, G s (set_role p s);
  w_level : forall n s, G s (set_tagLevel n s)
}.

Section PWalk.
Variables N G Gf : st -> st -> Prop.
Hypothesis W : pwalker N G Gf.
Let L := w_leafs _ _ _ W.
Let frN := l_frame N L.
Let fr := w_frame _ _ _ W.
Lemma up {A} (m : P A) : keeps N N m -> keeps G Gf m.
Proof. apply keeps_imp; intros; [|apply (f_weak _ _ fr)]; apply (w_NG _ _ _ W); assumption. Qed.
Variable r : recs.
Hypothesis Hr : callees N G Gf r.
Let Hc := c_content _ _ _ r Hr.
Let Hp := c_prolog _ _ _ r Hr.
Let Hx := c_ext _ _ _ r Hr.
Ltac pr := apply keeps_upd; intros; apply (w_prolog _ _ _ W); reflexivity.
Ltac lg x := idtac; first [ x | solve [apply Hp] | apply up; solve [apply Hx | lw_all L] | solve [pr] ].
Ltac wg x := walk fr ltac:(lg x).
Ltac wk x := walk frN ltac:(idtac; first [x | lw_all L]).
Lemma wk_storeAttributeValue fuel p t cd b : keeps N N (storeAttributeValue fuel p t cd b).
Proof. unfold storeAttributeValue. wk ltac:(apply (w_append _ _ _ W)). Qed.
Lemma wk_storeEntityValue fuel t b : keeps N N (storeEntityValue (rc_ext r) fuel t b).
Proof. unfold storeEntityValue. wk ltac:(apply (w_value _ _ _ W); exact Hx). Qed.
Lemma wk_param_entity_ref i e b : keeps G Gf (param_entity_ref r i e b).
Proof. unfold param_entity_ref. wg ltac:(apply (w_parameter _ _ _ W), Hr). Qed.
Lemma wk_role_action ro k t e a b n : keeps G Gf (role_action r ro k t e a b n).
Proof.
  destruct (entity_role ro) eqn:E; [apply (w_role _ _ _ W); assumption|].
  unfold role_action. destruct ro; try discriminate E; clear E.
  all: wg ltac:(first
    [ apply up; apply (w_subset _ _ _ W), Hr
    | apply (w_declare _ _ _ W)
    | apply up; apply wk_storeAttributeValue
    | apply wk_param_entity_ref
    | apply up; apply (l_decl _ L)
    | apply keeps_upd; intros; apply (w_undeclare _ _ _ W)
    | match goal with
      | |- keeps _ _ (pbind (get s_dtd) _) => apply up;
          first [ apply (lw_open N L); intros; apply (lw_quiet _ L)
                | apply (lw_mixed N L); intros; apply (lw_quiet _ L)
                | apply (lw_choice N L); apply (lw_quiet _ L) ]
      end ]).
Qed.
Lemma wk_role_step_prolog ro k t e h a b tok rest : ro <> R_INSTANCE_START -> keeps G Gf (role_step r ro k t e h a b tok rest).
Proof.
  intros Hro. unfold role_step. destruct ro; try (elim Hro; reflexivity).
  all: wg ltac:(apply wk_role_action).
Qed.
Lemma wk_prologProcessor b : keeps G Gf (prologProcessor r b). Proof. unfold prologProcessor. wg nope. Qed.
Lemma wk_ev_loop fuel : forall b, keeps N N (ev_loop r fuel b).
Proof. induction fuel as [|fuel IH]; intros b; cbn [ev_loop]; wk ltac:(first [apply IH|apply wk_storeEntityValue]). Qed.
Lemma wk_ev_init_loop fuel i : forall b, keeps G Gf (ev_init_loop r fuel i b).
Proof.
  induction fuel as [|fuel IH]; intros b; cbn [ev_init_loop];
    wg ltac:(first [apply IH|apply up; apply wk_ev_loop|apply up; apply wk_storeEntityValue]).
Qed.
Lemma wk_ignore b : keeps G Gf (ignoreSectionProcessor r b).
Proof. unfold ignoreSectionProcessor. wg ltac:(apply wk_prologProcessor). Qed.
Lemma wk_parent b : keeps G Gf (externalParEntProcessor r b). Proof. unfold externalParEntProcessor. wg nope. Qed.
Lemma wk_parentinit b : keeps G Gf (externalParEntInitProcessor r b).
Proof.
  unfold externalParEntInitProcessor, entityValueInitProcessor.
  wg ltac:(first [apply wk_parent|apply wk_ev_init_loop]).
Qed.
End PWalk.

Section Walk.
Variables N G Gf K Kf : st -> st -> Prop.
Hypothesis W : walker N G Gf K Kf.
Let Wp := w_p _ _ _ _ _ W.
Let L := w_leafs _ _ _ Wp.
Let frN := l_frame N L.
Let fr := w_frame _ _ _ Wp.
Let frK := w_top _ _ _ _ _ W.
Lemma upK {A} (m : P A) : keeps G Gf m -> keeps K Kf m.
Proof. apply keeps_imp; intros; [apply (w_GK _ _ _ _ _ W)|apply (w_GKf _ _ _ _ _ W)]; assumption. Qed.
Variable r : recs.
Hypothesis Hr : callees N G Gf r.
Let Hc := c_content _ _ _ r Hr.
Let Hp := c_prolog _ _ _ r Hr.
Let Hx := c_ext _ _ _ r Hr.
Ltac pr := apply keeps_upd; intros; first [apply (w_processor _ _ _ _ _ W)|apply (w_state _ _ _ _ _ W)|apply (w_level _ _ _ _ _ W)].
Ltac lg x := idtac; first [ x | solve [apply Hc] | solve [apply Hp] | apply (up _ _ _ Wp); solve [apply Hx | lw_all L] | solve [pr] ].
Ltac wg x := walk fr ltac:(lg x).
Lemma wk_epilog fuel b : keeps G Gf (epilogProcessor fuel b). Proof. unfold epilogProcessor. wg nope. Qed.
Lemma wk_maybe_epilog b : keeps G Gf (maybe_epilog r b). Proof. unfold maybe_epilog. wg ltac:(apply wk_epilog). Qed.
Lemma wk_role_of e k b : keeps G Gf (role_of e k b). Proof. unfold role_of. wg nope. Qed.
Lemma wk_doContent l t b h : keeps G Gf (doContent r l t b h).
Proof.
  unfold doContent. wg ltac:(first [apply (w_reference _ _ _ _ _ W), Hr|apply (w_start _ _ _ _ _ W)|apply (w_empty _ _ _ _ _ W)
    |apply (w_end _ _ _ _ _ W)|apply wk_maybe_epilog]).
Qed.
Lemma wk_contentProcessor b : keeps G Gf (contentProcessor r b). Proof. unfold contentProcessor. wg nope. Qed.
Lemma wk_externalEntityContentProcessor b : keeps G Gf (externalEntityContentProcessor r b).
Proof. unfold externalEntityContentProcessor. wg nope. Qed.
Lemma wk_cdataSectionProcessor b : keeps G Gf (cdataSectionProcessor r b).
Proof. unfold cdataSectionProcessor. wg ltac:(first [apply wk_contentProcessor|apply wk_externalEntityContentProcessor]). Qed.
Lemma wk_role_step ro k t e h a b tok rest : keeps G Gf (role_step r ro k t e h a b tok rest).
Proof.
  destruct (match ro with R_INSTANCE_START => true | _ => false end) eqn:E;
    [|apply (wk_role_step_prolog _ _ _ Wp r Hr); intros ->; discriminate E].
  destruct ro; try discriminate E. unfold role_step.
  wg ltac:(first [apply wk_contentProcessor|apply (up _ _ _ Wp); apply (w_subset _ _ _ Wp), Hr]).
Qed.
Lemma wk_doProlog t b k n h a : keeps G Gf (doProlog r t b k n h a).
Proof. unfold doProlog. wg ltac:(first [apply wk_role_step|apply wk_role_of]). Qed.
Lemma wk_prologInit b : keeps G Gf (prologInitProcessor r b).
Proof. unfold prologInitProcessor. wg ltac:(apply (wk_prologProcessor _ _ _ Wp), Hr). Qed.
Lemma wk_extent3 b : keeps G Gf (externalEntityInitProcessor3 r b).
Proof. unfold externalEntityInitProcessor3. wg ltac:(apply wk_externalEntityContentProcessor). Qed.
Lemma wk_extent2 b : keeps G Gf (externalEntityInitProcessor2 r b).
Proof. unfold externalEntityInitProcessor2. wg ltac:(apply wk_extent3). Qed.
Lemma wk_extent b : keeps G Gf (externalEntityInitProcessor r b).
Proof. unfold externalEntityInitProcessor. wg ltac:(apply wk_extent2). Qed.
Lemma wk_process b : keeps K Kf (process r b).
Proof.
  unfold process. apply (keeps_bind _ _ frK); [apply (keeps_get _ _ frK)|]. intros p. destruct p.
  all: first [apply (w_internal _ _ _ _ _ W), Hr | apply upK].
  all: first [apply wk_prologInit|apply (wk_prologProcessor _ _ _ Wp), Hr|apply wk_contentProcessor|apply wk_cdataSectionProcessor
    |apply (wk_ignore _ _ _ Wp), Hr|apply wk_extent|apply wk_extent2|apply wk_extent3|apply wk_externalEntityContentProcessor
    |apply (wk_parentinit _ _ _ Wp), Hr|apply (wk_parent _ _ _ Wp), Hr|apply wk_epilog|idtac].
  - exact (wk_ev_init_loop _ _ _ Wp r Hr (rc_fuel r) b b).
  - exact (up _ _ _ Wp _ (wk_ev_loop _ _ _ Wp r Hr (rc_fuel r) b)).
Qed.
End Walk.

Lemma callees_knot N G Gf K Kf : walker N G Gf K Kf ->
  (forall r, callees N G Gf r -> forall a b c d, keeps N N (ext r a b c d)) -> forall n, callees N G Gf (knot n).
Proof.
  intros W He. induction n as [|n IH].
  - split; cbn; intros; apply keeps_die.
  - split; cbn [knot rc_content rc_prolog rc_ext]; intros.
    + exact (wk_doContent _ _ _ _ _ W _ IH _ _ _ _).
    + exact (wk_doProlog _ _ _ _ _ W _ IH _ _ _ _ _ _).
    + apply He, IH.
Qed.
