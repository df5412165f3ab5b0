(* Which functions of the parser leave alone where it is in the document: the processor, the state of the grammar of
   the prolog, the number of open elements; and what is known about the encoding. *)
From Coq Require Import List NArith ZArith Bool Arith Lia.
From Verif Require Import Base Encoding Tok TokMisc Norm XmlDecl Status Role State AttVal Bind Atts Scaf Content Prolog Core.
From Verif Require Import Keep EncLaws TokInst.
From Verif Require Nest.
Import ListNotations.
Local Open Scope nat_scope.

(* characters are classified by their own bytes in every encoding the parser uses *)
Lemma peek_more k b x c : peek k b = Ok c -> peek k (b ++ x) = Ok c.
Proof.
  unfold peek. intros E. destruct (nth_error b k) eqn:En; [|discriminate].
  rewrite nth_error_app1, En; [exact E|]. apply nth_error_Some. congruence.
Qed.
Lemma local_table e types : (forall b, byte_type e b = table_byte_type types b) -> local_enc e.
Proof.
  intros H. split; [intros t; rewrite H; discriminate|]. intros b x t. rewrite !H. unfold table_byte_type.
  destruct (peek 0 b) as [c|] eqn:E; [|discriminate]. rewrite (peek_more _ _ x _ E). auto.
Qed.
Lemma local_little e types : (forall b, byte_type e b = little2_byte_type types b) -> local_enc e.
Proof.
  intros H. split; [intros t; rewrite H; discriminate|]. intros b x t. rewrite !H. unfold little2_byte_type.
  destruct (peek 0 b) as [c|] eqn:E; [|discriminate]. destruct (peek 1 b) as [c1|] eqn:E1; [|discriminate].
  rewrite (peek_more _ _ x _ E), (peek_more _ _ x _ E1). auto.
Qed.
Lemma local_big e types : (forall b, byte_type e b = big2_byte_type types b) -> local_enc e.
Proof.
  intros H. split; [intros t; rewrite H; discriminate|]. intros b x t. rewrite !H. unfold big2_byte_type.
  destruct (peek 0 b) as [c|] eqn:E; [|discriminate]. destruct (peek 1 b) as [c1|] eqn:E1; [|discriminate].
  rewrite (peek_more _ _ x _ E), (peek_more _ _ x _ E1). auto.
Qed.
Lemma local_enc_table ns i e : index (enc_table ns) i = Ok e -> local_enc e.
Proof.
  unfold index. destruct (nth_error _ _) as [x|] eqn:E; [|discriminate]. intros H. injection H as <-. apply nth_error_In in E.
  destruct ns; cbn [enc_table encodings encodingsNS In] in E;
    repeat (destruct E as [<-|E]; [first [eapply local_table; intros; reflexivity|eapply local_little; intros; reflexivity|eapply local_big; intros; reflexivity]|]);
    destruct E.
Qed.
Lemma local_unknown u : local_enc (unknown_enc u).
Proof. eapply local_table. intros. reflexivity. Qed.
Lemma find_local ns e b x : local_enc e -> findEncoding ns e b = Ok (Some x) -> local_enc x.
Proof.
  unfold findEncoding. intros He E. destruct (utf8Convert e b 127) as [[[r out] rest]|]; [|discriminate]. cbn [bind] in E.
  destruct rest; [|discriminate]. destruct (127 <=? length out); [discriminate|].
  destruct (streqci _ _) as [is16|]; [|discriminate]. cbn [bind] in E.
  destruct (is16 && _); [injection E as <-; exact He|].
  destruct (getEncodingIndex _) as [[i|]|]; [|discriminate|discriminate]. cbn [bind] in E.
  destruct (index (enc_table ns) i) as [y|] eqn:Ey; [|discriminate]. injection E as <-. eapply local_enc_table, Ey.
Qed.
Ltac des E := match type of E with
  | bind ?m _ = _ => let x := fresh in destruct m as [x|] eqn:?; [|discriminate E]; cbn [bind] in E
  | (if ?c then _ else _) = _ => destruct c
  | (match ?c with _ => _ end) = _ => destruct c; try discriminate E
  | (let '(_, _) := ?c in _) = _ => destruct c
  | Ok _ = Ok _ => injection E as E
  | inl _ = inr _ => discriminate E
  end.
Definition dr_local (r : decl_result) : Prop := forall e, dr_encoding r = Some e -> local_enc e.
Lemma standalone_local e g r np nm v nx r' : dr_local r -> decl_standalone e g r np nm v nx = Ok (inr r') -> dr_local r'.
Proof.
  unfold decl_standalone. intros H E. repeat (cbv zeta in E; des E). rewrite <- E. exact H.
Qed.
Lemma encoding_local e ns g r np nm v nx r' : local_enc e -> dr_local r -> decl_encoding e ns g r np nm v nx = Ok (inr r') -> dr_local r'.
Proof.
  unfold decl_encoding. intros He H E. destruct (nameMatchesAscii e nm _) as [m|]; [|discriminate]. cbn [bind] in E.
  destruct m; [|eapply standalone_local; eassumption].
  destruct (toAscii e v) as [c|]; [|discriminate]. cbn [bind] in E. destruct (negb _); [discriminate|].
  destruct (value_of _ _ _) as [w|]; [|discriminate]. cbn [bind] in E.
  destruct (findEncoding ns e w) as [x|] eqn:Ex; [|discriminate]. cbn [bind] in E. cbv zeta in E.
  match type of E with context [decl_standalone _ _ ?r0] => assert (Hr : dr_local r0) end.
  { intros y. cbn. intros ->. eapply find_local; eassumption. }
  destruct (parsePseudoAttribute e nx) as [p|]; [|discriminate]. cbn [bind] in E.
  destruct p; [discriminate|injection E as <-; exact Hr|eapply standalone_local; eassumption].
Qed.
Lemma decl_local e ns g b r : local_enc e -> doParseXmlDecl e ns g b = Ok (inr r) -> dr_local r.
Proof.
  unfold doParseXmlDecl. intros He E. do 3 (match type of E with bind ?m _ = _ => let x := fresh "x" in destruct m as [x|]; [|discriminate]; cbn [bind] in E end).
  cbv zeta in E. match type of E with match ?p with _ => _ end = _ => destruct p end; [discriminate|discriminate|].
  destruct (nameMatchesAscii _ _ _) as [m|]; [|discriminate]. cbn [bind] in E.
  destruct m; cbn [negb] in E.
  - destruct (parsePseudoAttribute _ _) as [p|]; [|discriminate]. cbn [bind] in E. destruct p; [discriminate| |].
    + destruct g; [discriminate|]. injection E as <-. intros ? Hx; discriminate Hx.
    + eapply encoding_local; [exact He| |exact E]. intros ? Hx; discriminate Hx.
  - destruct g; cbn [negb] in E; [|discriminate]. eapply encoding_local; [exact He| |exact E]. intros ? Hx; discriminate Hx.
Qed.
Lemma init_local ns idx c b t n e : initScan ns idx c b = Ok (t, n, Some e) ->
  local_enc e /\ (t = T_BOM \/ (if c then contentTok e b else prologTok e b) = Ok (t, n)).
Proof.
  intros E. cbv beta zeta delta [initScan] in E.
  assert (Hs : forall i, (let* e := index (enc_table ns) i in let* (t, n) := (if c then contentTok e b else prologTok e b) in Ok (t, n, Some e)) = Ok (t, n, Some e) -> local_enc e /\ (t = T_BOM \/ (if c then contentTok e b else prologTok e b) = Ok (t, n))).
  { intros i. destruct (index (enc_table ns) i) as [y|] eqn:Ey; [|cbn [bind]; intros H; discriminate H]. cbn [bind].
    clear E. destruct c; [destruct (contentTok y b) as [[t' n']|] eqn:Et|destruct (prologTok y b) as [[t' n']|] eqn:Et];
      cbn [bind]; intros H; try discriminate H; injection H as -> -> ->; (split; [eapply local_enc_table, Ey|right; exact Et]). }
  assert (Hb : forall i k, (let* e := index (enc_table ns) i in Ok (T_BOM, Some k, Some e)) = Ok (t, n, Some e) -> local_enc e /\ (t = T_BOM \/ (if c then contentTok e b else prologTok e b) = Ok (t, n))).
  { intros i k. destruct (index (enc_table ns) i) as [y|] eqn:Ey; [|cbn [bind]; intros H; discriminate H]. cbn [bind].
    intros H. injection H as <- _ ->. split; [eapply local_enc_table, Ey|left; reflexivity]. }
  destruct b as [|b0 [|b1 rest]]; [discriminate E| |];
    repeat match type of E with
    | bind _ _ = _ => first [exact (Hs _ E)|exact (Hb _ _ E)]
    | Ok _ = _ => discriminate E
    | (if ?c then _ else _) = _ => let H := fresh in destruct c eqn:H; clear H
    | (match ?c with _ => _ end) = _ => let H := fresh in destruct c eqn:H; clear H
    end.
Qed.

Definition enc_good (s : st) : Prop := match s_enc s with EKnown e => local_enc e | EInit _ => True end.
Definition halted (s : st) : Prop := s_parsing s = SUSPENDED \/ s_parsing s = FINISHED.
Record flds (s s' : st) : Prop := {
  z_child : s_child s' = s_child s; z_isParam : s_isParam s' = s_isParam s; z_tagLevel : s_tagLevel s' = s_tagLevel s;
  z_processor : s_processor s' = s_processor s; z_role : s_role s' = s_role s; z_final : s_final s' = s_final s;
  z_halted : halted s -> halted s'
}.
Definition Z (s s' : st) : Prop := enc_good s -> enc_good s' /\ flds s s'.
Lemma flds_refl s : flds s s. Proof. split; auto. Qed.
Lemma flds_trans a b c : flds a b -> flds b c -> flds a c.
Proof. intros [] []. split; try congruence. auto. Qed.
Lemma flds_same s s' : s_child s' = s_child s -> s_isParam s' = s_isParam s -> s_tagLevel s' = s_tagLevel s ->
  s_processor s' = s_processor s -> s_role s' = s_role s -> s_final s' = s_final s -> s_parsing s' = s_parsing s -> flds s s'.
Proof. intros. split; auto. unfold halted. congruence. Qed.
Lemma Z_same s s' : s_child s' = s_child s -> s_isParam s' = s_isParam s -> s_tagLevel s' = s_tagLevel s ->
  s_processor s' = s_processor s -> s_role s' = s_role s -> s_final s' = s_final s -> s_parsing s' = s_parsing s ->
  s_enc s' = s_enc s -> Z s s'.
Proof. intros. intros He. split; [unfold enc_good; rewrite H6; exact He|apply flds_same; assumption]. Qed.
Lemma frame_Z : frame Z Z.
Proof.
  split; auto.
  - intros s H. split; [exact H|apply flds_refl].
  - intros a b c H1 H2 Ha. apply H1 in Ha as [Hb f1]. apply H2 in Hb as [Hc f2]. split; [exact Hc|eapply flds_trans; eassumption].
  - intros a b c H1 H2 Ha. apply H1 in Ha as [Hb f1]. apply H2 in Hb as [Hc f2]. split; [exact Hc|eapply flds_trans; eassumption].
Qed.
Lemma known_local ns e : match e with EKnown e => local_enc e | EInit _ => True end -> local_enc (known ns e).
Proof. destruct e; cbn [known]; [|auto]. intros _. destruct ns; eapply local_table; intros; reflexivity. Qed.

Create HintDb zp discriminated.
Ltac same := apply (keeps_upd Z Z); intros; apply Z_same; reflexivity.
Ltac lfZ := first [ solve [eauto 3 with zp nocore] | same ].
Ltac wk := walk frame_Z lfZ.
#[local] Hint Resolve Nest.tok_end_code : codes.

Lemma zp_upd_dtd f : keeps Z Z (upd_dtd f). Proof. unfold upd_dtd. same. Qed.
#[export] Hint Resolve zp_upd_dtd : zp.
Lemma zp_upd_entity r f : keeps Z Z (upd_entity r f). Proof. unfold upd_entity. wk. Qed.
Lemma zp_set_event t b : keeps Z Z (set_event t b). Proof. unfold set_event. wk. Qed.
Lemma zp_set_event_n t n : keeps Z Z (set_event_n t n). Proof. unfold set_event_n. wk. Qed.
Lemma zp_set_event_end_n t n : keeps Z Z (set_event_end_n t n). Proof. unfold set_event_end_n. wk. Qed.
Lemma zp_set_event_end_tok t b u n : keeps Z Z (set_event_end_tok t b u n). Proof. unfold set_event_end_tok. wk. Qed.
#[export] Hint Resolve zp_upd_entity zp_set_event zp_set_event_n zp_set_event_end_n zp_set_event_end_tok : zp.
Lemma zp_inc n b : keeps Z Z (inc n b). Proof. unfold inc. wk. Qed.
Lemma zp_dec n b : keeps Z Z (dec n b). Proof. unfold dec. wk. Qed.
Lemma zp_need n : keeps Z Z (need n). Proof. unfold need. wk. Qed.
Lemma zp_store t b : keeps Z Z (store t b). Proof. unfold store. wk. Qed.
#[export] Hint Resolve zp_inc zp_dec zp_need zp_store : zp.
Lemma zp_rest_after b n : keeps Z Z (rest_after b n). Proof. unfold rest_after. wk. Qed.
Lemma zp_set_event_opt t b n : keeps Z Z (set_event_opt t b n). Proof. unfold set_event_opt. wk. Qed.
Lemma zp_ref_name e b n : keeps Z Z (ref_name e b n). Proof. unfold ref_name. wk. Qed.
Lemma zp_some {A} (x : option A) : keeps Z Z (some x). Proof. unfold some. wk. Qed.
#[export] Hint Resolve zp_rest_after zp_set_event_opt zp_ref_name zp_some : zp.
Lemma zp_scan c b : keeps Z Z (scan c b).
Proof.
  intros s. unfold scan. destruct (s_enc s) eqn:Ee.
  - destruct (initScan _ _ _ _) as [[[t n] [e|]]|] eqn:Ei; [|apply (f_refl _ _ frame_Z)|exact I].
    intros _. split; [exact (proj1 (init_local _ _ _ _ _ _ _ Ei))|]. apply flds_same; reflexivity.
  - apply (keeps_lift _ _ frame_Z).
Qed.
#[export] Hint Resolve zp_scan : zp.
Lemma zp_scan_as t c b : keeps Z Z (scan_as t c b). Proof. unfold scan_as. wk. Qed.
#[export] Hint Resolve zp_scan_as : zp.
Lemma zp_call ev : keeps Z Z (call ev).
Proof.
  intros s H. split; [exact H|]. split; try reflexivity. unfold halted. cbn. intros [E|E]; rewrite E; cbn; unfold stopped; destruct (stop _) as [[]|]; auto.
Qed.
#[export] Hint Resolve zp_call : zp.
Lemma zp_emit h ev : keeps Z Z (emit h ev). Proof. unfold emit. wk. Qed.
#[export] Hint Resolve zp_emit : zp.
Lemma zp_send_chunks mk fuel t e after : forall b, keeps Z Z (send_chunks fuel mk t e b after).
Proof. induction fuel as [|fuel IH]; intros b; cbn [send_chunks]; wk. Qed.
Lemma zp_send mk t b after : keeps Z Z (send mk t b after).
Proof. unfold send. wk. apply zp_send_chunks. Qed.
Lemma zp_reportDefault t b n : keeps Z Z (reportDefault t b n).
Proof. unfold reportDefault. wk. apply zp_send. Qed.
#[export] Hint Resolve zp_reportDefault : zp.
Lemma zp_reportPI t b n : keeps Z Z (reportPI t b n). Proof. unfold reportPI. wk. Qed.
Lemma zp_reportComment t b n : keeps Z Z (reportComment t b n). Proof. unfold reportComment. wk. Qed.
Lemma zp_char_data t d b n : keeps Z Z (char_data t d b n). Proof. unfold char_data. wk. Qed.
Lemma zp_char_data_text t b n : keeps Z Z (char_data_text t b n).
Proof. unfold char_data_text. wk. apply zp_send. Qed.
Lemma zp_after_token t b : keeps Z Z (after_token t b). Proof. unfold after_token. wk. Qed.
#[export] Hint Resolve zp_reportPI zp_reportComment zp_char_data zp_char_data_text zp_after_token : zp.
Lemma zp_doCdataSection fuel t h : forall b, keeps Z Z (doCdataSection fuel t b h).
Proof. induction fuel as [|fuel IH]; intros b; cbn [doCdataSection]; wk. Qed.
Lemma zp_epilog_loop fuel : forall b, keeps Z Z (epilog_loop fuel b).
Proof. induction fuel as [|fuel IH]; intros b; cbn [epilog_loop]; wk. Qed.
#[export] Hint Resolve zp_doCdataSection zp_epilog_loop : zp.

(* attributes, entity values, bindings *)
Lemma zp_append fuel prolog : forall t cd b acc, keeps Z Z (appendAttributeValue fuel prolog t cd b acc).
Proof.
  induction fuel as [|fuel IH]; intros t cd b acc; cbn [appendAttributeValue]; wk.
Qed.
#[export] Hint Resolve zp_append : zp.
Lemma zp_storeAttributeValue fuel p t cd b : keeps Z Z (storeAttributeValue fuel p t cd b).
Proof. unfold storeAttributeValue. wk. Qed.
#[export] Hint Resolve zp_storeAttributeValue : zp.
Section EVal.
Variable x : option bytes -> option bytes -> option bytes -> option bytes -> P bool.
Hypothesis Hx : forall a b c d, keeps Z Z (x a b c d).
Lemma zp_entity_value fuel : forall t b, keeps Z Z (entity_value x fuel t b).
Proof. induction fuel as [|fuel IH]; intros t b; cbn [entity_value]; unfold append_ev; wk. Qed.
Lemma zp_storeEntityValue fuel t b : keeps Z Z (storeEntityValue x fuel t b).
Proof. unfold storeEntityValue. wk. apply zp_entity_value. Qed.
End EVal.
Lemma zp_addBinding p a u bs : keeps Z Z (addBinding p a u bs). Proof. unfold addBinding. wk. Qed.
#[export] Hint Resolve zp_addBinding : zp.
Lemma zp_freeBindings bs : keeps Z Z (freeBindings bs).
Proof. induction bs as [|b bs IH]; cbn [freeBindings]; wk. Qed.
#[export] Hint Resolve zp_freeBindings : zp.
Lemma zp_setContext_loop fuel : forall acc s, keeps Z Z (setContext_loop fuel acc s).
Proof. induction fuel as [|fuel IH]; intros acc s; cbn [setContext_loop]; wk. Qed.
Lemma zp_setContext c : keeps Z Z (setContext c). Proof. apply zp_setContext_loop. Qed.
Lemma zp_getAttributeId t b : keeps Z Z (getAttributeId t b). Proof. unfold getAttributeId. wk. Qed.
Lemma zp_getElementType t b : keeps Z Z (getElementType t b). Proof. unfold getElementType. wk. Qed.
Lemma zp_attid_of i : keeps Z Z (attid_of i). Proof. unfold attid_of. wk. Qed.
Lemma zp_set_type i t : keeps Z Z (set_type i t). Proof. unfold set_type. wk. Qed.
#[export] Hint Resolve zp_setContext zp_getAttributeId zp_getElementType zp_attid_of zp_set_type : zp.
Lemma zp_declare p i v : keeps Z Z (declare p i v). Proof. unfold declare. wk. Qed.
#[export] Hint Resolve zp_declare : zp.
Lemma zp_specified_att f t el x st : keeps Z Z (specified_att f t el x st). Proof. unfold specified_att. wk. Qed.
#[export] Hint Resolve zp_specified_att : zp.
Lemma zp_specified_atts f t el xs : forall st, keeps Z Z (specified_atts f t el xs st).
Proof. induction xs as [|x xs IH]; intros st; cbn [specified_atts]; wk. Qed.
Lemma zp_default_att d st : keeps Z Z (default_att d st). Proof. unfold default_att. wk. Qed.
#[export] Hint Resolve zp_specified_atts zp_default_att : zp.
Lemma zp_default_atts ds : forall st, keeps Z Z (default_atts ds st).
Proof. induction ds as [|x xs IH]; intros st; cbn [default_atts]; wk. Qed.
Lemma zp_after_colon n : keeps Z Z (after_colon n). Proof. unfold after_colon. wk. Qed.
#[export] Hint Resolve zp_default_atts zp_after_colon : zp.
Lemma zp_expand_atts atts : forall n seen, keeps Z Z (expand_atts n seen atts).
Proof. induction atts as [|x xs IH]; intros n seen; cbn [expand_atts]; wk. Qed.
Lemma zp_clear_types l : keeps Z Z (clear_types l). Proof. induction l; cbn [clear_types]; wk. Qed.
Lemma zp_clear_bindings l : keeps Z Z (clear_bindings l). Proof. induction l; cbn [clear_bindings]; wk. Qed.
Lemma zp_expand_name l : keeps Z Z (expand_name l). Proof. unfold expand_name. wk. Qed.
Lemma zp_id_index el l : keeps Z Z (id_index el l). Proof. unfold id_index. wk. Qed.
#[export] Hint Resolve zp_expand_atts zp_clear_types zp_clear_bindings zp_expand_name zp_id_index : zp.
Lemma zp_storeAtts f t b el : keeps Z Z (storeAtts f t b el). Proof. unfold storeAtts. wk. Qed.
#[export] Hint Resolve zp_storeAtts : zp.
Lemma zp_tag_raw e k b : keeps Z Z (tag_raw e k b). Proof. unfold tag_raw. wk. Qed.
#[export] Hint Resolve zp_tag_raw : zp.
Section Good.
Variable r : recs.
Hypothesis Hx : forall a b c d, keeps Z Z (rc_ext r a b c d).
Lemma zg_leave ent o n b : keeps Z Z (leave_entity ent o n b). Proof. unfold leave_entity. wk. Qed.
#[local] Hint Resolve zg_leave : zp.
Lemma zg_end_of_text n : keeps Z Z (end_of_text n). Proof. unfold end_of_text. wk. Qed.
#[local] Hint Resolve zg_end_of_text : zp.
Lemma zp_set_enc e : (forall x, e = EKnown x -> local_enc x) -> keeps Z Z (upd (set_enc e)).
Proof. intros H. apply (keeps_upd Z Z). intros s _. split; [unfold enc_good; cbn; destruct e; auto|apply flds_same; reflexivity]. Qed.
Lemma zg_handleUnknownEncoding n : keeps Z Z (handleUnknownEncoding n).
Proof. unfold handleUnknownEncoding. wk. apply zp_set_enc. intros x E. injection E as <-. apply local_unknown. Qed.
#[local] Hint Resolve zg_handleUnknownEncoding : zp.
Lemma zg_initializeEncoding : keeps Z Z initializeEncoding.
Proof. unfold initializeEncoding. wk. apply zp_set_enc. intros x E. discriminate E. Qed.
#[local] Hint Resolve zg_initializeEncoding : zp.
Lemma keeps_lift_bind {A B} (v : res A) (k : A -> P B) : (forall a, v = Ok a -> keeps Z Z (k a)) -> keeps Z Z (pbind (lift v) k).
Proof. intros H s. unfold pbind, lift. destruct v as [a|]; [apply H; reflexivity|exact I]. Qed.
Lemma zg_processXmlDecl g b n : keeps Z Z (processXmlDecl g b n).
Proof.
  intros s. pose proof (Nest.kg_processXmlDecl g b n s) as Hcode.
  assert (H : enc_good s -> match processXmlDecl g b n s with Ret _ s' => Z s s' | Fail e s' => Z s s' | Die _ => True end).
  { intros He. unfold processXmlDecl. unfold pbind at 1, encoding at 1.
    set (e := known _ _). assert (Hl : local_enc e) by (apply known_local, He). clearbody e.
    match goal with |- match ?m s with _ => _ end => assert (Hm : keeps Z Z m) end.
    { apply (keeps_bind _ _ frame_Z); [apply (keeps_get _ _ frame_Z)|intros ns].
      apply keeps_lift_bind. intros d Ed. destruct d as [bad|d]; [wk|].
      pose proof (decl_local _ _ _ _ _ Hl Ed) as Hd. clear Ed. destruct d as [dv dn de ds]. unfold dr_local in Hd.
      cbn [dr_version dr_enc_name dr_encoding dr_standalone] in *.
      wk; try (apply (keeps_upd Z Z); intros s'; destruct (s_pep s'); apply Z_same; reflexivity).
      apply zp_set_enc. intros x Ex. apply Hd. injection Ex as <-. reflexivity. }
    specialize (Hm s). match goal with |- match ?m with _ => _ end => destruct m end; [exact Hm|apply Hm|exact I]. }
  destruct (processXmlDecl g b n s) as [a s'|e s'|e]; [|split; [apply Hcode|]|exact I]; intros He; apply H; assumption.
Qed.
Lemma zg_doIgnoreSection t b h : keeps Z Z (doIgnoreSection t b h). Proof. unfold doIgnoreSection. wk. Qed.
Lemma zg_check_standalone : keeps Z Z check_standalone. Proof. unfold check_standalone. wk. Qed.
Lemma zg_keep : keeps Z Z keep_if_standalone. Proof. unfold keep_if_standalone. wk. Qed.
Lemma zg_insert_subset : keeps Z Z insert_subset. Proof. unfold insert_subset. wk. Qed.
Lemma zg_entity_at e : keeps Z Z (entity_at e). Proof. unfold entity_at. wk. Qed.
#[local] Hint Resolve zg_processXmlDecl zg_doIgnoreSection zg_check_standalone zg_keep zg_insert_subset zg_entity_at Hx : zp.
Lemma zg_external_subset a b : keeps Z Z (external_subset r a b). Proof. unfold external_subset. wk. Qed.
Lemma zg_literal e b : keeps Z Z (literal e b). Proof. unfold literal. wk. Qed.
#[local] Hint Resolve zg_external_subset zg_literal : zp.
Lemma zg_public_id e b : keeps Z Z (public_id e b). Proof. unfold public_id. wk. Qed.
Lemma zg_check_public_id t e b n : keeps Z Z (check_public_id t e b n). Proof. unfold check_public_id. wk. Qed.
#[local] Hint Resolve zg_public_id zg_check_public_id : zp.
Lemma zg_end_attribute a b c : keeps Z Z (end_attribute a b c). Proof. unfold end_attribute. wk. Qed.
Lemma zg_declare_entity a b c : keeps Z Z (declare_entity a b c). Proof. unfold declare_entity. wk. Qed.
Lemma zg_content_element a b c d : keeps Z Z (content_element a b c d). Proof. unfold content_element. wk. Qed.
Lemma zg_group_close q : keeps Z Z (group_close q). Proof. unfold group_close. wk. Qed.
Lemma zg_quiet h : keeps Z Z (quiet h). Proof. unfold quiet. wk. Qed.
Lemma zg_quiet_kept h : keeps Z Z (quiet_kept h). Proof. unfold quiet_kept. wk. Qed.
Lemma zg_ev fuel t b : keeps Z Z (storeEntityValue (rc_ext r) fuel t b). Proof. apply zp_storeEntityValue, Hx. Qed.
#[local] Hint Resolve zg_end_attribute zg_declare_entity zg_content_element zg_group_close zg_quiet zg_quiet_kept zg_ev : zp.
End Good.
