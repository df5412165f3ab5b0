(* C72: which computations leave the open elements alone, and what content does to them. *)
From Coq Require Import List NArith ZArith Bool Arith Lia.
From Verif Require Import Base Encoding Tok TokMisc Norm XmlDecl Status Role State AttVal Bind Atts Scaf Content Prolog Core Keep.
From Verif Require Nest.
Import ListNotations.
Local Open Scope nat_scope.

Definition G (s s' : st) : Prop := s_tags s' = s_tags s /\ s_tagLevel s' = s_tagLevel s.
Lemma frame_G : frame G G.
Proof. unfold G. split; auto; intros a b c [] []; split; congruence. Qed.
Create HintDb tg discriminated.
Ltac same := apply (keeps_upd G G); intros; split; reflexivity.
Ltac lfG := first [ solve [eauto 3 with tg nocore] | same ].
Ltac wk := walk frame_G lfG.
#[local] Hint Resolve Nest.tok_end_code : codes.


Lemma tg_upd_dtd f : keeps G G (upd_dtd f). Proof. unfold upd_dtd. same. Qed.
#[export] Hint Resolve tg_upd_dtd : tg.
Lemma tg_upd_entity r f : keeps G G (upd_entity r f). Proof. unfold upd_entity. wk. Qed.
Lemma tg_set_event t b : keeps G G (set_event t b). Proof. unfold set_event. wk. Qed.
Lemma tg_set_event_n t n : keeps G G (set_event_n t n). Proof. unfold set_event_n. wk. Qed.
Lemma tg_set_event_end_n t n : keeps G G (set_event_end_n t n). Proof. unfold set_event_end_n. wk. Qed.
Lemma tg_set_event_end_tok t b u n : keeps G G (set_event_end_tok t b u n). Proof. unfold set_event_end_tok. wk. Qed.
#[export] Hint Resolve tg_upd_entity tg_set_event tg_set_event_n tg_set_event_end_n tg_set_event_end_tok : tg.
Lemma tg_inc n b : keeps G G (inc n b). Proof. unfold inc. wk. Qed.
Lemma tg_dec n b : keeps G G (dec n b). Proof. unfold dec. wk. Qed.
Lemma tg_need n : keeps G G (need n). Proof. unfold need. wk. Qed.
Lemma tg_store t b : keeps G G (store t b). Proof. unfold store. wk. Qed.
#[export] Hint Resolve tg_inc tg_dec tg_need tg_store : tg.
Lemma tg_rest_after b n : keeps G G (rest_after b n). Proof. unfold rest_after. wk. Qed.
Lemma tg_set_event_opt t b n : keeps G G (set_event_opt t b n). Proof. unfold set_event_opt. wk. Qed.
Lemma tg_ref_name e b n : keeps G G (ref_name e b n). Proof. unfold ref_name. wk. Qed.
Lemma tg_some {A} (x : option A) : keeps G G (some x). Proof. unfold some. wk. Qed.
#[export] Hint Resolve tg_rest_after tg_set_event_opt tg_ref_name tg_some : tg.
Lemma tg_scan c b : keeps G G (scan c b).
Proof.
  intros s. unfold scan. destruct (s_enc s) eqn:Ee.
  - destruct (initScan _ _ _ _) as [[[t n] [e|]]|] eqn:Ei; [split; reflexivity|apply (f_refl _ _ frame_G)|exact I].
  - apply (keeps_lift _ _ frame_G).
Qed.
#[export] Hint Resolve tg_scan : tg.
Lemma tg_scan_as t c b : keeps G G (scan_as t c b). Proof. unfold scan_as. wk. Qed.
#[export] Hint Resolve tg_scan_as : tg.
Lemma tg_call ev : keeps G G (call ev).
Proof. intros s. split; reflexivity. Qed.
#[export] Hint Resolve tg_call : tg.
Lemma tg_emit h ev : keeps G G (emit h ev). Proof. unfold emit. wk. Qed.
#[export] Hint Resolve tg_emit : tg.
Lemma tg_send_chunks mk fuel t e after : forall b, keeps G G (send_chunks fuel mk t e b after).
Proof. induction fuel as [|fuel IH]; intros b; cbn [send_chunks]; wk. Qed.
Lemma tg_send mk t b after : keeps G G (send mk t b after).
Proof. unfold send. wk. apply tg_send_chunks. Qed.
Lemma tg_reportDefault t b n : keeps G G (reportDefault t b n).
Proof. unfold reportDefault. wk. apply tg_send. Qed.
#[export] Hint Resolve tg_reportDefault : tg.
Lemma tg_reportPI t b n : keeps G G (reportPI t b n). Proof. unfold reportPI. wk. Qed.
Lemma tg_reportComment t b n : keeps G G (reportComment t b n). Proof. unfold reportComment. wk. Qed.
Lemma tg_char_data t d b n : keeps G G (char_data t d b n). Proof. unfold char_data. wk. Qed.
Lemma tg_char_data_text t b n : keeps G G (char_data_text t b n).
Proof. unfold char_data_text. wk. apply tg_send. Qed.
Lemma tg_after_token t b : keeps G G (after_token t b). Proof. unfold after_token. wk. Qed.
#[export] Hint Resolve tg_reportPI tg_reportComment tg_char_data tg_char_data_text tg_after_token : tg.
Lemma tg_doCdataSection fuel t h : forall b, keeps G G (doCdataSection fuel t b h).
Proof. induction fuel as [|fuel IH]; intros b; cbn [doCdataSection]; wk. Qed.
Lemma tg_epilog_loop fuel : forall b, keeps G G (epilog_loop fuel b).
Proof. induction fuel as [|fuel IH]; intros b; cbn [epilog_loop]; wk. Qed.
#[export] Hint Resolve tg_doCdataSection tg_epilog_loop : tg.

(* attributes, entity values, bindings *)
Lemma tg_append fuel prolog : forall t cd b acc, keeps G G (appendAttributeValue fuel prolog t cd b acc).
Proof.
  induction fuel as [|fuel IH]; intros t cd b acc; cbn [appendAttributeValue]; wk.
Qed.
#[export] Hint Resolve tg_append : tg.
Lemma tg_storeAttributeValue fuel p t cd b : keeps G G (storeAttributeValue fuel p t cd b).
Proof. unfold storeAttributeValue. wk. Qed.
#[export] Hint Resolve tg_storeAttributeValue : tg.
Lemma tg_addBinding p a u bs : keeps G G (addBinding p a u bs). Proof. unfold addBinding. wk. Qed.
#[export] Hint Resolve tg_addBinding : tg.
Lemma tg_freeBindings bs : keeps G G (freeBindings bs).
Proof. induction bs as [|b bs IH]; cbn [freeBindings]; wk. Qed.
#[export] Hint Resolve tg_freeBindings : tg.
Lemma tg_getAttributeId t b : keeps G G (getAttributeId t b). Proof. unfold getAttributeId. wk. Qed.
Lemma tg_getElementType t b : keeps G G (getElementType t b). Proof. unfold getElementType. wk. Qed.
Lemma tg_attid_of i : keeps G G (attid_of i). Proof. unfold attid_of. wk. Qed.
Lemma tg_set_type i t : keeps G G (set_type i t). Proof. unfold set_type. wk. Qed.
#[export] Hint Resolve tg_getAttributeId tg_getElementType tg_attid_of tg_set_type : tg.
Lemma tg_declare p i v : keeps G G (declare p i v). Proof. unfold declare. wk. Qed.
#[export] Hint Resolve tg_declare : tg.
Lemma tg_specified_att f t el x st : keeps G G (specified_att f t el x st). Proof. unfold specified_att. wk. Qed.
#[export] Hint Resolve tg_specified_att : tg.
Lemma tg_specified_atts f t el xs : forall st, keeps G G (specified_atts f t el xs st).
Proof. induction xs as [|x xs IH]; intros st; cbn [specified_atts]; wk. Qed.
Lemma tg_default_att d st : keeps G G (default_att d st). Proof. unfold default_att. wk. Qed.
#[export] Hint Resolve tg_specified_atts tg_default_att : tg.
Lemma tg_default_atts ds : forall st, keeps G G (default_atts ds st).
Proof. induction ds as [|x xs IH]; intros st; cbn [default_atts]; wk. Qed.
Lemma tg_after_colon n : keeps G G (after_colon n). Proof. unfold after_colon. wk. Qed.
#[export] Hint Resolve tg_default_atts tg_after_colon : tg.
Lemma tg_expand_atts atts : forall n seen, keeps G G (expand_atts n seen atts).
Proof. induction atts as [|x xs IH]; intros n seen; cbn [expand_atts]; wk. Qed.
Lemma tg_clear_types l : keeps G G (clear_types l). Proof. induction l; cbn [clear_types]; wk. Qed.
Lemma tg_clear_bindings l : keeps G G (clear_bindings l). Proof. induction l; cbn [clear_bindings]; wk. Qed.
Lemma tg_expand_name l : keeps G G (expand_name l). Proof. unfold expand_name. wk. Qed.
Lemma tg_id_index el l : keeps G G (id_index el l). Proof. unfold id_index. wk. Qed.
#[export] Hint Resolve tg_expand_atts tg_clear_types tg_clear_bindings tg_expand_name tg_id_index : tg.
Lemma tg_storeAtts f t b el : keeps G G (storeAtts f t b el). Proof. unfold storeAtts. wk. Qed.
#[export] Hint Resolve tg_storeAtts : tg.
Lemma tg_tag_raw e k b : keeps G G (tag_raw e k b). Proof. unfold tag_raw. wk. Qed.
#[export] Hint Resolve tg_tag_raw : tg.
