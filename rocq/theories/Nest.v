(* The stack behind nested element events, and what the functions of the parser do to it. *)
From Coq Require Import List NArith ZArith Bool Arith Lia.
From Verif Require Import Base Encoding Tok TokMisc Norm XmlDecl Status Role State AttVal Bind Atts Scaf Content Prolog Core.
From Verif Require Import Keep SpecNest.
From Verif Require Api.
Import ListNotations.

Fixpoint stack (k : list bytes) (l : list tagev) : option (list bytes) :=
  match l with
  | [] => Some k
  | Open n :: l => stack (n :: k) l
  | Close n :: l => match k with m :: k => if beqb m n then stack k l else None | [] => None end
  end.
Lemma beqb_eq a : forall b, beqb a b = true <-> a = b.
Proof.
  induction a as [|x a IH]; intros [|y b]; cbn [beqb]; try (split; (reflexivity || discriminate)).
  rewrite andb_true_iff, N.eqb_eq, IH. split; [intros [-> ->]; reflexivity|intros H; injection H; auto].
Qed.
Lemma beqb_refl a : beqb a a = true.
Proof. apply beqb_eq. reflexivity. Qed.
Lemma stack_app l : forall k l', stack k (l ++ l') = match stack k l with Some k' => stack k' l' | None => None end.
Proof.
  induction l as [|[n|n] l IH]; intros k l'; cbn [stack app]; [reflexivity|apply IH|].
  destruct k as [|m k]; [reflexivity|]. destruct (beqb m n); [apply IH|reflexivity].
Qed.
Lemma stack_balanced l : balanced l -> forall k, stack k l = Some k.
Proof.
  induction 1; intros k; cbn [stack]; [reflexivity| |].
  - rewrite stack_app, IHbalanced1. apply IHbalanced2.
  - rewrite stack_app, IHbalanced. cbn [stack]. rewrite beqb_refl. reflexivity.
Qed.
(* reading from the left: what is open at the end can be closed *)
Lemma stack_close l : forall k, stack k l = Some [] ->
  exists bs, length bs = length k /\ Forall balanced bs /\ exists b0, balanced b0 /\
    l = b0 ++ concat (map (fun '(n, b) => Close n :: b) (combine k bs)).
Proof.
  induction l as [|[n|n] l IH]; intros k H; cbn [stack] in H.
  - injection H as ->. exists []. split; [reflexivity|]. split; [constructor|]. exists []. split; [constructor|reflexivity].
  - apply IH in H as [bs [Hl [Hb [b0 [H0 E]]]]]. destruct bs as [|b bs]; [discriminate|].
    inversion Hb; subst. exists bs. split; [now injection Hl|]. split; [assumption|].
    exists ((Open n :: b0 ++ [Close n]) ++ b). split; [apply bal_app; [apply bal_elem; assumption|assumption]|].
    cbn [combine map concat app]. rewrite <- !app_assoc. reflexivity.
  - destruct k as [|m k]; [discriminate|]. destruct (beqb m n) eqn:Em; [|discriminate].
    apply beqb_eq in Em. subst m. apply IH in H as [bs [Hl [Hb [b0 [H0 E]]]]].
    exists (b0 :: bs). split; [cbn [length]; congruence|]. split; [constructor; assumption|].
    exists []. split; [constructor|]. cbn [combine map concat app]. rewrite E. reflexivity.
Qed.
Lemma stack_nil l : stack [] l = Some [] -> balanced l.
Proof.
  intros H. apply stack_close in H as [bs [Hl [_ [b0 [H0 E]]]]]. destruct bs; [|discriminate].
  cbn in E. rewrite app_nil_r in E. subst. assumption.
Qed.
Lemma stack_nested l k : stack [] l = Some k -> nested_so_far l.
Proof.
  intros H. exists (map Close k). apply stack_nil. rewrite stack_app, H. clear H.
  induction k as [|n k IH]; cbn [map stack]; [reflexivity|]. rewrite beqb_refl. apply IH.
Qed.
Lemma stack_one n l : stack [n] l = Some [] -> (forall a b, l = a ++ b -> b <> [] -> stack [n] a <> Some []) -> l <> [] ->
  one_element (Open n :: l).
Proof.
  intros H Hp Hne. apply stack_close in H as [bs [Hl [Hb [b0 [H0 E]]]]].
  destruct bs as [|b bs]; [discriminate|]. destruct bs; [|discriminate]. cbn in E. rewrite app_nil_r in E.
  exists n, b0. destruct b as [|x b]; [rewrite E; split; [reflexivity|assumption]|]. exfalso.
  apply (Hp (b0 ++ [Close n]) (x :: b)); [rewrite E, <- app_assoc; reflexivity|discriminate|].
  rewrite stack_app, stack_balanced by assumption. cbn [stack]. rewrite beqb_refl. reflexivity.
Qed.

Definition nestable (l : list tagev) : Prop := exists k, stack [] l = Some k.

(* the log: a parser's number is at most the length of the log when it was made *)
Record sane (s : st) : Prop := {
  sn_start : h_startElement (c_h (s_cfg s)) = true;
  sn_end : h_endElement (c_h (s_cfg s)) = true;
  sn_pid : s_pid s <= length (s_log s);
  sn_low : forall q e, In (q, e) (s_log s) -> q < length (s_log s);
  sn_all : forall q, nestable (elements q (s_log s))
}.
(* nothing that belongs to other parsers changes *)
Record grown (s s' : st) : Prop := {
  gr_cfg : s_cfg s' = s_cfg s;
  gr_pid : s_pid s' = s_pid s;
  gr_len : length (s_log s) <= length (s_log s');
  gr_others : forall q, q <> s_pid s -> q < length (s_log s) -> elements q (s_log s') = elements q (s_log s)
}.
Definition mine (s : st) : list tagev := elements (s_pid s) (s_log s).
Definition inv (s : st) : Prop := sane s /\ stack [] (mine s) = Some (map t_name (s_tags s)).
(* no element event *)
Definition N (s s' : st) : Prop :=
  sane s -> sane s' /\ grown s s' /\ s_tags s' = s_tags s /\ mine s' = mine s.
Definition G (s s' : st) : Prop := inv s -> inv s' /\ grown s s'.
Definition Gf (s s' : st) : Prop := inv s -> sane s' /\ grown s s'.

Lemma grown_refl s : grown s s.
Proof. split; auto. Qed.
Lemma grown_trans a b c : grown a b -> grown b c -> grown a c.
Proof.
  intros [A1 A2 A3 A4] [B1 B2 B3 B4]. split; [congruence|congruence|lia|].
  intros q Hq Hl. rewrite B4; [apply A4; assumption|congruence|lia].
Qed.
Lemma frame_N : frame N N.
Proof.
  split.
  - intros s H. repeat split; auto using grown_refl; apply H.
  - intros a b c H1 H2 Ha. apply H1 in Ha as (Hb & g1 & t1 & m1). apply H2 in Hb as (Hc & g2 & t2 & m2).
    split; [assumption|]. split; [eapply grown_trans; eassumption|]. split; congruence.
  - intros a b c H1 H2 Ha. apply H1 in Ha as (Hb & g1 & t1 & m1). apply H2 in Hb as (Hc & g2 & t2 & m2).
    split; [assumption|]. split; [eapply grown_trans; eassumption|]. split; congruence.
  - auto.
Qed.
Lemma frame_G : frame G Gf.
Proof.
  split.
  - intros s H. split; [assumption|apply grown_refl].
  - intros a b c H1 H2 Ha. apply H1 in Ha as (Hb & g1). apply H2 in Hb as (Hc & g2).
    split; [assumption|eapply grown_trans; eassumption].
  - intros a b c H1 H2 Ha. apply H1 in Ha as (Hb & g1). apply H2 in Hb as (Hc & g2).
    split; [assumption|eapply grown_trans; eassumption].
  - intros a b H Ha. apply H in Ha as ((Hs & Hk) & g). split; assumption.
Qed.
Lemma N_G s s' : N s s' -> G s s'.
Proof.
  intros H [Hs Hk]. apply H in Hs as (Hs & g & t & m). split; [|assumption]. split; [assumption|]. rewrite m, t. assumption.
Qed.
Lemma N_Gf s s' : N s s' -> Gf s s'.
Proof. intros H. apply (f_weak _ _ frame_G), N_G, H. Qed.
Lemma keeps_N_G {A} (m : P A) : keeps N N m -> keeps G Gf m.
Proof. apply keeps_imp; [exact N_G|exact N_Gf]. Qed.

(* an update of fields that do not matter *)
Lemma N_same s s' : s_cfg s' = s_cfg s -> s_pid s' = s_pid s -> s_tags s' = s_tags s -> s_log s' = s_log s -> N s s'.
Proof.
  intros E1 E2 E3 E4 H. split; [|split; [|split]].
  - destruct H as [A B C D E]. split; rewrite ?E1, ?E2, ?E4; assumption.
  - split; rewrite ?E4; auto.
  - assumption.
  - unfold mine. congruence.
Qed.

Lemma sane_event s ev s' : sane s -> nestable (mine s ++ tagev_of ev) -> s_cfg s' = s_cfg s -> s_pid s' = s_pid s ->
  s_log s' = (s_pid s, ev) :: s_log s -> sane s' /\ grown s s' /\ mine s' = mine s ++ tagev_of ev.
Proof.
  intros [A B C D E] Hn E1 E2 E3. split; [|split].
  - split; rewrite ?E1, ?E2, ?E3; [assumption|assumption|cbn [length]; lia| |].
    + cbn [In length]. intros q e [Hq|Hq]; [injection Hq; intros; subst; lia|]. apply D in Hq. lia.
    + intros q. cbn [elements]. destruct (s_pid s =? q) eqn:Eq; [apply Nat.eqb_eq in Eq; subst q; exact Hn|].
      rewrite app_nil_r. apply E.
  - split; rewrite ?E3; cbn [length]; [assumption|assumption|lia|].
    intros q Hq _. cbn [elements]. replace (s_pid s =? q) with false by (symmetry; apply Nat.eqb_neq; congruence).
    apply app_nil_r.
  - unfold mine. rewrite E2, E3. cbn [elements]. rewrite Nat.eqb_refl. reflexivity.
Qed.
Lemma keeps_call ev : tagev_of ev = [] -> keeps N N (call ev).
Proof.
  intros He s Hs. destruct (sane_event s ev (set_parsing (stopped (c_app (s_cfg s) ((s_pid s, ev) :: s_log s)) (s_isParam s) (s_parsing s)) (set_log ((s_pid s, ev) :: s_log s) s)) Hs) as (H1 & H2 & H3); try reflexivity.
  { rewrite He, app_nil_r. apply Hs. }
  split; [assumption|]. split; [assumption|]. split; [reflexivity|]. rewrite H3, He, app_nil_r. reflexivity.
Qed.
Lemma keeps_emit h ev : tagev_of ev = [] -> keeps N N (emit h ev).
Proof.
  intros He. unfold emit. walk frame_N nope. apply keeps_call. assumption.
Qed.

Create HintDb kp discriminated.
Ltac same := apply (keeps_upd N N); intros; apply N_same; reflexivity.
Ltac lfN := first [ solve [eauto 3 with kp nocore] | same ].
Ltac wk := walk frame_N lfN.

Lemma kp_upd_dtd f : keeps N N (upd_dtd f). Proof. unfold upd_dtd. same. Qed.
#[export] Hint Resolve kp_upd_dtd : kp.
Lemma kp_upd_entity r f : keeps N N (upd_entity r f). Proof. unfold upd_entity. wk. Qed.
Lemma kp_set_event t b : keeps N N (set_event t b). Proof. unfold set_event. wk. Qed.
Lemma kp_set_event_n t n : keeps N N (set_event_n t n). Proof. unfold set_event_n. wk. Qed.
Lemma kp_set_event_end_n t n : keeps N N (set_event_end_n t n). Proof. unfold set_event_end_n. wk. Qed.
Lemma kp_set_event_end_tok t b u n : keeps N N (set_event_end_tok t b u n). Proof. unfold set_event_end_tok. wk. Qed.
#[export] Hint Resolve kp_upd_entity kp_set_event kp_set_event_n kp_set_event_end_n kp_set_event_end_tok : kp.
Lemma kp_inc n b : keeps N N (inc n b). Proof. unfold inc. wk. Qed.
Lemma kp_dec n b : keeps N N (dec n b). Proof. unfold dec. wk. Qed.
Lemma kp_need n : keeps N N (need n). Proof. unfold need. wk. Qed.
Lemma kp_store t b : keeps N N (store t b). Proof. unfold store. wk. Qed.
#[export] Hint Resolve kp_inc kp_dec kp_need kp_store : kp.
Lemma kp_rest_after b n : keeps N N (rest_after b n). Proof. unfold rest_after. wk. Qed.
Lemma kp_set_event_opt t b n : keeps N N (set_event_opt t b n). Proof. unfold set_event_opt. wk. Qed.
Lemma kp_ref_name e b n : keeps N N (ref_name e b n). Proof. unfold ref_name. wk. Qed.
Lemma kp_some {A} (x : option A) : keeps N N (some x). Proof. unfold some. wk. Qed.
#[export] Hint Resolve kp_rest_after kp_set_event_opt kp_ref_name kp_some : kp.
Lemma kp_scan c b : keeps N N (scan c b).
Proof.
  intros s. unfold scan. destruct (s_enc s).
  - destruct (initScan _ _ _ _) as [[[t n] [e|]]|]; [apply N_same; reflexivity|apply (f_refl _ _ frame_N)|exact I].
  - apply (keeps_lift _ _ frame_N).
Qed.
#[export] Hint Resolve kp_scan : kp.
Lemma kp_scan_as t c b : keeps N N (scan_as t c b). Proof. unfold scan_as. wk. Qed.
#[export] Hint Resolve kp_scan_as : kp.
Lemma kp_call ev : tagev_of ev = [] -> keeps N N (call ev). Proof. apply keeps_call. Qed.
Lemma kp_emit h ev : tagev_of ev = [] -> keeps N N (emit h ev). Proof. apply keeps_emit. Qed.
#[export] Hint Extern 2 (keeps N N (call _)) => apply kp_call; reflexivity : kp.
#[export] Hint Extern 2 (keeps N N (emit _ _)) => apply kp_emit; reflexivity : kp.

Lemma kp_send_chunks mk (H : forall b, tagev_of (mk b) = []) fuel t e after : forall b, keeps N N (send_chunks fuel mk t e b after).
Proof. induction fuel as [|fuel IH]; intros b; cbn [send_chunks]; wk; apply kp_call, H. Qed.
Lemma kp_send mk (H : forall b, tagev_of (mk b) = []) t b after : keeps N N (send mk t b after).
Proof. unfold send. wk. apply kp_call, H. apply kp_send_chunks, H. Qed.
Lemma kp_reportDefault t b n : keeps N N (reportDefault t b n).
Proof. unfold reportDefault. wk. apply kp_send. reflexivity. Qed.
#[export] Hint Resolve kp_reportDefault : kp.
Lemma kp_reportPI t b n : keeps N N (reportPI t b n). Proof. unfold reportPI. wk. Qed.
Lemma kp_reportComment t b n : keeps N N (reportComment t b n). Proof. unfold reportComment. wk. Qed.
Lemma kp_char_data t d b n : keeps N N (char_data t d b n). Proof. unfold char_data. wk. Qed.
Lemma kp_char_data_text t b n : keeps N N (char_data_text t b n).
Proof. unfold char_data_text. wk. apply kp_send. reflexivity. Qed.
Lemma kp_after_token t b : keeps N N (after_token t b). Proof. unfold after_token. wk. Qed.
#[export] Hint Resolve kp_reportPI kp_reportComment kp_char_data kp_char_data_text kp_after_token : kp.
Lemma kp_doCdataSection fuel t h : forall b, keeps N N (doCdataSection fuel t b h).
Proof. induction fuel as [|fuel IH]; intros b; cbn [doCdataSection]; wk. Qed.
Lemma kp_epilog_loop fuel : forall b, keeps N N (epilog_loop fuel b).
Proof. induction fuel as [|fuel IH]; intros b; cbn [epilog_loop]; wk. Qed.
#[export] Hint Resolve kp_doCdataSection kp_epilog_loop : kp.
Lemma kp_epilog fuel b : keeps N N (epilogProcessor fuel b). Proof. unfold epilogProcessor. wk. Qed.
#[export] Hint Resolve kp_epilog : kp.

(* attributes, entity values, bindings *)
Lemma kp_append fuel prolog : forall t cd b acc, keeps N N (appendAttributeValue fuel prolog t cd b acc).
Proof.
  induction fuel as [|fuel IH]; intros t cd b acc; cbn [appendAttributeValue]; wk.
Qed.
#[export] Hint Resolve kp_append : kp.
Lemma kp_storeAttributeValue fuel p t cd b : keeps N N (storeAttributeValue fuel p t cd b).
Proof. unfold storeAttributeValue. wk. Qed.
#[export] Hint Resolve kp_storeAttributeValue : kp.
Section EVal.
Variable x : option bytes -> option bytes -> option bytes -> option bytes -> P bool.
Hypothesis Hx : forall a b c d, keeps N N (x a b c d).
Lemma kp_entity_value fuel : forall t b, keeps N N (entity_value x fuel t b).
Proof. induction fuel as [|fuel IH]; intros t b; cbn [entity_value]; unfold append_ev; wk. Qed.
Lemma kp_storeEntityValue fuel t b : keeps N N (storeEntityValue x fuel t b).
Proof. unfold storeEntityValue. wk. apply kp_entity_value. Qed.
End EVal.
Lemma kp_addBinding p a u bs : keeps N N (addBinding p a u bs). Proof. unfold addBinding. wk. Qed.
#[export] Hint Resolve kp_addBinding : kp.
Lemma kp_freeBindings bs : keeps N N (freeBindings bs).
Proof. induction bs as [|b bs IH]; cbn [freeBindings]; wk. Qed.
#[export] Hint Resolve kp_freeBindings : kp.
Lemma kp_setContext_loop fuel : forall acc s, keeps N N (setContext_loop fuel acc s).
Proof. induction fuel as [|fuel IH]; intros acc s; cbn [setContext_loop]; wk. Qed.
Lemma kp_setContext c : keeps N N (setContext c). Proof. apply kp_setContext_loop. Qed.
Lemma kp_getAttributeId t b : keeps N N (getAttributeId t b). Proof. unfold getAttributeId. wk. Qed.
Lemma kp_getElementType t b : keeps N N (getElementType t b). Proof. unfold getElementType. wk. Qed.
Lemma kp_attid_of i : keeps N N (attid_of i). Proof. unfold attid_of. wk. Qed.
Lemma kp_set_type i t : keeps N N (set_type i t). Proof. unfold set_type. wk. Qed.
#[export] Hint Resolve kp_setContext kp_getAttributeId kp_getElementType kp_attid_of kp_set_type : kp.
Lemma kp_declare p i v : keeps N N (declare p i v). Proof. unfold declare. wk. Qed.
#[export] Hint Resolve kp_declare : kp.
Lemma kp_specified_att f t el x st : keeps N N (specified_att f t el x st). Proof. unfold specified_att. wk. Qed.
#[export] Hint Resolve kp_specified_att : kp.
Lemma kp_specified_atts f t el xs : forall st, keeps N N (specified_atts f t el xs st).
Proof. induction xs as [|x xs IH]; intros st; cbn [specified_atts]; wk. Qed.
Lemma kp_default_att d st : keeps N N (default_att d st). Proof. unfold default_att. wk. Qed.
#[export] Hint Resolve kp_specified_atts kp_default_att : kp.
Lemma kp_default_atts ds : forall st, keeps N N (default_atts ds st).
Proof. induction ds as [|x xs IH]; intros st; cbn [default_atts]; wk. Qed.
Lemma kp_after_colon n : keeps N N (after_colon n). Proof. unfold after_colon. wk. Qed.
#[export] Hint Resolve kp_default_atts kp_after_colon : kp.
Lemma kp_expand_atts atts : forall n seen, keeps N N (expand_atts n seen atts).
Proof. induction atts as [|x xs IH]; intros n seen; cbn [expand_atts]; wk. Qed.
Lemma kp_clear_types l : keeps N N (clear_types l). Proof. induction l; cbn [clear_types]; wk. Qed.
Lemma kp_clear_bindings l : keeps N N (clear_bindings l). Proof. induction l; cbn [clear_bindings]; wk. Qed.
Lemma kp_expand_name l : keeps N N (expand_name l). Proof. unfold expand_name. wk. Qed.
Lemma kp_id_index el l : keeps N N (id_index el l). Proof. unfold id_index. wk. Qed.
#[export] Hint Resolve kp_expand_atts kp_clear_types kp_clear_bindings kp_expand_name kp_id_index : kp.
Lemma kp_storeAtts f t b el : keeps N N (storeAtts f t b el). Proof. unfold storeAtts. wk. Qed.
#[export] Hint Resolve kp_storeAtts : kp.

(* the tags *)
Definition wp {A} (m : P A) (s : st) (Qr : A -> st -> Prop) (Qf : XML_Error -> st -> Prop) : Prop :=
  match m s with Ret a s' => Qr a s' | Fail e s' => e <> XE_NONE /\ Qf e s' | Die _ => True end.
Lemma wp_bind {A B} (m : P A) (k : A -> P B) s Qr Qf :
  wp m s (fun a s' => wp (k a) s' Qr Qf) Qf -> wp (pbind m k) s Qr Qf.
Proof. unfold wp, pbind. destruct (m s); auto. Qed.
Lemma wp_keeps R F {A} (m : P A) s (Qr : A -> st -> Prop) (Qf : XML_Error -> st -> Prop) : keeps R F m ->
  (forall a s', R s s' -> Qr a s') -> (forall e s', F s s' -> Qf e s') -> wp m s Qr Qf.
Proof. intros H H1 H2. specialize (H s). unfold wp. destruct (m s); auto. destruct H; auto. Qed.
Lemma keeps_wp R F {A} (m : P A) : (forall s, wp m s (fun _ s' => R s s') (fun _ s' => F s s')) -> keeps R F m.
Proof. exact (fun H => H). Qed.

(* [m] was run after [mine s] has become [l] *)
Definition after (l : list tagev) (tags : list tag) (s s' : st) : Prop := sane s' /\ grown s s' /\ s_tags s' = tags /\ mine s' = l.
Lemma after_N l tags s s1 s2 : after l tags s s1 -> N s1 s2 -> after l tags s s2.
Proof.
  intros (A & B & C & D) H. apply H in A as (A & B' & C' & D'). split; [assumption|].
  split; [eapply grown_trans; eassumption|]. split; congruence.
Qed.
Lemma after_refl s : sane s -> after (mine s) (s_tags s) s s.
Proof. intros H. split; [assumption|]. split; [apply grown_refl|]. split; reflexivity. Qed.
Lemma wp_after {A} (m : P A) l tags s s1 (Qr : A -> st -> Prop) (Qf : XML_Error -> st -> Prop) : keeps N N m -> after l tags s s1 ->
  (forall a s', after l tags s s' -> Qr a s') -> (forall e s', after l tags s s' -> Qf e s') -> wp m s1 Qr Qf.
Proof.
  intros Hm Ha H1 H2. eapply wp_keeps; [exact Hm| |]; intros x s' HN; [apply H1|apply H2]; eapply after_N; eassumption.
Qed.
Lemma wp_try {A} (m : P A) l tags s s1 (Qr : XML_Error + A -> st -> Prop) (Qf : XML_Error -> st -> Prop) : keeps N N m -> after l tags s s1 ->
  (forall e s', e <> XE_NONE -> after l tags s s' -> Qr (inl e) s') -> (forall a s', after l tags s s' -> Qr (inr a) s') -> wp (try m) s1 Qr Qf.
Proof.
  intros Hm Ha H1 H2. specialize (Hm s1). unfold wp, try. destruct (m s1) as [a s'|e s'|e]; [|destruct Hm as [He Hm]|exact I].
  - apply H2. eapply after_N; eassumption.
  - apply H1; [exact He|]. eapply after_N; eassumption.
Qed.
Lemma wp_emit_elem h ev l tags s s1 (Qr : bool -> st -> Prop) (Qf : XML_Error -> st -> Prop) : h (c_h (s_cfg s1)) = true -> nestable (l ++ tagev_of ev) -> after l tags s s1 ->
  (forall s', after (l ++ tagev_of ev) tags s s' -> Qr true s') -> wp (emit h ev) s1 Qr Qf.
Proof.
  intros Hh Hn (A & B & C & D) H. unfold wp, emit, pbind, handler, get. cbn beta iota. rewrite Hh.
  unfold pbind, call, pret. cbn beta iota. apply H.
  edestruct (sane_event s1 ev) as (X & Y & Z); [eassumption|rewrite D; exact Hn| | | |split; [exact X|]]; try reflexivity.
  split; [eapply grown_trans; eassumption|]. split; [exact C|]. rewrite Z, D. reflexivity.
Qed.
Lemma after_set l tags tags' f s s1 : (forall s, s_cfg (f s) = s_cfg s /\ s_pid (f s) = s_pid s /\ s_log (f s) = s_log s) ->
  s_tags (f s1) = tags' -> after l tags s s1 -> after l tags' s (f s1).
Proof.
  intros Hf Ht (A & B & C & D). destruct (Hf s1) as (E1 & E2 & E3). destruct A as [A1 A2 A3 A4 A5].
  split; [|split; [|split]].
  - split; rewrite ?E1, ?E2, ?E3; assumption.
  - destruct B as [B1 B2 B3 B4]. split; rewrite ?E1, ?E2, ?E3; assumption.
  - assumption.
  - unfold mine. rewrite E2, E3. exact D.
Qed.
Lemma after_start l tags s s1 : after l tags s s1 -> h_startElement (c_h (s_cfg s1)) = true.
Proof. intros (A & _). apply A. Qed.
Lemma after_end l tags s s1 : after l tags s s1 -> h_endElement (c_h (s_cfg s1)) = true.
Proof. intros (A & _). apply A. Qed.

Lemma kp_tag_raw e k b : keeps N N (tag_raw e k b). Proof. unfold tag_raw. wk. Qed.
#[export] Hint Resolve kp_tag_raw : kp.

Lemma after_Gf l tags s s' : after l tags s s' -> sane s' /\ grown s s'.
Proof. intros (A & B & C & D). auto. Qed.
Lemma after_G l tags s s' : stack [] l = Some (map t_name tags) -> after l tags s s' -> inv s' /\ grown s s'.
Proof. intros Hl (A & B & C & D). split; [|assumption]. split; [assumption|]. rewrite D, C. exact Hl. Qed.

Lemma keeps_G {A} (m : P A) : (forall s, match m s with Fail e _ => e <> XE_NONE | _ => True end) -> (forall s, inv s ->
  wp m s (fun _ s' => inv s' /\ grown s s') (fun _ s' => sane s' /\ grown s s')) -> keeps G Gf m.
Proof.
  intros H0 H s. specialize (H s). specialize (H0 s). unfold wp in H. destruct (m s); unfold G, Gf; auto.
  split; [exact H0|]. intros Hi. apply H, Hi.
Qed.
Ltac go l := apply wp_bind; eapply wp_after; [l|eassumption| |intros; eapply after_Gf; eassumption].

(* that a failure has an error code *)
Definition T (s s' : st) : Prop := True.
Lemma frame_T : frame T T. Proof. split; unfold T; auto. Qed.
Lemma keeps_T {A} (m : P A) : keeps N N m -> keeps T T m. Proof. apply keeps_imp; unfold T; auto. Qed.
Lemma keeps_T_code {A} (m : P A) : keeps T T m -> forall s, match m s with Fail e _ => e <> XE_NONE | _ => True end.
Proof. intros H s. specialize (H s). destruct (m s); [exact I|apply H|exact I]. Qed.
Lemma kt_upd f : keeps T T (upd f). Proof. intros s. exact I. Qed.
Lemma kt_emit h ev : keeps T T (emit h ev).
Proof. unfold emit. walk frame_T ltac:(idtac; match goal with |- keeps _ _ (call _) => intros ?; exact I end). Qed.
Ltac wt := walk frame_T ltac:(first [apply kt_upd|apply kt_emit|apply keeps_T; solve [eauto 3 with kp nocore]]).
Lemma kp_start_tag r t e b n : keeps G Gf (start_tag r t e b n).
Proof.
  apply keeps_G; [apply keeps_T_code; unfold start_tag; wt|]. intros s [Hs Hk]. set (l := mine s) in *. set (tags := s_tags s) in *.
  pose proof (after_refl s Hs) as Ha. fold l tags in Ha. unfold start_tag.
  go ltac:(apply kp_tag_raw). intros raw s1 H1.
  go same. intros _ s2 H2.
  go ltac:(apply (keeps_lift _ _ frame_N)). intros name s3 H3.
  go ltac:(apply kp_storeAtts). intros so s4 H4.
  go ltac:(apply (keeps_get _ _ frame_N)). intros ix s5 H5.
  apply wp_bind. eapply wp_emit_elem; [eapply after_start; exact H5|eexists; rewrite stack_app, Hk; reflexivity|exact H5|]. intros s6 H6.
  cbn [negb when]. apply wp_bind. unfold wp, pret, upd.
  eapply after_G with (tags := {| t_raw := raw; t_name := so_name so; t_bindings := so_bindings so |} :: tags).
  2: { eapply (after_set _ _ _ (fun s => set_tags _ s)); [intros; repeat split|cbn|exact H6]. destruct H6 as (_ & _ & E & _). cbn. rewrite E. reflexivity. }
  rewrite stack_app, Hk. reflexivity.
Qed.
Lemma kp_empty_tag r t e b n : keeps G Gf (empty_tag r t e b n).
Proof.
  apply keeps_G; [apply keeps_T_code; unfold empty_tag; wt|]. intros s [Hs Hk]. set (l := mine s) in *. set (tags := s_tags s) in *.
  pose proof (after_refl s Hs) as Ha. fold l tags in Ha. unfold empty_tag.
  go ltac:(apply kp_tag_raw). intros raw s1 H1.
  go ltac:(apply (keeps_lift _ _ frame_N)). intros name s3 H3.
  apply wp_bind. eapply wp_try; [apply kp_storeAtts|exact H3| |].
  { intros err s4 He H4. eapply wp_after; [wk|exact H4| |intros; eapply after_Gf; eassumption]. intros. eapply after_G; eassumption. }
  intros so s4 H4.
  go ltac:(apply (keeps_get _ _ frame_N)). intros ix s5 H5.
  assert (Hf' : nestable (l ++ tagev_of (EvStartElement (so_name so) (so_atts so) (so_spec so) ix))).
  { eexists. rewrite stack_app, Hk. reflexivity. }
  apply wp_bind. eapply wp_emit_elem; [eapply after_start; exact H5|exact Hf'|exact H5|]. intros s6 H6.
  cbn [negb when]. apply wp_bind. eapply wp_after; [wk|exact H6| |intros; eapply after_Gf; eassumption]. intros _ s7 H7.
  assert (Hk' : stack [] ((l ++ [Open (so_name so)]) ++ [Close (so_name so)]) = Some (map t_name tags)).
  { rewrite !stack_app, Hk. cbn [stack]. rewrite beqb_refl. reflexivity. }
  apply wp_bind. eapply wp_emit_elem; [eapply after_end; exact H7|eexists; exact Hk'|exact H7|]. intros s8 H8.
  cbn [negb andb when]. apply wp_bind. unfold wp at 1, pret.
  eapply wp_after; [apply kp_freeBindings|exact H8| |]; intros; [eapply after_G; eassumption|eapply after_Gf; eassumption].
Qed.
Lemma kp_end_tag t e b n : keeps G Gf (end_tag t e b n).
Proof.
  apply keeps_G; [apply keeps_T_code; unfold end_tag; wt|]. intros s [Hs Hk]. set (l := mine s) in *.
  pose proof (after_refl s Hs) as Ha. fold l in Ha. unfold end_tag.
  apply wp_bind. unfold wp at 1, get. destruct (s_tags s) as [|tg tags] eqn:Et; [exact I|].
  apply wp_bind. unfold wp at 1, upd.
  assert (H1 : after l tags s (set_tags tags s)).
  { apply (after_set _ (tg :: tags) _ (fun s => set_tags tags s)); [intros; repeat split|reflexivity|exact Ha]. }
  set (s1 := set_tags tags s) in *. clearbody s1.
  go ltac:(apply kp_inc). intros b1 s2 H2.
  go ltac:(apply kp_tag_raw). intros raw s3 H3.
  destruct (negb (beqb raw (t_raw tg))).
  { apply wp_bind. eapply wp_after; [apply kp_set_event|eassumption| |]; intros; [split; [discriminate|]|]; eapply after_Gf; eassumption. }
  go same. intros _ s4 H4.
  assert (Hk' : stack [] (l ++ [Close (t_name tg)]) = Some (map t_name tags)).
  { rewrite !stack_app, Hk. cbn [stack map]. rewrite beqb_refl. reflexivity. }
  apply wp_bind. eapply wp_emit_elem; [eapply after_end; exact H4|eexists; exact Hk'|exact H4|]. intros s5 H5.
  cbn [negb when]. apply wp_bind. unfold wp at 1, pret.
  eapply wp_after; [apply kp_freeBindings|exact H5| |]; intros; [eapply after_G; eassumption|eapply after_Gf; eassumption].
Qed.

Lemma tok_end_code k x : tok_end k = Some x -> x <> XE_NONE.
Proof. destruct k; cbn [tok_end]; intros E; try discriminate E; injection E as <-; discriminate. Qed.
#[export] Hint Resolve tok_end_code : codes.
(* the functions that call each other *)
Record good (r : recs) : Prop := {
  g_content : forall l t b h, keeps G Gf (rc_content r l t b h);
  g_prolog : forall t b k n h a, keeps G Gf (rc_prolog r t b k n h a);
  g_ext : forall a b c d, keeps N N (rc_ext r a b c d)
}.
#[export] Hint Extern 5 (keeps G Gf _) => apply keeps_N_G; solve [eauto 3 with kp nocore | same] : kg.
Section Good.
Variable r : recs.
Hypothesis Hr : good r.
Let Hc := g_content r Hr.
Let Hp := g_prolog r Hr.
Let Hx := g_ext r Hr.
Ltac lg := first [ solve [eauto 3 with kg nocore] | solve [apply Hc] | solve [apply Hp] | solve [apply keeps_N_G, Hx] ].
Ltac wg := walk frame_G lg.
Lemma kg_leave ent o n b : keeps N N (leave_entity ent o n b). Proof. unfold leave_entity. wk. Qed.
#[local] Hint Resolve kg_leave : kp.
Lemma kg_processInternalEntity ent t b : keeps G Gf (processInternalEntity r ent t b).
Proof. unfold processInternalEntity. wg. Qed.
#[local] Hint Resolve kg_processInternalEntity : kg.
Lemma kg_content_entity t e b n : keeps G Gf (content_entity r t e b n).
Proof. unfold content_entity. wg. Qed.
#[local] Hint Resolve kg_content_entity : kg.
Lemma kg_maybe_epilog b : keeps N N (maybe_epilog r b). Proof. unfold maybe_epilog. wk. Qed.
#[local] Hint Resolve kg_maybe_epilog : kp.
Lemma kg_end_of_text n : keeps N N (end_of_text n). Proof. unfold end_of_text. wk. Qed.
#[local] Hint Resolve kg_end_of_text : kp.
#[local] Hint Resolve kp_start_tag kp_empty_tag kp_end_tag : kg.
Lemma kg_doContent l t b h : keeps G Gf (doContent r l t b h).
Proof. unfold doContent. wg. Qed.
Lemma kg_contentProcessor b : keeps G Gf (contentProcessor r b). Proof. unfold contentProcessor. wg. Qed.
Lemma kg_externalEntityContentProcessor b : keeps G Gf (externalEntityContentProcessor r b).
Proof. unfold externalEntityContentProcessor. wg. Qed.
#[local] Hint Resolve kg_contentProcessor kg_externalEntityContentProcessor : kg.
Lemma kg_cdataSectionProcessor b : keeps G Gf (cdataSectionProcessor r b).
Proof. unfold cdataSectionProcessor. wg. Qed.
Lemma kg_internalEntityProcessor b : keeps G Gf (internalEntityProcessor r b).
Proof. unfold internalEntityProcessor. wg. Qed.
#[local] Hint Resolve kg_cdataSectionProcessor kg_internalEntityProcessor : kg.

Lemma kg_handleUnknownEncoding n : keeps N N (handleUnknownEncoding n). Proof. unfold handleUnknownEncoding. wk. Qed.
#[local] Hint Resolve kg_handleUnknownEncoding : kp.
Lemma kg_initializeEncoding : keeps N N initializeEncoding. Proof. unfold initializeEncoding. wk. Qed.
#[local] Hint Resolve kg_initializeEncoding : kp.
Lemma kg_processXmlDecl g b n : keeps N N (processXmlDecl g b n).
Proof.
  unfold processXmlDecl. wk; try (apply (keeps_upd N N); intros s; destruct (s_pep s); apply N_same; reflexivity).
Qed.
Lemma kg_doIgnoreSection t b h : keeps N N (doIgnoreSection t b h). Proof. unfold doIgnoreSection. wk. Qed.
Lemma kg_check_standalone : keeps N N check_standalone. Proof. unfold check_standalone. wk. Qed.
Lemma kg_keep : keeps N N keep_if_standalone. Proof. unfold keep_if_standalone. wk. Qed.
Lemma kg_insert_subset : keeps N N insert_subset. Proof. unfold insert_subset. wk. Qed.
Lemma kg_entity_at e : keeps N N (entity_at e). Proof. unfold entity_at. wk. Qed.
#[local] Hint Resolve kg_processXmlDecl kg_doIgnoreSection kg_check_standalone kg_keep kg_insert_subset kg_entity_at Hx : kp.
Lemma kg_handleEntityRef e b : keeps G Gf (handleEntityRef r e b). Proof. unfold handleEntityRef. wg. Qed.
#[local] Hint Resolve kg_handleEntityRef : kg.
Lemma kg_external_subset a b : keeps N N (external_subset r a b). Proof. unfold external_subset. wk. Qed.
Lemma kg_literal e b : keeps N N (literal e b). Proof. unfold literal. wk. Qed.
#[local] Hint Resolve kg_external_subset kg_literal : kp.
Lemma kg_public_id e b : keeps N N (public_id e b). Proof. unfold public_id. wk. Qed.
Lemma kg_check_public_id t e b n : keeps N N (check_public_id t e b n). Proof. unfold check_public_id. wk. Qed.
#[local] Hint Resolve kg_public_id kg_check_public_id : kp.
Lemma kg_end_attribute a b c : keeps N N (end_attribute a b c). Proof. unfold end_attribute. wk. Qed.
Lemma kg_declare_entity a b c : keeps N N (declare_entity a b c). Proof. unfold declare_entity. wk. Qed.
Lemma kg_content_element a b c d : keeps N N (content_element a b c d). Proof. unfold content_element. wk. Qed.
Lemma kg_group_close q : keeps N N (group_close q). Proof. unfold group_close. wk. Qed.
Lemma kg_quiet h : keeps N N (quiet h). Proof. unfold quiet. wk. Qed.
Lemma kg_quiet_kept h : keeps N N (quiet_kept h). Proof. unfold quiet_kept. wk. Qed.
Lemma kg_ev fuel t b : keeps N N (storeEntityValue (rc_ext r) fuel t b). Proof. apply kp_storeEntityValue, Hx. Qed.
#[local] Hint Resolve kg_end_attribute kg_declare_entity kg_content_element kg_group_close kg_quiet kg_quiet_kept kg_ev : kp.
Lemma kg_param_entity_ref i e b : keeps G Gf (param_entity_ref r i e b). Proof. unfold param_entity_ref. wg. Qed.
#[local] Hint Resolve kg_param_entity_ref : kg.
Lemma kg_role_action ro k t e a b n : keeps G Gf (role_action r ro k t e a b n).
Proof. unfold role_action. destruct ro. all: wg. Qed.
#[local] Hint Resolve kg_role_action : kg.
Lemma kg_role_step ro k t e h a b tok rest : keeps G Gf (role_step r ro k t e h a b tok rest).
Proof. unfold role_step. destruct ro. all: wg. Qed.
Lemma kg_role_of e k b : keeps N N (role_of e k b). Proof. unfold role_of. wk. Qed.
#[local] Hint Resolve kg_role_step : kg.
#[local] Hint Resolve kg_role_of : kp.
Lemma kg_doProlog t b k n h a : keeps G Gf (doProlog r t b k n h a).
Proof. unfold doProlog. wg. Qed.
Lemma kg_prologProcessor b : keeps G Gf (prologProcessor r b). Proof. unfold prologProcessor. wg. Qed.
#[local] Hint Resolve kg_prologProcessor : kg.
Lemma kg_ev_loop fuel : forall b, keeps N N (ev_loop r fuel b).
Proof. induction fuel as [|fuel IH]; intros b; cbn [ev_loop]; wk. Qed.
#[local] Hint Resolve kg_ev_loop : kp.
Lemma kg_ev_init_loop fuel i : forall b, keeps N N (ev_init_loop r fuel i b).
Proof. induction fuel as [|fuel IH]; intros b; cbn [ev_init_loop]; wk. Qed.
#[local] Hint Resolve kg_ev_init_loop : kp.
Lemma kg_prologInit b : keeps G Gf (prologInitProcessor r b). Proof. unfold prologInitProcessor. wg. Qed.
Lemma kg_ignore b : keeps G Gf (ignoreSectionProcessor r b). Proof. unfold ignoreSectionProcessor. wg. Qed.
Lemma kg_extent3 b : keeps G Gf (externalEntityInitProcessor3 r b). Proof. unfold externalEntityInitProcessor3. wg. Qed.
#[local] Hint Resolve kg_prologInit kg_ignore kg_extent3 : kg.
Lemma kg_extent2 b : keeps G Gf (externalEntityInitProcessor2 r b). Proof. unfold externalEntityInitProcessor2. wg. Qed.
#[local] Hint Resolve kg_extent2 : kg.
Lemma kg_extent b : keeps G Gf (externalEntityInitProcessor r b). Proof. unfold externalEntityInitProcessor. wg. Qed.
Lemma kg_parent b : keeps G Gf (externalParEntProcessor r b). Proof. unfold externalParEntProcessor. wg. Qed.
Lemma kg_evi b : keeps N N (entityValueInitProcessor r b). Proof. unfold entityValueInitProcessor. wk. Qed.
Lemma kg_evp b : keeps N N (entityValueProcessor r b). Proof. unfold entityValueProcessor. wk. Qed.
#[local] Hint Resolve kg_extent kg_parent : kg.
#[local] Hint Resolve kg_evi kg_evp : kp.
Lemma kg_parentinit b : keeps G Gf (externalParEntInitProcessor r b). Proof. unfold externalParEntInitProcessor. wg. Qed.
#[local] Hint Resolve kg_parentinit : kg.
Lemma kg_process b : keeps G Gf (process r b).
Proof. unfold process. wg. Qed.
End Good.
