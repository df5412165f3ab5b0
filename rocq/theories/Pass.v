(* The default handler gets what is consumed. *)
From Coq Require Import String List NArith ZArith Bool Lia Arith.
From Verif Require Import Base Encoding Tok TokMisc Norm XmlDecl Status Role State AttVal Bind Atts Scaf Content Prolog Core.
From Verif Require Import Keep SpecEnc SpecPass.
From Coq Require Import List.
Import ListNotations.
Local Open Scope nat_scope.

Definition gave (s : st) : bytes := passed (s_log s).
Definition normal (p : processor) : bool :=
  match p with PrProlog | PrContent | PrCdata | PrEpilog | PrIgnore => true | _ => false end.
Record lone (f : bool) (s : st) : Prop := {
  lo_h : c_h (s_cfg s) = only_default;
  lo_expand : c_expand (s_cfg s) = false;
  lo_pep : s_pep s = PEP_NEVER;
  lo_protocol : s_protocol s <> None;
  lo_not : s_notName s = None;
  lo_doctype : s_doctypeName s = None;
  lo_param : s_isParam s = false;
  lo_child : s_child s = false;
  lo_enc : s_enc s = EKnown (utf8_for (c_ns (s_cfg s)));
  lo_proc : normal (s_processor s) = true;
  lo_final : s_final s = f
}.
Definition hush (s s' : st) : Prop := forall f, lone f s -> lone f s' /\ gave s' = gave s.
Lemma fr_hush : frame hush hush.
Proof.
  constructor; unfold hush; auto.
  - intros a b c H1 H2 f L. destruct (H1 f L) as [L1 E1]. destruct (H2 f L1) as [L2 E2]. split; [exact L2|congruence].
  - intros a b c H1 H2 f L. destruct (H1 f L) as [L1 E1]. destruct (H2 f L1) as [L2 E2]. split; [exact L2|congruence].
Qed.
Lemma passed_cons x log : passed (x :: log) = passed log ++ match snd x with EvDefault b => b | _ => [] end.
Proof. unfold passed. cbn [rev]. rewrite flat_map_app. cbn [flat_map]. now rewrite app_nil_r. Qed.
Lemma hush_call ev : (forall b, ev <> EvDefault b) -> keeps hush hush (call ev).
Proof.
  intros H s f L. split; [destruct L; constructor; assumption|]. unfold gave. cbn [s_log set_parsing set_log]. rewrite passed_cons.
  cbn [snd]. destruct ev; try apply app_nil_r. elim (H s0). reflexivity.
Qed.
Ltac ups := apply keeps_upd; let q := fresh "UL" in intros ? ? q; split; [destruct q; constructor; first [assumption|reflexivity]|reflexivity].
Ltac hs x := walk fr_hush ltac:(idtac; first [x | apply hush_call; discriminate | ups]).
Ltac sm := unfold ref_name, upd_entity, emit, set_event_opt, attid_of, set_type, store in *; unfold set_event, inc, need, dec, upd_dtd in *.
Lemma hs_append fuel prolog : forall t cd b acc, keeps hush hush (appendAttributeValue fuel prolog t cd b acc).
Proof. induction fuel as [|fuel IH]; intros; cbn [appendAttributeValue]; sm; hs ltac:(apply IH). Qed.
Lemma hs_value fuel p t cd b : keeps hush hush (storeAttributeValue fuel p t cd b).
Proof. unfold storeAttributeValue. hs ltac:(apply hs_append). Qed.
Lemma hs_declare p i v : keeps hush hush (declare p i v).
Proof. unfold declare, addBinding. sm. hs nope. Qed.
Lemma hs_attid t b : keeps hush hush (getAttributeId t b).
Proof. unfold getAttributeId. sm. hs nope. Qed.
Lemma hs_elem t b : keeps hush hush (getElementType t b).
Proof. unfold getElementType. sm. hs nope. Qed.
Lemma hs_specified_att f t el x st : keeps hush hush (specified_att f t el x st).
Proof. unfold specified_att. sm. hs ltac:(first [apply hs_declare|apply hs_value|apply hs_attid]). Qed.
Lemma hs_specified_atts f t el xs : forall st, keeps hush hush (specified_atts f t el xs st).
Proof. induction xs as [|x xs IH]; intros st; cbn [specified_atts]; hs ltac:(first [apply IH|apply hs_specified_att]). Qed.
Lemma hs_default_att d st : keeps hush hush (default_att d st).
Proof. unfold default_att. sm. hs ltac:(apply hs_declare). Qed.
Lemma hs_default_atts ds : forall st, keeps hush hush (default_atts ds st).
Proof. induction ds as [|x xs IH]; intros st; cbn [default_atts]; hs ltac:(first [apply IH|apply hs_default_att]). Qed.
Lemma hs_expand atts : forall n seen, keeps hush hush (expand_atts n seen atts).
Proof. induction atts as [|x xs IH]; intros n seen; cbn [expand_atts]; unfold after_colon; sm; hs ltac:(apply IH). Qed.
Lemma hs_clear ids : keeps hush hush (clear_types ids).
Proof. induction ids as [|x xs IH]; cbn [clear_types]; sm; hs ltac:(apply IH). Qed.
Lemma hs_clear_bindings bs : keeps hush hush (clear_bindings bs).
Proof. induction bs as [|x xs IH]; cbn [clear_bindings]; sm; hs ltac:(apply IH). Qed.
Lemma hs_storeAtts f t b el : keeps hush hush (storeAtts f t b el).
Proof.
  unfold storeAtts, id_index, expand_name, after_colon. sm.
  hs ltac:(first [apply hs_specified_atts|apply hs_default_atts|apply hs_expand|apply hs_clear|apply hs_clear_bindings]).
Qed.
Lemma hs_free bs : keeps hush hush (freeBindings bs).
Proof. induction bs as [|x xs IH]; cbn [freeBindings]; sm; hs ltac:(apply IH). Qed.

(* ---- what holds afterwards ---- *)
Definition W {A} (F : st -> Prop) (m : P A) (s : st) (Q : A -> st -> Prop) : Prop :=
  match m s with Ret a s' => Q a s' | Fail _ s' => F s' | Die _ => True end.
Lemma W_bind {A B} F (m : P A) (k : A -> P B) s Q : W F m s (fun a s' => W F (k a) s' Q) -> W F (pbind m k) s Q.
Proof. unfold W, pbind. destruct (m s); auto. Qed.
Lemma W_try {A} F (m : P A) s (Q : XML_Error + A -> st -> Prop) : W (fun s' => forall e, Q (inl e) s') m s (fun a s' => Q (inr a) s') -> W F (try m) s Q.
Proof. unfold W, try. destruct (m s); auto. Qed.
Lemma W_keeps {A} (F : st -> Prop) f (m : P A) s (Q : A -> st -> Prop) : keeps hush hush m -> lone f s -> (forall s', lone f s' -> gave s' = gave s -> F s') ->
  (forall a s', lone f s' -> gave s' = gave s -> Q a s') -> W F m s Q.
Proof. intros K L HF HQ. specialize (K s). unfold W. destruct (m s); auto; [|destruct K as [_ K]]; destruct (K f L); auto. Qed.
Lemma W_handler F f h b s (Q : bool -> st -> Prop) : lone f s -> h only_default = b -> Q b s -> W F (handler h) s Q.
Proof. intros L E H. unfold W, handler, get. rewrite (lo_h _ _ L), E. exact H. Qed.
Lemma W_encoding F f s (Q : EncImpl -> st -> Prop) : lone f s -> Q (utf8_for (c_ns (s_cfg s))) s -> W F (encoding ENormal) s Q.
Proof. intros L H. unfold W, encoding. rewrite (lo_enc _ _ L). exact H. Qed.
Lemma W_default F f b n s (Q : unit -> st -> Prop) : lone f s -> (forall s', lone f s' -> gave s' = gave s ++ b -> Q tt s') -> W F (reportDefault ENormal b n) s Q.
Proof.
  intros L H. unfold W, reportDefault, pbind, handler, get. rewrite (lo_h _ _ L). cbn [h_default only_default when].
  unfold send, pbind, encoding. rewrite (lo_enc _ _ L). cbn [known]. replace (isUtf8 (utf8_for (c_ns (s_cfg s)))) with true by (destruct (c_ns (s_cfg s)); reflexivity).
  unfold pbind, call, pret. apply H; [destruct L; constructor; assumption|]. unfold gave. cbn [s_log set_parsing set_log]. rewrite passed_cons. reflexivity.
Qed.
Lemma W_imp {A} F (m : P A) s (Q Q' : A -> st -> Prop) : W F m s Q -> (forall a s', Q a s' -> Q' a s') -> W F m s Q'.
Proof. unfold W. destruct (m s); auto. Qed.
Lemma W_impF {A} (F F' : st -> Prop) (m : P A) s (Q Q' : A -> st -> Prop) : W F m s Q -> (forall s', F s' -> F' s') -> (forall a s', Q a s' -> Q' a s') -> W F' m s Q'.
Proof. unfold W. destruct (m s); auto. Qed.
(* a part of [tx] *)
Definition some_of (G tx : bytes) (s : st) : Prop := exists c r, tx = c ++ r /\ gave s = G ++ c.
Lemma some_none G tx s : gave s = G -> some_of G tx s.
Proof. intros E. exists [], tx. split; [reflexivity|]. now rewrite app_nil_r. Qed.
Lemma some_all G tx s : gave s = G ++ tx -> some_of G tx s.
Proof. intros E. exists tx, []. split; [now rewrite app_nil_r|exact E]. Qed.
Lemma some_more G a b s : some_of (G ++ a) b s -> some_of G (a ++ b) s.
Proof. intros (c & r & -> & E). exists (a ++ c), r. rewrite E, <- !app_assoc. auto. Qed.
Lemma some_less G a b s : some_of G a s -> some_of G (a ++ b) s.
Proof. intros (c & r & -> & E). exists c, (r ++ b). rewrite <- app_assoc. auto. Qed.
Definition goes_on (f : bool) (G buf rest : bytes) (s : st) : Prop :=
  lone f s /\ (exists c, buf = c ++ rest /\ gave s = G ++ c) /\ (f = true -> s_parsing s = SUSPENDED \/ rest = []).
Definition pass (f : bool) (G buf : bytes) (m : P bytes) (s : st) : Prop := W (some_of G buf) m s (goes_on f G buf).
Lemma pass_after f G a b m s : pass f (G ++ a) b m s -> pass f G (a ++ b) m s.
Proof.
  intros H. eapply W_impF; [exact H|intros s'; apply some_more|]. intros rest s' (L & (c & -> & E) & Hf). split; [exact L|]. split; [|exact Hf].
  exists (a ++ c). rewrite E, <- !app_assoc. auto.
Qed.
Lemma inc_cut n : forall b r, inc_start n b = Ok r -> b = firstn n b ++ r.
Proof. induction n as [|n IH]; intros b r E; [injection E as ->; reflexivity|]. destruct b as [|x b]; [discriminate|]. cbn in E |- *. f_equal. now apply IH. Qed.
Lemma W_inc {F} n b s (Q : bytes -> st -> Prop) : (forall r, b = firstn n b ++ r -> Q r s) -> W F (inc n b) s Q.
Proof.
  intros H. unfold W, inc, lift. destruct (inc_start n b) eqn:E; [|exact I]. apply H. now apply inc_cut.
Qed.
Lemma W_lift {F} {A} (r : res A) s (Q : A -> st -> Prop) : (forall a, r = Ok a -> Q a s) -> W F (lift r) s Q.
Proof. intros H. unfold W, lift. destruct r; auto. Qed.
Lemma W_need {F} n s (Q : nat -> st -> Prop) : (forall k, n = Some k -> Q k s) -> W F (need n) s Q.
Proof. intros H. unfold W, need. destruct n; [apply H; reflexivity|exact I]. Qed.
Lemma W_rest {F} b n s (Q : bytes -> st -> Prop) : (forall c r, b = c ++ r -> Q r s) -> W F (rest_after b n) s Q.
Proof. intros H. unfold rest_after. destruct n; [apply W_inc; intros r; apply H|]. apply (H [] b). reflexivity. Qed.
Lemma W_get {F} {A} (g : st -> A) s (Q : A -> st -> Prop) : Q (g s) s -> W F (get g) s Q.
Proof. auto. Qed.
Lemma W_ret {F} {A} (a : A) s (Q : A -> st -> Prop) : Q a s -> W F (pret a) s Q.
Proof. auto. Qed.
Lemma W_fail {A} (F : st -> Prop) e s (Q : A -> st -> Prop) : F s -> W F (fail e) s Q.
Proof. auto. Qed.
Lemma W_after (F : st -> Prop) f rest s (Q : bool -> st -> Prop) : lone f s -> (forall s', lone f s' -> gave s' = gave s -> F s') ->
  (forall ret s', lone f s' -> gave s' = gave s -> (ret = true -> s_parsing s' = SUSPENDED) -> Q ret s') -> W F (after_token ENormal rest) s Q.
Proof.
  intros L HF HQ. unfold after_token, set_event. cbn [is_internal]. apply W_bind. unfold W at 1, upd. apply W_bind, W_get.
  assert (L' : lone f (set_ev (Some (length rest)) s)) by (destruct L; constructor; assumption).
  destruct (s_parsing (set_ev (Some (length rest)) s)) eqn:E; [apply W_ret, HQ|apply W_ret, HQ|apply W_fail, HF|apply W_ret, HQ]; auto; discriminate.
Qed.
(* the computation leaves the text alone *)
Ltac quiet K L Eg := match type of Eg with gave ?s0 = _ => eapply (W_keeps _ _ _ s0); [K|exact L|intros ? ? ?; apply some_none; congruence|] end.
Ltac hush := first [assumption|solve [unfold set_event_end_tok, set_event_end_n, set_event_n; sm; hs ltac:(first [apply hs_storeAtts|apply hs_free|apply hs_elem|apply hs_attid|apply hs_value])]].
Ltac w1 :=
  match goal with
  | |- W _ (pbind (try _) _) _ _ => apply W_bind, W_try
  | |- W _ (pbind _ _) _ _ => apply W_bind
  | |- W _ (pret _) _ _ => apply W_ret; cbv beta
  | |- W _ (die _) _ _ => exact I
  | |- W _ (fail _) _ _ => apply W_fail; apply some_none; congruence
  | L : lone _ ?s |- W _ (handler ?h) ?s _ => let b := eval compute in (h only_default) in apply (W_handler _ _ h b s _ L eq_refl); cbv beta; cbn [negb andb orb when]; cbv iota
  | L : lone _ ?s |- W _ (encoding ENormal) ?s _ => apply (W_encoding _ _ s _ L); cbv beta
  | L : lone _ ?s |- W _ (reportDefault ENormal _ _) ?s _ => apply (W_default _ _ _ _ s _ L); intros ? ?L ?E; cbv beta
  | |- W _ (inc _ _) _ _ => apply W_inc; intros ? ?; cbv beta
  | |- W _ (need _) _ _ => apply W_need; intros ? ->; cbv beta
  | |- W _ (rest_after _ _) _ _ => apply W_rest; intros ? ? ?; cbv beta
  | |- W _ (lift _) _ _ => apply W_lift; intros ? ?; cbv beta
  | |- W _ (when false _) _ _ => apply W_ret; cbv beta
  | |- W _ (when true ?m) ?s ?Q => change (W _ m s Q) || (unfold when)
  | L : lone _ ?s |- W _ (get s_pep) ?s _ => apply W_get; rewrite (lo_pep _ _ L); cbv beta iota
  | L : lone _ ?s |- W _ (get s_isParam) ?s _ => apply W_get; rewrite (lo_param _ _ L); cbv beta iota
  | L : lone _ ?s |- W _ (get s_child) ?s _ => apply W_get; rewrite (lo_child _ _ L); cbv beta iota
  | L : lone _ ?s |- W _ (get s_notName) ?s _ => apply W_get; rewrite (lo_not _ _ L); cbv beta iota
  | L : lone _ ?s |- W _ (get s_doctypeName) ?s _ => apply W_get; rewrite (lo_doctype _ _ L); cbv beta iota
  | L : lone _ ?s |- W _ (get s_final) ?s _ => apply W_get; rewrite (lo_final _ _ L); cbv beta iota
  | |- W _ (get _) _ _ => apply W_get; cbv beta
  | |- W _ (getd _) _ _ => apply W_get; cbv beta
  | L : lone _ ?s |- W _ ?m ?s _ => eapply (W_keeps _ _ m s); [hush|exact L|intros ? ? ?; apply some_none; congruence|intros ? ? ?L ?E; cbv beta]
  | |- W _ (let _ := _ in _) _ _ => cbv zeta
  | |- W _ (let '(_, _) := ?x in _) _ _ => destruct x
  | |- W _ (match ?x with _ => _ end) _ _ => destruct x
  | |- W _ (if ?x then _ else _) _ _ => destruct x
  end.
Ltac w := repeat w1.

Lemma W_chars G tx f d b n s (Q : unit -> st -> Prop) : lone f s -> (forall s', lone f s' -> gave s' = gave s ++ b -> Q tt s') -> W (some_of G tx) (char_data ENormal d b n) s Q.
Proof. intros L H. unfold char_data. w. apply H; assumption. Qed.
Lemma W_text G tx f b n s (Q : unit -> st -> Prop) : lone f s -> (forall s', lone f s' -> gave s' = gave s ++ b -> Q tt s') -> W (some_of G tx) (char_data_text ENormal b n) s Q.
Proof. intros L H. unfold char_data_text. w. apply H; assumption. Qed.
Lemma W_pi G tx f b n s (Q : unit -> st -> Prop) : lone f s -> (forall s', lone f s' -> gave s' = gave s ++ b -> Q tt s') -> W (some_of G tx) (reportPI ENormal b n) s Q.
Proof. intros L H. unfold reportPI. w. apply H; assumption. Qed.
Lemma W_comment G tx f b n s (Q : unit -> st -> Prop) : lone f s -> (forall s', lone f s' -> gave s' = gave s ++ b -> Q tt s') -> W (some_of G tx) (reportComment ENormal b n) s Q.
Proof. intros L H. unfold reportComment. w. apply H; assumption. Qed.
