(* Content and prolog of a document: which places lead to which. *)
From Coq Require Import List NArith ZArith Bool Arith Lia.
From Verif Require Import Base Encoding Tok TokMisc Norm XmlDecl Status Role State AttVal Bind Atts Scaf Content Prolog Core.
From Verif Require Import Keep SpecNest EncLaws TokInst Nest PhaseLeaf PhaseRole Phase.
Import ListNotations.
Local Open Scope nat_scope.

Lemma init_none ns idx c b t n : initScan ns idx c b = Ok (t, n, None) -> t = T_NONE \/ t = T_PARTIAL.
Proof.
  intros E. cbv beta zeta delta [initScan] in E.
  assert (Hs : forall i, (let* e := index (enc_table ns) i in let* (t, n) := (if c then contentTok e b else prologTok e b) in Ok (t, n, Some e)) <> Ok (t, n, None)).
  { intros i. destruct (index (enc_table ns) i) as [y|]; cbn [bind]; [|discriminate].
    clear E. destruct c; [destruct (contentTok y b) as [[t' n']|]|destruct (prologTok y b) as [[t' n']|]]; cbn [bind]; discriminate. }
  assert (Hb : forall i k, (let* e := index (enc_table ns) i in Ok (T_BOM, Some k, Some e)) <> Ok (t, n, None)).
  { intros i k. destruct (index (enc_table ns) i) as [y|]; cbn [bind]; discriminate. }
  destruct b as [|b0 [|b1 rest]]; [injection E as <- _; auto| |];
    repeat match type of E with
    | bind _ _ = _ => first [elim (Hs _ E)|elim (Hb _ _ E)]
    | Ok _ = _ => first [injection E as <- _; auto|discriminate E]
    | (if ?c then _ else _) = _ => let H := fresh in destruct c eqn:H; clear H
    | (match ?c with _ => _ end) = _ => let H := fresh in destruct c eqn:H; clear H
    end.
Qed.

Definition ahead (s : st) (b : bytes) : Prop := exists e, s_enc s = EKnown e /\ tag_ahead e b.
Lemma ahead_enc s s' b : s_enc s' = s_enc s -> ahead s b -> ahead s' b.
Proof. intros E (e & H1 & H2). exists e. split; [congruence|exact H2]. Qed.
Lemma pw_scan_start b s : enc_good s -> pw (scan false b) s (fun x s' => fst x = T_INSTANCE_START -> ahead s' b).
Proof.
  unfold pw, scan, enc_good, ahead. intros He. destruct (s_enc s) as [idx|e] eqn:Ee.
  - destruct (initScan _ _ _ _) as [[[t n] [e|]]|] eqn:Ei; [| |exact I]; cbn [fst]; intros Ht; subst t.
    + apply init_local in Ei as [Hl [Hb|Ht]]; [discriminate|]. exists e. split; [reflexivity|]. eapply prolog_start; eassumption.
    + apply init_none in Ei as [Ei|Ei]; discriminate.
  - unfold lift. destruct (prologTok e b) as [[t n]|] eqn:Et; [|exact I]. cbn [fst]. intros ->. exists e.
    split; [exact Ee|]. eapply prolog_start; eassumption.
Qed.
Lemma pw_scan_tag b s : enc_good s -> ahead s b -> pw (scan true b) s (fun x s' => s' = s /\ XT (fst x)).
Proof.
  unfold pw, scan, enc_good, ahead. intros He (e & Ee & Ha). rewrite Ee in *. unfold lift.
  destruct (contentTok e b) as [[t n]|] eqn:Et; [|exact I]. split; [reflexivity|]. eapply content_tag; eassumption.
Qed.
Definition SE (s s' : st) : Prop := S s s' /\ s_enc s' = s_enc s.
Lemma SE_refl s : SE s s. Proof. split; [apply S_refl|reflexivity]. Qed.
Lemma SE_ev x s : SE s (set_ev x s). Proof. split; [split; [apply N_same|apply Z_same]|]; reflexivity. Qed.
Lemma SE_evEnd x s : SE s (set_evEnd x s). Proof. split; [split; [apply N_same|apply Z_same]|]; reflexivity. Qed.
Lemma pw_set_event t b s : pw (set_event t b) s (fun _ s' => SE s s' /\ s_parsing s' = s_parsing s).
Proof.
  unfold set_event. destruct t; cbn [is_internal]; unfold pw, upd, pret; (split; [first [apply SE_ev|apply SE_refl]|reflexivity]).
Qed.
Lemma pw_set_event_end_tok t c b n s : pw (set_event_end_tok t c b n) s (fun _ s' => SE s s').
Proof.
  unfold set_event_end_tok. destruct t; cbn [is_internal]; [destruct n; [|destruct c]|]; unfold pw, upd, pret; first [apply SE_evEnd|apply SE_refl].
Qed.
Lemma pw_after_token t rest s :
  pw (after_token t rest) s (fun ret s' => SE s s' /\ s_parsing s' = s_parsing s /\ if ret then s_parsing s = SUSPENDED else ~ halted s).
Proof.
  unfold after_token. apply pw_bind. eapply pw_imp; [apply pw_set_event|]. intros _ s1 [H1 E1].
  apply pw_bind, pw_get. rewrite E1.
  destruct (s_parsing s) eqn:Ep; unfold pw, pret, fail; try exact I; (split; [exact H1|]); (split; [congruence|]);
    first [reflexivity|unfold halted; rewrite Ep; intros []; discriminate].
Qed.

Section R.
Variable r : recs.
Hypothesis HxN : forall a b c d, keeps N N (rc_ext r a b c d).
Hypothesis HxZ : forall a b c d, keeps Z Z (rc_ext r a b c d).
Hypothesis HxE : forall a b c d s, pw (rc_ext r a b c d) s (fun _ s' => s_enc s' = s_enc s).
#[local] Hint Resolve HxN : kp.
#[local] Hint Resolve HxZ : zp.
#[local] Hint Resolve kg_leave kg_end_of_text kg_handleUnknownEncoding kg_initializeEncoding kg_processXmlDecl kg_doIgnoreSection kg_check_standalone kg_keep kg_insert_subset
  kg_entity_at kg_literal kg_public_id kg_check_public_id kg_end_attribute kg_declare_entity kg_content_element kg_group_close kg_quiet kg_quiet_kept : kp.
#[local] Hint Resolve zg_leave zg_end_of_text zg_handleUnknownEncoding zg_initializeEncoding zg_processXmlDecl zg_doIgnoreSection zg_check_standalone zg_keep zg_insert_subset
  zg_entity_at zg_literal zg_public_id zg_check_public_id zg_end_attribute zg_declare_entity zg_content_element zg_group_close zg_quiet zg_quiet_kept : zp.
Ltac lfs := split; [solve [eauto 3 with kp nocore | Nest.wk]|solve [eauto 3 with zp nocore | PhaseLeaf.wk]].

Definition suffix (x b : bytes) : Prop := exists k, x = skipn k b.
Lemma skipn_add (k j : nat) (b : bytes) : skipn j (skipn k b) = skipn (k + j) b.
Proof. revert b. induction k as [|k IH]; intros [|c b]; cbn [skipn plus]; try reflexivity; [destruct j; reflexivity|apply IH]. Qed.
Lemma suffix_trans a b c : suffix a b -> suffix b c -> suffix a c.
Proof. intros [k ->] [j ->]. exists (j + k). apply skipn_add. Qed.
Lemma suffix_refl b : suffix b b. Proof. exists 0. reflexivity. Qed.
Lemma suffix_nil b : suffix [] b. Proof. exists (length b). symmetry. apply skipn_all. Qed.
Lemma suffix_inc n b x : inc_start n b = Ok x -> suffix x b.
Proof.
  intros E. exists n. revert b E. induction n as [|n IH]; intros b E; cbn [inc_start] in E; [injection E as <-; reflexivity|].
  destruct b as [|c b]; [discriminate|]. exact (IH _ E).
Qed.
Lemma liv_fresh s : Aliv s -> Afresh s -> False.
Proof. intros [_ (n & l & E & _)] (_ & _ & E'). congruence. Qed.

(* where content may begin and what it leads to.  [l]: the level of open elements it must not go below *)
Definition Cpre (l : nat) (t : enctype) (b : bytes) (h : bool) (s : st) : Prop :=
  (t = EInternal -> h = false /\ 1 <= l) /\ (t = ENormal -> l = 0 /\ (h = true -> s_final s = false)) /\
  ((Aliv s /\ l <= s_tagLevel s) \/ (t = ENormal /\ Afresh s /\ ahead s b)).
Definition Cpost (t : enctype) (l : nat) (p : processor) (f : bool) (b : bytes) (F : Prop) (rest : bytes) (s' : st) : Prop :=
  s_final s' = f /\
  match t with
  | EInternal => H s' \/ (Aliv s' /\ s_tagLevel s' = l /\ s_processor s' = p)
  | ENormal =>
      s_parsing s' = SUSPENDED \/ (Adone s' /\ s_processor s' = PrEpilog) \/
      (f = false /\ (s_parsing s' = FINISHED \/ (Aliv s' /\ (s_processor s' = p \/ s_processor s' = PrCdata)) \/
                     (Afresh s' /\ ahead s' rest /\ s_processor s' = p /\ rest = b /\ F)))
  end.
Definition Ppre (t : enctype) (b : bytes) (k : XML_TOK) (h a : bool) (s : st) : Prop :=
  Afresh s /\ (t = EInternal -> h = false /\ a = false /\ inD (s_role s) = true) /\
  (t = ENormal -> h = negb (s_final s) /\ (k = T_INSTANCE_START -> ahead s b)).
Definition Ppost (t : enctype) (p : processor) (f : bool) (b rest : bytes) (s' : st) : Prop :=
  s_final s' = f /\
  match t with
  | EInternal => H s' \/ (Afresh s' /\ inD (s_role s') = true /\ s_processor s' = p)
  | ENormal =>
      s_parsing s' = SUSPENDED \/ (Adone s' /\ s_processor s' = PrEpilog) \/
      (f = false /\ (s_parsing s' = FINISHED \/ (Aliv s' /\ (s_processor s' = PrContent \/ s_processor s' = PrCdata)) \/
                     (Afresh s' /\ ahead s' rest /\ s_processor s' = PrContent /\ suffix rest b) \/ (Afresh s' /\ s_processor s' = p)))
  end.
Hypothesis HC : forall l t b h s, Cpre l t b h s -> pw (rc_content r l t b h) s (Cpost t l (s_processor s) (s_final s) b (Afresh s)).
Hypothesis HP : forall t b k n h a s, Ppre t b k h a s -> pw (rc_prolog r t b k n h a) s (Ppost t (s_processor s) (s_final s) b).

(* kept by the steps that leave the place alone *)
Definition Jc (J : st -> Prop) : Prop := forall s s', S s s' -> J s -> J s'.
Lemma pwJ J {A} (m : P A) s (Q : A -> st -> Prop) : Jc J -> leaf m -> J s -> (forall a s', J s' -> Q a s') -> pw m s Q.
Proof. intros HJ Hm Hs HQ. apply pw_leaf; [exact Hm|]. intros a s' HS. apply HQ. eapply HJ; eassumption. Qed.
Definition Jl (lv : nat) (p : processor) (f : bool) (s : st) : Prop := Aliv s /\ s_tagLevel s = lv /\ s_processor s = p /\ s_final s = f.
Definition Jd (p : processor) (f : bool) (s : st) : Prop := Afresh s /\ inD (s_role s) = true /\ s_processor s = p /\ s_final s = f.
Lemma Jl_c lv p f : Jc (Jl lv p f).
Proof. intros s s' HS (A & B & C & D). destruct (liv_S _ _ HS A) as [A' []]. split; [exact A'|]. repeat split; congruence. Qed.
Lemma Jd_c p f : Jc (Jd p f).
Proof. intros s s' HS (A & B & C & D). destruct (fresh_S _ _ HS A) as [A' []]. split; [exact A'|]. repeat split; congruence. Qed.
Definition HJ (f : bool) (J : st -> Prop) (s : st) : Prop := s_final s = f /\ (H s \/ J s).
Lemma HJl_c lv p f : Jc (HJ f (Jl lv p f)).
Proof.
  intros s s' HS [E [Hh|Hj]].
  - split; [|left; eapply H_S; eassumption]. destruct HS as [_ HZ]. destruct Hh as [_ He]. apply HZ in He as [_ []]. congruence.
  - assert (Jl lv p f s') as Hj' by (eapply Jl_c; eassumption). split; [apply Hj'|right; exact Hj'].
Qed.
Lemma HJd_c p f : Jc (HJ f (Jd p f)).
Proof.
  intros s s' HS [E [Hh|Hj]].
  - split; [|left; eapply H_S; eassumption]. destruct HS as [_ HZ]. destruct Hh as [_ He]. apply HZ in He as [_ []]. congruence.
  - assert (Jd p f s') as Hj' by (eapply Jd_c; eassumption). split; [apply Hj'|right; exact Hj'].
Qed.

Lemma leave_suspended ent o n b s : pw (leave_entity ent o n b) s (fun x _ => x = true -> s_parsing s = SUSPENDED).
Proof.
  unfold leave_entity. apply pw_bind, pw_get. destruct (negb (is_nil b) && parsing_eqb (s_parsing s) SUSPENDED) eqn:E.
  - apply andb_true_iff in E as [_ E]. apply pw_bind. eapply pw_imp; [apply pw_true|]. intros. unfold pw, pret. intros _.
    destruct (s_parsing s); first [discriminate E|reflexivity].
  - apply pw_bind. eapply pw_imp; [apply pw_true|]. intros. apply pw_bind. eapply pw_imp; [apply pw_true|]. intros. unfold pw, pret. discriminate.
Qed.
Lemma pie_tail J ent outer n rest s f : Jc (HJ f J) -> (forall s, J s -> enc_good s) -> HJ f J s ->
  pw (do suspended <- leave_entity ent outer n rest; when suspended (upd (set_processor PrInternalEntity))) s (fun _ s' => HJ f J s').
Proof.
  intros Hc He Hs. apply pw_bind. eapply pw_imp; [apply pw_and; [apply leave_suspended|apply (pw_leaf _ s (fun _ s' => S s s')); [lfs|auto]]|].
  intros x s1 [H1 H2]. destruct x; cbn [when]; unfold pw, upd, pret; [|eapply Hc; eassumption].
  specialize (H1 eq_refl). pose proof (Hc _ _ H2 Hs) as [Hf _].
  assert (Hh : H s) by (split; [left; exact H1|]; destruct Hs as [_ [[_ Hh]|Hj]]; auto).
  apply (H_S _ _ H2) in Hh. split; [exact Hf|]. left. exact Hh.
Qed.

Lemma Jl_same lv p f s s' : s_cfg s' = s_cfg s -> s_pid s' = s_pid s -> s_tags s' = s_tags s -> s_log s' = s_log s ->
  s_child s' = s_child s -> s_isParam s' = s_isParam s -> s_tagLevel s' = s_tagLevel s -> s_role s' = s_role s ->
  s_enc s' = s_enc s -> s_processor s' = s_processor s -> s_final s' = s_final s -> Jl lv p f s -> Jl lv p f s'.
Proof. intros E1 E2 E3 E4 E5 E6 E7 E8 E9 E10 E11 (A & B & C & D). split; [eapply liv_same; eassumption|]. repeat split; congruence. Qed.
Lemma base_enc s : base s -> enc_good s. Proof. intros []. assumption. Qed.
Lemma Jl_enc lv p f s : Jl lv p f s -> enc_good s. Proof. intros [[] _]. now apply base_enc. Qed.
Lemma Jd_enc p f s : Jd p f s -> enc_good s. Proof. intros [[] _]. now apply base_enc. Qed.

Lemma pie_content lv p f name text bd s : Jl lv p f s -> 1 <= lv ->
  pw (processInternalEntity r (false, name) text bd) s (fun _ s' => HJ f (Jl lv p f) s').
Proof.
  intros Hs Hl. unfold processInternalEntity.
  apply pw_bind. eapply pwJ; [apply Jl_c|lfs|exact Hs|]. clear s Hs. intros _ s Hs.
  apply pw_bind. eapply pwJ; [apply Jl_c|lfs|exact Hs|]. clear s Hs. intros _ s Hs.
  apply pw_bind, pw_get. apply pw_bind, pw_get. apply pw_bind. unfold upd at 1. unfold pw at 1.
  match goal with |- pw _ ?x _ => set (s1 := x) end.
  assert (H1 : Jl lv p f s1) by (revert Hs; apply Jl_same; reflexivity).
  assert (El : s_tagLevel s = lv) by apply Hs. rewrite El. clearbody s1. cbn [fst].
  apply pw_bind. eapply pw_imp; [apply HC|].
  - destruct H1 as (A & B & C & D). split; [auto|]. split; [discriminate|]. left. split; [exact A|lia].
  - intros rest s2 [F2 H2]. destruct H1 as (A & B & C & D). apply pie_tail; [apply HJl_c|apply Jl_enc|]. split; [congruence|].
    destruct H2 as [H2|(L2 & E2 & P2)]; [left; exact H2|right; split; [exact L2|repeat split; congruence]].
Qed.

Lemma pw_content_entity lv p f t e b n s : Jl lv p f s -> 1 <= lv -> pw (content_entity r t e b n) s (fun _ s' => HJ f (Jl lv p f) s').
Proof.
  intros Hs Hl. unfold content_entity.
  assert (HQ : forall (a : unit) s', Jl lv p f s' -> HJ f (Jl lv p f) s') by (intros _ s' Hj; split; [apply Hj|right; exact Hj]).
  repeat match goal with
  | |- pw (fail _) _ _ => exact I
  | |- pw (processInternalEntity _ _ _ _) _ _ => apply pie_content; assumption
  | |- pw (if ?c then _ else _) _ _ => destruct c
  | |- pw (match ?c with _ => _ end) _ _ => destruct c
  | |- pw (let _ := _ in _) _ _ => cbv zeta
  | H1 : Jl _ _ _ ?s |- pw (reportDefault _ _ _) ?s _ => eapply pwJ; [apply Jl_c|lfs|exact H1|exact HQ]
  | H1 : Jl _ _ _ ?s |- pw (char_data _ _ _ _) ?s _ => eapply pwJ; [apply Jl_c|lfs|exact H1|exact HQ]
  | H1 : Jl _ _ _ ?s |- pw (when _ _) ?s _ => eapply pwJ; [apply Jl_c|lfs|exact H1|exact HQ]
  | H1 : Jl _ _ _ ?s |- pw (pret _) ?s _ => exact (HQ tt s H1)
  | H1 : Jl _ _ _ ?s |- pw (pbind _ _) ?s _ => apply pw_bind; eapply pwJ; [apply Jl_c|lfs|exact H1|]; clear s H1; intros ? s Hs
  end.
Qed.

(* the epilog *)
Lemma done_enc s : Adone s -> enc_good s. Proof. intros []. now apply base_enc. Qed.
Lemma liv_enc s : Aliv s -> enc_good s. Proof. intros []. now apply base_enc. Qed.
Lemma fresh_enc s : Afresh s -> enc_good s. Proof. intros []. now apply base_enc. Qed.
Definition Je (f : bool) (s : st) : Prop := Adone s /\ s_processor s = PrEpilog /\ s_final s = f.
Lemma Je_c f : Jc (Je f).
Proof. intros s s' HS (A & B & C). destruct (done_S _ _ HS A) as [A' []]. split; [exact A'|]. repeat split; congruence. Qed.
Lemma pw_epilog fuel b s f : Adone s -> s_final s = f -> pw (epilogProcessor fuel b) s (fun _ s' => Je f s').
Proof.
  intros Hs Ef. unfold epilogProcessor. apply pw_bind. unfold upd at 1. unfold pw at 1.
  match goal with |- pw _ ?x _ => set (s1 := x) end.
  assert (H1 : Je f s1) by (split; [revert Hs; apply done_same; reflexivity|split; [reflexivity|exact Ef]]). clearbody s1.
  eapply pwJ; [apply Je_c|lfs|exact H1|]. auto.
Qed.
Lemma pw_maybe_epilog rest s f : (s_tagLevel s = 0 -> Adone s) -> enc_good s -> s_final s = f ->
  pw (maybe_epilog r rest) s (fun x s' => match x with Some _ => Je f s' /\ s_tagLevel s = 0 | None => s_final s' = f /\ (H s' \/ (s' = s /\ 1 <= s_tagLevel s)) end).
Proof.
  intros Hd He Ef. unfold maybe_epilog. apply pw_bind, pw_get. apply pw_bind, pw_get.
  destruct (Nat.eqb_spec (s_tagLevel s) 0) as [E0|E0]; cbn [andb]; [|split; [exact Ef|right; split; [reflexivity|lia]]].
  destruct (parsing_eqb (s_parsing s) FINISHED) eqn:E1; cbn [negb].
  - split; [exact Ef|left]. split; [right; destruct (s_parsing s); first [discriminate E1|reflexivity]|exact He].
  - destruct (parsing_eqb (s_parsing s) SUSPENDED) eqn:E2.
    + unfold pw, pbind, upd, pret. split; [exact Ef|left]. split; [left; cbn; destruct (s_parsing s); first [discriminate E2|reflexivity]|exact He].
    + apply pw_bind. eapply pw_imp; [apply pw_epilog; [apply Hd; exact E0|exact Ef]|]. intros x s' Hs. split; [exact Hs|exact E0].
Qed.

(* a CDATA section stops early only to be continued *)
Lemma pw_any {A} (m : P A) s (Q : A -> st -> Prop) : (forall a s', Q a s') -> pw m s Q.
Proof. intros HQ. unfold pw. destruct (m s); auto. Qed.
Lemma pw_cdata_stop fuel t h : forall b s, pw (doCdataSection fuel t b h) s (fun x s' => match x with inl _ => h = true \/ s_parsing s' = SUSPENDED | inr _ => True end).
Proof.
  induction fuel as [|fuel IH]; intros b s; cbn [doCdataSection]; [exact I|].
  assert (Hn : forall (m : P unit) n s, pw (m ;;; do rest <- inc n b; do ret <- after_token t rest; if ret then pret (inl rest) else doCdataSection fuel t rest h) s
     (fun (x : bytes + bytes) s' => match x with inl _ => h = true \/ s_parsing s' = SUSPENDED | inr _ => True end)).
  { intros m n s0. apply pw_bind, pw_any. intros _ s1. apply pw_bind, pw_any. intros rest s2.
    apply pw_bind. eapply pw_imp; [apply pw_after_token|]. intros [|] s3 (_ & E & K); [|apply IH]. right. congruence. }
  apply pw_bind, pw_any. intros _ s1. apply pw_bind, pw_any. intros e s2. apply pw_bind, pw_any. intros [tok n] s3. apply pw_bind, pw_any. intros _ s4.
  cbv zeta.
  destruct tok; try (apply pw_bind, pw_any; intros ? ?; first [exact I|apply Hn]);
    try (destruct h; [left; reflexivity|exact I]).
  do 4 (apply pw_bind, pw_any; intros ? ?). apply pw_bind, pw_get. destruct (s_parsing _); exact I.
Qed.

Lemma pw_lift {A} (x : res A) s (Q : A -> st -> Prop) : (forall a, Q a s) -> pw (lift x) s Q.
Proof. intros HQ. unfold pw, lift. destruct x; [apply HQ|exact I]. Qed.
Lemma pw_need n s (Q : nat -> st -> Prop) : (forall a, Q a s) -> pw (need n) s Q.
Proof. intros HQ. unfold pw, need. destruct n; [apply HQ|exact I]. Qed.
Lemma doContent_phase l t b h s : Cpre l t b h s -> pw (doContent r l t b h) s (Cpost t l (s_processor s) (s_final s) b (Afresh s)).
Proof.
  intros (Hi & Hn & Hs). unfold doContent. set (p := s_processor s). set (f := s_final s).
  set (post := Cpost t l p f b (Afresh s)).
  set (cont := fun rest : bytes => do ret <- after_token t rest; if ret then pret rest else rc_content r l t rest h).
  assert (Hcont : forall rest s1, s_final s1 = f -> (H s1 \/ (Aliv s1 /\ l <= s_tagLevel s1 /\ s_processor s1 = p)) -> pw (cont rest) s1 post).
  { intros rest s1 Ef Hj. apply pw_bind. eapply pw_imp; [apply pw_after_token|]. intros ret s2 ([HS HE] & Ep & K).
    assert (Ef2 : s_final s2 = f).
    { destruct HS as [_ HZ]. destruct Hj as [[_ e]|[e _]]; [|apply liv_enc in e]; apply HZ in e as [_ []]; congruence. }
    destruct ret.
    - split; [exact Ef2|]. assert (H s1) as Hh by (split; [left; exact K|]; destruct Hj as [[_ e]|[e _]]; [exact e|apply liv_enc; exact e]).
      destruct t; [left; congruence|left; eapply H_S; eassumption].
    - destruct Hj as [[Hh _]|(Ha & Hlv & Hp)]; [contradiction|]. destruct (liv_S _ _ HS Ha) as [Ha2 [_ _ F3 F4 _ F6 _]].
      eapply (pw_imp _ _ (Cpost t l (s_processor s2) (s_final s2) rest (Afresh s2))).
      { apply HC. split; [exact Hi|]. split; [|left; split; [exact Ha2|congruence]].
        intros Et. destruct (Hn Et) as [A B]. split; [exact A|]. intros Eh. rewrite Ef2. apply B, Eh. }
      intros x s3 [F6' Hx]. replace (s_processor s2) with p in Hx by congruence. replace (s_final s2) with f in Hx by congruence. split; [congruence|].
      destruct t; [|exact Hx]. destruct Hx as [Hx|[Hx|[Hx [Hy|[Hy|(_ & _ & _ & _ & Hy)]]]]]; [auto|auto|right; right; auto..|].
      elim (liv_fresh s2); assumption. }
  (* the token *)
  apply pw_bind. eapply pw_imp; [apply pw_set_event|]. intros _ s1 [[HS1 HE1] _].
  apply pw_bind. unfold encoding at 1. unfold pw at 1. generalize (match t with ENormal => known (c_ns (s_cfg s1)) (s_enc s1) | EInternal => if c_ns (s_cfg s1) then internal_utf8_encoding_ns else internal_utf8_encoding end).
  intros e. apply pw_bind.
  assert (Hb : base s) by (destruct Hs as [[[] _]|(_ & [] & _)]; assumption). pose proof (b_enc _ Hb) as Hen.
  assert (Hen1 : enc_good s1) by (destruct HS1 as [_ HZ]; apply HZ in Hen as []; assumption).
  apply (pw_imp _ _ (fun x s' => S s1 s' /\ (t = ENormal -> ahead s1 b -> s' = s1 /\ XT (fst x)))).
  { apply pw_and; [apply pw_leaf; [lfs|auto]|]. destruct t; [|apply pw_any; discriminate]. cbn [scan_as].
    unfold pw. pose proof (pw_scan_tag b s1 Hen1) as Hx. unfold pw in Hx. destruct (scan true b s1); auto. }
  intros [tok n] s2 [HS2 Htag]. cbn [fst] in Htag.
  apply pw_bind. eapply pw_imp; [apply pw_set_event_end_tok|]. intros _ s3 [HS3 HE3].
  assert (HS : S s s3) by (eapply S_trans; [exact HS1|eapply S_trans; eassumption]).
  assert (Hf3 : flds s s3) by (destruct HS as [_ HZ]; apply HZ in Hen as []; assumption).
  assert (Ep : s_processor s3 = p) by apply Hf3. assert (Ef : s_final s3 = f) by apply Hf3.
  assert (El : s_tagLevel s3 = s_tagLevel s) by apply Hf3.
  assert (Hs3 : (Aliv s3 /\ l <= s_tagLevel s3) \/ (t = ENormal /\ Afresh s3 /\ ahead s3 b /\ XT tok /\ Afresh s)).
  { destruct Hs as [[Ha Hl]|(Et & Ha & Hh)]; [left|right].
    - split; [apply (liv_S _ _ HS Ha)|lia].
    - split; [exact Et|]. split; [apply (fresh_S _ _ HS Ha)|]. destruct (Htag Et (ahead_enc _ _ _ HE1 Hh)) as [-> Hx].
      split; [|split; [exact Hx|exact Ha]]. eapply ahead_enc; [exact HE3|]. eapply ahead_enc; [exact HE1|exact Hh]. }
  fold f in Hn. revert Hcont Hs3. unfold post. clear post. generalize (Afresh s). intros Fr. set (post := Cpost t l p f b Fr). intros Hcont Hs3. clear Hs s1 s2 HS1 HE1 HS2 HE3 HS3 Htag HS Hf3 Hen1. clearbody p f. clear s Hb Hen El. rename s3 into s.
  set (J := fun s1 => Aliv s1 /\ l <= s_tagLevel s1 /\ s_processor s1 = p /\ s_final s1 = f).
  assert (HJc : Jc J).
  { intros s1 s2 HS (A & B & C & D). destruct (liv_S _ _ HS A) as [A' []]. split; [exact A'|]. repeat split; congruence. }
  assert (HJcont : forall rest s1, J s1 -> pw (cont rest) s1 post) by (intros rest s1 (A & B & C & D); apply Hcont; auto).
  assert (HJl : ~ XT tok -> J s).
  { intros Hx. destruct Hs3 as [[A B]|(_ & _ & _ & X & _)]; [|contradiction]. split; [exact A|]. auto. }
  (* more to come *)
  assert (Hmore : h = true -> post b s).
  { intros Eh. split; [exact Ef|]. destruct t; [|destruct (Hi eq_refl); congruence]. right. right. split; [apply Hn; auto|]. right.
    destruct Hs3 as [[A B]|(_ & A & B & _ & C)]; [left|right]; auto. }
  assert (Hend : forall s1, J s1 -> h = false -> pw (end_of_text l) s1 post).
  { intros s1 (A & B & C & D) Eh. unfold end_of_text. destruct (l =? 0) eqn:E0; [exact I|]. apply pw_bind, pw_get.
    destruct (negb _) eqn:E1; [exact I|]. apply negb_false_iff, Nat.eqb_eq in E1. unfold pw, pret. split; [exact D|].
    destruct t; [destruct (Hn eq_refl) as [-> _]; discriminate|]. right. auto. }
  (* the end of a tag *)
  assert (Hclose : forall m s0 n, pw m s0 (fun (_ : unit) s' => s_final s' = f /\ s_processor s' = p /\ enc_good s' /\
       (s_tagLevel s' = 0 -> Adone s') /\ (1 <= s_tagLevel s' -> Aliv s' /\ l <= s_tagLevel s') /\ (t = EInternal -> 1 <= s_tagLevel s')) ->
     pw (m ;;; do rest <- inc n b; do x <- maybe_epilog r rest; match x with Some y => pret y | None => cont rest end) s0 post).
  { intros m s0 n0 Hm. apply pw_bind. eapply pw_imp; [exact Hm|]. clear Hm. intros _ s1 (F1 & P1 & G1 & D1 & L1 & I1).
    apply pw_bind. apply pw_lift. intros rest.
    apply pw_bind. eapply pw_imp; [apply pw_maybe_epilog; [exact D1|exact G1|exact F1]|].
    intros [y|] s2 Hx.
    - destruct Hx as ((A & B & C) & E). split; [exact C|]. destruct t; [right; left; auto|]. specialize (I1 eq_refl). lia.
    - destruct Hx as [F2 [Hh|[-> L2]]]; apply Hcont; auto. destruct (L1 L2). auto. }
  assert (Hstart : forall n0, pw (start_tag r t e b n0 ;;; do rest <- inc n0 b; cont rest) s post).
  { intros n0. apply pw_bind. eapply pw_imp; [apply pw_start_tag; destruct Hs3 as [[A _]|(_ & A & _)]; auto|].
    intros _ s1 (A & L & M1 & M2). apply pw_bind, pw_lift. intros rest. apply Hcont; [congruence|]. right. split; [exact A|]. split; [|congruence].
    destruct Hs3 as [[_ B]|(Et & _)]; [lia|]. destruct (Hn Et) as [-> _]. lia. }
  assert (Hempty : forall n0, pw (empty_tag r t e b n0 ;;; do rest <- inc n0 b; do x <- maybe_epilog r rest; match x with Some y => pret y | None => cont rest end) s post).
  { intros n0. apply Hclose. eapply pw_imp; [apply pw_empty_tag; destruct Hs3 as [[A _]|(_ & A & _)]; auto|].
    intros _ s1 (A & A' & L & M1 & M2). split; [congruence|]. split; [congruence|].
    destruct Hs3 as [[C B]|(Et & C & _)].
    - specialize (A' C). pose proof (liv_level _ A'). split; [apply liv_enc; exact A'|]. split; [lia|]. split; [split; [exact A'|lia]|lia].
    - specialize (A C). split; [apply done_enc; exact A|]. split; [auto|]. split; [|congruence].
      destruct A as ([_ _ _ D _ _] & T & _). rewrite T in D. cbn in D. lia. }
  assert (Htag : forall n0, J s -> s_tagLevel s <> l -> pw (end_tag t e b n0 ;;; do rest <- inc n0 b; do x <- maybe_epilog r rest; match x with Some y => pret y | None => cont rest end) s post).
  { intros n0 (A & B & _) Hne. apply Hclose. eapply pw_imp; [apply pw_end_tag; exact A|].
    intros _ s1 (L & D & M1 & M2). split; [congruence|]. split; [congruence|]. destruct (Nat.eqb_spec (s_tagLevel s1) 0) as [E0|E0].
    - split; [apply done_enc; exact D|]. split; [auto|]. split; [lia|]. intros Et. destruct (Hi Et). lia.
    - split; [apply liv_enc; exact D|]. split; [lia|]. split; [split; [exact D|lia]|lia]. }
  cbv zeta.
  destruct tok;
    try (apply pw_bind, pw_need; intros n0; first [exact (Hstart n0)|exact (Hempty n0)]);
    try (pose proof (HJl (fun x : XT _ => x)) as Hj);
    try (destruct h eqn:Eh; [apply Hmore; reflexivity|]; first [exact I | idtac]);
    repeat match goal with
    | |- pw (fail _) _ _ => exact I
    | H1 : J ?s |- pw (cont ?x) ?s _ => exact (HJcont x s H1)
    | H1 : J ?s |- pw (pbind (after_token _ ?x) _) ?s _ => exact (HJcont x s H1)
    | |- pw (end_of_text _) _ _ => apply Hend; [assumption|reflexivity]
    | |- pw (pbind (content_entity _ _ _ _ _) _) _ _ => fail 1
    | |- pw (pbind (end_tag _ _ _ _) _) _ _ => fail 1
    | |- pw (pbind (doCdataSection _ _ _ _) _) _ _ => fail 1
    | |- pw (pbind (need _) _) _ _ => apply pw_bind, pw_need; intros ?
    | |- pw (pbind (inc _ _) _) _ _ => apply pw_bind, pw_lift; intros ?
    | |- pw (pbind (lift _) _) _ _ => apply pw_bind, pw_lift; intros ?
    | |- pw (pbind (get _) _) _ _ => apply pw_bind, pw_get
    | |- pw (if ?c then _ else _) _ _ => destruct c eqn:?
    | H1 : J ?s |- pw (pbind _ _) ?s _ => apply pw_bind; eapply (pwJ J); [exact HJc|lfs|exact H1|clear H1; intros ? ? ?]
    end.
  - (* the text ends here *)
    destruct Hj as (A & B & C & D). apply negb_false_iff, Nat.eqb_eq in Heqb1. split; [exact D|].
    destruct t; [destruct (Hn eq_refl) as [-> _]; discriminate|]. right. auto.
  - apply pw_bind, pw_any. intros _ s1. exact I.
  - apply Nat.eqb_neq in Heqb0. exact (Htag a Hj Heqb0).
  - apply pw_bind.
    eapply pw_imp; [apply pw_and; [apply (pw_leaf _ s'0 (fun _ s2 => J s2)); [lfs|intros ? ? HS; eapply HJc; eassumption]|apply pw_cdata_stop]|].
    intros [rest|rest] s2 [Hj2 Hstop]; [|exact (HJcont rest s2 Hj2)]. destruct Hj2 as (A & B & C & D).
    unfold pw, pbind, upd, pret. split; [exact D|].
    assert (A2 : Aliv (set_processor PrCdata s2)) by (revert A; apply liv_same; reflexivity).
    destruct t.
    + destruct Hstop as [Eh|Es]; [|left; exact Es]. right; right. split; [apply Hn; auto|]. right; left. auto.
    + destruct Hstop as [Eh|Es]; [destruct (Hi eq_refl); congruence|]. left. split; [left; exact Es|apply liv_enc; exact A2].
  - destruct Hj as (A & B & C & D). apply pw_bind.
    eapply pw_imp; [apply (pw_content_entity (s_tagLevel s) p f); [repeat split; auto; apply A|apply liv_level; exact A]|].
    intros _ s1 [F1 Hh]. apply pw_bind, pw_lift. intros rest. apply (Hcont rest); [exact F1|].
    destruct Hh as [Hh|(A1 & B1 & C1 & D1)]; [left; exact Hh|right]. split; [exact A1|]. split; [lia|exact C1].
Qed.

(* ---- the prolog ---- *)
Lemma xN a b : keeps N N (external_subset r a b). Proof. unfold external_subset. Nest.wk. Qed.
Lemma xZ a b : keeps Z Z (external_subset r a b). Proof. unfold external_subset. PhaseLeaf.wk. Qed.
Lemma vN fuel t b : keeps N N (storeEntityValue (rc_ext r) fuel t b). Proof. apply kp_storeEntityValue, HxN. Qed.
Lemma vZ fuel t b : keeps Z Z (storeEntityValue (rc_ext r) fuel t b). Proof. apply zp_storeEntityValue, HxZ. Qed.
#[local] Hint Resolve xZ vZ : zp.
#[local] Hint Resolve xN vN : kp.
Lemma leaf_role ro k t e a b n : pe_role ro = false -> leaf (role_action r ro k t e a b n).
Proof.
  intros E. unfold role_action. destruct ro; try discriminate E; clear E; lfs.
Qed.
Lemma Jd_same p f s s' : s_cfg s' = s_cfg s -> s_pid s' = s_pid s -> s_tags s' = s_tags s -> s_log s' = s_log s ->
  s_child s' = s_child s -> s_isParam s' = s_isParam s -> s_tagLevel s' = s_tagLevel s -> s_role s' = s_role s ->
  s_enc s' = s_enc s -> s_processor s' = s_processor s -> s_final s' = s_final s -> Jd p f s -> Jd p f s'.
Proof.
  intros E1 E2 E3 E4 E5 E6 E7 E8 E9 E10 E11 (A & B & C & D). split; [|repeat split; congruence].
  eapply fresh_same; try eassumption. rewrite E8. apply A.
Qed.
Lemma pie_prolog p f name text bd s : Jd p f s -> pw (processInternalEntity r (true, name) text bd) s (fun _ s' => HJ f (Jd p f) s').
Proof.
  intros Hs. unfold processInternalEntity.
  apply pw_bind. eapply pwJ; [apply Jd_c|lfs|exact Hs|]. clear s Hs. intros _ s Hs.
  apply pw_bind. eapply pwJ; [apply Jd_c|lfs|exact Hs|]. clear s Hs. intros _ s Hs.
  apply pw_bind, pw_get. apply pw_bind, pw_get. apply pw_bind. unfold upd at 1. unfold pw at 1.
  match goal with |- pw _ ?x _ => set (s1 := x) end.
  assert (H1 : Jd p f s1) by (revert Hs; apply Jd_same; reflexivity).
  clearbody s1. cbn [fst].
  apply pw_bind, pw_bind. eapply pwJ; [apply Jd_c|lfs|exact H1|]. clear s1 H1. intros [k n] s1 H1.
  eapply pw_imp; [apply HP|].
  - destruct H1 as (A & B & C & D). split; [exact A|]. split; [auto|discriminate].
  - intros rest s2 [F2 H2]. destruct H1 as (A & B & C & D). apply pie_tail; [apply HJd_c|apply Jd_enc|]. split; [congruence|].
    destruct H2 as [H2|(L2 & E2 & P2)]; [left; exact H2|right; split; [exact L2|repeat split; congruence]].
Qed.
Lemma pw_handleEntityRef p f name bt s : Jd p f s -> pw (handleEntityRef r (true, name) bt) s (fun _ s' => HJ f (Jd p f) s').
Proof.
  intros Hs. unfold handleEntityRef.
  assert (HQ : forall (a : bool) s', Jd p f s' -> HJ f (Jd p f) s') by (intros _ s' Hj; split; [apply Hj|right; exact Hj]).
  apply pw_bind. eapply pwJ; [apply Jd_c|lfs|exact Hs|]. clear s Hs. intros x s Hs.
  destruct (e_open x); [exact I|]. destruct (e_text x).
  - apply pw_bind. eapply pw_imp; [apply pie_prolog; exact Hs|]. intros a s' H1. exact H1.
  - eapply pwJ; [apply Jd_c|lfs|exact Hs|exact HQ].
Qed.
Lemma pw_param_ref p f inner e b s : Jd p f s -> pw (param_entity_ref r inner e b) s (fun _ s' => HJ f (Jd p f) s').
Proof.
  intros Hs. unfold param_entity_ref.
  assert (HQ : forall (a : bool) s', Jd p f s' -> HJ f (Jd p f) s') by (intros _ s' Hj; split; [apply Hj|right; exact Hj]).
  apply pw_bind. eapply pwJ; [apply Jd_c|lfs|exact Hs|]. clear s Hs. intros _ s Hs.
  apply pw_bind, pw_get.
  assert (G : pw (do name <- literal e b; do d <- get s_dtd; do dc <- get (fun s => doc (s_role s)); do open <- get s_open;
      let check := dc && (if d_standalone d then no_open open else negb (d_hasPE d)) in
      let handle := do x <- handleEntityRef r (true, name) (negb inner); check_standalone ;;; pret x in
      match look_entity (true, name) d with
      | None =>
          if check then fail XE_UNDEFINED_ENTITY
          else
            keep_if_standalone ;;;
            if inner then pret true
            else do on <- emit h_skipped (EvSkippedEntity name true); pret (negb on)
      | Some ent => if check && negb (e_is_internal ent) then fail XE_ENTITY_DECLARED_IN_PE else handle
      end) s (fun _ s' => HJ f (Jd p f) s')).
  { apply pw_bind. eapply pwJ; [apply Jd_c|lfs|exact Hs|]. clear s Hs. intros name s Hs.
    apply pw_bind, pw_get. apply pw_bind, pw_get. apply pw_bind, pw_get. cbv zeta.
    destruct (look_entity _ _) as [ent|].
    - destruct (_ && _); [exact I|]. apply pw_bind. eapply pw_imp; [apply pw_handleEntityRef; exact Hs|].
      intros x s1 H1. eapply (pwJ (HJ f (Jd p f))); [apply HJd_c|lfs|exact H1|auto].
    - destruct (_ && _); [exact I|]. eapply pwJ; [apply Jd_c|lfs|exact Hs|exact HQ]. }
  destruct (s_pep s); [|exact G|exact G].
  eapply pwJ; [apply Jd_c|lfs|exact Hs|exact HQ].
Qed.
(* nothing here touches the encoding *)
Definition Ex (s s' : st) : Prop := s_enc s' = s_enc s.
Lemma Ex_keeps_ext a b c d : keeps Ex (fun _ _ => True) (rc_ext r a b c d).
Proof. intros s. pose proof (HxE a b c d s) as Hx. unfold pw in Hx. pose proof (HxN a b c d s) as Hy. destruct (rc_ext r a b c d s); auto. split; [apply Hy|exact I]. Qed.
Lemma frame_Ex' : frame Ex (fun _ _ => True).
Proof. unfold Ex. split; intros; try exact I; congruence. Qed.
Lemma Ex_call' ev : keeps Ex (fun _ _ => True) (call ev).
Proof. intros s. reflexivity. Qed.
Ltac lfE := first [apply Ex_keeps_ext|apply Ex_call'|intros ?; reflexivity].
Lemma pw_external_subset_enc a b s : pw (external_subset r a b) s (fun _ s' => s_enc s' = s_enc s).
Proof.
  assert (Hk : keeps Ex (fun _ _ => True) (external_subset r a b)).
  { unfold external_subset, insert_subset, entity_at, check_standalone, keep_if_standalone, upd_entity, upd_dtd, getd, handler. walk frame_Ex' lfE. }
  specialize (Hk s). unfold pw. destruct (external_subset r a b s); [exact Hk|exact I|exact I].
Qed.

Lemma neg_start k k' : tok_negate k = Ok k' -> k' <> T_INSTANCE_START.
Proof. destruct k; cbn; intros E; first [discriminate E|injection E as <-; discriminate]. Qed.
Definition Jf (p : processor) (f : bool) (s : st) : Prop := Afresh s /\ s_processor s = p /\ s_final s = f.
Lemma Jf_c p f : Jc (Jf p f).
Proof. intros s s' HS (A & B & C). destruct (fresh_S _ _ HS A) as [A' []]. split; [exact A'|]. repeat split; congruence. Qed.

(* a role *)
Lemma pw_role_of e k b s p f : Jf p f s ->
  pw (role_of e k b) s (fun ro s' => Jf p f s' /\ s_enc s' = s_enc s /\ s_parsing s' = s_parsing s /\ role_chk (s_role s) k (s_role s', ro) = true).
Proof.
  intros (A & B & C). unfold role_of. apply pw_bind, pw_get. apply pw_bind. unfold pw at 1, lift.
  destruct (token_role e (s_role s) k b) as [[p' ro]|] eqn:Er; [|exact I].
  assert (Hk : role_chk (s_role s) k (p', ro) = true) by (eapply role_ok; [apply A|exact Er]).
  unfold pw, pbind, upd, pret. split; [|split; [reflexivity|split; [reflexivity|exact Hk]]].
  split; [|split; [exact B|exact C]].
  revert A. apply fresh_same; try reflexivity. unfold role_chk in Hk. apply andb_true_iff in Hk as [Hk _]. exact Hk.
Qed.

Lemma pw_rest b n s (Q : bytes -> st -> Prop) : (forall x, suffix x b -> Q x s) -> pw (rest_after b n) s Q.
Proof.
  intros HQ. unfold rest_after, pw, inc, lift. destruct n as [n|]; [|apply HQ, suffix_refl].
  destruct (inc_start n b) eqn:E; [|exact I]. apply HQ. eapply suffix_inc, E.
Qed.
Lemma doProlog_phase t b k n h a s : Ppre t b k h a s -> pw (doProlog r t b k n h a) s (Ppost t (s_processor s) (s_final s) b).
Proof.
  intros (Ha & Hi & Hn). unfold doProlog. set (p := s_processor s). set (f := s_final s). set (post := Ppost t p f b).
  apply pw_bind. eapply pw_imp; [apply pw_set_event|]. intros _ s1 [[HS1 HE1] _].
  apply pw_bind. eapply pw_imp; [apply pw_set_event_end_tok|]. intros _ s2 [HS2 HE2].
  assert (HS : S s s2) by (eapply S_trans; eassumption). destruct (fresh_S _ _ HS Ha) as [Ha2 Hf2].
  assert (Hj : Jf p f s2) by (split; [exact Ha2|split; apply Hf2]).
  assert (Hi2 : t = EInternal -> h = false /\ a = false /\ inD (s_role s2) = true).
  { intros Et. destruct (Hi Et) as (A & B & C). destruct Hf2. repeat split; congruence. }
  assert (Hn2 : t = ENormal -> h = negb f /\ (k = T_INSTANCE_START -> ahead s2 b)).
  { intros Et. destruct (Hn Et) as (A & B). split; [exact A|]. intros Ek. eapply ahead_enc; [|apply B; exact Ek]. congruence. }
  clear Hi Hn HS HS1 HS2 HE1 HE2 Hf2 Ha2 Ha. clearbody p f. clear s s1. rename s2 into s.
  apply pw_bind. unfold encoding at 1. unfold pw at 1.
  generalize (match t with ENormal => known (c_ns (s_cfg s)) (s_enc s) | EInternal => if c_ns (s_cfg s) then internal_utf8_encoding_ns else internal_utf8_encoding end).
  intros e.
  set (go := fun (k : XML_TOK) (rest : bytes) => let tok := before b rest in
    do role <- role_of e k tok;
    do x <- role_step r role k t e h a b tok rest;
    match x with
    | Return rest => pret rest
    | Next hd rest =>
        when hd (reportDefault t tok (length rest)) ;;;
        do p <- get s_parsing;
        match p with
        | SUSPENDED => pret rest
        | FINISHED => fail XE_ABORTED
        | _ =>
            do (k, n) <- scan_as t false rest;
            rc_prolog r t rest k n h a
        end
    end).
  assert (Hgo : forall k0 rest, suffix rest b -> (k0 = T_INSTANCE_START -> k = T_INSTANCE_START) -> pw (go k0 rest) s post).
  { intros k0 rest Hsuf Hk0. unfold go. cbv zeta. set (tok := before b rest). apply pw_bind. eapply pw_imp; [apply pw_role_of; exact Hj|].
    intros ro s1 (Hj1 & HE1 & Hp1 & Hk).
    (* after the token *)
    assert (Hnext : forall hd s2, s_final s2 = f -> H s2 \/ (Jf p f s2 /\ (t = EInternal -> inD (s_role s2) = true)) ->
       pw (when hd (reportDefault t tok (length rest)) ;;; do p <- get s_parsing;
        match p with SUSPENDED => pret rest | FINISHED => fail XE_ABORTED | _ => do (k, n) <- scan_as t false rest; rc_prolog r t rest k n h a end) s2 post).
    { intros hd s2 F2 Hs2.
      set (Q := fun s3 => s_final s3 = f /\ (H s3 \/ (Jf p f s3 /\ (t = EInternal -> inD (s_role s3) = true)))).
      assert (HQc : Jc Q).
      { intros s3 s4 H34 [F3 [Hh|[Hf Hd]]].
        - split; [|left; eapply H_S; eassumption]. destruct H34 as [_ HZ]. destruct Hh as [_ He]. apply HZ in He as [_ []]. congruence.
        - pose proof (Jf_c _ _ _ _ H34 Hf) as Hf'. destruct Hf as [Hf _]. destruct (fresh_S _ _ H34 Hf) as [_ []].
          split; [congruence|]. right. split; [exact Hf'|]. intros Et. rewrite <- (Hd Et). congruence. }
      apply pw_bind. eapply (pwJ Q); [exact HQc|lfs|split; assumption|]. intros _ s3 [F3 H3].
      apply pw_bind, pw_get.
      assert (He3 : enc_good s3) by (destruct H3 as [[_ He]|[[He _] _]]; [exact He|apply fresh_enc; exact He]).
      destruct (s_parsing s3) eqn:Ep; try exact I.
      3:{ split; [exact F3|]. destruct t; [left; exact Ep|left]. split; [left; exact Ep|exact He3]. }
      all: destruct H3 as [[[Hh|Hh] _]|[Hf3 Hd3]]; [congruence|congruence|];
        apply pw_bind; eapply (pw_imp _ _ (fun x s4 => S s3 s4 /\ (t = ENormal -> fst x = T_INSTANCE_START -> ahead s4 rest)));
        [apply pw_and; [apply pw_leaf; [lfs|auto]|destruct t; [|apply pw_any; discriminate]; eapply pw_imp; [apply (pw_scan_start rest s3 He3)|auto]]|];
        intros [k4 n4] s4 [HS4 Hk4]; pose proof (Jf_c _ _ _ _ HS4 Hf3) as (A4 & P4 & F4);
        apply (pw_imp _ _ (Ppost t p f rest));
        [|intros x s5 [F5 Hx]; split; [exact F5|]; destruct t; [|exact Hx];
          destruct Hx as [Hx|[Hx|[Hx [Hy|[Hy|[(Hy1 & Hy2 & Hy3 & Hy4)|Hy]]]]]]; [auto|auto|right; right; auto|right; right; auto| |right; right; auto];
          right; right; split; [exact Hx|]; right; right; left; split; [exact Hy1|]; split; [exact Hy2|]; split; [exact Hy3|]; eapply suffix_trans; eassumption];
        rewrite <- P4, <- F4;
        apply HP; (split; [exact A4|]); (split; [intros Et; destruct (Hi2 Et) as (A & B & C); split; [exact A|]; split; [exact B|];
          destruct Hf3 as [Hf3 _]; destruct (fresh_S _ _ HS4 Hf3) as [_ []]; rewrite <- (Hd3 Et); congruence|]);
        intros Et; (split; [rewrite F4; apply Hn2; exact Et|]); intros Ek; apply Hk4; assumption. }
    assert (Hi1 : t = EInternal -> match ro with R_INSTANCE_START | R_IGNORE_SECT => False | R_DOCTYPE_CLOSE => a = false | _ => inD (s_role s1) = true end).
    { intros Et. destruct (Hi2 Et) as (_ & Ea & Hd). unfold role_chk in Hk. apply andb_true_iff in Hk as [_ Hk]. rewrite Hd in Hk.
      destruct ro; try exact Hk; try exact Ea; try discriminate Hk; destruct k0; discriminate Hk. }
    assert (Hleaf : pe_role ro = false -> ro <> R_INSTANCE_START -> ro <> R_IGNORE_SECT ->
      pw (do x <- (do hd <- role_action r ro k0 t e a tok (length rest); pret (Next hd rest));
        match x with
        | Return rest => pret rest
        | Next hd rest => when hd (reportDefault t tok (length rest)) ;;; do p <- get s_parsing;
            match p with SUSPENDED => pret rest | FINISHED => fail XE_ABORTED | _ => do (k, n) <- scan_as t false rest; rc_prolog r t rest k n h a end
        end) s1 post).
    { intros E1 E2 E3. apply pw_bind, pw_bind.
      destruct (match ro with R_DOCTYPE_CLOSE => negb a | _ => false end) eqn:Ec.
      { destruct ro; try discriminate Ec. cbn [role_action]. rewrite Ec. exact I. }
      apply pw_leaf; [apply leaf_role; exact E1|]. intros hd s2 HS2. unfold pw, pret at 1.
      apply Hnext; [apply (Jf_c _ _ _ _ HS2 Hj1)|]. right. split; [apply (Jf_c _ _ _ _ HS2 Hj1)|].
      intros Et. specialize (Hi1 Et). destruct Hj1 as [Hj1 _]. destruct (fresh_S _ _ HS2 Hj1) as [_ []].
      destruct ro; try congruence; try (exfalso; congruence). rewrite Hi1 in Ec. discriminate Ec. }
    destruct (pe_role ro) eqn:Epe.
    { assert (Hd : Jd p f s1).
      { destruct Hj1 as (A & B & C). split; [exact A|]. split; [|auto]. unfold role_chk in Hk. apply andb_true_iff in Hk as [_ Hk].
        destruct ro; try discriminate Epe; exact Hk. }
      assert (Hpe : forall inner, pw (do hd <- param_entity_ref r inner e tok; pret (Next hd rest)) s1 (fun x s2 => (exists hd, x = Next hd rest) /\ HJ f (Jd p f) s2)).
      { intros inner. apply pw_bind. eapply pw_imp; [apply pw_param_ref; exact Hd|]. intros hd s2 H2. unfold pw, pret. eauto. }
      assert (Hnx : forall x s2, (exists hd, x = Next hd rest) /\ HJ f (Jd p f) s2 ->
        pw (match x with
            | Return rest => pret rest
            | Next hd rest => when hd (reportDefault t tok (length rest)) ;;; do p <- get s_parsing;
                match p with SUSPENDED => pret rest | FINISHED => fail XE_ABORTED | _ => do (k, n) <- scan_as t false rest; rc_prolog r t rest k n h a end
            end) s2 post).
      { intros x s2 [[hd ->] [F2 H2]]. apply Hnext; [exact F2|]. destruct H2 as [H2|(A & B & C & D)]; [left; exact H2|right].
        split; [split; [exact A|auto]|auto]. }
      apply pw_bind. destruct ro; try discriminate Epe; cbn [role_step role_action]; (eapply pw_imp; [apply Hpe|exact Hnx]). }
    assert (Hig : ro <> R_IGNORE_SECT) by (intros ->; unfold role_chk in Hk; apply andb_true_iff in Hk as [_ Hk]; discriminate Hk).
    destruct ro; try discriminate Epe; try (apply Hleaf; [reflexivity|discriminate|discriminate]); try (elim Hig; reflexivity).
    (* the document element *)
    destruct t; [|elim (Hi1 eq_refl)].
    assert (Hah : ahead s1 b).
    { eapply ahead_enc; [exact HE1|]. destruct (Hn2 eq_refl) as [_ Hx]. apply Hx, Hk0. unfold role_chk in Hk. apply andb_true_iff in Hk as [_ Hk].
      destruct k0; first [discriminate Hk|reflexivity]. }
    cbn [role_step]. apply pw_bind, pw_bind, pw_get. apply pw_bind.
    eapply (pw_imp _ _ (fun _ s2 => Jf p f s2 /\ s_enc s2 = s_enc s1)).
    { apply pw_and.
      - eapply pwJ; [apply Jf_c|lfs|exact Hj1|auto].
      - destruct (s_foreign s1); cbn [when]; [apply pw_external_subset_enc|reflexivity]. }
    intros _ s2 [Hj2 HE2]. apply pw_bind. unfold upd at 1. unfold pw at 1. apply pw_bind.
    unfold contentProcessor. apply pw_bind, pw_get. set (s3 := set_processor PrContent s2).
    assert (H3 : Afresh s3 /\ s_processor s3 = PrContent /\ s_final s3 = f /\ ahead s3 b).
    { destruct Hj2 as (A & B & C). split; [eapply fresh_same; [..|exact A]; try reflexivity; apply A|]. split; [reflexivity|]. split; [exact C|].
      eapply ahead_enc; [|exact Hah]. exact HE2. }
    clearbody s3. destruct H3 as (A3 & P3 & F3 & H3).
    eapply pw_imp; [apply HC|].
    { split; [discriminate|]. split; [intros _; split; [reflexivity|]; destruct (s_final s3); [discriminate|reflexivity]|]. right. auto. }
    intros x s4 [F4 H4]. unfold pw, pret. split; [congruence|]. rewrite P3 in H4.
    destruct H4 as [H4|[H4|[H5 [H4|[H4|(H4 & H6 & H7 & -> & _)]]]]]; [auto|auto|right; right..]; (split; [congruence|]); auto.
    right; right; left. pose proof (suffix_refl b). auto. }
  destruct (tok_is_error k) eqn:Eerr.
  - assert (Hret : h = true -> post b s).
    { intros Eh. destruct Hj as (A & B & C). split; [exact C|]. destruct t; [|destruct (Hi2 eq_refl); congruence].
      right; right. destruct (Hn2 eq_refl) as [E _]. split; [destruct f; [cbn in E; congruence|reflexivity]|]. auto. }
    destruct h; cbn [andb].
    + destruct (negb (tok_eqb k T_INVALID)) eqn:Einv; [apply Hret; reflexivity|].
      destruct k; try discriminate Einv. apply pw_bind, pw_any. intros rest s1. apply pw_bind, pw_any. intros ? ?. exact I.
    + assert (Hneg : pw (do k <- lift (tok_negate k); go k []) s post).
      { apply pw_bind. unfold pw at 1, lift. destruct (tok_negate k) as [k'|] eqn:En; [|exact I]. apply Hgo; [apply suffix_nil|]. intros ->. elim (neg_start _ _ En eq_refl). }
      destruct k; try discriminate Eerr; try exact I; try exact Hneg.
      * apply pw_bind, pw_get. apply pw_bind, pw_get.
        assert (Hpar : s_isParam s = false) by (destruct Hj as (A & _); destruct A as [[] _]; assumption). rewrite Hpar. cbn [orb].
        destruct t; cbn [is_internal andb]; [exact I|]. destruct (Hi2 eq_refl) as (_ & _ & Hd).
        assert (Hr : post b s) by (destruct Hj as (A & B & C); split; [exact C|right; auto]).
        match goal with |- pw (if ?c then _ else _) _ _ => destruct c end; [exact Hr|]. clear Hr.
        apply pw_bind. eapply pw_imp; [apply pw_role_of; exact Hj|]. intros ro s1 ((A1 & B1 & C1) & _ & _ & Hk).
        assert (Hd1 : inD (s_role s1) = true).
        { unfold role_chk in Hk. apply andb_true_iff in Hk as [_ Hk]. rewrite Hd in Hk. destruct ro; first [exact Hk|discriminate Hk]. }
        assert (Hr : post b s1) by (split; [exact C1|right; auto]). destruct ro; first [exact Hr|exact I].
      * apply pw_bind, pw_any. intros rest s1. apply pw_bind, pw_any. intros ? ?. exact I.
      * apply pw_bind, pw_rest. intros rest Hr. apply (Hgo T_PROLOG_S); [exact Hr|discriminate].
  - apply pw_bind, pw_rest. intros rest Hr. apply Hgo; auto.
Qed.
End R.
