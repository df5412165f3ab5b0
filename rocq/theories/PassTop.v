(* The default handler gets what is consumed: the loops. *)
From Coq Require Import String List NArith ZArith Bool Lia Arith.
From Verif Require Import Base Encoding Tok TokMisc Norm XmlDecl Status Role State AttVal Bind Atts Scaf Content Prolog Core.
From Verif Require Import Keep SpecEnc SpecPass PassTok Pass.
From Coq Require Import List.
Import ListNotations.
Local Open Scope nat_scope.

Lemma W_scan (F : st -> Prop) f (c : bool) buf s (Q : XML_TOK * option nat -> st -> Prop) : lone f s ->
  (forall k n, (if c then contentTok else prologTok) (utf8_for (c_ns (s_cfg s))) buf = Ok (k, n) -> Q (k, n) s) -> W F (scan c buf) s Q.
Proof.
  intros L H. unfold W, scan. rewrite (lo_enc _ _ L). unfold lift.
  destruct c; cbv iota in H |- *; [destruct (contentTok _ buf) as [[k n]|] eqn:E|destruct (prologTok _ buf) as [[k n]|] eqn:E]; auto.
Qed.
Lemma one_byte ns : minbpc (utf8_for ns) = 1. Proof. destruct ns; reflexivity. Qed.
Lemma some_first G k buf s : gave s = G ++ firstn k buf -> some_of G buf s.
Proof. intros E. exists (firstn k buf), (skipn k buf). split; [symmetry; apply firstn_skipn|exact E]. Qed.
Ltac so := first [apply some_none; congruence | match goal with E : gave _ = _ ++ firstn ?k ?b |- some_of _ ?b _ => apply (some_first _ k); congruence | E : gave _ = _ ++ ?b |- some_of _ ?b _ => apply some_all; congruence end].
Ltac w2 := first
  [ match goal with
    | L : lone _ ?s |- W _ (char_data ENormal _ _ _) ?s _ => apply (W_chars _ _ _ _ _ _ s _ L); intros ? ?L ?E; cbv beta
    | L : lone _ ?s |- W _ (char_data_text ENormal _ _) ?s _ => apply (W_text _ _ _ _ _ s _ L); intros ? ?L ?E; cbv beta
    | L : lone _ ?s |- W _ (reportPI ENormal _ _) ?s _ => apply (W_pi _ _ _ _ _ s _ L); intros ? ?L ?E; cbv beta
    | L : lone _ ?s |- W _ (reportComment ENormal _ _) ?s _ => apply (W_comment _ _ _ _ _ s _ L); intros ? ?L ?E; cbv beta
    | L : lone _ ?s |- W _ (after_token ENormal _) ?s _ => apply (W_after _ _ _ s _ L); [intros ? ? ?|intros ? ? ?L ?E ?H; cbv beta]
    | |- W _ (fail _) _ _ => apply W_fail; so
    | |- W _ (emit _ _) _ _ => unfold emit
    | |- W _ (scan_as ENormal _ _) _ _ => unfold scan_as
    | L : lone _ ?s |- W _ (scan _ _) ?s _ => apply (W_scan _ _ _ _ s _ L); intros ? ? ?; cbv beta iota
    | L : lone _ ?s |- W _ (get (fun z => c_expand (s_cfg z))) ?s _ => apply W_get; rewrite (lo_expand _ _ L); cbv beta iota
    | |- W _ (when (negb ?b) _) _ _ => progress cbn [negb]
    | |- W _ (if negb ?f then _ else _) _ _ => is_var f; destruct f; cbn [negb]; cbv iota
    | |- W _ (if ?x then _ else _) _ _ => let q := fresh "Hq" in destruct x eqn:q; try discriminate q
    | |- W _ (let '(_, _) := ?x in _) _ _ => destruct x
    | |- W _ (match ?x with _ => _ end) _ _ => let q := fresh "Hq" in destruct x eqn:q; try discriminate q
    end
  | w1
  | match goal with L : lone _ ?s |- W _ ?m ?s _ => eapply (W_keeps _ _ m s); [hush|exact L|intros ? ? ?; so|let a := fresh "a" in intros a ? ?L ?E; cbv beta; try (destruct a; [])] end ].
Lemma cut_eq {A} (b c r : list A) : b = c ++ r -> c ++ r = b. Proof. congruence. Qed.
Definition cut_at (f : bool) (G buf : bytes) (x : bytes + bytes) (s : st) : Prop :=
  lone f s /\ match x with inl rest => (exists c, buf = c ++ rest /\ gave s = G ++ c) /\ (f = true -> s_parsing s = SUSPENDED) | inr rest => exists c, buf = c ++ rest /\ gave s = G ++ c end.
Lemma cut_more f G a b x s : cut_at f (G ++ a) b x s -> cut_at f G (a ++ b) x s.
Proof.
  intros [L H]. split; [exact L|]. destruct x; [destruct H as [H1 H2]; split; [|exact H2]; clear H2|];
    [destruct H1 as (c & -> & E)|destruct H as (c & -> & E)]; exists (a ++ c); rewrite E, <- !app_assoc; auto.
Qed.
Lemma cut_step f G buf k r (m : P (bytes + bytes)) s : buf = firstn k buf ++ r -> W (some_of (G ++ firstn k buf) r) m s (cut_at f (G ++ firstn k buf) r) -> W (some_of G buf) m s (cut_at f G buf).
Proof.
  intros E H. eapply W_impF; [exact H| |].
  - intros s' S. rewrite E. now apply some_more.
  - intros a s' S. rewrite E. now apply cut_more.
Qed.
Lemma pass_step f G buf k r m s : buf = firstn k buf ++ r -> pass f (G ++ firstn k buf) r m s -> pass f G buf m s.
Proof. intros E H. rewrite E. apply pass_after. exact H. Qed.
Lemma on_first f G buf k rest s : lone f s -> buf = firstn k buf ++ rest -> gave s = G ++ firstn k buf -> (f = true -> s_parsing s = SUSPENDED \/ rest = []) -> goes_on f G buf rest s.
Proof. intros L E1 E2 H. split; [exact L|]. split; [|exact H]. exists (firstn k buf). auto. Qed.
Lemma on_here G buf s : lone false s -> gave s = G -> goes_on false G buf buf s.
Proof. intros L E. split; [exact L|]. split; [|discriminate]. exists []. split; [reflexivity|]. now rewrite app_nil_r. Qed.
Lemma cut_here G buf s : lone false s -> gave s = G -> cut_at false G buf (inl buf) s.
Proof. intros L E. split; [exact L|]. split; [|discriminate]. exists []. split; [reflexivity|]. now rewrite app_nil_r. Qed.
Lemma cut_left f G buf k rest s : lone f s -> buf = firstn k buf ++ rest -> gave s = G ++ firstn k buf -> (f = true -> s_parsing s = SUSPENDED) -> cut_at f G buf (inl rest) s.
Proof. intros L E1 E2 H. split; [exact L|]. split; [|exact H]. exists (firstn k buf). auto. Qed.
Lemma cut_right f G buf k rest s : lone f s -> buf = firstn k buf ++ rest -> gave s = G ++ firstn k buf -> cut_at f G buf (inr rest) s.
Proof. intros L E1 E2. split; [exact L|]. exists (firstn k buf). auto. Qed.
Ltac fin := try first
  [ so
  | match goal with
    | |- W _ (fail _) _ _ => apply W_fail; so
    | |- cut_at false _ ?b (inl ?b) _ => apply cut_here; [assumption|congruence]
    | H : ?b = firstn ?k ?b ++ ?r |- cut_at _ _ ?b (inl ?r) _ => apply (cut_left _ _ _ k); [assumption|exact H|congruence|auto]
    | H : ?b = firstn ?k ?b ++ ?r |- cut_at _ _ ?b (inr ?r) _ => apply (cut_right _ _ _ k); [assumption|exact H|congruence]
    | |- goes_on false _ ?b ?b _ => apply on_here; [assumption|congruence]
    | H : ?b = firstn ?k ?b ++ ?r |- goes_on _ _ ?b ?r _ => apply (on_first _ _ _ k); [assumption|exact H|congruence|auto]
    end ].
Lemma section_cut f fuel : forall G buf s, lone f s -> gave s = G -> W (some_of G buf) (doCdataSection fuel ENormal buf (negb f)) s (cut_at f G buf).
Proof.
  induction fuel as [|fuel IH]; intros G buf s L E; cbn [doCdataSection]; [exact I|].
  repeat w2; fin; eapply cut_step; try eassumption; apply IH; auto; congruence.
Qed.

Lemma all_cut (buf r : bytes) k : buf = firstn k buf ++ r -> Some k = Some (length buf) -> r = [].
Proof. intros E1 E2. injection E2 as ->. rewrite firstn_all in E1. apply (app_inv_head buf). rewrite app_nil_r. congruence. Qed.
Lemma epilog_pass f fuel : forall G buf s, lone f s -> gave s = G -> pass f G buf (epilog_loop fuel buf) s.
Proof.
  induction fuel as [|fuel IH]; intros G buf s L E; cbn [epilog_loop]; [exact I|]. unfold pass.
  repeat w2; fin.
  all: try (eapply pass_step; [eassumption|apply IH; [assumption|congruence]]).
  all: try match goal with H : prologTok _ _ = Ok _ |- _ => apply prolog_plain_tok in H; [|apply one_byte];
      destruct H as [[? ?]|[[? [? ?]]|[? ?]]]; try discriminate; try contradiction; subst end.
  - split; [assumption|]. split; [exists []; split; [reflexivity|rewrite app_nil_r; congruence]|auto].
  - intros _. right. eapply all_cut; [eassumption|congruence].
  - intros _. right. eapply all_cut; [eassumption|congruence].
Qed.

Lemma W_entity r f G buf n e s (Q : unit -> st -> Prop) : lone f s -> gave s = G -> (forall s', lone f s' -> gave s' = G ++ firstn n buf -> Q tt s') ->
  W (some_of G buf) (content_entity r ENormal e buf n) s Q.
Proof. intros L E HQ. unfold content_entity. repeat w2; fin. all: apply HQ; [assumption|congruence]. Qed.
Lemma W_start r f G buf n e s (Q : unit -> st -> Prop) : lone f s -> gave s = G -> (forall s', lone f s' -> gave s' = G ++ firstn n buf -> Q tt s') ->
  W (some_of G buf) (start_tag r ENormal e buf n) s Q.
Proof. intros L E HQ. unfold start_tag, tag_raw. repeat w2; fin. all: apply HQ; [assumption|congruence]. Qed.

Lemma W_empty r f G buf n e s (Q : unit -> st -> Prop) : lone f s -> gave s = G -> (forall s', lone f s' -> gave s' = G ++ firstn n buf -> Q tt s') ->
  W (some_of G buf) (empty_tag r ENormal e buf n) s Q.
Proof. intros L E HQ. unfold empty_tag, tag_raw. repeat w2; fin.
  eapply (W_keeps _ _ _ s); [apply hs_storeAtts|exact L|intros s' L' E' e0; repeat w2|intros a2 s' L' E'; cbv beta; repeat w2; fin]. all: apply HQ; [assumption|congruence]. Qed.
Lemma W_end f G buf n e s (Q : unit -> st -> Prop) : lone f s -> gave s = G -> (forall s', lone f s' -> gave s' = G ++ firstn n buf -> Q tt s') ->
  W (some_of G buf) (end_tag ENormal e buf n) s Q.
Proof. intros L E HQ. unfold end_tag, tag_raw. repeat w2; fin. all: apply HQ; [assumption|congruence]. Qed.

Lemma pass_epilog r f G rest s : lone f s -> gave s = G -> pass f G rest (epilogProcessor (rc_fuel r) rest) s.
Proof.
  intros L E. unfold epilogProcessor, pass. w2. w2. apply epilog_pass; [assumption|congruence].
Qed.
Definition content_passes (f : bool) (m : nat -> enctype -> bytes -> bool -> P bytes) : Prop :=
  forall G buf s, lone f s -> gave s = G -> pass f G buf (m 0 ENormal buf (negb f)) s.

Lemma cut_as (buf c rest : bytes) : buf = c ++ rest -> c = firstn (length c) buf.
Proof. intros ->. rewrite firstn_app, firstn_all, Nat.sub_diag, firstn_O. symmetry. apply app_nil_r. Qed.
Lemma W_section f G buf k rest fuel s (Q : bytes + bytes -> st -> Prop) : lone f s -> buf = firstn k buf ++ rest -> gave s = G ++ firstn k buf ->
  (forall j r s', lone f s' -> buf = firstn j buf ++ r -> gave s' = G ++ firstn j buf -> (f = true -> s_parsing s' = SUSPENDED) -> Q (inl r) s') ->
  (forall j r s', lone f s' -> buf = firstn j buf ++ r -> gave s' = G ++ firstn j buf -> Q (inr r) s') ->
  W (some_of G buf) (doCdataSection fuel ENormal rest (negb f)) s Q.
Proof.
  intros L E1 E2 H1 H2. eapply W_impF; [apply section_cut; [exact L|exact E2]| |].
  - intros s' S. rewrite E1. now apply some_more.
  - intros a s' S. apply cut_more in S. rewrite <- E1 in S. destruct S as [L' S].
    destruct a as [r|r]; [destruct S as [(c & S1 & S2) S3]|destruct S as (c & S1 & S2)]; pose proof (cut_as _ _ _ S1) as S0; [apply (H1 (length c))|apply (H2 (length c))]; auto; congruence.
Qed.
Lemma W_epilog r f G buf k rest s (Q : bytes -> st -> Prop) : lone f s -> buf = firstn k buf ++ rest -> gave s = G ++ firstn k buf ->
  (forall x s', goes_on f G buf x s' -> Q x s') -> W (some_of G buf) (epilogProcessor (rc_fuel r) rest) s Q.
Proof.
  intros L E1 E2 H1. eapply W_imp; [|exact H1]. eapply pass_step; [exact E1|]. apply pass_epilog; [exact L|exact E2].
Qed.
Lemma W_proc (F : st -> Prop) f p s (Q : unit -> st -> Prop) : lone f s -> normal p = true ->
  (forall s', lone f s' -> gave s' = gave s -> s_parsing s' = s_parsing s -> Q tt s') -> W F (upd (set_processor p)) s Q.
Proof. intros L N H. unfold W, upd. apply H; [destruct L; constructor; assumption|reflexivity|reflexivity]. Qed.
Ltac w3 := first
  [ match goal with
    | L : lone _ ?s |- W _ (upd (set_processor ?p)) ?s _ => apply (W_proc _ _ p s _ L eq_refl); intros ? ?L ?E ?Hp; cbv beta
    | L : lone _ ?s, E : gave ?s = _ |- W _ (start_tag _ ENormal _ _ _) ?s _ => eapply (W_start _ _ _ _ _ _ s _ L); [congruence|intros ? ?L ?E; cbv beta]
    | L : lone _ ?s, E : gave ?s = _ |- W _ (empty_tag _ ENormal _ _ _) ?s _ => eapply (W_empty _ _ _ _ _ _ s _ L); [congruence|intros ? ?L ?E; cbv beta]
    | L : lone _ ?s, E : gave ?s = _ |- W _ (end_tag ENormal _ _ _) ?s _ => eapply (W_end _ _ _ _ _ s _ L); [congruence|intros ? ?L ?E; cbv beta]
    | L : lone _ ?s, E : gave ?s = _ |- W _ (content_entity _ ENormal _ _ _) ?s _ => eapply (W_entity _ _ _ _ _ _ s _ L); [congruence|intros ? ?L ?E; cbv beta]
    | L : lone _ ?s, H : ?b = firstn ?k ?b ++ ?r |- W (some_of _ ?b) (doCdataSection _ ENormal ?r (negb _)) ?s _ =>
        eapply (W_section _ _ _ _ _ _ s _ L H); [congruence|intros ? ? ? ?L ?H ?E ?H; cbv beta iota|intros ? ? ? ?L ?H ?E; cbv beta iota]
    | L : lone _ ?s, H : ?b = firstn ?k ?b ++ ?r |- W (some_of _ ?b) (epilogProcessor _ ?r) ?s _ =>
        eapply (W_epilog _ _ _ _ _ _ s _ L H); [congruence|intros ? ? ?; cbv beta iota]
    end
  | w2 ].
Lemma content_pass r f : content_passes f (rc_content r) -> content_passes f (doContent r).
Proof.
  intros IH G buf s L E. unfold doContent, pass, maybe_epilog, end_of_text, set_event_n, set_event_end_n. cbn [Nat.eqb]. unfold before.
  repeat w3; fin.
  all: try assumption.
  all: try (eapply pass_step; [eassumption|apply IH; [assumption|congruence]]).
  intros Hf. left. rewrite Hp. auto.
Qed.

Lemma hs_pep : keeps hush hush (upd (fun s => match s_pep s with PEP_UNLESS_STANDALONE => set_pep PEP_NEVER s | _ => s end)).
Proof. apply keeps_upd. intros s f L. destruct (s_pep s) eqn:E; [auto|destruct L; congruence|auto]. Qed.
Lemma W_decl f G buf k g after s (Q : unit -> st -> Prop) : lone f s -> gave s = G -> (forall s', lone f s' -> gave s' = G ++ firstn k buf -> Q tt s') ->
  W (some_of G buf) (processXmlDecl g (firstn k buf) after) s Q.
Proof.
  intros L E HQ. unfold processXmlDecl, when, set_event_n.
  repeat first [w3|match goal with L : lone _ ?s |- W _ (upd (fun z => match s_pep z with _ => _ end)) ?s _ => eapply (W_keeps _ _ _ s); [apply hs_pep|exact L|intros ? ? ?; so|intros [] ? ?L ?E; cbv beta] end]; fin.
  all: try (apply HQ; [assumption|congruence]).
  all: try match goal with L : lone _ ?s, H : s_protocol ?s = None |- _ => destruct (lo_protocol _ _ L H) end.
Qed.
