(* addBinding accepts exactly the declarations that are allowed. *)
From Coq Require Import String List NArith ZArith Bool Arith Lia.
From Verif Require Import Base Encoding Tok TokMisc XmlDecl Status Role State AttVal Bind Atts Scaf Content Prolog Core.
From Verif Require Import Keep Walk LogWalk SpecNs.
From Verif Require Nest Api ApiInv.
From Coq Require Import List.
Import ListNotations.
Local Open Scope nat_scope.

(* equality of [uri] with a constant, as the loop computes it *)
Fixpoint prefixes (uri ns : bytes) : bool :=
  match uri, ns with
  | [], _ => true
  | _, [] => false
  | c :: uri, x :: ns => (c =? x)%N && prefixes uri ns
  end.
Lemma prefixes_eq uri : forall ns, prefixes uri ns && (length uri =? length ns) = beqb uri ns.
Proof.
  induction uri as [|c uri IH]; intros [|x ns]; cbn [prefixes length beqb andb]; try reflexivity.
  rewrite <- andb_assoc. change (S (length uri) =? S (length ns)) with (length uri =? length ns). rewrite IH. reflexivity.
Qed.
Lemma uri_loop_spec must uri : forall ns nsns a b len,
  uri_loop must uri ns nsns a b len =
    (a && prefixes uri ns, if must then b else b && prefixes uri nsns, len + length uri).
Proof.
  induction uri as [|c uri IH]; intros ns nsns a b len; cbn [uri_loop length].
  - destruct ns, nsns; cbn [prefixes]; rewrite !andb_true_r, Nat.add_0_r; destruct must; reflexivity.
  - rewrite IH. f_equal; [|lia]. f_equal.
    + destruct ns as [|x ns]; cbn [tl prefixes]; rewrite <- ?andb_assoc; [|reflexivity]. destruct uri; reflexivity.
    + destruct must; [reflexivity|]. destruct nsns as [|x nsns]; cbn [tl prefixes]; rewrite <- ?andb_assoc; [|reflexivity].
      destruct uri; reflexivity.
Qed.
Definition given (p : prefref) : option bytes := prefix_name p.
(* what addBinding does, without its loops *)
Definition verdict (name : option bytes) (uri : bytes) : option XML_Error :=
  let is n := match name with Some x => beqb x n | None => false end in
  if is_nil uri && (match name with Some _ => true | None => false end) then Some XE_UNDECLARING_PREFIX
  else if is xmlns_prefix then Some XE_RESERVED_PREFIX_XMLNS
  else if is xml_prefix then if beqb uri xml_name then None else Some XE_RESERVED_PREFIX_XML
  else if beqb uri xml_name then Some XE_RESERVED_NAMESPACE_URI
  else if beqb uri xmlns_name then Some XE_RESERVED_NAMESPACE_URI
  else None.
Definition accept (p : prefref) (attId : option bytes) (uri : bytes) (bs : list binding) : P (list binding) :=
  do sep <- get (fun s => c_sep (s_cfg s));
  do prev <- getd (binding_of p);
  let b := MkB p attId (uri ++ (if sep =? 0 then [] else [sep])%N) prev in
  let bound := match p with PDefault => if is_nil uri then None else Some b | _ => Some b end in
  upd_dtd (bind_prefix p bound) ;;;
  (match attId with
   | Some _ => emit h_startNs (EvStartNs (prefix_name p) (match bound with Some _ => Some uri | None => None end)) ;;; pret tt
   | None => pret tt
   end) ;;;
  pret (b :: bs).
Lemma beqb_true a b : beqb a b = true <-> a = b.
Proof. apply Nest.beqb_eq. Qed.
Lemma addBinding_eq p a uri bs : p <> PDangling ->
  addBinding p a uri bs = match verdict (prefix_name p) uri with Some e => fail e | None => accept p a uri bs end.
Proof.
  intros Hp. unfold addBinding, verdict.
  assert (E : forall (X Y : P (list binding)), X = Y -> match p with PDangling => die EOob | _ => X end = Y).
  { intros. destruct p; [assumption|assumption|congruence]. }
  apply E. clear E. destruct (is_nil uri && _); [reflexivity|].
  change (ascii "xmlns"%string) with xmlns_prefix. change (ascii "xml"%string) with xml_prefix.
  destruct (match prefix_name p with Some n => beqb n xmlns_prefix | None => false end); [reflexivity|].
  set (must := match prefix_name p with Some n => beqb n xml_prefix | None => false end).
  rewrite uri_loop_spec. cbn [andb Nat.add]. change xmlNamespace with xml_name. change xmlnsNamespace with xmlns_name.
  rewrite prefixes_eq.
  destruct must; cbn [xorb andb].
  - destruct (beqb uri xml_name) eqn:Ex; cbn [negb]; [|reflexivity].
    apply beqb_true in Ex. subst uri. reflexivity.
  - destruct (beqb uri xml_name) eqn:Ex; [reflexivity|]. rewrite prefixes_eq. destruct (beqb uri xmlns_name); reflexivity.
Qed.
Lemma not_true b (A : Prop) : (b = true <-> A) -> b = false -> ~ A.
Proof. intros H E Ha. apply H in Ha. congruence. Qed.
Lemma verdict_wrong name uri e : verdict name uri = Some e <-> wrong name uri e.
Proof.
  unfold verdict.
  assert (X : forall n, (match name with Some x => beqb x n | None => false end) = true <-> name = Some n).
  { intros n. destruct name as [x|]; [|split; discriminate]. rewrite beqb_true. split; [congruence|]. intros E. injection E. auto. }
  assert (X1 := X xmlns_prefix). assert (X2 := X xml_prefix). clear X.
  assert (Y1 := beqb_true uri xml_name). assert (Y2 := beqb_true uri xmlns_name).
  assert (Z : is_nil uri && (match name with Some _ => true | None => false end) = true <-> uri = [] /\ name <> None).
  { destruct uri, name; cbn; split; try discriminate; try (intros [? ?]; congruence). intros _. split; [reflexivity|discriminate]. }
  destruct (is_nil uri && _); [|apply not_true in Z; [|reflexivity]].
  { destruct (proj1 Z eq_refl) as [-> Hn]. split.
    - intros E. injection E as <-. constructor; auto.
    - intros H. inversion H; try reflexivity; try congruence; discriminate. }
  destruct (match name with Some x => beqb x xmlns_prefix | None => false end); [|apply not_true in X1; [|reflexivity]].
  { pose proof (proj1 X1 eq_refl) as Hn.
    assert (uri <> []) by (intros ->; apply Z; split; [reflexivity|congruence]). split.
    - intros E. injection E as <-. constructor; auto.
    - intros H1. inversion H1; try reflexivity; try contradiction. rewrite Hn in H0. discriminate. }
  destruct (match name with Some x => beqb x xml_prefix | None => false end); [|apply not_true in X2; [|reflexivity]].
  { pose proof (proj1 X2 eq_refl) as Hn.
    assert (uri <> []) by (intros ->; apply Z; split; [reflexivity|congruence]).
    destruct (beqb uri xml_name); [|apply not_true in Y1; [|reflexivity]].
    - pose proof (proj1 Y1 eq_refl). split; [discriminate|]. intros H1. inversion H1; contradiction.
    - split.
      + intros E. injection E as <-. apply wr_xml; auto.
      + intros H1. inversion H1; try reflexivity; contradiction. }
  destruct (beqb uri xml_name); [|apply not_true in Y1; [|reflexivity]].
  { pose proof (proj1 Y1 eq_refl) as ->. split.
    - intros E. injection E as <-. apply wr_xml_name; auto.
    - intros H1. inversion H1; try reflexivity; try contradiction. discriminate. }
  destruct (beqb uri xmlns_name); [|apply not_true in Y2; [|reflexivity]].
  { pose proof (proj1 Y2 eq_refl) as ->. split.
    - intros E. injection E as <-. apply wr_xmlns_name; auto.
    - intros H1. inversion H1; try reflexivity; try contradiction. discriminate. }
  split; [discriminate|]. intros H1. inversion H1; try contradiction. elim Z. auto.
Qed.
Lemma verdict_allowed name uri : verdict name uri = None <-> allowed name uri.
Proof.
  split.
  - intros E. assert (Hw : forall e, ~ wrong name uri e) by (intros e H; apply verdict_wrong in H; congruence).
    assert (D : forall n : bytes, name = Some n \/ name <> Some n).
    { intros n. destruct name as [x|]; [|right; discriminate]. destruct (list_eq_dec N.eq_dec x n); [left; congruence|right; congruence]. }
    assert (Du : forall u : bytes, uri = u \/ uri <> u) by (intros u; destruct (list_eq_dec N.eq_dec uri u); auto).
    assert (H2 : name <> None -> uri <> []) by (intros Hn Hu; apply (Hw XE_UNDECLARING_PREFIX); constructor; assumption).
    assert (H1 : name <> Some xmlns_prefix).
    { intros Hn. apply (Hw XE_RESERVED_PREFIX_XMLNS). constructor; [assumption|]. apply H2. congruence. }
    assert (H3 : name = Some xml_prefix <-> uri = xml_name).
    { split; intros H.
      - destruct (Du xml_name) as [|Hn]; [assumption|]. exfalso. apply (Hw XE_RESERVED_PREFIX_XML).
        apply wr_xml; [assumption|apply H2; congruence|assumption].
      - destruct (D xml_prefix) as [|Hn]; [assumption|]. exfalso. apply (Hw XE_RESERVED_NAMESPACE_URI).
        apply wr_xml_name; assumption. }
    split; [assumption|assumption| |assumption].
    intros Hu. destruct (D xml_prefix) as [Hn|Hn].
    + apply H3 in Hn. rewrite Hn in Hu. discriminate.
    + apply (Hw XE_RESERVED_NAMESPACE_URI). apply wr_xmlns_name; assumption.
  - intros [A1 A2 A3 A4]. destruct (verdict name uri) as [e|] eqn:E; [|reflexivity]. exfalso.
    apply verdict_wrong in E. destruct E; [apply A4; assumption|apply A2; assumption|apply A1 in H; contradiction
      |apply A1 in H1; contradiction|contradiction].
Qed.

(* accepted: the binding is in force, and the start-namespace handler is told *)
Lemma addBinding_accepts p a uri bs s : p <> PDangling -> allowed (prefix_name p) uri ->
  exists b s', addBinding p a uri bs s = Ret (b :: bs) s' /\
    b_prefix b = p /\ b_prev b = binding_of p (s_dtd s).
Proof.
  intros Hp Ha. rewrite addBinding_eq by assumption. apply verdict_allowed in Ha. rewrite Ha.
  unfold accept, pbind, get, getd, upd_dtd, upd, emit, handler, pret. cbv beta zeta iota.
  destruct a; [|do 2 eexists; split; [reflexivity|split; reflexivity]].
  unfold pbind, get. destruct (h_startNs _); do 2 eexists; (split; [reflexivity|split; reflexivity]).
Qed.
Lemma addBinding_rejects p a uri bs s e : p <> PDangling -> wrong (prefix_name p) uri e -> addBinding p a uri bs s = Fail e s.
Proof. intros Hp Hw. rewrite addBinding_eq by assumption. apply verdict_wrong in Hw. rewrite Hw. reflexivity. Qed.

(* every start-namespace event *)
Definition ns_ok (e : event) : Prop :=
  match e with EvStartNs p u => allowed p (match u with Some u => u | None => [] end) | _ => True end.
Lemma ns_bind p a uri bs : keeps (logged ns_ok) (logged ns_ok) (addBinding p a uri bs).
Proof.
  assert (fr := frame_logged ns_ok).
  destruct p; [| |intros s; exact I].
  all: rewrite addBinding_eq by discriminate.
  all: destruct (verdict _ uri) eqn:Ev;
    [apply (keeps_fail _ _ fr); intros ->; apply verdict_wrong in Ev; inversion Ev|].
  all: apply verdict_allowed in Ev; unfold accept; cbn [prefix_name] in *.
  all: walk fr ltac:(idtac; match goal with
    | |- keeps _ _ (upd_dtd _) => apply logged_dtd
    | |- keeps _ _ (emit _ _) => unfold emit
    | |- keeps _ _ (call _) => apply logged_call; cbn [ns_ok]
    end).
  - destruct uri; exact Ev.
  - exact Ev.
Qed.
Lemma ns_steps n os c a l : Forall ApiInv.plain os -> s_log c = [] ->
  Api.steps (run (knot n)) start position os (new_parser c) = Ok (a, l) ->
  forall q p u, In (q, EvStartNs p u) (s_log (Api.core a)) -> allowed p (match u with Some u => u | None => [] end).
Proof.
  intros Hos Hl E q p u Hi.
  assert (H : logged ns_ok c (Api.core a)).
  { eapply logged_steps; [..|exact Hos|exact E]; try (intros; exact I); [|exact ns_bind].
    intros []; cbn; try discriminate; auto. }
  destruct H as (new & Hn & F). rewrite Hl, app_nil_r in Hn. rewrite Hn in Hi.
  rewrite Forall_forall in F. exact (F _ Hi).
Qed.
Lemma allowed_or_wrong prefix uri : allowed prefix uri \/ exists e, wrong prefix uri e.
Proof.
  destruct (verdict prefix uri) as [e|] eqn:E; [right; exists e; apply verdict_wrong, E|left; apply verdict_allowed, E].
Qed.
