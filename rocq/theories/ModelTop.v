(* Element declarations through the prolog loop: what the handler gets is the tree of the declaration. *)
From Coq Require Import String List NArith ZArith Bool Arith Lia.
From Coq Require Import ZifyBool ZifyNat ZifyN.
From Verif Require Import Base Encoding Tok TokMisc Status Role SpecText SpecUnicode SpecLex SpecRole State Atts Scaf Content Prolog Core RoleLaws SpecModel ScafLaws.
From Verif Require TokEmit.
Import ListNotations.
Local Open Scope list_scope.
Local Open Scope nat_scope.

Record seen := {
  l_role : pstate; l_scaf : list scafnode; l_index : list nat; l_cslen : nat; l_on : bool;
  l_el : option bytes; l_log : list (nat * event); l_con : N -> N }.
Definition con (g : list (N * N)) (lv : N) : N := match find (fun p => (fst p =? lv)%N) g with Some p => snd p | None => 0%N end.

Section Run.
Variable e : EncImpl.
Variable enc : N -> list N.
Hypothesis SH : shape e enc.
Variable t : enctype.
Variable cfg : config.
Variable es : encstate.
Variable pid : nat.
Hypothesis reading : match t with ENormal => es = EKnown e | EInternal => e = if c_ns cfg then internal_utf8_encoding_ns else internal_utf8_encoding end.
Hypothesis Hdecl : h_elementDecl (c_h cfg) = true.
Hypothesis Hdef : h_default (c_h cfg) = false.
Hypothesis Hstop : forall log, stop (c_app cfg log) = None.

Record sees (s : st) (v : seen) : Prop := {
  e_role : s_role s = l_role v;
  e_scaf : d_scaf (s_dtd s) = l_scaf v;
  e_index : d_index (s_dtd s) = l_index v;
  e_cslen : d_cslen (s_dtd s) = l_cslen v;
  e_on : d_inEldecl (s_dtd s) = l_on v;
  e_el : s_declElement s = l_el v;
  e_log : s_log s = l_log v;
  e_con : forall lv, con (s_group s) lv = l_con v lv;
  e_cfg : s_cfg s = cfg;
  e_enc : s_enc s = es;
  e_pid : s_pid s = pid;
  e_parsing : s_parsing s = PARSING }.

Definition plain_role (r : ROLE) : bool := match r with R_INSTANCE_START | R_IGNORE_SECT => false | _ => true end.
(* one token *)
Definition goes (x : XML_TOK * bytes) (v v' : seen) : Prop :=
  forall s r tok allow after, sees s v -> token_ok e (fst x, tok) -> text_of e (fst x, tok) = snd x ->
  exists p role, rstep e (l_role v) (fst x) (snd x) = (p, role) /\ plain_role role = true /\
    exists h s', role_action r role (fst x) t e allow tok after (set_role p s) = Ret h s' /\ sees s' v'.
Definition stops (x : XML_TOK * bytes) (v : seen) : Prop :=
  forall s r tok allow after, sees s v -> token_ok e (fst x, tok) -> text_of e (fst x, tok) = snd x ->
  exists p role, rstep e (l_role v) (fst x) (snd x) = (p, role) /\ plain_role role = true /\
    exists s', role_action r role (fst x) t e allow tok after (set_role p s) = Fail XE_SYNTAX s' /\ s_log s' = l_log v.
Definition still (v : seen) : Prop := goes (T_PROLOG_S, []) v v.
Inductive runs : seen -> list (XML_TOK * bytes) -> seen -> Prop :=
| runs_nil v : still v -> runs v [] v
| runs_cons v x l v1 v' : still v -> fst x <> T_PROLOG_S -> goes x v v1 -> runs v1 l v' -> runs v (x :: l) v'.
(* the token of an error is the last *)
Inductive breaks (lg : list (nat * event)) : seen -> list (XML_TOK * bytes) -> Prop :=
| breaks_here v x l : still v -> fst x <> T_PROLOG_S -> stops x v -> l_log v = lg -> breaks lg v (x :: l)
| breaks_later v x l v1 : still v -> fst x <> T_PROLOG_S -> goes x v v1 -> breaks lg v1 l -> breaks lg v (x :: l).
Lemma runs_app v a v1 b v2 : runs v a v1 -> runs v1 b v2 -> runs v (a ++ b) v2.
Proof. induction 1 as [v Hs|v x l v1 v' Hs Hx Hg Hr IH]; intros Hb; [exact Hb|]. cbn [app]. apply runs_cons with v1; auto. Qed.
Lemma breaks_app lg v a v1 b : runs v a v1 -> breaks lg v1 b -> breaks lg v (a ++ b).
Proof. induction 1 as [v Hs|v x l v1 v' Hs Hx Hg Hr IH]; intros Hb; [exact Hb|]. cbn [app]. apply breaks_later with v1; auto. Qed.
Lemma breaks_more lg v a b : breaks lg v a -> breaks lg v (a ++ b).
Proof. induction 1 as [v x l Hs Hx Hg Hl|v x l v1 Hs Hx Hg Hr IH]; cbn [app]; [apply breaks_here; auto|apply breaks_later with v1; auto]. Qed.

(* the loop *)
Lemma encoding_is s v : sees s v -> encoding t s = Ret e s.
Proof.
  intros H. unfold encoding. rewrite (e_cfg _ _ H), (e_enc _ _ H). destruct t; rewrite reading; reflexivity.
Qed.
Lemma scan_is s v b : sees s v -> scan_as t false b s = lift (prologTok e b) s.
Proof.
  intros H. unfold scan_as. pose proof (encoding_is _ _ H) as He. revert He. destruct t.
  - intros _. unfold scan. rewrite (e_enc _ _ H), reading. reflexivity.
  - intros He. unfold pbind. rewrite He. reflexivity.
Qed.
Definition mark (b : bytes) (n : nat) (s : st) : st :=
  if is_internal t then s else set_evEnd (Some (length b - n)) (set_ev (Some (length b)) s).
Lemma mark_sees b n s v : sees s v -> sees (mark b n s) v.
Proof. intros H. unfold mark. destruct (is_internal t); [exact H|]. destruct H; constructor; assumption. Qed.
Lemma loop_enter m b k n more allow s v p role tok :
  sees s v -> prologTok e b = Ok (k, Some n) -> tok_is_error k = false -> n <= length b -> tok = firstn n b -> token_ok e (k, tok) ->
  rstep e (l_role v) k (text_of e (k, tok)) = (p, role) -> plain_role role = true ->
  prolog_from (S m) t b more allow s =
  match role_action (knot m) role k t e allow tok (length (skipn n b)) (set_role p (mark b n s)) with
  | Ret h s' => pbind (when h (reportDefault t tok (length (skipn n b)))) (fun _ =>
        do p <- get s_parsing;
        match p with
        | SUSPENDED => pret (skipn n b)
        | FINISHED => fail XE_ABORTED
        | _ => prolog_from m t (skipn n b) more allow
        end) s'
  | Fail x s' => Fail x s'
  | Die x => Die x
  end.
Proof.
  intros Hv Hk He Hn -> Ht Hr Hp. unfold prolog_from at 1. unfold pbind at 1. rewrite (scan_is _ _ _ Hv), Hk. cbn [lift].
  change (rc_prolog (knot (S m))) with (doProlog (knot m)). unfold doProlog.
  assert (E1 : forall A (f : unit -> P A), pbind (set_event t b) (fun _ => pbind (set_event_end_tok t false b (Some n)) f) s = f tt (mark b n s)).
  { intros A f. unfold mark, set_event, set_event_end_tok. destruct (is_internal t); reflexivity. }
  rewrite E1. unfold pbind at 1. rewrite (encoding_is _ _ (mark_sees b n _ _ Hv)). rewrite He. unfold rest_after, inc.
  rewrite inc_start_skipn by exact Hn. unfold pbind at 1. cbn [lift].
  unfold before. rewrite skipn_length. replace (length b - (length b - n)) with n by lia.
  unfold Prolog.role_of. unfold pbind at 1 2 3. unfold get at 1.
  rewrite (e_role _ _ (mark_sees b n _ _ Hv)), (token_role_rstep e enc SH) by exact Ht.
  match goal with |- context [rstep e (l_role v) k ?x] => replace (rstep e (l_role v) k x) with (p, role) by (symmetry; exact Hr) end. cbn [lift].
  unfold pbind at 1, upd at 1, pret at 1. unfold pbind at 1.
  assert (E2 : forall s0, role_step (knot m) role k t e more allow b (firstn n b) (skipn n b) s0 =
    (do hd0 <- role_action (knot m) role k t e allow (firstn n b) (length (skipn n b)); pret (Next hd0 (skipn n b))) s0).
  { intros s0. destruct role; try discriminate Hp; reflexivity. }
  rewrite E2. unfold pbind at 1. rewrite skipn_length.
  destruct (role_action _ _ _ _ _ _ _ _ _) as [h s'|x s'|x]; [|reflexivity|reflexivity]. unfold pret at 1. cbv beta iota. rewrite skipn_length. reflexivity.
Qed.

Lemma quiet_default h tok after s' v : sees s' v -> when h (reportDefault t tok after) s' = Ret tt s'.
Proof.
  intros H. destruct h; [|reflexivity]. unfold when, reportDefault, pbind, handler, get. rewrite (e_cfg _ _ H), Hdef. reflexivity.
Qed.
Lemma loop_go m b k n more allow s v v' :
  sees s v -> prologTok e b = Ok (k, Some n) -> tok_is_error k = false -> n <= length b -> token_ok e (k, firstn n b) ->
  goes (k, text_of e (k, firstn n b)) v v' ->
  exists s', prolog_from (S m) t b more allow s = prolog_from m t (skipn n b) more allow s' /\ sees s' v'.
Proof.
  intros Hv Hk He Hn Ht Hg.
  destruct (Hg (mark b n s) (knot m) (firstn n b) allow (length (skipn n b)) (mark_sees b n _ _ Hv) Ht eq_refl) as (p & role & Hr & Hp & h & s' & Ha & Hv').
  exists s'. split; [|exact Hv']. cbn [fst snd] in *. rewrite (loop_enter m b k n more allow s v p role _ Hv Hk He Hn eq_refl Ht Hr Hp). rewrite Ha.
  unfold pbind at 1. rewrite (quiet_default _ _ _ _ _ Hv'). unfold pbind, get. rewrite (e_parsing _ _ Hv'). reflexivity.
Qed.
Lemma loop_stop m b k n more allow s v :
  sees s v -> prologTok e b = Ok (k, Some n) -> tok_is_error k = false -> n <= length b -> token_ok e (k, firstn n b) ->
  stops (k, text_of e (k, firstn n b)) v ->
  exists s', prolog_from (S m) t b more allow s = Fail XE_SYNTAX s' /\ s_log s' = l_log v.
Proof.
  intros Hv Hk He Hn Ht Hg.
  destruct (Hg (mark b n s) (knot m) (firstn n b) allow (length (skipn n b)) (mark_sees b n _ _ Hv) Ht eq_refl) as (p & role & Hr & Hp & s' & Ha & Hl).
  exists s'. split; [|exact Hl]. cbn [fst snd] in *. rewrite (loop_enter m b k n more allow s v p role _ Hv Hk He Hn eq_refl Ht Hr Hp). rewrite Ha. reflexivity.
Qed.
Lemma toks_cons k b ts : toks e ((k, b) :: ts) = if tok_eqb k T_PROLOG_S then toks e ts else (k, text_of e (k, b)) :: toks e ts.
Proof. unfold toks. cbn [map filter fst]. destruct (tok_eqb k T_PROLOG_S); reflexivity. Qed.
Lemma tok_eqb_true a b : tok_eqb a b = true -> a = b.
Proof. unfold tok_eqb. destruct (XML_TOK_eq_dec a b); [auto|discriminate]. Qed.
Lemma tok_eqb_refl a : tok_eqb a a = true.
Proof. unfold tok_eqb. destruct (XML_TOK_eq_dec a a); [auto|contradiction]. Qed.
Lemma runs_still v l v' : runs v l v' -> still v.
Proof. destruct 1; assumption. Qed.
Lemma breaks_still lg v l : breaks lg v l -> still v.
Proof. destruct 1; assumption. Qed.
Lemma loop_runs b ts rest : lexed e b ts rest -> Forall (token_ok e) ts -> forall m more allow v v', runs v (toks e ts) v' ->
  forall s, sees s v -> exists s', prolog_from (length ts + m) t b more allow s = prolog_from m t rest more allow s' /\ sees s' v'.
Proof.
  intros HL HF m more allow v v' Hr s Hv. revert v Hr s Hv. induction HL as [b|b k n ts rest Hk He Hn HL IH]; intros v Hr s Hv.
  - inversion Hr; subst. exists s. split; [reflexivity|exact Hv].
  - inversion HF as [|? ? F1 F2]; subst. rewrite toks_cons in Hr. destruct (tok_eqb k T_PROLOG_S) eqn:E.
    + apply tok_eqb_true in E. subst k.
      destruct (loop_go (length ts + m) b T_PROLOG_S n more allow s v v Hv Hk He Hn F1 (runs_still _ _ _ Hr)) as (s1 & E1 & V1).
      destruct (IH F2 v Hr s1 V1) as (s2 & E2 & V2). exists s2. split; [|exact V2]. cbn [length Nat.add]. rewrite E1. exact E2.
    + inversion Hr as [|? ? ? v1 ? Hs Hx Hg Hr']; subst.
      destruct (loop_go (length ts + m) b k n more allow s v v1 Hv Hk He Hn F1 Hg) as (s1 & E1 & V1).
      destruct (IH F2 v1 Hr' s1 V1) as (s2 & E2 & V2). exists s2. split; [|exact V2]. cbn [length Nat.add]. rewrite E1. exact E2.
Qed.
Lemma loop_breaks b ts rest : lexed e b ts rest -> Forall (token_ok e) ts -> forall m more allow v lg, breaks lg v (toks e ts) ->
  forall s, sees s v -> exists s', prolog_from (length ts + m) t b more allow s = Fail XE_SYNTAX s' /\ s_log s' = lg.
Proof.
  intros HL HF m more allow v lg Hr s Hv. revert v Hr s Hv. induction HL as [b|b k n ts rest Hk He Hn HL IH]; intros v Hr s Hv.
  - inversion Hr.
  - inversion HF as [|? ? F1 F2]; subst. rewrite toks_cons in Hr. destruct (tok_eqb k T_PROLOG_S) eqn:E.
    + apply tok_eqb_true in E. subst k.
      destruct (loop_go (length ts + m) b T_PROLOG_S n more allow s v v Hv Hk He Hn F1 (breaks_still _ _ _ Hr)) as (s1 & E1 & V1).
      destruct (IH F2 v Hr s1 V1) as (s2 & E2 & V2). exists s2. split; [|exact V2]. cbn [length Nat.add]. rewrite E1. exact E2.
    + inversion Hr as [? ? ? Hs Hx Hg Hlg|? ? ? v1 Hs Hx Hg Hr']; subst.
      * destruct (loop_stop (length ts + m) b k n more allow s v Hv Hk He Hn F1 Hg) as (s1 & E1 & V1). exists s1. split; [exact E1|exact V1].
      * destruct (loop_go (length ts + m) b k n more allow s v v1 Hv Hk He Hn F1 Hg) as (s1 & E1 & V1).
        destruct (IH F2 v1 Hr' s1 V1) as (s2 & E2 & V2). exists s2. split; [|exact V2]. cbn [length Nat.add]. rewrite E1. exact E2.
Qed.

Notation V := Build_seen.
Notation St q lv rn i d := {| hd := q; level := lv; role_none := rn; include := i; doc := d |}.
Lemma sees_role p s p0 sc ix cs on el lg cn : sees s (V p0 sc ix cs on el lg cn) -> sees (set_role p s) (V p sc ix cs on el lg cn).
Proof. intros H. destruct H; constructor; try assumption. reflexivity. Qed.
Lemma sees_dtd d s p sc ix cs on el lg cn sc' ix' cs' on' : sees s (V p sc ix cs on el lg cn) ->
  d_scaf d = sc' -> d_index d = ix' -> d_cslen d = cs' -> d_inEldecl d = on' -> sees (set_dtd d s) (V p sc' ix' cs' on' el lg cn).
Proof. intros H H1 H2 H3 H4. destruct H; constructor; assumption. Qed.
Lemma con_set g lv c n : con ((lv, c) :: filter (fun p => negb (fst p =? lv)%N) g) n = if (n =? lv)%N then c else con g n.
Proof.
  unfold con at 1. cbn [find fst]. rewrite N.eqb_sym. destruct (N.eqb_spec n lv) as [->|Hn]; [reflexivity|].
  unfold con. induction g as [|[a b] g IH]; [reflexivity|]. cbn [filter find fst].
  destruct (N.eqb_spec a lv) as [->|Ha]; cbn [negb].
  - destruct (N.eqb_spec lv n); [congruence|]. exact IH.
  - cbn [find fst]. destruct (a =? n)%N; [reflexivity|exact IH].
Qed.
Lemma sees_con c s p sc ix cs on el lg cn : sees s (V p sc ix cs on el lg cn) ->
  sees (set_connector c s) (V p sc ix cs on el lg (fun n => if (n =? level p)%N then c else cn n)).
Proof.
  intros H. destruct H as [H1 H2 H3 H4 H5 H6 H7 H8 H9 H10 H11 H12]. constructor; try assumption.
  cbn [l_con]. intros lv. unfold set_connector. cbn [s_group set_group]. rewrite H1. cbn [l_role]. rewrite con_set, H8. reflexivity.
Qed.
Lemma sees_log ev s p sc ix cs on el lg cn : sees s (V p sc ix cs on el lg cn) ->
  exists s', (call ev ;;; pret tt) s = Ret tt s' /\ sees s' (V p sc ix cs on el ((pid, ev) :: lg) cn).
Proof.
  intros H. unfold pbind, call, pret. eexists. split; [reflexivity|].
  destruct H as [H1 H2 H3 H4 H5 H6 H7 H8 H9 H10 H11 H12]. cbn [l_log] in H7. constructor; try assumption.
  - cbn [s_log set_parsing set_log l_log]. rewrite H7, H11. reflexivity.
  - cbn [s_parsing set_parsing]. unfold stopped. rewrite H9, Hstop. exact H12.
Qed.
Lemma on_is s p sc ix cs on el lg cn A (f : bool -> P A) : sees s (V p sc ix cs on el lg cn) -> pbind (getd d_inEldecl) f s = f on s.
Proof. intros H. unfold pbind, getd, get. rewrite (e_on _ _ H). reflexivity. Qed.
Lemma h_is s v A (f : bool -> P A) : sees s v -> pbind (handler h_elementDecl) f s = f true s.
Proof. intros H. unfold pbind, handler, get. rewrite (e_cfg _ _ H), Hdecl. reflexivity. Qed.
Lemma quiet_is s v : sees s v -> quiet h_elementDecl s = Ret false s.
Proof. intros H. unfold quiet. rewrite (h_is _ _ _ _ H). reflexivity. Qed.
Lemma upd_is A f (k : P A) s : pbind (upd f) (fun _ => k) s = k (f s).
Proof. reflexivity. Qed.
Lemma get_is A B (g : st -> A) (f : A -> P B) s : pbind (get g) f s = f (g s) s.
Proof. reflexivity. Qed.
Lemma lift_is A B (x : A) (f : A -> P B) s r : r = Ok x -> pbind (lift r) f s = f x s.
Proof. intros ->. reflexivity. Qed.

Section Act.
Variables (r : recs) (k : XML_TOK) (allow : bool) (tok : bytes) (after : nat).
Notation act role := (role_action r role k t e allow tok after).
Lemma act_none s v : sees s v -> act R_ELEMENT_NONE s = Ret false s.
Proof. apply quiet_is. Qed.
Lemma act_open s p sc ix cs el lg cn sc1 : sees s (V p sc ix cs true el lg cn) -> next_part sc ix = Ok (sc1 ++ [node0], length sc1) ->
  exists h s', act R_GROUP_OPEN s = Ret h s' /\
  sees s' (V p (sc1 ++ lay (ScafLaws.group CT_SEQ []) (length sc1) 0) (length sc1 :: ix) cs true el lg (fun n => if (n =? level p)%N then 0%N else cn n)).
Proof.
  intros H Hn. unfold role_action. rewrite upd_is. pose proof (sees_con 0 _ _ _ _ _ _ _ _ _ H) as H'. revert H'. generalize (set_connector 0 s) as s0. intros s0 H0.
  rewrite (on_is _ _ _ _ _ _ _ _ _ _ _ H0), get_is.
  assert (E : scaf_open (s_dtd s0) = Ok (set_d_index (length sc1 :: d_index (s_dtd s0)) (set_d_scaf (sc1 ++ lay (ScafLaws.group CT_SEQ []) (length sc1) 0) (s_dtd s0)))).
  { unfold scaf_open. rewrite (e_scaf _ _ H0), (e_index _ _ H0). cbn [l_scaf l_index]. rewrite Hn. cbn [bind]. rewrite modify_mid. reflexivity. }
  rewrite (lift_is _ _ _ _ _ _ E), upd_is.
  match goal with |- context [quiet h_elementDecl ?s1] => assert (H1 : sees s1 (V p (sc1 ++ lay (ScafLaws.group CT_SEQ []) (length sc1) 0) (length sc1 :: ix) cs true el lg (fun n => if (n =? level p)%N then 0%N else cn n))) end.
  { eapply sees_dtd; [exact H0|reflexivity| |exact (e_cslen _ _ H0)|exact (e_on _ _ H0)]. cbn [d_index set_d_index]. rewrite (e_index _ _ H0). reflexivity. }
  rewrite (quiet_is _ _ H1). eexists. eexists. split; [reflexivity|exact H1].
Qed.
Lemma con_is s p sc ix cs on el lg cn A (f : N -> P A) : sees s (V p sc ix cs on el lg cn) -> pbind (get Prolog.connector) f s = f (cn (level p)) s.
Proof.
  intros H. rewrite get_is. change (Prolog.connector s) with (con (s_group s) (level (s_role s))). rewrite (e_con _ _ H), (e_role _ _ H). reflexivity.
Qed.
Lemma act_seq s p sc ix cs el lg cn : sees s (V p sc ix cs true el lg cn) -> cn (level p) <> 124%N ->
  exists h s', act R_GROUP_SEQUENCE s = Ret h s' /\ sees s' (V p sc ix cs true el lg (fun n => if (n =? level p)%N then 44%N else cn n)).
Proof.
  intros H Hc. unfold role_action. rewrite (con_is _ _ _ _ _ _ _ _ _ _ _ H). destruct (N.eqb_spec (cn (level p)) 124); [contradiction|].
  rewrite upd_is. pose proof (sees_con 44 _ _ _ _ _ _ _ _ _ H) as H'. rewrite (on_is _ _ _ _ _ _ _ _ _ _ _ H'). rewrite (quiet_is _ _ H').
  eexists. eexists. split; [reflexivity|exact H'].
Qed.
Lemma stop_seq s p sc ix cs on el lg cn : sees s (V p sc ix cs on el lg cn) -> cn (level p) = 124%N -> act R_GROUP_SEQUENCE s = Fail XE_SYNTAX s.
Proof. intros H Hc. unfold role_action. rewrite (con_is _ _ _ _ _ _ _ _ _ _ _ H), Hc. reflexivity. Qed.
Lemma stop_choice s p sc ix cs on el lg cn : sees s (V p sc ix cs on el lg cn) -> cn (level p) = 44%N -> act R_GROUP_CHOICE s = Fail XE_SYNTAX s.
Proof. intros H Hc. unfold role_action. rewrite (con_is _ _ _ _ _ _ _ _ _ _ _ H), Hc. reflexivity. Qed.
Lemma act_choice s p sc1 ms ix cs el lg cn ty : sees s (V p (sc1 ++ lay (ScafLaws.group ty ms) (length sc1) 0) (length sc1 :: ix) cs true el lg cn) ->
  (cn (level p) = 0%N /\ ty = CT_SEQ \/ cn (level p) = 124%N /\ ty = CT_CHOICE) ->
  exists h s', act R_GROUP_CHOICE s = Ret h s' /\
  sees s' (V p (sc1 ++ lay (ScafLaws.group CT_CHOICE ms) (length sc1) 0) (length sc1 :: ix) cs true el lg (fun n => if (n =? level p)%N then 124%N else cn n)).
Proof.
  intros H Hc. unfold role_action. rewrite (con_is _ _ _ _ _ _ _ _ _ _ _ H). destruct Hc as [[Hc ->]|[Hc ->]]; rewrite Hc.
  - change (0 =? 44)%N with false. cbv iota. rewrite (on_is _ _ _ _ _ _ _ _ _ _ _ H). change (true && (0 =? 0)%N) with true. cbv iota.
    unfold pbind at 1. rewrite get_is, (e_index _ _ H). cbn [l_index hd_error some]. unfold pbind at 1. unfold pret at 1.
    assert (E1 : nth_error_res (d_scaf (s_dtd s)) (length sc1) = Ok (root_node (ScafLaws.group CT_SEQ ms) (length sc1) 0)).
    { rewrite (e_scaf _ _ H). cbn [l_scaf]. unfold nth_error_res. rewrite nth_error_app2, Nat.sub_diag by lia. reflexivity. }
    rewrite (lift_is _ _ _ _ _ _ E1). cbn [root_node ScafLaws.group sn_type].
    assert (E2 : scaf_choice (s_dtd s) = Ok (set_d_scaf (sc1 ++ lay (ScafLaws.group CT_CHOICE ms) (length sc1) 0) (s_dtd s))).
    { unfold scaf_choice, scaf_top. rewrite (e_index _ _ H), (e_scaf _ _ H). cbn [l_index l_scaf]. unfold ScafLaws.group at 1. rewrite lay_eq, modify_mid. reflexivity. }
    rewrite (lift_is _ _ _ _ _ _ E2), upd_is.
    match goal with |- context [quiet h_elementDecl ?s1] => assert (H1 : sees s1 (V p (sc1 ++ lay (ScafLaws.group CT_CHOICE ms) (length sc1) 0) (length sc1 :: ix) cs true el lg cn)) end.
    { eapply sees_dtd; [exact H|reflexivity|exact (e_index _ _ H)|exact (e_cslen _ _ H)|exact (e_on _ _ H)]. }
    rewrite (quiet_is _ _ H1). rewrite upd_is. eexists. eexists. split; [reflexivity|]. exact (sees_con 124 _ _ _ _ _ _ _ _ _ H1).
  - change (124 =? 44)%N with false. cbv iota. rewrite (on_is _ _ _ _ _ _ _ _ _ _ _ H). change (true && (124 =? 0)%N) with false. cbv iota.
    unfold pbind at 1. unfold pret at 1. rewrite upd_is. eexists. eexists. split; [reflexivity|]. exact (sees_con 124 _ _ _ _ _ _ _ _ _ H).
Qed.
Lemma insert_elem_same b nm d : d_scaf (insert_elem b nm d) = d_scaf d /\ d_index (insert_elem b nm d) = d_index d /\ d_cslen (insert_elem b nm d) = d_cslen d /\ d_inEldecl (insert_elem b nm d) = d_inEldecl d.
Proof.
  unfold insert_elem. destruct (look nm (d_elems d)); [auto|]. destruct b; [|auto]. destruct (elem_prefix nm) as [[]|]; auto.
  unfold insert_prefix. match goal with |- context [match ?x with Some _ => _ | None => _ end] => destruct x end; auto.
Qed.
Lemma elem_is b nm A (f : bytes -> P A) s p sc ix cs on el lg cn : sees s (V p sc ix cs on el lg cn) -> conv e b = Ok nm ->
  exists s', sees s' (V p sc ix cs on el lg cn) /\ pbind (getElementType t b) f s = f nm s'.
Proof.
  intros H Hc. unfold getElementType, store. unfold pbind at 1 2 3. rewrite (encoding_is _ _ H), Hc. cbn [lift]. unfold pbind at 1, upd_dtd, upd, pret.
  eexists. split; [|reflexivity]. destruct (insert_elem_same true nm (s_dtd s)) as (I1 & I2 & I3 & I4).
  eapply sees_dtd; [exact H|rewrite I1; exact (e_scaf _ _ H)|rewrite I2; exact (e_index _ _ H)|rewrite I3; exact (e_cslen _ _ H)|rewrite I4; exact (e_on _ _ H)].
Qed.
Lemma act_element s p sc ix cs on el lg cn nm : sees s (V p sc ix cs on el lg cn) -> conv e tok = Ok nm ->
  exists h s', act R_ELEMENT_NAME s = Ret h s' /\ sees s' (V p [] [] cs true (Some nm) lg cn).
Proof.
  intros H Hc. unfold role_action. rewrite (h_is _ _ _ _ H).
  match goal with |- context [pbind (getElementType t tok) ?f s] => destruct (elem_is tok nm _ f _ _ _ _ _ _ _ _ _ H Hc) as (s1 & H1 & E1) end.
  rewrite E1, upd_is. eexists. eexists. split; [reflexivity|]. destruct H1; constructor; try assumption; reflexivity.
Qed.
Lemma act_name q s p sc ix cs el lg cn sc1 nm : sees s (V p sc ix cs true el lg cn) -> next_part sc ix = Ok (sc1 ++ [node0], length sc1) ->
  (q <> Q_NONE -> minbpc e <= length tok) ->
  conv e (match q with Q_NONE => tok | _ => firstn (length tok - minbpc e) tok end) = Ok nm ->
  exists h s', content_element q t e tok s = Ret h s' /\
  sees s' (V p (sc1 ++ lay (Model CT_NAME q (Some nm) []) (length sc1) 0) ix (cs + S (length nm)) true el lg cn).
Proof.
  intros H Hn Hq Hc. unfold content_element. rewrite (on_is _ _ _ _ _ _ _ _ _ _ _ H). unfold pbind at 1.
  assert (E0 : (match q with Q_NONE => pret tok | _ => dec (minbpc e) tok end) s = Ret (match q with Q_NONE => tok | _ => firstn (length tok - minbpc e) tok end) s).
  { destruct q; [reflexivity|..]; unfold dec; (destruct (Nat.leb_spec (minbpc e) (length tok)) as [_|Hx]; [reflexivity|]; specialize (Hq ltac:(discriminate)); lia). }
  rewrite E0.
  match goal with |- context [pbind (getElementType t ?b) ?f s] => destruct (elem_is b nm _ f _ _ _ _ _ _ _ _ _ H Hc) as (s1 & H1 & E1) end.
  rewrite E1, get_is.
  assert (E2 : scaf_name q nm (s_dtd s1) = Ok (set_d_cslen (d_cslen (s_dtd s1) + S (length nm)) (set_d_scaf (sc1 ++ lay (Model CT_NAME q (Some nm) []) (length sc1) 0) (s_dtd s1)))).
  { unfold scaf_name. rewrite (e_scaf _ _ H1), (e_index _ _ H1). cbn [l_scaf l_index]. rewrite Hn. cbn [bind]. rewrite modify_mid. reflexivity. }
  rewrite (lift_is _ _ _ _ _ _ E2), upd_is.
  match goal with |- context [pbind (handler h_elementDecl) _ ?s2] => assert (H2 : sees s2 (V p (sc1 ++ lay (Model CT_NAME q (Some nm) []) (length sc1) 0) ix (cs + S (length nm)) true el lg cn)) end.
  { eapply sees_dtd; [exact H1|reflexivity|exact (e_index _ _ H1)| |exact (e_on _ _ H1)]. cbn [d_cslen set_d_cslen]. rewrite (e_cslen _ _ H1). reflexivity. }
  rewrite (h_is _ _ _ _ H2). eexists. eexists. split; [reflexivity|exact H2].
Qed.
Lemma scaf_close_is q s p sc1 ty ms q0 ix cs el lg cn : sees s (V p (sc1 ++ lay (Model ty q0 None ms) (length sc1) 0) (length sc1 :: ix) cs true el lg cn) ->
  scaf_close q (s_dtd s) = Ok (set_d_index ix (set_d_scaf (sc1 ++ lay (Model ty q None ms) (length sc1) 0) (s_dtd s)), match ix with [] => true | _ => false end).
Proof.
  intros H. unfold scaf_close. rewrite (e_scaf _ _ H), (e_index _ _ H). cbn [l_scaf l_index]. rewrite lay_eq, modify_mid. cbn [bind]. rewrite lay_eq. reflexivity.
Qed.
Lemma act_close q s p sc1 ty ms i ix cs el lg cn : sees s (V p (sc1 ++ lay (ScafLaws.group ty ms) (length sc1) 0) (length sc1 :: i :: ix) cs true el lg cn) ->
  exists h s', group_close q s = Ret h s' /\ sees s' (V p (sc1 ++ lay (Model ty q None ms) (length sc1) 0) (i :: ix) cs true el lg cn).
Proof.
  intros H. unfold group_close. rewrite (on_is _ _ _ _ _ _ _ _ _ _ _ H), (h_is _ _ _ _ H), get_is.
  rewrite (lift_is _ _ _ _ _ _ (scaf_close_is q _ _ _ _ _ _ _ _ _ _ _ H)). rewrite upd_is. unfold when at 1. eexists. eexists. split; [reflexivity|].
  eapply sees_dtd; [exact H|reflexivity|reflexivity|exact (e_cslen _ _ H)|exact (e_on _ _ H)].
Qed.
Lemma act_last q s p ty ms cs nm lg cn : sees s (V p (lay (ScafLaws.group ty ms) 0 0) [0] cs true (Some nm) lg cn) ->
  proper (Model ty q None ms) -> strss ms <= cs ->
  exists h s', group_close q s = Ret h s' /\ sees s' (V p (lay (Model ty q None ms) 0 0) [] 0 false (Some nm) ((pid, EvElementDecl nm (Model ty q None ms)) :: lg) cn).
Proof.
  intros H Hp Hs. unfold group_close. rewrite (on_is _ _ _ _ _ _ _ _ _ _ _ H), (h_is _ _ _ _ H), get_is.
  change (lay (ScafLaws.group ty ms) 0 0) with ([] ++ lay (ScafLaws.group ty ms) (length (@nil scafnode)) 0) in H.
  change [0] with [length (@nil scafnode)] in H.
  pose proof (scaf_close_is q _ _ _ _ _ _ _ _ _ _ _ H) as E. rewrite (lift_is _ _ _ _ _ _ E). rewrite upd_is. unfold when at 1 2.
  cbn [app length] in *.
  set (s1 := set_dtd _ s).
  assert (H1 : sees s1 (V p (lay (Model ty q None ms) 0 0) [] cs true (Some nm) lg cn)).
  { eapply sees_dtd; [exact H|reflexivity|reflexivity|exact (e_cslen _ _ H)|exact (e_on _ _ H)]. }
  assert (E1 : (do el <- get s_declElement; do el <- some el;
       do m <- lift (build_model (d_scaf (set_d_index [] (set_d_scaf (lay (Model ty q None ms) 0 0) (s_dtd s)))) (d_cslen (set_d_index [] (set_d_scaf (lay (Model ty q None ms) 0 0) (s_dtd s)))));
       call (EvElementDecl el m) ;;; pret tt) s1 = (call (EvElementDecl nm (Model ty q None ms)) ;;; pret tt) s1).
  { rewrite get_is, (e_el _ _ H1). cbn [l_el some]. unfold pbind at 1, pret at 1. cbn [d_scaf d_cslen set_d_index set_d_scaf].
    rewrite (e_cslen _ _ H). cbn [l_cslen]. rewrite (lift_is _ _ _ _ _ _ (build_model_lay _ cs Hp Hs)). reflexivity. }
  unfold pbind at 1. unfold pbind at 1. rewrite E1.
  destruct (sees_log (EvElementDecl nm (Model ty q None ms)) _ _ _ _ _ _ _ _ _ H1) as (s2 & E2 & H2). rewrite E2.
  eexists. eexists. split; [reflexivity|]. eapply sees_dtd; [exact H2|exact (e_scaf _ _ H2)|exact (e_index _ _ H2)|reflexivity|reflexivity].
Qed.
Lemma act_mixed s p sc1 cs el lg cn ix : sees s (V p (sc1 ++ lay (ScafLaws.group CT_SEQ []) (length sc1) 0) (length sc1 :: ix) cs true el lg cn) ->
  exists h s', act R_CONTENT_PCDATA s = Ret h s' /\ sees s' (V p (sc1 ++ lay (ScafLaws.group CT_MIXED []) (length sc1) 0) (length sc1 :: ix) cs true el lg cn).
Proof.
  intros H. unfold role_action. rewrite (on_is _ _ _ _ _ _ _ _ _ _ _ H), get_is.
  assert (E2 : scaf_mixed (s_dtd s) = Ok (set_d_scaf (sc1 ++ lay (ScafLaws.group CT_MIXED []) (length sc1) 0) (s_dtd s))).
  { unfold scaf_mixed, scaf_top. rewrite (e_index _ _ H), (e_scaf _ _ H). cbn [l_index l_scaf]. unfold ScafLaws.group at 1. rewrite lay_eq, modify_mid. reflexivity. }
  rewrite (lift_is _ _ _ _ _ _ E2), upd_is.
  match goal with |- context [quiet h_elementDecl ?s1] => assert (H1 : sees s1 (V p (sc1 ++ lay (ScafLaws.group CT_MIXED []) (length sc1) 0) (length sc1 :: ix) cs true el lg cn)) end.
  { eapply sees_dtd; [exact H|reflexivity|exact (e_index _ _ H)|exact (e_cslen _ _ H)|exact (e_on _ _ H)]. }
  rewrite (quiet_is _ _ H1). eexists. eexists. split; [reflexivity|exact H1].
Qed.
Lemma act_const role ty s p sc ix cs nm lg cn : sees s (V p sc ix cs true (Some nm) lg cn) -> role = R_CONTENT_ANY /\ ty = CT_ANY \/ role = R_CONTENT_EMPTY /\ ty = CT_EMPTY ->
  exists h s', act role s = Ret h s' /\ sees s' (V p sc ix cs false (Some nm) ((pid, EvElementDecl nm (Model ty Q_NONE None [])) :: lg) cn).
Proof.
  intros H Hr. destruct (sees_log (EvElementDecl nm (Model ty Q_NONE None [])) _ _ _ _ _ _ _ _ _ H) as (s2 & E2 & H2).
  assert (E : act role s = (pbind (do el <- get s_declElement; do el <- some el; call (EvElementDecl el (Model ty Q_NONE None [])) ;;; pret tt)
    (fun _ => upd_dtd (set_d_inEldecl false) ;;; pret false)) s).
  { destruct Hr as [[-> ->]|[-> ->]]; unfold role_action; rewrite (on_is _ _ _ _ _ _ _ _ _ _ _ H), (h_is _ _ _ _ H); reflexivity. }
  rewrite E. unfold pbind at 1. rewrite get_is, (e_el _ _ H). cbn [l_el some]. unfold pbind at 1. unfold pret at 1. rewrite E2.
  eexists. eexists. split; [reflexivity|]. eapply sees_dtd; [exact H2|exact (e_scaf _ _ H2)|exact (e_index _ _ H2)|exact (e_cslen _ _ H2)|reflexivity].
Qed.
End Act.

Ltac ev := unfold RoleLaws.rstep, token_role; cbn [hd]; machine; cbn [pad app]; rewrite ?inc_start_pad; cbn [bind];
  repeat match goal with |- context [tok_eqb ?a ?b] => let v := eval vm_compute in (tok_eqb a b) in change (tok_eqb a b) with v end; cbv iota;
  rewrite ?inc_start_pad; cbn [bind]; rewrite ?(on_kw_pick e enc SH) by alts_asc;
  unfold to, set_level, set_none, set_include, subset; cbn [hd level role_none include doc].
Ltac kwgo := repeat (cbn [RoleLaws.pick]; unfold SpecRole.kw; rewrite ?(kw_beq e enc SH) by asc;
  match goal with
  | |- context [beq ?a ?b] => let v := eval vm_compute in (beq a b) in change (beq a b) with v; cbv iota
  end); reflexivity.
Ltac role1 := cbn [fst snd l_role]; do 2 eexists; split; [ev; first [reflexivity | kwgo]|split; [reflexivity|]].

Definition inside (h : Role.handler) (rn : ROLE) : Prop :=
  match h with
  | H_element0 | H_element1 | H_element2 | H_element3 | H_element4 | H_element5 | H_element6 | H_element7 => True
  | H_internalSubset | H_externalSubset1 => True
  | H_declClose => rn = R_ELEMENT_NONE
  | _ => False
  end.
Lemma still_in h lv rn i d sc ix cs on el lg cn : inside h rn -> still (V (St h lv rn i d) sc ix cs on el lg cn).
Proof.
  intros Hh s r tok allow after Hv Ht Hx. pose proof (sees_role (St h lv rn i d) _ _ _ _ _ _ _ _ _ Hv) as Hv'.
  destruct h; try contradiction Hh; cbn [inside] in Hh; try (subst rn); role1;
    first [rewrite (act_none _ _ _ _ _ _ _ Hv'); eexists; eexists; split; [reflexivity|exact Hv'] | eexists; eexists; split; [reflexivity|exact Hv']].
Qed.

Scheme cp_ind2 := Induction for cp Sort Prop
with cps_ind2 := Induction for cps Sort Prop.
Combined Scheme cp_mut from cp_ind2, cps_ind2.

(* where a content particle may begin *)
Definition begins (h : Role.handler) (n : N) : Prop := h = H_element6 \/ h = H_element2 /\ n = 1%N.
Lemma conv_utf8 b : readable e b -> conv e b = Ok (utf8 e b).
Proof. intros [x Hx]. unfold utf8. rewrite Hx. reflexivity. Qed.
Lemma leaf_goes m q h n rn i d sc ix cs el lg cn sc1 : begins h n -> leaf_ok e m q -> next_part sc ix = Ok (sc1 ++ [node0], length sc1) ->
  goes (fst (leaf m q)) (V (St h n rn i d) sc ix cs true el lg cn)
    (V (St H_element7 n rn i d) (sc1 ++ lay (tree e (Leaf m q)) (length sc1) 0) ix (cs + strs (tree e (Leaf m q))) true el lg cn).
Proof.
  intros Hb [Hr Hl] Hn s r tok allow after Hv Ht Hx. apply conv_utf8 in Hr.
  pose proof (sees_role (St H_element7 n rn i d) _ _ _ _ _ _ _ _ _ Hv) as Hv'.
  destruct m as [pf sp]. cbn [strs tree]. rewrite Nat.add_0_r.
  destruct q; unfold leaf, name in *; cbn [prefixed spelt fst snd] in *.
  - assert (tok = sp) as -> by (destruct pf; exact Hx).
    destruct Hb as [->|[-> ->]]; destruct pf; role1; apply (act_name _ Q_NONE _ _ _ _ _ _ _ _ _ _ Hv' Hn); auto; contradiction.
  - change (text_of e (T_NAME_QUESTION, tok)) with tok in Hx. subst tok.
    destruct Hb as [->|[-> ->]]; role1; apply (act_name _ Q_OPT _ _ _ _ _ _ _ _ _ _ Hv' Hn); auto; intros _; apply Hl; discriminate.
  - change (text_of e (T_NAME_ASTERISK, tok)) with tok in Hx. subst tok.
    destruct Hb as [->|[-> ->]]; role1; apply (act_name _ Q_REP _ _ _ _ _ _ _ _ _ _ Hv' Hn); auto; intros _; apply Hl; discriminate.
  - change (text_of e (T_NAME_PLUS, tok)) with tok in Hx. subst tok.
    destruct Hb as [->|[-> ->]]; role1; apply (act_name _ Q_PLUS _ _ _ _ _ _ _ _ _ _ Hv' Hn); auto; intros _; apply Hl; discriminate.
Qed.

Notation grp := ScafLaws.group.
Lemma open_goes h n rn i d sc ix cs el lg cn sc1 : begins h n -> (n < 4294967295)%N -> next_part sc ix = Ok (sc1 ++ [node0], length sc1) ->
  goes (T_OPEN_PAREN, []) (V (St h n rn i d) sc ix cs true el lg cn)
    (V (St H_element6 (n + 1) rn i d) (sc1 ++ lay (grp CT_SEQ []) (length sc1) 0) (length sc1 :: ix) cs true el lg (fun x => if (x =? n + 1)%N then 0%N else cn x)).
Proof.
  intros Hb Hl Hn s r tok allow after Hv Ht Hx.
  pose proof (sees_role (St H_element6 (n + 1) rn i d) _ _ _ _ _ _ _ _ _ Hv) as Hv'.
  destruct Hb as [->|[-> ->]].
  - cbn [fst snd l_role]. do 2 eexists. split; [ev; rewrite u32_succ_small by exact Hl; reflexivity|]. split; [reflexivity|].
    exact (act_open r T_OPEN_PAREN allow tok after _ _ _ _ _ _ _ _ _ Hv' Hn).
  - cbn [fst snd l_role]. do 2 eexists. split; [ev; reflexivity|]. split; [reflexivity|].
    exact (act_open r T_OPEN_PAREN allow tok after _ _ _ _ _ _ _ _ _ Hv' Hn).
Qed.
(* the connectors of a group so far *)
Definition code (k : option bool) : N := match k with None => 0%N | Some true => 124%N | Some false => 44%N end.
Definition kty (k : option bool) : ctype := match k with Some true => CT_CHOICE | _ => CT_SEQ end.
Definition okrest (k : option bool) (rest : cps) : bool := match k with None => uniform rest | Some b => all_are b rest end.
Definition fin (k : option bool) (rest : cps) : ctype := match k with None => group_type rest | _ => kty k end.
Lemma con_goes ch k n rn i d sc1 ms ix cs el lg cn : cn n = code k -> k = None \/ k = Some ch ->
  goes (fst (SpecRole.connector ch)) (V (St H_element7 n rn i d) (sc1 ++ lay (grp (kty k) ms) (length sc1) 0) (length sc1 :: ix) cs true el lg cn)
    (V (St H_element6 n rn i d) (sc1 ++ lay (grp (kty (Some ch)) ms) (length sc1) 0) (length sc1 :: ix) cs true el lg (fun x => if (x =? n)%N then code (Some ch) else cn x)).
Proof.
  intros Hc Hk s r tok allow after Hv Ht Hx.
  pose proof (sees_role (St H_element6 n rn i d) _ _ _ _ _ _ _ _ _ Hv) as Hv'.
  destruct ch; unfold SpecRole.connector, punct in *; role1.
  - apply (act_choice r T_OR allow tok after _ _ _ _ _ _ _ _ _ _ Hv'). cbn [level]. rewrite Hc. destruct Hk as [->| ->]; auto.
  - destruct Hk as [->| ->]; apply (act_seq r T_COMMA allow tok after _ _ _ _ _ _ _ _ Hv'); cbn [level]; rewrite Hc; discriminate.
Qed.
Lemma con_stops ch n rn i d sc ix cs on el lg cn : cn n = code (Some (negb ch)) ->
  stops (fst (SpecRole.connector ch)) (V (St H_element7 n rn i d) sc ix cs on el lg cn).
Proof.
  intros Hc s r tok allow after Hv Ht Hx.
  pose proof (sees_role (St H_element6 n rn i d) _ _ _ _ _ _ _ _ _ Hv) as Hv'.
  destruct ch; unfold SpecRole.connector, punct in *; role1.
  - rewrite (stop_choice r T_OR allow tok after _ _ _ _ _ _ _ _ _ Hv' Hc). eexists. split; [reflexivity|]. exact (e_log _ _ Hv').
  - rewrite (stop_seq r T_COMMA allow tok after _ _ _ _ _ _ _ _ _ Hv' Hc). eexists. split; [reflexivity|]. exact (e_log _ _ Hv').
Qed.
Lemma close_eq n rn i d : (1 < n)%N -> (n < 4294967296)%N -> close_group (St H_element7 n rn i d) = St H_element7 (n - 1) rn i d.
Proof.
  intros H1 H2. unfold close_group, set_level, set_none, to. cbn [level hd role_none include doc]. rewrite u32_pred_nz by lia.
  replace (n - 1 =? 0)%N with false by lia. reflexivity.
Qed.
Lemma close_goes q n rn i d sc1 ty ms x ix cs el lg cn : (0 < n)%N -> (n < 4294967295)%N ->
  goes (fst (close q)) (V (St H_element7 (n + 1) rn i d) (sc1 ++ lay (grp ty ms) (length sc1) 0) (length sc1 :: x :: ix) cs true el lg cn)
    (V (St H_element7 n rn i d) (sc1 ++ lay (Model ty (quant_of q) None ms) (length sc1) 0) (x :: ix) cs true el lg cn).
Proof.
  intros H1 H2 s r tok allow after Hv Ht Hx.
  pose proof (sees_role (St H_element7 n rn i d) _ _ _ _ _ _ _ _ _ Hv) as Hv'.
  destruct q; unfold close, punct in *; cbn [fst snd l_role]; do 2 eexists; (split; [ev; rewrite close_eq by lia; replace (n + 1 - 1)%N with n by lia; reflexivity|]);
    (split; [reflexivity|]);
    [apply (act_close Q_NONE _ _ _ _ _ _ _ _ _ _ _ Hv')|apply (act_close Q_OPT _ _ _ _ _ _ _ _ _ _ _ Hv')
    |apply (act_close Q_REP _ _ _ _ _ _ _ _ _ _ _ Hv')|apply (act_close Q_PLUS _ _ _ _ _ _ _ _ _ _ _ Hv')].
Qed.

Lemma strip_app a b : strip (a ++ b) = strip a ++ strip b.
Proof. apply map_app. Qed.
Lemma runs_one x v v' : still v -> still v' -> fst x <> T_PROLOG_S -> goes x v v' -> runs v [x] v'.
Proof. intros H1 H2 H3 H4. apply runs_cons with v'; auto. apply runs_nil, H2. Qed.
Lemma fst_leaf m q : fst (fst (leaf m q)) <> T_PROLOG_S.
Proof. destruct q; unfold leaf, name; cbn; try discriminate. destruct (prefixed m); discriminate. Qed.
Lemma fst_con ch : fst (fst (SpecRole.connector ch)) <> T_PROLOG_S.
Proof. destruct ch; discriminate. Qed.
Lemma fst_close q : fst (fst (close q)) <> T_PROLOG_S.
Proof. destruct q; discriminate. Qed.
Lemma child_place sc1 ty ms next ix :
  exists sc2, next_part (sc1 ++ lay (grp ty ms) (length sc1) next) (length sc1 :: ix) = Ok (sc2 ++ [node0], length sc2) /\
    forall m, sc2 ++ lay m (length sc2) 0 = sc1 ++ lay (grp ty (ms ++ [m])) (length sc1) next.
Proof.
  exists (sc1 ++ root_node (grp ty (ms ++ [Model CT_SEQ Q_NONE None []])) (length sc1) next :: lays ms (S (length sc1)) (S (length sc1) + sizes ms)).
  assert (El : length (sc1 ++ root_node (grp ty (ms ++ [Model CT_SEQ Q_NONE None []])) (length sc1) next :: lays ms (S (length sc1)) (S (length sc1) + sizes ms)) = S (length sc1) + sizes ms).
  { rewrite app_length. cbn [length]. rewrite lays_length. lia. }
  rewrite El. split.
  - rewrite next_part_child. f_equal. f_equal; [rewrite <- app_assoc; reflexivity|].
    rewrite app_length, lay_length. unfold ScafLaws.group. rewrite size_eq. lia.
  - intros m. rewrite <- lay_child. rewrite <- app_assoc. reflexivity.
Qed.
Lemma cp_runs :
  (forall c, names_ok e c -> agrees c = true -> forall h n rn i d sc x ix cs el lg cn sc1, begins h n -> (0 < n)%N ->
     (n + N.of_nat (List.length (s_cp c)) < 4294967296)%N -> next_part sc (x :: ix) = Ok (sc1 ++ [node0], length sc1) ->
     exists cn', (forall x, (x <= n)%N -> cn' x = cn x) /\
     runs (V (St h n rn i d) sc (x :: ix) cs true el lg cn) (strip (s_cp c))
       (V (St H_element7 n rn i d) (sc1 ++ lay (tree e c) (length sc1) 0) (x :: ix) (cs + strs (tree e c)) true el lg cn')) /\
  (forall rest, names_oks e rest -> agree_all rest = true -> forall k n rn i d sc1 ms ix cs el lg cn, (0 < n)%N ->
     (n + N.of_nat (List.length (s_cps rest)) < 4294967296)%N -> cn n = code k -> okrest k rest = true ->
     exists cn', (forall x, (x < n)%N -> cn' x = cn x) /\
     runs (V (St H_element7 n rn i d) (sc1 ++ lay (grp (kty k) ms) (length sc1) 0) (length sc1 :: ix) cs true el lg cn) (strip (s_cps rest))
       (V (St H_element7 n rn i d) (sc1 ++ lay (grp (fin k rest) (ms ++ trees e rest)) (length sc1) 0) (length sc1 :: ix) (cs + strss (trees e rest)) true el lg cn')).
Proof.
  apply cp_mut.
  - intros m q Hok _ h n rn i d sc x ix cs el lg cn sc1 Hb Hn Hl Hp. exists cn. split; [reflexivity|]. cbn [s_cp strip map].
    apply runs_one; [apply still_in; destruct Hb as [->|[-> _]]; exact I|apply still_in; exact I|apply fst_leaf|]. apply leaf_goes; assumption.
  - intros first IH1 rest IH2 q [O1 O2] Ha h n rn i d sc x ix cs el lg cn sc1 Hb Hn Hl Hp.
    cbn [agrees] in Ha. apply andb_prop in Ha. destruct Ha as [Ha Ha3]. apply andb_prop in Ha. destruct Ha as [Ha1 Ha2].
    cbn [s_cp] in Hl. cbn [List.length] in Hl. rewrite !app_length in Hl. cbn [List.length] in Hl.
    destruct (child_place sc1 CT_SEQ [] 0 (x :: ix)) as (sc2 & Hp2 & Hs2).
    destruct (IH1 O1 Ha1 H_element6 (n + 1)%N rn i d _ (length sc1) (x :: ix) cs el lg (fun x => if (x =? n + 1)%N then 0%N else cn x) sc2 (or_introl eq_refl) ltac:(lia) ltac:(lia) Hp2) as (cn1 & C1 & R1).
    rewrite Hs2 in R1.
    destruct (IH2 O2 Ha3 None (n + 1)%N rn i d sc1 [tree e first] (x :: ix) (cs + strs (tree e first)) el lg cn1 ltac:(lia) ltac:(lia)) as (cn2 & C2 & R2).
    { rewrite C1 by lia. rewrite N.eqb_refl. reflexivity. }
    { exact Ha2. }
    exists cn2. split.
    { intros y Hy. rewrite C2, C1 by lia. replace (y =? n + 1)%N with false by lia. reflexivity. }
    cbn [s_cp strip map]. rewrite !map_app. cbn [map].
    eapply runs_cons; [apply still_in; destruct Hb as [->|[-> _]]; exact I|discriminate|apply open_goes; [exact Hb|lia|exact Hp]|].
    eapply runs_app; [exact R1|]. eapply runs_app; [exact R2|].
    apply runs_one; [apply still_in; exact I|apply still_in; exact I|apply fst_close|].
    pose proof (close_goes q n rn i d sc1 (fin None rest) ([tree e first] ++ trees e rest) x ix (cs + strs (tree e first) + strss (trees e rest)) el lg cn2 Hn ltac:(lia)) as G.
    replace (cs + strs (tree e (Group first rest q))) with (cs + strs (tree e first) + strss (trees e rest)); [exact G|].
    change (strs (tree e (Group first rest q))) with (strss (tree e first :: trees e rest)). cbn [strss]. lia.
  - intros _ _ k n rn i d sc1 ms ix cs el lg cn Hn Hl Hc Hk. exists cn. split; [reflexivity|]. cbn [s_cps strip map trees strss].
    rewrite app_nil_r, Nat.add_0_r. replace (fin k Done) with (kty k) by (destruct k as [[|]|]; reflexivity). apply runs_nil, still_in. exact I.
  - intros ch c IH1 rest IH2 [O1 O2] Ha k n rn i d sc1 ms ix cs el lg cn Hn Hl Hc Hk.
    cbn [agree_all] in Ha. apply andb_prop in Ha. destruct Ha as [Ha1 Ha2].
    cbn [s_cps List.length] in Hl. rewrite !app_length in Hl.
    assert (Hk' : (k = None \/ k = Some ch) /\ all_are ch rest = true /\ fin k (And ch c rest) = kty (Some ch)).
    { destruct k as [b|]; cbn [okrest uniform all_are fin group_type] in Hk |- *.
      - apply andb_prop in Hk. destruct Hk as [K1 K2]. apply Bool.eqb_prop in K1. subst b. auto.
      - split; [auto|]. split; [exact Hk|]. destruct ch; reflexivity. }
    destruct Hk' as (K1 & K2 & K3).
    destruct (child_place sc1 (kty (Some ch)) ms 0 ix) as (sc2 & Hp2 & Hs2).
    destruct (IH1 O1 Ha1 H_element6 n rn i d _ (length sc1) ix cs el lg (fun x => if (x =? n)%N then code (Some ch) else cn x) sc2 (or_introl eq_refl) Hn ltac:(lia) Hp2) as (cn1 & C1 & R1).
    rewrite Hs2 in R1.
    destruct (IH2 O2 Ha2 (Some ch) n rn i d sc1 (ms ++ [tree e c]) ix (cs + strs (tree e c)) el lg cn1 Hn ltac:(lia)) as (cn2 & C2 & R2).
    { rewrite C1 by lia. rewrite N.eqb_refl. reflexivity. }
    { exact K2. }
    exists cn2. split.
    { intros y Hy. rewrite C2, C1 by lia. replace (y =? n)%N with false by lia. reflexivity. }
    cbn [s_cps strip map]. rewrite map_app.
    eapply runs_cons; [apply still_in; exact I|apply fst_con|apply (con_goes ch k); [exact Hc|exact K1]|].
    eapply runs_app; [exact R1|]. rewrite K3. change (trees e (And ch c rest)) with (tree e c :: trees e rest). cbn [strss].
    rewrite <- app_assoc in R2. cbn [app] in R2. replace (cs + (strs (tree e c) + strss (trees e rest))) with (cs + strs (tree e c) + strss (trees e rest)) by lia. exact R2.
Qed.

Lemma cp_breaks :
  (forall c, names_ok e c -> agrees c = false -> forall h n rn i d sc x ix cs el lg cn sc1, begins h n -> (0 < n)%N ->
     (n + N.of_nat (List.length (s_cp c)) < 4294967296)%N -> next_part sc (x :: ix) = Ok (sc1 ++ [node0], length sc1) ->
     breaks lg (V (St h n rn i d) sc (x :: ix) cs true el lg cn) (strip (s_cp c))) /\
  (forall rest, names_oks e rest -> forall k n rn i d sc1 ms ix cs el lg cn, (0 < n)%N ->
     (n + N.of_nat (List.length (s_cps rest)) < 4294967296)%N -> cn n = code k -> okrest k rest && agree_all rest = false ->
     breaks lg (V (St H_element7 n rn i d) (sc1 ++ lay (grp (kty k) ms) (length sc1) 0) (length sc1 :: ix) cs true el lg cn) (strip (s_cps rest))).
Proof.
  apply cp_mut.
  - discriminate.
  - intros first IH1 rest IH2 q [O1 O2] Ha h n rn i d sc x ix cs el lg cn sc1 Hb Hn Hl Hp.
    cbn [agrees] in Ha.
    cbn [s_cp] in Hl. cbn [List.length] in Hl. rewrite !app_length in Hl. cbn [List.length] in Hl.
    destruct (child_place sc1 CT_SEQ [] 0 (x :: ix)) as (sc2 & Hp2 & Hs2).
    cbn [s_cp strip map]. rewrite !map_app. cbn [map].
    eapply breaks_later; [apply still_in; destruct Hb as [->|[-> _]]; exact I|discriminate|apply open_goes; [exact Hb|lia|exact Hp]|].
    destruct (agrees first) eqn:Ha1.
    + destruct (proj1 cp_runs first O1 Ha1 H_element6 (n + 1)%N rn i d _ (length sc1) (x :: ix) cs el lg (fun x => if (x =? n + 1)%N then 0%N else cn x) sc2 (or_introl eq_refl) ltac:(lia) ltac:(lia) Hp2) as (cn1 & C1 & R1).
      rewrite Hs2 in R1. eapply breaks_app; [exact R1|]. apply breaks_more.
      apply (IH2 O2 None (n + 1)%N rn i d sc1 [tree e first] (x :: ix)); [lia|lia| |exact Ha].
      rewrite C1 by lia. rewrite N.eqb_refl. reflexivity.
    + apply breaks_more. apply (IH1 O1 eq_refl H_element6 (n + 1)%N rn i d _ (length sc1) (x :: ix) cs el lg _ sc2 (or_introl eq_refl) ltac:(lia) ltac:(lia) Hp2).
  - intros _ k n rn i d sc1 ms ix cs el lg cn Hn Hl Hc Hk. destruct k; discriminate.
  - intros ch c IH1 rest IH2 [O1 O2] k n rn i d sc1 ms ix cs el lg cn Hn Hl Hc Hk.
    cbn [s_cps List.length] in Hl. rewrite !app_length in Hl.
    cbn [s_cps strip map]. rewrite map_app.
    assert (Hk' : k = Some (negb ch) \/ ((k = None \/ k = Some ch) /\ all_are ch rest && agree_all (And ch c rest) = false)).
    { destruct k as [b|]; cbn [okrest uniform all_are] in Hk |- *; [|auto].
      destruct (Bool.eqb ch b) eqn:E; [apply Bool.eqb_prop in E; subst b; auto|]. left. destruct ch, b; reflexivity || discriminate. }
    destruct Hk' as [->|[K1 K2]].
    + apply breaks_here; [apply still_in; exact I|apply fst_con| |reflexivity]. apply con_stops. exact Hc.
    + destruct (child_place sc1 (kty (Some ch)) ms 0 ix) as (sc2 & Hp2 & Hs2).
      eapply breaks_later; [apply still_in; exact I|apply fst_con|apply (con_goes ch k); [exact Hc|exact K1]|].
      cbn [agree_all] in K2. destruct (agrees c) eqn:Ha1.
      * destruct (proj1 cp_runs c O1 Ha1 H_element6 n rn i d _ (length sc1) ix cs el lg (fun x => if (x =? n)%N then code (Some ch) else cn x) sc2 (or_introl eq_refl) Hn ltac:(lia) Hp2) as (cn1 & C1 & R1).
        rewrite Hs2 in R1. eapply breaks_app; [exact R1|].
        apply (IH2 O2 (Some ch) n rn i d sc1 (ms ++ [tree e c]) ix); [exact Hn|lia| |exact K2].
        rewrite C1 by lia. rewrite N.eqb_refl. reflexivity.
      * apply breaks_more. apply (IH1 O1 eq_refl H_element6 n rn i d _ (length sc1) ix cs el lg _ sc2 (or_introl eq_refl) Hn ltac:(lia) Hp2).
Qed.

Lemma proper_tree : (forall c, proper (tree e c)) /\ (forall l, propers (trees e l)).
Proof.
  apply cp_mut.
  - intros n q. cbn [tree proper]. split; [|exact I]. split; [reflexivity|discriminate].
  - intros first IH1 rest IH2 q. change (tree e (Group first rest q)) with (Model (group_type rest) (quant_of q) None (tree e first :: trees e rest)).
    split; [destruct rest as [|[|] ? ?]; reflexivity|]. split; assumption.
  - exact I.
  - intros ch c IH1 rest IH2. split; assumption.
Qed.

(* the first parenthesis *)
Lemma top_goes lv rn i d cs el lg cn :
  goes (T_OPEN_PAREN, []) (V (St H_element1 lv rn i d) [] [] cs true el lg cn)
    (V (St H_element2 1 rn i d) (lay (grp CT_SEQ []) 0 0) [0] cs true el lg (fun x => if (x =? 1)%N then 0%N else cn x)).
Proof.
  intros s r tok allow after Hv Ht Hx.
  pose proof (sees_role (St H_element2 1 rn i d) _ _ _ _ _ _ _ _ _ Hv) as Hv'. role1.
  exact (act_open r T_OPEN_PAREN allow tok after _ _ _ _ _ _ _ _ [] Hv' eq_refl).
Qed.
Lemma last_goes q rn i d ty ms cs nm lg cn : proper (Model ty (quant_of q) None ms) -> strss ms <= cs ->
  goes (fst (close q)) (V (St H_element7 1 rn i d) (lay (grp ty ms) 0 0) [0] cs true (Some nm) lg cn)
    (V (St H_declClose 0 R_ELEMENT_NONE i d) (lay (Model ty (quant_of q) None ms) 0 0) [] 0 false (Some nm) ((pid, EvElementDecl nm (Model ty (quant_of q) None ms)) :: lg) cn).
Proof.
  intros Hp Hs s r tok allow after Hv Ht Hx.
  pose proof (sees_role (St H_declClose 0 R_ELEMENT_NONE i d) _ _ _ _ _ _ _ _ _ Hv) as Hv'.
  destruct q; unfold close, punct in *; role1; [eapply (act_last Q_NONE)|eapply (act_last Q_OPT)|eapply (act_last Q_REP)|eapply (act_last Q_PLUS)]; eassumption.
Qed.
Lemma mixed_close h q rn i d ms cs nm lg cn : h = H_element3 \/ h = H_element5 -> q = Rep \/ q = One /\ h = H_element3 -> propers ms -> strss ms <= cs ->
  goes (fst (close q)) (V (St h 1 rn i d) (lay (grp CT_MIXED ms) 0 0) [0] cs true (Some nm) lg cn)
    (V (St H_declClose 1 R_ELEMENT_NONE i d) (lay (Model CT_MIXED (quant_of q) None ms) 0 0) [] 0 false (Some nm) ((pid, EvElementDecl nm (Model CT_MIXED (quant_of q) None ms)) :: lg) cn).
Proof.
  intros Hh Hq Hp Hs s r tok allow after Hv Ht Hx.
  pose proof (sees_role (St H_declClose 1 R_ELEMENT_NONE i d) _ _ _ _ _ _ _ _ _ Hv) as Hv'.
  assert (proper (Model CT_MIXED (quant_of q) None ms)) by (split; [reflexivity|exact Hp]).
  destruct Hq as [->|[-> ->]].
  - destruct Hh as [-> | ->]; unfold close, punct in *; role1; eapply (act_last Q_REP); eassumption.
  - unfold close, punct in *; role1; eapply (act_last Q_NONE); eassumption.
Qed.
Lemma mixed_or h rn i d sc cs el lg cn : h = H_element3 \/ h = H_element5 ->
  goes (T_OR, []) (V (St h 1 rn i d) sc [0] cs true el lg cn) (V (St H_element4 1 rn i d) sc [0] cs true el lg cn).
Proof.
  intros Hh s r tok allow after Hv Ht Hx.
  pose proof (sees_role (St H_element4 1 rn i d) _ _ _ _ _ _ _ _ _ Hv) as Hv'.
  destruct Hh as [-> | ->]; role1; rewrite (act_none _ _ _ _ _ _ _ Hv'); eexists; eexists; (split; [reflexivity|exact Hv']).
Qed.
Lemma mixed_name m rn i d sc cs el lg cn sc1 : readable e (spelt m) -> next_part sc [0] = Ok (sc1 ++ [node0], length sc1) ->
  goes (fst (name m R_CONTENT_ELEMENT)) (V (St H_element4 1 rn i d) sc [0] cs true el lg cn)
    (V (St H_element5 1 rn i d) (sc1 ++ lay (leaf_model e m) (length sc1) 0) [0] (cs + strs (leaf_model e m)) true el lg cn).
Proof.
  intros Hr Hp s r tok allow after Hv Ht Hx. apply conv_utf8 in Hr.
  pose proof (sees_role (St H_element5 1 rn i d) _ _ _ _ _ _ _ _ _ Hv) as Hv'.
  destruct m as [pf sp]. cbn [spelt] in *. unfold leaf_model. cbn [strs]. rewrite Nat.add_0_r.
  assert (tok = sp) as -> by (destruct pf; exact Hx).
  destruct pf; unfold name in *; cbn [prefixed spelt fst snd] in *; role1; apply (act_name _ Q_NONE _ _ _ _ _ _ _ _ _ _ Hv' Hp); auto; contradiction.
Qed.
Lemma mixed_runs ns : Forall (fun n => readable e (spelt n)) ns -> forall h rn i d ms cs nm lg cn, h = H_element3 \/ h = H_element5 -> propers ms -> strss ms <= cs ->
  exists sc, runs (V (St h 1 rn i d) (lay (grp CT_MIXED ms) 0 0) [0] cs true (Some nm) lg cn)
    (strip (flat_map (fun n => [punct T_OR R_ELEMENT_NONE; name n R_CONTENT_ELEMENT]) ns ++ [close Rep]))
    (V (St H_declClose 1 R_ELEMENT_NONE i d) sc [] 0 false (Some nm) ((pid, EvElementDecl nm (Model CT_MIXED Q_REP None (ms ++ map (leaf_model e) ns))) :: lg) cn).
Proof.
  induction 1 as [|m ns Hm HF IH]; intros h rn i d ms cs nm lg cn Hh Hp Hs.
  - cbn [flat_map app map strip]. rewrite app_nil_r. eexists.
    apply runs_one; [apply still_in; destruct Hh as [-> | ->]; exact I|apply still_in; reflexivity|discriminate|]. apply (mixed_close h Rep); auto.
  - cbn [flat_map app map strip].
    destruct (child_place [] CT_MIXED ms 0 []) as (sc2 & Hp2 & Hs2).
    destruct (IH H_element5 rn i d (ms ++ [leaf_model e m]) (cs + strs (leaf_model e m)) nm lg cn (or_intror eq_refl)) as (sc & R).
    { apply propers_app; [exact Hp|]. split; [|exact I]. split; [|exact I]. split; [reflexivity|discriminate]. }
    { rewrite strss_app. cbn [strss]. lia. }
    exists sc. rewrite <- app_assoc in R. cbn [app] in R.
    eapply runs_cons; [apply still_in; destruct Hh as [-> | ->]; exact I|discriminate|apply mixed_or; exact Hh|].
    eapply runs_cons; [apply still_in; exact I|unfold name; destruct (prefixed m); discriminate|apply (mixed_name m rn i d _ _ _ _ _ sc2 Hm Hp2)|].
    rewrite Hs2. exact R.
Qed.

Definition sub (d : bool) : Role.handler := if d then H_internalSubset else H_externalSubset1.
Lemma sub_inside d rn : inside (sub d) rn.
Proof. destruct d; exact I. Qed.
Lemma open_decl lv rn i d sc ix cs on el lg cn :
  goes (T_DECL_OPEN, kw enc "ELEMENT") (V (St (sub d) lv rn i d) sc ix cs on el lg cn) (V (St H_element0 lv rn i d) sc ix cs on el lg cn).
Proof.
  intros s r tok allow after Hv Ht Hx.
  pose proof (sees_role (St H_element0 lv rn i d) _ _ _ _ _ _ _ _ _ Hv) as Hv'.
  destruct d; unfold sub; role1; rewrite (act_none _ _ _ _ _ _ _ Hv'); eexists; eexists; (split; [reflexivity|exact Hv']).
Qed.
Lemma element_goes m lv rn i d sc ix cs on el lg cn : readable e (spelt m) ->
  goes (fst (name m R_ELEMENT_NAME)) (V (St H_element0 lv rn i d) sc ix cs on el lg cn) (V (St H_element1 lv rn i d) [] [] cs true (Some (utf8 e (spelt m))) lg cn).
Proof.
  intros Hr s r tok allow after Hv Ht Hx. apply conv_utf8 in Hr.
  pose proof (sees_role (St H_element1 lv rn i d) _ _ _ _ _ _ _ _ _ Hv) as Hv'.
  destruct m as [pf sp]. cbn [spelt] in *.
  assert (tok = sp) as -> by (destruct pf; exact Hx).
  destruct pf; unfold name in *; cbn [prefixed spelt fst snd] in *; role1; eapply act_element; eassumption.
Qed.
Lemma close_decl lv i d sc ix cs on el lg cn :
  goes (T_DECL_CLOSE, []) (V (St H_declClose lv R_ELEMENT_NONE i d) sc ix cs on el lg cn) (V (St (sub d) lv R_ELEMENT_NONE i d) sc ix cs on el lg cn).
Proof.
  intros s r tok allow after Hv Ht Hx.
  pose proof (sees_role (St (sub d) lv R_ELEMENT_NONE i d) _ _ _ _ _ _ _ _ _ Hv) as Hv'.
  destruct d; unfold sub; role1; rewrite (act_none _ _ _ _ _ _ _ Hv'); eexists; eexists; (split; [reflexivity|exact Hv']).
Qed.
Lemma const_goes w role ty lv rn i d sc ix cs nm lg cn : w = "EMPTY"%string /\ role = R_CONTENT_EMPTY /\ ty = CT_EMPTY \/ w = "ANY"%string /\ role = R_CONTENT_ANY /\ ty = CT_ANY ->
  goes (T_NAME, kw enc w) (V (St H_element1 lv rn i d) sc ix cs true (Some nm) lg cn)
    (V (St H_declClose lv R_ELEMENT_NONE i d) sc ix cs false (Some nm) ((pid, EvElementDecl nm (Model ty Q_NONE None [])) :: lg) cn).
Proof.
  intros Hw s r tok allow after Hv Ht Hx.
  pose proof (sees_role (St H_declClose lv R_ELEMENT_NONE i d) _ _ _ _ _ _ _ _ _ Hv) as Hv'.
  destruct Hw as [(-> & -> & ->)|(-> & -> & ->)]; role1; eapply act_const; eauto.
Qed.
Lemma pcdata_goes rn i d cs el lg cn :
  goes (T_POUND_NAME, kw enc "PCDATA") (V (St H_element2 1 rn i d) (lay (grp CT_SEQ []) 0 0) [0] cs true el lg cn)
    (V (St H_element3 1 rn i d) (lay (grp CT_MIXED []) 0 0) [0] cs true el lg cn).
Proof.
  intros s r tok allow after Hv Ht Hx.
  pose proof (sees_role (St H_element3 1 rn i d) _ _ _ _ _ _ _ _ _ Hv) as Hv'.
  role1. exact (act_mixed r T_POUND_NAME allow tok after _ _ [] _ _ _ _ [] Hv').
Qed.
Lemma content_runs c lv rn i d cs nm lg cn : content_agrees c = true -> content_names_ok e c -> (N.of_nat (length (s_content enc c)) < 4294967295)%N ->
  exists lv' sc cs' cn', runs (V (St H_element1 lv rn i d) [] [] cs true (Some nm) lg cn) (strip (s_content enc c))
    (V (St H_declClose lv' R_ELEMENT_NONE i d) sc [] cs' false (Some nm) ((pid, EvElementDecl nm (content_model e c)) :: lg) cn').
Proof.
  intros Ha Ho Hl. destruct c as [| | |ns|first rest q]; cbn [s_content strip map].
  - do 4 eexists. apply runs_one; [apply still_in; exact I|apply still_in; reflexivity|discriminate|]. apply const_goes with (role := R_CONTENT_EMPTY). auto.
  - do 4 eexists. apply runs_one; [apply still_in; exact I|apply still_in; reflexivity|discriminate|]. apply const_goes with (role := R_CONTENT_ANY). auto.
  - do 4 eexists.
    eapply runs_cons; [apply still_in; exact I|discriminate|apply top_goes|].
    eapply runs_cons; [apply still_in; exact I|discriminate|apply pcdata_goes|].
    apply runs_one; [apply still_in; exact I|apply still_in; reflexivity|discriminate|]. apply (mixed_close H_element3 One); [auto|auto|exact I|cbn; lia].
  - destruct (mixed_runs ns Ho H_element3 rn i d [] cs nm lg (fun x => if (x =? 1)%N then 0%N else cn x) (or_introl eq_refl) I) as (sc & R); [cbn; lia|].
    do 4 eexists.
    eapply runs_cons; [apply still_in; exact I|discriminate|apply top_goes|].
    eapply runs_cons; [apply still_in; exact I|discriminate|apply pcdata_goes|]. exact R.
  - cbn [content_agrees agrees] in Ha. apply andb_prop in Ha. destruct Ha as [Ha Ha3]. apply andb_prop in Ha. destruct Ha as [Ha1 Ha2].
    destruct Ho as [O1 O2]. cbn [s_content s_cp List.length] in Hl. rewrite !app_length in Hl. cbn [List.length] in Hl.
    destruct (child_place [] CT_SEQ [] 0 []) as (sc2 & Hp2 & Hs2). cbn [length app] in Hp2, Hs2.
    destruct (proj1 cp_runs first O1 Ha1 H_element2 1%N rn i d _ 0 [] cs (Some nm) lg (fun x => if (x =? 1)%N then 0%N else cn x) sc2 (or_intror (conj eq_refl eq_refl)) ltac:(lia) ltac:(lia) Hp2) as (cn1 & C1 & R1).
    rewrite Hs2 in R1.
    destruct (proj2 cp_runs rest O2 Ha3 None 1%N rn i d [] [tree e first] [] (cs + strs (tree e first)) (Some nm) lg cn1 ltac:(lia) ltac:(lia)) as (cn2 & C2 & R2).
    { rewrite C1 by lia. reflexivity. }
    { exact Ha2. }
    do 4 eexists. cbn [s_cp map]. rewrite !map_app. cbn [map].
    eapply runs_cons; [apply still_in; exact I|discriminate|apply top_goes|].
    eapply runs_app; [exact R1|]. eapply runs_app; [exact R2|].
    apply runs_one; [apply still_in; exact I|apply still_in; reflexivity|apply fst_close|].
    apply (last_goes q rn i d (fin None rest) ([tree e first] ++ trees e rest)).
    + exact (proj1 proper_tree (Group first rest q)).
    + cbn [app strss]. lia.
Qed.
Lemma content_breaks c lv rn i d cs nm lg cn : content_agrees c = false -> content_names_ok e c -> (N.of_nat (length (s_content enc c)) < 4294967295)%N ->
  breaks lg (V (St H_element1 lv rn i d) [] [] cs true (Some nm) lg cn) (strip (s_content enc c)).
Proof.
  intros Ha Ho Hl. destruct c as [| | |ns|first rest q]; try discriminate Ha. cbn [s_content].
  cbn [content_agrees agrees] in Ha. destruct Ho as [O1 O2]. cbn [s_content s_cp List.length] in Hl. rewrite !app_length in Hl. cbn [List.length] in Hl.
  destruct (child_place [] CT_SEQ [] 0 []) as (sc2 & Hp2 & Hs2). cbn [length app] in Hp2, Hs2.
  cbn [s_cp strip map]. rewrite !map_app. cbn [map].
  eapply breaks_later; [apply still_in; exact I|discriminate|apply top_goes|].
  destruct (agrees first) eqn:Ha1.
  - destruct (proj1 cp_runs first O1 Ha1 H_element2 1%N rn i d _ 0 [] cs (Some nm) lg (fun x => if (x =? 1)%N then 0%N else cn x) sc2 (or_intror (conj eq_refl eq_refl)) ltac:(lia) ltac:(lia) Hp2) as (cn1 & C1 & R1).
    rewrite Hs2 in R1. eapply breaks_app; [exact R1|]. apply breaks_more.
    apply (proj2 cp_breaks rest O2 None 1%N rn i d [] [tree e first] []); [lia|lia| |exact Ha]. rewrite C1 by lia. reflexivity.
  - apply breaks_more. apply (proj1 cp_breaks first O1 Ha1 H_element2 1%N rn i d _ 0 [] cs (Some nm) lg _ sc2 (or_intror (conj eq_refl eq_refl)) ltac:(lia) ltac:(lia) Hp2).
Qed.
Lemma decl_runs m c lv rn i d sc ix cs on el lg cn : content_agrees c = true -> content_names_ok e c -> readable e (spelt m) -> (N.of_nat (length (s_content enc c)) < 4294967295)%N ->
  exists lv' rn' sc' ix' cs' cn', runs (V (St (sub d) lv rn i d) sc ix cs on el lg cn) (strip (s_decl enc (DElement m c)))
    (V (St (sub d) lv' rn' i d) sc' ix' cs' false (Some (utf8 e (spelt m))) ((pid, EvElementDecl (utf8 e (spelt m)) (content_model e c)) :: lg) cn').
Proof.
  intros Ha Ho Hr Hl. destruct (content_runs c lv rn i d cs (utf8 e (spelt m)) lg cn Ha Ho Hl) as (lv' & sc' & cs' & cn' & R).
  do 6 eexists. cbn [s_decl strip map]. rewrite map_app. cbn [map].
  eapply runs_cons; [apply still_in, sub_inside|discriminate|apply open_decl|].
  eapply runs_cons; [apply still_in; exact I|unfold name; destruct (prefixed m); discriminate|apply element_goes; exact Hr|].
  eapply runs_app; [exact R|]. apply runs_one; [apply still_in; reflexivity|apply still_in, sub_inside|discriminate|]. apply close_decl.
Qed.
Lemma decl_breaks m c lv rn i d sc ix cs on el lg cn : content_agrees c = false -> content_names_ok e c -> readable e (spelt m) -> (N.of_nat (length (s_content enc c)) < 4294967295)%N ->
  breaks lg (V (St (sub d) lv rn i d) sc ix cs on el lg cn) (strip (s_decl enc (DElement m c))).
Proof.
  intros Ha Ho Hr Hl. cbn [s_decl strip map]. rewrite map_app. cbn [map].
  eapply breaks_later; [apply still_in, sub_inside|discriminate|apply open_decl|].
  eapply breaks_later; [apply still_in; exact I|unfold name; destruct (prefixed m); discriminate|apply element_goes; exact Hr|].
  apply breaks_more. apply content_breaks; assumption.
Qed.
End Run.

Lemma seen_now e t s : in_subset e t s -> exists sc ix cs on el cn lv rn i,
  sees (s_cfg s) (s_enc s) (s_pid s) s (Build_seen {| hd := sub (doc (s_role s)); level := lv; role_none := rn; include := i; doc := doc (s_role s) |} sc ix cs on el (s_log s) cn).
Proof.
  intros (Hh & _ & Hp).
  exists (d_scaf (s_dtd s)), (d_index (s_dtd s)), (d_cslen (s_dtd s)), (d_inEldecl (s_dtd s)), (s_declElement s), (con (s_group s)), (level (s_role s)), (role_none (s_role s)), (include (s_role s)).
  constructor; cbn [l_role l_scaf l_index l_cslen l_on l_el l_log l_con]; try reflexivity; [|exact Hp].
  unfold sub. rewrite <- Hh. destruct (s_role s); reflexivity.
Qed.
Lemma seen_after e t cfg es pid s d lv rn i sc ix cs on el lg cn :
  sees cfg es pid s (Build_seen {| hd := sub d; level := lv; role_none := rn; include := i; doc := d |} sc ix cs on el lg cn) ->
  match t with ENormal => es = EKnown e | EInternal => e = if c_ns cfg then internal_utf8_encoding_ns else internal_utf8_encoding end ->
  in_subset e t s.
Proof.
  intros H Hr. split; [|split; [|exact (e_parsing _ _ _ _ _ H)]].
  - rewrite (e_role _ _ _ _ _ H). reflexivity.
  - rewrite (e_enc _ _ _ _ _ H), (e_cfg _ _ _ _ _ H). exact Hr.
Qed.
Lemma toks_length e ts : length (toks e ts) <= length ts.
Proof.
  induction ts as [|[k b] ts IH]; [apply le_n|]. rewrite toks_cons. destruct (tok_eqb k T_PROLOG_S); cbn [length]; lia.
Qed.
Lemma decl_length enc m c : length (s_content enc c) <= length (strip (s_decl enc (DElement m c))).
Proof. unfold strip. rewrite map_length. cbn [s_decl length]. rewrite app_length. lia. Qed.

Lemma lexed_ok e b ts rest : lexed e b ts rest -> Forall (token_ok e) ts.
Proof.
  induction 1 as [b|b k n ts rest Hk He Hn HL IH]; [apply Forall_nil|]. apply Forall_cons; [|exact IH].
  unfold token_ok. cbn [fst snd]. rewrite (firstn_length_le b Hn). exact (TokEmit.prolog_token e b k n Hk).
Qed.

Theorem model_ok e enc t m c ts b rest s :
  ascii_writing e enc -> in_subset e t s -> listening s ->
  lexed e b ts rest -> (N.of_nat (length ts) < 4294967295)%N ->
  toks e ts = strip (s_decl enc (DElement m c)) ->
  content_agrees c = true -> content_names_ok e c -> readable e (spelt m) ->
  forall n more allow, exists s',
    prolog_from (length ts + n) t b more allow s = prolog_from n t rest more allow s' /\
    s_log s' = (s_pid s, EvElementDecl (utf8 e (spelt m)) (content_model e c)) :: s_log s /\
    in_subset e t s' /\ s_cfg s' = s_cfg s /\ s_pid s' = s_pid s.
Proof.
  intros AW HS (L1 & L2 & L3) HL Hlen Ht Ha Ho Hr n more allow. pose proof (lexed_ok _ _ _ _ HL) as HF.
  destruct (seen_now e t s HS) as (sc & ix & cs & on & el & cn & lv & rn & i & Hv).
  pose proof (ascii_shape _ _ AW) as SH. destruct HS as (_ & Hread & _).
  pose proof (toks_length e ts) as T1. rewrite Ht in T1. pose proof (decl_length enc m c) as T2.
  destruct (decl_runs e enc SH t (s_cfg s) (s_enc s) (s_pid s) Hread L1 L2 L3 m c lv rn i (doc (s_role s)) sc ix cs on el (s_log s) cn Ha Ho Hr ltac:(lia))
    as (lv' & rn' & sc' & ix' & cs' & cn' & R).
  rewrite <- Ht in R.
  destruct (loop_runs e enc SH t (s_cfg s) (s_enc s) (s_pid s) Hread L1 L2 b ts rest HL HF n more allow _ _ R s Hv) as (s' & E & V').
  exists s'. split; [exact E|]. split; [exact (e_log _ _ _ _ _ V')|]. split; [|split; [exact (e_cfg _ _ _ _ _ V')|exact (e_pid _ _ _ _ _ V')]].
  eapply seen_after; [exact V'|exact Hread].
Qed.
Theorem model_mixed_connectors e enc t m c ts b rest s :
  ascii_writing e enc -> in_subset e t s -> listening s ->
  lexed e b ts rest -> (N.of_nat (length ts) < 4294967295)%N ->
  toks e ts = strip (s_decl enc (DElement m c)) ->
  content_agrees c = false -> content_names_ok e c -> readable e (spelt m) ->
  forall n more allow, exists s',
    prolog_from (length ts + n) t b more allow s = Fail XE_SYNTAX s' /\ s_log s' = s_log s.
Proof.
  intros AW HS (L1 & L2 & L3) HL Hlen Ht Ha Ho Hr n more allow. pose proof (lexed_ok _ _ _ _ HL) as HF.
  destruct (seen_now e t s HS) as (sc & ix & cs & on & el & cn & lv & rn & i & Hv).
  pose proof (ascii_shape _ _ AW) as SH. destruct HS as (_ & Hread & _).
  pose proof (toks_length e ts) as T1. rewrite Ht in T1. pose proof (decl_length enc m c) as T2.
  pose proof (decl_breaks e enc SH t (s_cfg s) (s_enc s) (s_pid s) Hread L1 L2 L3 m c lv rn i (doc (s_role s)) sc ix cs on el (s_log s) cn Ha Ho Hr ltac:(lia)) as R.
  rewrite <- Ht in R.
  exact (loop_breaks e enc SH t (s_cfg s) (s_enc s) (s_pid s) Hread L1 L2 b ts rest HL HF n more allow _ _ R s Hv).
Qed.
