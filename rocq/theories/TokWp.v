(* Weakest-precondition rules and tactics for scanners. *)
From Coq Require Import List NArith ZArith Bool Lia Arith.
From Verif Require Import Base Encoding Tok EncLaws.
Import ListNotations.

Definition suffix (p b : bytes) : Prop := exists pre, b = pre ++ p.

Lemma suffix_refl b : suffix b b. Proof. exists []; auto. Qed.
Lemma suffix_trans a b c : suffix a b -> suffix b c -> suffix a c.
Proof. intros [x ->] [y ->]. exists (y ++ x). now rewrite app_assoc. Qed.
Lemma suffix_len a b : suffix a b -> length a <= length b.
Proof. intros [x ->]. rewrite app_length; lia. Qed.
Lemma suffix_bytes {Q : N -> Prop} a b : suffix a b -> Forall Q b -> Forall Q a.
Proof. intros [x ->] H. apply Forall_app in H. tauto. Qed.
Lemma suffix_nil b : suffix [] b. Proof. exists b. now rewrite app_nil_r. Qed.
Lemma inc_suffix n b b' : inc_start n b = Ok b' -> suffix b' b /\ length b = n + length b'.
Proof.
  rewrite inc_start_spec. intros (pre & <- & ->). split; [exists pre; auto|].
  now rewrite app_length.
Qed.

(* tokens that may be returned without assigning *nextTokPtr *)
Definition partial_tok (t : XML_TOK) : bool :=
  match t with
  | T_NONE | T_PARTIAL | T_PARTIAL_CHAR | T_TRAILING_CR | T_TRAILING_RSQB
  | T_NAME_NEG | T_NMTOKEN_NEG | T_PREFIXED_NAME_NEG | T_POUND_NAME_NEG | T_CLOSE_PAREN_NEG
  | T_CLOSE_BRACKET_NEG | T_LITERAL_NEG => true
  | _ => false
  end.

(* tokens returned with *nextTokPtr assigned by the scanners (prologTok adds PROLOG_S_NEG) *)
Definition full_tok (t : XML_TOK) : bool :=
  negb (partial_tok t) && negb (tok_eqb t T_PROLOG_S_NEG).

Definition safe_stop (b : bytes) (t : XML_TOK) (n : option bytes) : Prop :=
  match n with
  | Some p => suffix p b /\ full_tok t = true
  | None => partial_tok t = true
  end.

Definition wp {A} (m : M A) (b : bytes) (QS : XML_TOK -> option bytes -> Prop)
    (QC : A -> bytes -> Prop) : Prop :=
  match m b with
  | Ok (Stop t n) => QS t n
  | Ok (Cont a b') => QC a b'
  | Err _ => False
  end.

Lemma wp_mono {A} (m : M A) b (QS QS' : _ -> _ -> Prop) (QC QC' : _ -> _ -> Prop) :
  wp m b QS QC -> (forall t n, QS t n -> QS' t n) -> (forall a b', QC a b' -> QC' a b') ->
  wp m b QS' QC'.
Proof. unfold wp. destruct (m b) as [[|]|]; auto. Qed.

Lemma wp_bind {A B} (m : M A) (k : A -> M B) b QS QC :
  wp m b QS (fun a b' => wp (k a) b' QS QC) -> wp (mbind m k) b QS QC.
Proof. unfold wp, mbind. destruct (m b) as [[|]|]; auto. Qed.

Lemma wp_ret {A} (a : A) b QS (QC : _ -> _ -> Prop) : QC a b -> wp (ret a) b QS QC.
Proof. auto. Qed.

Lemma wp_stop_here {A} t b (QS : _ -> _ -> Prop) QC : QS t (Some b) -> wp (@stop_here A t) b QS QC.
Proof. auto. Qed.

Lemma wp_stop_none {A} t b (QS : _ -> _ -> Prop) QC : QS t None -> wp (@stop_none A t) b QS QC.
Proof. auto. Qed.

Lemma wp_adv n b QS (QC : _ -> _ -> Prop) : has n b = true ->
  (forall b', inc_start n b = Ok b' -> QC tt b') -> wp (adv n) b QS QC.
Proof.
  intros Hh HQ. unfold wp, adv. destruct (inc_start_has _ _ Hh) as [b' E].
  rewrite E. cbn [bind]. auto.
Qed.

Lemma wp_capture {A} (m : M A) b QS (QC : _ -> _ -> Prop) :
  wp m b QS (fun a b' => QC (a, firstn (length b - length b') b) b') -> wp (capture m) b QS QC.
Proof. unfold wp, capture. destruct (m b) as [[|]|]; auto. Qed.

(* loops: an invariant on (state, buffer); every further iteration consumes input *)
Lemma wp_loop {S B} (body : S -> M (S + B)) QS (QC : B -> bytes -> Prop) (I : S -> bytes -> Prop) :
  (forall s b, I s b ->
     wp (body s) b QS (fun r b' => match r with
       | inl s' => I s' b' /\ length b' < length b
       | inr v => QC v b' end)) ->
  forall f s b, I s b -> length b < f -> wp (loop f body s) b QS QC.
Proof.
  intros Hb. induction f; intros s b HI Hf; [lia|].
  specialize (Hb s b HI). unfold wp in *. simpl.
  destruct (body s b) as [[t n|[s'|v] b']|]; auto.
  destruct Hb as [HI' Hl]. apply IHf; auto; lia.
Qed.

Lemma wp_loopb {S B} (body : S -> M (S + B)) QS (QC : B -> bytes -> Prop) (I : S -> bytes -> Prop) s b :
  (forall s b, I s b ->
     wp (body s) b QS (fun r b' => match r with
       | inl s' => I s' b' /\ length b' < length b
       | inr v => QC v b' end)) ->
  I s b -> wp (loopb body s) b QS QC.
Proof. intros. unfold loopb. change (wp (loop (Datatypes.S (length b)) body s) b QS QC).
  eapply wp_loop; eauto. Qed.

Section Safe.
Context {Q : N -> Prop}.
Variable e : EncImpl.
Hypothesis OK : enc_okq Q e.
Local Notation bytes_ok := (Forall Q).

Lemma minbpc_pos : 1 <= minbpc e.
Proof. destruct (eo_min _ OK); lia. Qed.

Lemma wp_while {S B} (body : S -> M S) (fin : S -> res XML_TOK) (QS : _ -> _ -> Prop)
    (QC : B -> bytes -> Prop) (I : S -> bytes -> Prop) s b :
  (forall s b, I s b -> has (minbpc e) b = true ->
     wp (body s) b QS (fun s' b' => I s' b' /\ length b' < length b)) ->
  (forall s b, I s b -> exists t, fin s = Ok t /\ QS t None) ->
  I s b -> wp (while_ e body fin s) b QS QC.
Proof.
  intros Hb Hf HI. unfold while_.
  assert (G : forall f s b, I s b -> length b < f -> wp (while_fuel e f body fin s) b QS QC).
  { clear s b HI. induction f; intros s b HI Hl; [lia|].
    unfold wp. cbn [while_fuel].
    unfold has_chars. rewrite Nat.mul_1_l. destruct (has (minbpc e) b) eqn:Hh.
    - specialize (Hb s b HI Hh). unfold wp in Hb.
      destruct (body s b) as [[t n|s' b']|]; auto.
      destruct Hb as [HI' Hl']. apply IHf; auto; lia.
    - destruct (Hf s b HI) as (t & -> & HQ). cbn [bind]. auto. }
  apply G; auto.
Qed.

Lemma wp_require k b t (QS : _ -> _ -> Prop) (QC : _ -> _ -> Prop) :
  QS t None -> (has (k * minbpc e) b = true -> QC tt b) -> wp (require_or e k t) b QS QC.
Proof. unfold wp, require_or, has_chars. destruct (has _ b); auto. Qed.

Lemma wp_require_char b (QS : _ -> _ -> Prop) (QC : _ -> _ -> Prop) :
  QS T_PARTIAL None -> (has (minbpc e) b = true -> QC tt b) -> wp (require_char e) b QS QC.
Proof. unfold require_char, require_chars. intros. apply wp_require; auto. rewrite Nat.mul_1_l. auto. Qed.

Lemma wp_require_bytes n t b (QS : _ -> _ -> Prop) (QC : _ -> _ -> Prop) :
  QS t None -> (has n b = true -> QC tt b) -> wp (require_bytes n t) b QS QC.
Proof. unfold wp, require_bytes. destruct (has _ b); auto. Qed.

Lemma wp_bt b QS (QC : _ -> _ -> Prop) : bytes_ok b -> has (minbpc e) b = true ->
  (forall t, byte_type e b = Ok t -> QC t b) -> wp (bt e) b QS QC.
Proof.
  intros Hb Hh HQ. unfold wp, bt. destruct (eo_bt _ OK b Hb Hh) as [t E]. rewrite E. cbn [bind]. auto.
Qed.

Lemma wp_matches c b QS (QC : _ -> _ -> Prop) : has (minbpc e) b = true ->
  (forall r, char_matches e b c = Ok r -> QC r b) -> wp (matches e c) b QS QC.
Proof.
  intros Hh HQ. unfold wp, matches. destruct (eo_match _ OK b c Hh) as [t E]. rewrite E. cbn [bind]. auto.
Qed.

Lemma has_sub n k b b' : has (n + k) b = true -> inc_start n b = Ok b' -> has k b' = true.
Proof. rewrite !has_length. intros H E. apply inc_suffix in E. lia. Qed.

Lemma wp_bt_at b QS (QC : _ -> _ -> Prop) : bytes_ok b -> has (2 * minbpc e) b = true ->
  (forall t, QC t b) -> wp (bt_at e 1) b QS QC.
Proof.
  intros Hb Hh HQ. unfold wp, bt_at. rewrite Nat.mul_1_l.
  destruct (inc_start_has (minbpc e) b) as [b' E].
  { apply has_length in Hh. apply has_length. lia. }
  rewrite E. cbn [bind].
  destruct (eo_bt _ OK b') as [t Et].
  - eapply suffix_bytes; [apply inc_suffix in E; apply E|auto].
  - eapply has_sub; [|eauto]. replace (minbpc e + minbpc e) with (2 * minbpc e) by lia. auto.
  - rewrite Et. cbn [bind]. auto.
Qed.

Lemma wp_matches_at c b QS (QC : _ -> _ -> Prop) : has (2 * minbpc e) b = true ->
  (forall t, QC t b) -> wp (matches_at e 1 c) b QS QC.
Proof.
  intros Hh HQ. unfold wp, matches_at. rewrite Nat.mul_1_l.
  destruct (inc_start_has (minbpc e) b) as [b' E].
  { apply has_length in Hh. apply has_length. lia. }
  rewrite E. cbn [bind].
  destruct (eo_match _ OK b' c) as [t Et].
  - eapply has_sub; [|eauto]. replace (minbpc e + minbpc e) with (2 * minbpc e) by lia. auto.
  - rewrite Et. cbn [bind]. auto.
Qed.

Lemma wp_adv1 b QS (QC : _ -> _ -> Prop) : has (minbpc e) b = true ->
  (forall b', inc_start (minbpc e) b = Ok b' -> QC tt b') -> wp (adv1 e) b QS QC.
Proof. apply wp_adv. Qed.

Lemma wp_stop_after {A} t b (QS : _ -> _ -> Prop) QC : has (minbpc e) b = true ->
  (forall b', inc_start (minbpc e) b = Ok b' -> QS t (Some b')) -> wp (@stop_after e A t) b QS QC.
Proof.
  intros. unfold stop_after. apply wp_bind, wp_adv1; [auto | intros; apply wp_stop_here; auto].
Qed.

Lemma wp_lift f b QS (QC : _ -> _ -> Prop) : (exists r, f b = Ok r) ->
  (forall r, QC r b) -> wp (lift_check f) b QS QC.
Proof. intros [r E] HQ. unfold wp, lift_check. rewrite E. cbn [bind]. auto. Qed.

(* what the three character-class macros guarantee: they stop inside the buffer, continue after
   having consumed something, or run [other] *)
Definition consumed (b b' : bytes) : Prop := suffix b' b /\ length b' < length b.

Lemma consumed_inc n b b' : 1 <= n -> inc_start n b = Ok b' -> consumed b b'.
Proof. intros Hn E. apply inc_suffix in E. split; [apply E | lia]. Qed.

Lemma lead_pos b t n : byte_type e b = Ok t -> lead_len t = Some n -> 1 <= n.
Proof. intros H1 H2. apply lead_len_cases in H2. lia. Qed.

Lemma wp_match_invalid {A} t (k : A) other b (QS : _ -> _ -> Prop) (QC : A -> bytes -> Prop) :
  bytes_ok b -> byte_type e b = Ok t ->
  QS T_PARTIAL_CHAR None -> QS T_INVALID (Some b) ->
  (forall b', consumed b b' -> QC k b') ->
  (has (minbpc e) b = true -> wp other b QS QC) ->
  wp (match_invalid e t k other) b QS QC.
Proof.
  intros Hb Ht H1 H2 H3 H4. unfold match_invalid.
  destruct (lead_len t) as [n|] eqn:El.
  - apply wp_bind, wp_require_bytes; auto. intros Hh.
    apply wp_bind, wp_lift; [eapply eo_invalid; eauto|]. intros [|].
    + apply wp_stop_here; auto.
    + apply wp_bind, wp_adv; auto. intros b' E. apply wp_ret. apply H3.
      apply (consumed_inc n); auto. eapply lead_pos; eauto.
  - pose proof (eo_bt_has _ OK _ _ Ht) as Hh.
    destruct t; auto; discriminate.
Qed.

Lemma wp_check_name {A} t (k : A) other b (QS : _ -> _ -> Prop) (QC : A -> bytes -> Prop) :
  bytes_ok b -> byte_type e b = Ok t ->
  QS T_PARTIAL_CHAR None -> QS T_INVALID (Some b) ->
  (forall b', consumed b b' -> QC k b') ->
  (has (minbpc e) b = true -> wp other b QS QC) ->
  wp (check_name e t k other) b QS QC.
Proof.
  intros Hb Ht H1 H2 H3 H4. unfold check_name.
  pose proof (eo_bt_has _ OK _ _ Ht) as Hh. pose proof minbpc_pos as Hm.
  assert (G : wp (mbind (adv1 e) (fun _ => ret k)) b QS QC).
  { apply wp_bind, wp_adv1; auto. intros b' E. apply wp_ret. apply H3. apply (consumed_inc (minbpc e)); auto. }
  destruct (lead_len t) as [n|] eqn:El.
  - apply wp_bind, wp_require_bytes; auto. intros Hn.
    apply wp_bind, wp_lift; [eapply eo_name; eauto|]. intros [|].
    + apply wp_bind, wp_adv; auto. intros b' E. apply wp_ret. apply H3.
      apply (consumed_inc n); auto. eapply lead_pos; eauto.
    + apply wp_stop_here; auto.
  - destruct t; auto; try discriminate.
    apply wp_bind, wp_lift; [eapply eo_namem; eauto|]. intros [|]; auto.
Qed.

Lemma wp_check_nmstrt {A} t (k : A) other b (QS : _ -> _ -> Prop) (QC : A -> bytes -> Prop) :
  bytes_ok b -> byte_type e b = Ok t ->
  QS T_PARTIAL_CHAR None -> QS T_INVALID (Some b) ->
  (forall b', consumed b b' -> QC k b') ->
  (has (minbpc e) b = true -> wp other b QS QC) ->
  wp (check_nmstrt e t k other) b QS QC.
Proof.
  intros Hb Ht H1 H2 H3 H4. unfold check_nmstrt.
  pose proof (eo_bt_has _ OK _ _ Ht) as Hh. pose proof minbpc_pos as Hm.
  assert (G : wp (mbind (adv1 e) (fun _ => ret k)) b QS QC).
  { apply wp_bind, wp_adv1; auto. intros b' E. apply wp_ret. apply H3. apply (consumed_inc (minbpc e)); auto. }
  destruct (lead_len t) as [n|] eqn:El.
  - apply wp_bind, wp_require_bytes; auto. intros Hn.
    apply wp_bind, wp_lift; [eapply eo_nmstrt; eauto|]. intros [|].
    + apply wp_bind, wp_adv; auto. intros b' E. apply wp_ret. apply H3.
      apply (consumed_inc n); auto. eapply lead_pos; eauto.
    + apply wp_stop_here; auto.
  - destruct t; auto; try discriminate.
    apply wp_bind, wp_lift; [eapply eo_nmstrtm; eauto|]. intros [|]; auto.
Qed.

End Safe.

(* ---- automation ---- *)

(* The invariant used in every scanner: the current buffer is a suffix of the scan's start. *)
Ltac sfx :=
  repeat match goal with
  | H : consumed _ _ |- _ => destruct H
  | H : inc_start _ _ = Ok _ |- _ => apply inc_suffix in H; destruct H
  | H : suffix ?b ?c, B : Forall ?Q ?c |- _ =>
      lazymatch goal with
      | _ : Forall Q b |- _ => fail
      | _ => pose proof (suffix_bytes _ _ H B)
      end
  end.

Ltac solve_side :=
  sfx; match goal with OK : enc_okq _ _ |- _ => pose proof (minbpc_pos _ OK) end;
  match goal with
  | |- suffix _ _ => eauto 8 using suffix_trans, suffix_refl
  | |- safe_stop _ _ (Some _) =>
      cbn [safe_stop]; split; [eauto 8 using suffix_trans, suffix_refl | first [reflexivity | assumption]]
  | |- safe_stop _ _ None => reflexivity
  | |- Forall _ _ => eauto using suffix_bytes
  | |- (_ < _)%nat => lia
  | |- (_ <= _)%nat => lia
  | |- has _ _ = true => first [assumption | rewrite Nat.mul_1_l in *; assumption | rewrite ?has_length in *; lia]
  | |- _ => eauto
  end.

Ltac wstep :=
  lazymatch goal with OK : enc_okq _ _ |- _ =>
  match goal with
  | |- wp (mbind _ _) _ _ _ => apply wp_bind
  | |- wp (ret _) _ _ _ => apply wp_ret
  | |- wp (stop_here _) _ _ _ => apply wp_stop_here; [solve_side]
  | |- wp (stop_none _) _ _ _ => apply wp_stop_none; [solve_side]
  | |- wp (stop_after _ _) _ _ _ => apply wp_stop_after; [solve_side | intros; solve_side]
  | |- wp (require_char _) _ _ _ => apply wp_require_char; [solve_side | intros]
  | |- wp (require_chars _ _) _ _ _ => apply wp_require; [solve_side | intros]
  | |- wp (require_or _ _ _) _ _ _ => apply wp_require; [solve_side | intros]
  | |- wp (bt _) _ _ _ => apply (wp_bt _ OK); [solve_side | solve_side | intros]
  | |- wp (matches _ _) _ _ _ => apply (wp_matches _ OK); [solve_side | intros [|] ?]; cbn [negb]
  | |- wp (bt_at _ 1) _ _ _ => apply (wp_bt_at _ OK); [solve_side | solve_side | intros]
  | |- wp (matches_at _ 1 _) _ _ _ => apply (wp_matches_at _ OK); [solve_side | intros [|]]; cbn [negb]
  | |- wp (adv1 _) _ _ _ => apply wp_adv1; [solve_side | intros]
  | |- wp (match_invalid _ _ _ _) _ _ _ =>
      apply (wp_match_invalid _ OK); [solve_side | solve_side | solve_side | solve_side | intros | intros]
  | |- wp (check_name _ _ _ _) _ _ _ =>
      apply (wp_check_name _ OK); [solve_side | solve_side | solve_side | solve_side | intros | intros]
  | |- wp (check_nmstrt _ _ _ _) _ _ _ =>
      apply (wp_check_nmstrt _ OK); [solve_side | solve_side | solve_side | solve_side | intros | intros]
  | |- wp (if ?c then _ else _) _ _ _ => destruct c
  | |- wp (match ?t with _ => _ end) _ _ _ => destruct t
  | |- _ /\ _ => split
  | |- _ => solve [solve_side]
  end end.

Definition inv0 {S} (b0 : bytes) (_ : S) (b : bytes) : Prop := suffix b b0.

Ltac while_tac b0 :=
  match goal with
  | |- wp (while_partial _ _) _ _ _ => unfold while_partial
  | _ => idtac
  end;
  match goal with |- wp (while_ ?e _ _ _) _ _ _ => apply (wp_while e _ _ _ _ (inv0 b0)) end;
  [ let s := fresh "s" in let b := fresh "b" in let HI := fresh "HI" in let Hh := fresh "Hh" in
    intros s b HI Hh; unfold inv0 in *
  | intros; eexists; split; [reflexivity | solve_side]
  | unfold inv0; solve_side ].
Ltac loop_tac b0 :=
  apply (wp_loopb _ _ _ (inv0 b0));
  [ let s := fresh "s" in let b := fresh "b" in let HI := fresh "HI" in
    intros s b HI; unfold inv0 in * | unfold inv0; solve_side ].

