(* Evaluating scanners over code points. *)
From Coq Require Import String List NArith ZArith Bool Lia Arith.
From Coq Require Import ZifyBool ZifyNat ZifyN.
From Verif Require Import Base Tables Encoding SpecText SpecUnicode SpecNames SpecLex Tok TokMisc EncLaws TokWp TokSafe SpecTok TokTop UniLaws Charset CharsetLaws Sim SimTok SimTop TextEnc.
Import ListNotations.
Local Open Scope N_scope.

(* types of single characters *)
Definition type_char (t : ByteType) : option N :=
  match t with
  | BT_LT => Some 60 | BT_AMP => Some 38 | BT_RSQB => Some 93 | BT_CR => Some 13 | BT_LF => Some 10
  | BT_GT => Some 62 | BT_QUOT => Some 34 | BT_APOS => Some 39 | BT_EQUALS => Some 61 | BT_QUEST => Some 63
  | BT_EXCL => Some 33 | BT_SOL => Some 47 | BT_SEMI => Some 59 | BT_NUM => Some 35 | BT_LSQB => Some 91
  | BT_MINUS => Some 45 | BT_PERCNT => Some 37 | BT_LPAR => Some 40 | BT_RPAR => Some 41 | BT_AST => Some 42
  | BT_PLUS => Some 43 | BT_COMMA => Some 44 | BT_VERBAR => Some 124
  | _ => None
  end.
Definition in_type (t : ByteType) (ns : bool) (c : N) : bool :=
  match t with
  | BT_S => (c =? 32) || (c =? 9)
  | BT_DIGIT => (48 <=? c) && (c <=? 57)
  | BT_HEX => ((65 <=? c) && (c <=? 70)) || ((97 <=? c) && (c <=? 102))
  | BT_COLON => ns && (c =? 58)
  | BT_TRAIL | BT_MALFORM | BT_LEAD2 | BT_LEAD3 | BT_LEAD4 => false
  | _ => match type_char t with Some x => c =? x | None => true end
  end.
Definition type_ok (ns : bool) (c : N) : bool :=
  let t := nth (N.to_nat c) (ascii_table ns) BT_NONXML in
  negb (bt_eqb t BT_NONASCII) &&
  in_type t ns c &&
  forallb (fun u => bt_eqb t u || match type_char u with Some x => negb (c =? x) | None => true end)
    [BT_LT; BT_AMP; BT_RSQB; BT_CR; BT_LF; BT_GT; BT_QUOT; BT_APOS; BT_EQUALS; BT_QUEST; BT_EXCL; BT_SOL; BT_SEMI;
     BT_NUM; BT_LSQB; BT_MINUS; BT_PERCNT; BT_LPAR; BT_RPAR; BT_AST; BT_PLUS; BT_COMMA; BT_VERBAR] &&
  (bt_eqb t BT_S || negb ((c =? 32) || (c =? 9))) &&
  (bt_eqb t BT_DIGIT || negb ((48 <=? c) && (c <=? 57))) &&
  (bt_eqb t BT_HEX || negb (((65 <=? c) && (c <=? 70)) || ((97 <=? c) && (c <=? 102)))) &&
  (bt_eqb t BT_COLON || negb (ns && (c =? 58))).
Lemma type_ok_all ns c : c < 128 -> type_ok ns c = true.
Proof. apply below128. destruct ns; vm_compute; reflexivity. Qed.

Section Std.
Variables (lat ns : bool) (dom : N -> bool) (k : cls).
Hypothesis ST : std lat ns dom k.
Notation ce := (cp_enc k).

Lemma type_char_iff c t x : dom c = true -> type_char t = Some x -> (ty k c = t <-> c = x).
Proof.
  intros Hd Ht. destruct (N.lt_ge_cases c 128) as [Hc|Hc].
  - pose proof (type_ok_all ns c Hc) as T. unfold type_ok in T. rewrite (st_ascii _ _ _ _ ST c Hc).
    set (u := nth (N.to_nat c) (ascii_table ns) BT_NONXML) in *. cbv zeta in T.
    repeat (apply andb_prop in T as [T ?]). rewrite forallb_forall in *. split.
    + intros E. rewrite E in *. unfold in_type in *. rewrite Ht in *. destruct t; try discriminate; lia.
    + intros ->. assert (In t [BT_LT; BT_AMP; BT_RSQB; BT_CR; BT_LF; BT_GT; BT_QUOT; BT_APOS; BT_EQUALS; BT_QUEST; BT_EXCL; BT_SOL; BT_SEMI;
     BT_NUM; BT_LSQB; BT_MINUS; BT_PERCNT; BT_LPAR; BT_RPAR; BT_AST; BT_PLUS; BT_COMMA; BT_VERBAR]) as I
        by (destruct t; try discriminate; cbn; tauto).
      match goal with H : forall x, In x _ -> _ |- _ => specialize (H _ I) end. rewrite Ht in *.
      rewrite N.eqb_refl in *. cbn [negb] in *. rewrite orb_false_r in *. now apply bt_eqb_eq.
  - pose proof (st_wide _ _ _ _ ST c Hd Hc) as W. split; intros E.
    + rewrite E in W. cbn in W. destruct t; try discriminate; intuition discriminate.
    + subst. destruct t; try discriminate; injection Ht as <-; lia.
Qed.

Lemma type_set t c : dom c = true -> (t = BT_S \/ t = BT_DIGIT \/ t = BT_HEX \/ t = BT_COLON) ->
  (ty k c = t <-> in_type t ns c = true).
Proof.
  intros Hd Ht. destruct (N.lt_ge_cases c 128) as [Hc|Hc].
  - pose proof (type_ok_all ns c Hc) as T. unfold type_ok in T. rewrite (st_ascii _ _ _ _ ST c Hc).
    set (u := nth (N.to_nat c) (ascii_table ns) BT_NONXML) in *. cbv zeta in T.
    repeat (apply andb_prop in T as [T ?]). split.
    + now intros <-.
    + intros E. apply bt_eqb_eq. unfold in_type in E. destruct Ht as [->|[->|[->| ->]]]; rewrite E in *; cbn [negb] in *;
        rewrite orb_false_r in *; auto.
  - pose proof (st_wide _ _ _ _ ST c Hd Hc) as W. split; intros E.
    + rewrite E in W. cbn in W. exfalso. destruct Ht as [->|[->|[->| ->]]]; repeat (destruct W as [W|W]; [discriminate|]); exact W.
    + unfold in_type in E. destruct Ht as [->|[->|[->| ->]]]; lia.
Qed.

Lemma no_lead c : dom c = true -> lead_len (ty k c) = None.
Proof.
  intros Hd. destruct (N.lt_ge_cases c 128) as [Hc|Hc].
  - pose proof (type_ok_all ns c Hc) as T. unfold type_ok in T. rewrite (st_ascii _ _ _ _ ST c Hc).
    destruct (nth _ _ _); auto; cbn in T; discriminate.
  - pose proof (st_wide _ _ _ _ ST c Hd Hc) as W. repeat (destruct W as [W|W]; [now rewrite <- W|]); destruct W.
Qed.
Lemma no_trail c : dom c = true -> ty k c <> BT_TRAIL /\ ty k c <> BT_MALFORM.
Proof.
  intros Hd. destruct (N.lt_ge_cases c 128) as [Hc|Hc].
  - pose proof (type_ok_all ns c Hc) as T. unfold type_ok in T. rewrite (st_ascii _ _ _ _ ST c Hc).
    split; intros E; rewrite E in T; cbn in T; discriminate.
  - pose proof (st_wide _ _ _ _ ST c Hd Hc) as W. cbn in W.
    split; intros E; rewrite E in W; intuition discriminate.
Qed.

(* white space *)
Definition sp_type (t : ByteType) : bool := match t with BT_S | BT_CR | BT_LF => true | _ => false end.
Lemma sp_iff c : dom c = true -> sp_type (ty k c) = is_space c.
Proof.
  intros Hd. unfold is_space. pose proof (type_char_iff c BT_CR 13 Hd eq_refl) as H1.
  pose proof (type_char_iff c BT_LF 10 Hd eq_refl) as H2.
  pose proof (type_set BT_S c Hd ltac:(auto)) as HS. unfold in_type in HS.
  apply eq_true_iff_eq. rewrite !orb_true_iff, !N.eqb_eq in *. rewrite <- H1, <- H2, <- HS.
  destruct (ty k c); cbn [sp_type]; intuition discriminate.
Qed.

(* loops, one iteration at a time *)
Lemma while_fuel_ge {S B} (body : S -> M S) (fin : S -> res XML_TOK) :
  (forall s b s' b', body s b = Ok (Cont s' b') -> length b' < length b)%nat ->
  forall f f' s b, (length b < f)%nat -> (length b < f')%nat ->
  @while_fuel ce S B f body fin s b = while_fuel ce f' body fin s b.
Proof.
  intros P. induction f as [|f IH]; intros f' s b Hf Hf'; [lia|]. destruct f' as [|f']; [lia|].
  cbn [while_fuel]. destruct (has_chars ce 1 b); auto. destruct (body s b) as [[t n|s' b']|] eqn:E; auto.
  apply P in E. apply IH; lia.
Qed.
Lemma while_eq {S B} (body : S -> M S) (fin : S -> res XML_TOK) s b :
  (forall s b s' b', body s b = Ok (Cont s' b') -> length b' < length b)%nat ->
  @while_ ce S B body fin s b =
  match b with
  | [] => let* t := fin s in Ok (Stop t None)
  | _ => match body s b with
         | Ok (Cont s' b') => while_ ce body fin s' b'
         | Ok (Stop t n) => Ok (Stop t n)
         | Err x => Err x
         end
  end.
Proof.
  intros P. unfold while_ at 1. cbn [while_fuel]. destruct b as [|c r]; [reflexivity|].
  change (has_chars ce 1 (c :: r)) with true. cbv iota. destruct (body s (c :: r)) as [[t n|s' b']|] eqn:E; auto.
  apply P in E. unfold while_. apply while_fuel_ge; auto.
Qed.
Lemma loop_ge {S B} (body : S -> M (S + B)) :
  (forall s b s' b', body s b = Ok (Cont (inl s') b') -> length b' < length b)%nat ->
  forall f f' s b, (length b < f)%nat -> (length b < f')%nat -> loop f body s b = loop f' body s b.
Proof.
  intros P. induction f as [|f IH]; intros f' s b Hf Hf'; [lia|]. destruct f' as [|f']; [lia|].
  cbn [loop]. destruct (body s b) as [[t n|[s'|v] b']|] eqn:E; auto.
  apply P in E. apply IH; lia.
Qed.
Lemma loopb_eq {S B} (body : S -> M (S + B)) s b :
  (forall s b s' b', body s b = Ok (Cont (inl s') b') -> length b' < length b)%nat ->
  loopb body s b =
  match body s b with
  | Ok (Cont (inl s') b') => loopb body s' b'
  | Ok (Cont (inr v) b') => Ok (Cont v b')
  | Ok (Stop t n) => Ok (Stop t n)
  | Err x => Err x
  end.
Proof.
  intros P. unfold loopb at 1. cbn [loop]. destruct (body s b) as [[t n|[s'|v] b']|] eqn:E; auto.
  apply P in E. unfold loopb. apply loop_ge; auto.
Qed.
End Std.

(* evaluation at a known head; loops are left alone *)
Ltac ev := cbv beta iota zeta delta [mbind bt adv1 adv require_char require_chars require_or stop_here stop_none stop_after
  ret matches matches_at bt_at lift_check require_bytes match_invalid check_name check_nmstrt
  cp_enc minbpc byte_type byte_to_ascii is_name_char is_nmstrt_char is_invalid_char is_name_char_minbpc is_nmstrt_char_minbpc
  char_matches peek nth_error bind inc_start has_chars has Nat.mul Nat.add lead_len].
Ltac ev_in H := cbv beta iota zeta delta [mbind bt adv1 adv require_char require_chars require_or stop_here stop_none stop_after
  ret matches matches_at bt_at lift_check require_bytes match_invalid check_name check_nmstrt
  cp_enc minbpc byte_type byte_to_ascii is_name_char is_nmstrt_char is_invalid_char is_name_char_minbpc is_nmstrt_char_minbpc
  char_matches peek nth_error bind inc_start has_chars has Nat.mul Nat.add lead_len] in H.

(* from code points back to an encoding *)
Section Lift.
Variables (e : EncImpl) (enc : N -> bytes) (dom : N -> bool) (k : cls).
Hypothesis CS : charset e enc dom k.
Lemma enc_pos c : dom c = true -> (0 < length (enc c))%nat.
Proof. intros Hd. destruct (ch_whole _ _ _ _ CS c Hd) as [j ->]. destruct (ch_min _ _ _ _ CS) as [-> | ->]; lia. Qed.
Lemma at_char_inj a b cs : all_in dom cs -> (a <= length cs)%nat -> (b <= length cs)%nat ->
  at_char enc cs a = at_char enc cs b -> a = b.
Proof.
  unfold at_char. revert a b. induction cs as [|c cs IH]; intros a b Hd Ha Hb E.
  - cbn in *. lia.
  - inversion Hd; subst. pose proof (enc_pos c H1) as P.
    destruct a as [|a], b as [|b]; cbn [firstn flat_map length] in E; rewrite ?app_length in E; cbn [length] in *; try lia.
    f_equal. apply IH; auto; lia.
Qed.
Lemma lift_tok D cs r r' t m : same_tok enc D cs r r' -> (D = true -> t <> T_INVALID) ->
  (r = Ok (t, Some m) <-> exists n, r' = Ok (t, Some n) /\ m = at_char enc cs n).
Proof.
  intros HS HD. unfold same_tok in HS. destruct r' as [[t' [n|]]|x]; [| |destruct HS].
  - rewrite HS. split; [intros [= <- <-]; eauto|]. intros (n' & [= <- <-] & ->). auto.
  - split; [|intros (? & ? & _); discriminate].
    destruct HS as [->|(-> & -> & n & ->)]; [discriminate|]. intros [= <- <-]. now destruct (HD eq_refl).
Qed.
Lemma lift_none cs r r' t : same_tok enc false cs r r' -> (r = Ok (t, None) <-> r' = Ok (t, None)).
Proof.
  unfold same_tok. destruct r' as [[t' [n|]]|x]; [| |intros []].
  - intros ->. split; discriminate.
  - intros [->|(? & _)]; [tauto|discriminate].
Qed.
End Lift.

(* single steps *)
Section Steps.
Variable k : cls.
Notation ce := (cp_enc k).
Lemma b_bt {A} (f : ByteType -> M A) c r : mbind (bt ce) f (c :: r) = f (ty k c) (c :: r). Proof. reflexivity. Qed.
Lemma b_adv1 {A} (f : unit -> M A) c r : mbind (adv1 ce) f (c :: r) = f tt r. Proof. reflexivity. Qed.
Lemma b_req {A} (f : unit -> M A) c r : mbind (require_char ce) f (c :: r) = f tt (c :: r). Proof. reflexivity. Qed.
Lemma b_req0 {A} (f : unit -> M A) : mbind (require_char ce) f [] = Ok (Stop T_PARTIAL None). Proof. reflexivity. Qed.
Lemma b_ror {A} (f : unit -> M A) t c r : mbind (require_or ce 1 t) f (c :: r) = f tt (c :: r). Proof. reflexivity. Qed.
Lemma b_ror0 {A} (f : unit -> M A) t : mbind (require_or ce 1 t) f [] = Ok (Stop t None). Proof. reflexivity. Qed.
Lemma b_ror2 {A} (f : unit -> M A) t c d r : mbind (require_or ce 2 t) f (c :: d :: r) = f tt (c :: d :: r). Proof. reflexivity. Qed.
Lemma b_ror21 {A} (f : unit -> M A) t c : mbind (require_or ce 2 t) f [c] = Ok (Stop t None). Proof. reflexivity. Qed.
Lemma b_rcs2 {A} (f : unit -> M A) c d r : mbind (require_chars ce 2) f (c :: d :: r) = f tt (c :: d :: r). Proof. reflexivity. Qed.
Lemma b_rcs21 {A} (f : unit -> M A) c : mbind (require_chars ce 2) f [c] = Ok (Stop T_PARTIAL None). Proof. reflexivity. Qed.
Lemma b_match {A} (f : bool -> M A) x c r : mbind (matches ce x) f (c :: r) = f (c =? x) (c :: r). Proof. reflexivity. Qed.
Lemma b_match1 {A} (f : bool -> M A) x c d r : mbind (matches_at ce 1 x) f (c :: d :: r) = f (d =? x) (c :: d :: r). Proof. reflexivity. Qed.
Lemma b_bt1 {A} (f : ByteType -> M A) c d r : mbind (bt_at ce 1) f (c :: d :: r) = f (ty k d) (c :: d :: r). Proof. reflexivity. Qed.
Lemma b_ret {A B} (f : A -> M B) x b : mbind (ret x) f b = f x b. Proof. reflexivity. Qed.
Lemma b_assoc {A B C} (m : M A) (f : A -> M B) (g : B -> M C) b : mbind (mbind m f) g b = mbind m (fun x => mbind (f x) g) b.
Proof. unfold mbind. destruct (m b) as [[|]|]; reflexivity. Qed.
Lemma b_stop {A B} (f : A -> M B) t b : mbind (stop_here t) f b = Ok (Stop t (Some b)). Proof. reflexivity. Qed.
Lemma s_here {A} t b : @stop_here A t b = Ok (Stop t (Some b)). Proof. reflexivity. Qed.
Lemma s_after {A} t c r : @stop_after ce A t (c :: r) = Ok (Stop t (Some r)). Proof. reflexivity. Qed.
Lemma s_adv1 c r : adv1 ce (c :: r) = Ok (Cont tt r). Proof. reflexivity. Qed.
Lemma s_ret {A} (a : A) b : ret a b = Ok (Cont a b). Proof. reflexivity. Qed.
End Steps.
Global Hint Rewrite @b_bt @b_adv1 @b_req @b_req0 @b_ror @b_ror0 @b_ror2 @b_ror21 @b_rcs2 @b_rcs21 @b_match @b_match1 @b_bt1 @b_ret
  @b_assoc @b_stop @s_here @s_after @s_adv1 @s_ret : cp.
Ltac cps := repeat (autorewrite with cp; cbv beta).

(* a loop body that continues has consumed something *)
Lemma wp_prog {S} (m : M S) b : wp m b (fun _ _ => True) (fun _ b' => length b' < length b)%nat ->
  forall s' b', m b = Ok (Cont s' b') -> (length b' < length b)%nat.
Proof. unfold wp. intros H s' b' E. now rewrite E in H. Qed.
Lemma wp_prog2 {S B} (m : M (S + B)) b :
  wp m b (fun _ _ => True) (fun r b' => match r with inl _ => length b' < length b | inr _ => True end)%nat ->
  forall s' b', m b = Ok (Cont (inl s') b') -> (length b' < length b)%nat.
Proof. unfold wp. intros H s' b' E. now rewrite E in H. Qed.
Ltac wany := match goal with |- wp (while_partial _ _) _ _ _ => unfold while_partial | _ => idtac end;
  match goal with |- wp (while_ ?e _ _ _) ?b _ _ =>
    apply (wp_while e _ _ _ _ (fun _ b1 => suffix b1 b)); [intros ? ? ? ? | intros; eexists; split; [reflexivity|exact I] | apply suffix_refl]
  end.
Ltac prog k :=
  intros ? [|? ?];
  [intros ? ?; cbn; discriminate
  | first [apply wp_prog | apply wp_prog2];
    let OK := fresh "OK" in pose proof (cp_enc_ok k) as OK;
    match goal with |- wp _ ?b _ _ =>
      let H := fresh in assert (H : Forall (fun _ : N => True) b) by (apply Forall_forall; auto);
      assert (has (minbpc (cp_enc k)) b = true) by reflexivity
    end; repeat first [wstep | wany] ].
