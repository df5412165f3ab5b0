(* Proofs about the bounded conversions to UTF-8. *)
From Coq Require Import List NArith ZArith Bool Lia.
From Coq Require Import ZifyBool ZifyNat ZifyN.
From Verif Require Import Base Tables Encoding EncLaws SpecUnicode SpecConv UniLaws.
Import ListNotations.
Local Open Scope N_scope.

Ltac Zify.zify_post_hook ::= Z.div_mod_to_equations.

(* ---- trimming ---- *)

Lemma index_app {A} (l r : list A) x : index (l ++ x :: r) (N.of_nat (length l)) = Ok x.
Proof.
  unfold index. rewrite Nat2N.id, nth_error_app2, Nat.sub_diag by lia. reflexivity.
Qed.

Lemma trim_step pre b post w : b < 256 ->
  trim_loop (pre ++ b :: post) (S (length pre)) w =
  let i := S (length pre) in
  if (240 <=? b) && (b <? 248) then
    if (4 <=? w + 1)%nat then Ok (i + 3)%nat else trim_loop (pre ++ b :: post) (length pre) 1
  else if (224 <=? b) && (b <? 240) then
    if (3 <=? w + 1)%nat then Ok (i + 2)%nat else trim_loop (pre ++ b :: post) (length pre) 1
  else if (192 <=? b) && (b <? 224) then
    if (2 <=? w + 1)%nat then Ok (i + 1)%nat else trim_loop (pre ++ b :: post) (length pre) 1
  else if b <? 128 then Ok i
  else trim_loop (pre ++ b :: post) (length pre) (w + 1).
Proof.
  intros Hb. cbn [trim_loop]. rewrite index_app. cbn [bind].
  rewrite mask248, mask240, mask224, mask128 by auto. reflexivity.
Qed.

(* one step at the position after [b], stated for any way of writing the buffer *)
Lemma trim_trail buf pre b post w i : buf = pre ++ b :: post -> i = S (length pre) ->
  128 <= b < 192 -> trim_loop buf i w = trim_loop buf (length pre) (w + 1).
Proof.
  intros -> -> Hb. rewrite trim_step by lia. cbv zeta.
  replace ((240 <=? b) && (b <? 248)) with false by lia.
  replace ((224 <=? b) && (b <? 240)) with false by lia.
  replace ((192 <=? b) && (b <? 224)) with false by lia.
  replace (b <? 128) with false by lia. reflexivity.
Qed.

Lemma trim_done buf pre b post w i k : buf = pre ++ b :: post -> i = S (length pre) ->
  (k = 3%nat /\ 240 <= b < 248 \/ k = 2%nat /\ 224 <= b < 240 \/ k = 1%nat /\ 192 <= b < 224
   \/ k = 0%nat /\ b < 128) ->
  (k <= w)%nat -> trim_loop buf i w = Ok (i + k)%nat.
Proof.
  intros -> -> Hk Hw. rewrite trim_step by lia. cbv zeta.
  destruct Hk as [[-> H]|[[-> H]|[[-> H]|[-> H]]]].
  - replace ((240 <=? b) && (b <? 248)) with true by lia.
    replace (4 <=? w + 1)%nat with true by lia. reflexivity.
  - replace ((240 <=? b) && (b <? 248)) with false by lia.
    replace ((224 <=? b) && (b <? 240)) with true by lia.
    replace (3 <=? w + 1)%nat with true by lia. reflexivity.
  - replace ((240 <=? b) && (b <? 248)) with false by lia.
    replace ((224 <=? b) && (b <? 240)) with false by lia.
    replace ((192 <=? b) && (b <? 224)) with true by lia.
    replace (2 <=? w + 1)%nat with true by lia. reflexivity.
  - replace ((240 <=? b) && (b <? 248)) with false by lia.
    replace ((224 <=? b) && (b <? 240)) with false by lia.
    replace ((192 <=? b) && (b <? 224)) with false by lia.
    replace (b <? 128) with true by lia. f_equal. lia.
Qed.

Lemma trim_skip buf pre b post w i k : buf = pre ++ b :: post -> i = S (length pre) ->
  (k = 3%nat /\ 240 <= b < 248 \/ k = 2%nat /\ 224 <= b < 240 \/ k = 1%nat /\ 192 <= b < 224) ->
  (w < k)%nat -> trim_loop buf i w = trim_loop buf (length pre) 1.
Proof.
  intros -> -> Hk Hw. rewrite trim_step by lia. cbv zeta.
  destruct Hk as [[-> H]|[[-> H]|[-> H]]].
  - replace ((240 <=? b) && (b <? 248)) with true by lia.
    replace (4 <=? w + 1)%nat with false by lia. reflexivity.
  - replace ((240 <=? b) && (b <? 248)) with false by lia.
    replace ((224 <=? b) && (b <? 240)) with true by lia.
    replace (3 <=? w + 1)%nat with false by lia. reflexivity.
  - replace ((240 <=? b) && (b <? 248)) with false by lia.
    replace ((224 <=? b) && (b <? 240)) with false by lia.
    replace ((192 <=? b) && (b <? 224)) with true by lia.
    replace (2 <=? w + 1)%nat with false by lia. reflexivity.
Qed.

Ltac len := rewrite ?app_length; cbn [length]; rewrite ?app_length; cbn [length]; lia.
Ltac lst := rewrite <- ?app_assoc; reflexivity.

(* after whole characters the loop stops at once *)
Lemma trim_whole cs post w : Forall (fun c => c < 1114112) cs ->
  trim_loop (utf8 cs ++ post) (length (utf8 cs)) w = Ok (length (utf8 cs)).
Proof.
  intros H. destruct cs as [|c' cs'] using rev_ind; [reflexivity|clear IHcs'].
  apply Forall_app in H as [H1 H2]. apply Forall_cons_iff in H2 as [H2 _].
  rewrite utf8_app. cbn [utf8 flat_map]. rewrite app_nil_r.
  set (p := utf8 cs'). clearbody p.
  destruct (utf8_encode_form c' H2).
  - erewrite trim_done with (pre := p) (b := c') (k := 0%nat); [|lst|len|lia|lia]. f_equal; len.
  - erewrite trim_trail with (pre := p ++ [192 + a]) (b := 128 + b); [|lst|len|lia].
    erewrite trim_done with (pre := p) (b := 192 + a) (k := 1%nat); [|lst|len|lia|lia]. f_equal; len.
  - erewrite trim_trail with (pre := p ++ [224 + a; 128 + b]) (b := 128 + d); [|lst|len|lia].
    erewrite trim_trail with (pre := p ++ [224 + a]) (b := 128 + b); [|lst|len|lia].
    erewrite trim_done with (pre := p) (b := 224 + a) (k := 2%nat); [|lst|len|lia|lia]. f_equal; len.
  - erewrite trim_trail with (pre := p ++ [240 + a; 128 + b; 128 + d]) (b := 128 + f); [|lst|len|lia].
    erewrite trim_trail with (pre := p ++ [240 + a; 128 + b]) (b := 128 + d); [|lst|len|lia].
    erewrite trim_trail with (pre := p ++ [240 + a]) (b := 128 + b); [|lst|len|lia].
    erewrite trim_done with (pre := p) (b := 240 + a) (k := 3%nat); [|lst|len|lia|lia]. f_equal; len.
Qed.

(* a cut inside a character *)
Lemma trim_part p c part more post : c < 1114112 -> utf8_encode c = part ++ more ->
  part <> [] -> more <> [] ->
  trim_loop (p ++ part ++ post) (length p + length part) 0 = trim_loop (p ++ part ++ post) (length p) 1.
Proof.
  intros Hc E Hp Hm. destruct (utf8_encode_form c Hc).
  - destruct part as [|x [|y part]], more; cbn in E; try congruence.
  - destruct part as [|x [|y part]]; try congruence; cbn in E; cinj; [subst x|destruct part, more; cbn in *; congruence].
    erewrite trim_skip with (pre := p) (b := 192 + a) (k := 1%nat); [reflexivity|lst|len|lia|lia].
  - destruct part as [|x [|y [|z part]]]; try congruence; cbn in E; cinj; subst; [..|destruct part, more; cbn in *; congruence].
    + erewrite trim_skip with (pre := p) (b := 224 + a) (k := 2%nat); [reflexivity|lst|len|lia|lia].
    + erewrite trim_trail with (pre := p ++ [224 + a]) (b := 128 + b); [|lst|len|lia].
      erewrite trim_skip with (pre := p) (b := 224 + a) (k := 2%nat); [reflexivity|lst|len|lia|lia].
  - destruct part as [|x [|y [|z [|t part]]]]; try congruence; cbn in E; cinj; subst; [..|destruct part, more; cbn in *; congruence].
    + erewrite trim_skip with (pre := p) (b := 240 + a) (k := 3%nat); [reflexivity|lst|len|lia|lia].
    + erewrite trim_trail with (pre := p ++ [240 + a]) (b := 128 + b); [|lst|len|lia].
      erewrite trim_skip with (pre := p) (b := 240 + a) (k := 3%nat); [reflexivity|lst|len|lia|lia].
    + erewrite trim_trail with (pre := p ++ [240 + a; 128 + b]) (b := 128 + d); [|lst|len|lia].
      erewrite trim_trail with (pre := p ++ [240 + a]) (b := 128 + b); [|lst|len|lia].
      erewrite trim_skip with (pre := p) (b := 240 + a) (k := 3%nat); [reflexivity|lst|len|lia|lia].
Qed.

(* every cut of an encoded text is whole characters followed by a proper beginning of the next *)
Lemma cut_text (enc : N -> bytes) cs : (forall c, In c cs -> enc c <> []) ->
  forall from r, from ++ r = flat_map enc cs ->
  (r = [] /\ from = flat_map enc cs) \/
  exists done c left part more, cs = done ++ c :: left /\ enc c = part ++ more /\ more <> []
    /\ from = flat_map enc done ++ part /\ r = more ++ flat_map enc left.
Proof.
  induction cs as [|c cs IH]; intros Hne from r E.
  - cbn in E. apply app_eq_nil in E as [-> ->]. left; auto.
  - cbn in E. destruct (Nat.lt_ge_cases (length from) (length (enc c))) as [L|L].
    + right. exists [], c, cs, from, (skipn (length from) (enc c)).
      assert (F : from = firstn (length from) (enc c)).
      { apply (f_equal (firstn (length from))) in E.
        rewrite firstn_app, Nat.sub_diag, firstn_all, firstn_O, app_nil_r in E.
        rewrite firstn_app in E. replace (length from - length (enc c))%nat with 0%nat in E by lia.
        rewrite firstn_O, app_nil_r in E. exact E. }
      repeat split; auto.
      * rewrite F at 1. symmetry. apply firstn_skipn.
      * intros Q. apply (f_equal (@length N)) in Q. rewrite skipn_length in Q. cbn in Q. lia.
      * apply (f_equal (skipn (length from))) in E.
        rewrite skipn_app, skipn_all, Nat.sub_diag in E. cbn in E.
        rewrite skipn_app in E. replace (length from - length (enc c))%nat with 0%nat in E by lia.
        exact E.
    + assert (F : exists f', from = enc c ++ f').
      { exists (skipn (length (enc c)) from).
        apply (f_equal (firstn (length (enc c)))) in E.
        rewrite firstn_app in E. replace (length (enc c) - length from)%nat with 0%nat in E by lia.
        rewrite firstn_O, app_nil_r in E. rewrite firstn_app, Nat.sub_diag, firstn_all, firstn_O, app_nil_r in E.
        rewrite <- E at 1. symmetry. apply firstn_skipn. }
      destruct F as [f' ->]. rewrite <- app_assoc in E. apply app_inv_head in E.
      destruct (IH (fun x Hx => Hne x (or_intror Hx)) f' r E) as [[-> ->]|(done & d & left & part & more & H)].
      * left; auto.
      * right. destruct H as (-> & H2 & H3 & -> & ->).
        exists (c :: done), d, left, part, more. cbn. rewrite <- app_assoc. auto.
Qed.

Lemma utf8_ne c : utf8_encode c <> [].
Proof. pose proof (utf8_encode_len c). intros E. rewrite E in H. cbn in H. lia. Qed.

Lemma trim_cut cs from r : Forall (fun c => c < 1114112) cs -> from ++ r = utf8 cs ->
  exists done part, trim_to_complete_utf8 from = Ok (utf8 done) /\ from = utf8 done ++ part /\
    ((r = [] /\ part = [] /\ done = cs) \/
     exists c left more, cs = done ++ c :: left /\ utf8_encode c = part ++ more /\ more <> []
       /\ r = more ++ utf8 left).
Proof.
  intros Hc E. destruct (cut_text utf8_encode cs (fun c _ => utf8_ne c) from r E)
    as [[-> ->]|(done & c & left & part & more & -> & H2 & H3 & -> & ->)].
  - exists cs, []. rewrite app_nil_r. repeat split; auto. unfold trim_to_complete_utf8.
    fold (utf8 cs). pose proof (trim_whole cs [] 0 Hc) as T. rewrite app_nil_r in T. rewrite T. cbn [bind].
    unfold with_len. rewrite Nat.leb_refl, firstn_all. reflexivity.
  - exists done, part. split; [|split; [auto|right; eauto 10]].
    apply Forall_app in Hc as [Hd Hc]. apply Forall_cons_iff in Hc as [Hc _].
    fold (utf8 done). unfold trim_to_complete_utf8. rewrite app_length.
    assert (T : trim_loop (utf8 done ++ part) (length (utf8 done) + length part) 0 = Ok (length (utf8 done))).
    { destruct part as [|x part].
      - rewrite app_nil_r, Nat.add_0_r. pose proof (trim_whole done [] 0 Hd) as T.
        rewrite app_nil_r in T. exact T.
      - pose proof (trim_part (utf8 done) c (x :: part) more [] Hc H2) as T.
        rewrite app_nil_r in T. rewrite T by (congruence || auto).
        apply trim_whole; auto. }
    rewrite T. cbn [bind]. unfold with_len.
    rewrite app_length. replace (_ <=? _)%nat with true by lia.
    rewrite firstn_app, Nat.sub_diag, firstn_all, firstn_O, app_nil_r. reflexivity.
Qed.

(* ---- UTF-8 to UTF-8 ---- *)

Definition scalar_dom (c : N) : Prop := is_scalar c = true.
Lemma scalars_bound cs : Forall scalar_dom cs -> Forall (fun c => c < 1114112) cs.
Proof. apply Forall_impl. intros c. apply scalar_bound. Qed.

Lemma inc_start_app_len (a b : bytes) : inc_start (length a) (a ++ b) = Ok b.
Proof. apply inc_start_spec. exists a; auto. Qed.

Lemma utf8_transfers_cut cs from r cap : Forall scalar_dom cs -> from ++ r = utf8 cs ->
  exists done part, from = utf8 done ++ part /\ (length (utf8 done) <= cap)%nat /\
    exists left, cs = done ++ left /\ part ++ r = utf8 left /\
    ((utf8_utf8Convert from cap = Ok (COMPLETED, utf8 done, part) /\ part = []) \/
     (utf8_utf8Convert from cap = Ok (INPUT_INCOMPLETE, utf8 done, part) /\
        exists c more, utf8_encode c = part ++ more /\ more <> [] /\ part <> [] /\ head left = Some c) \/
     (utf8_utf8Convert from cap = Ok (OUTPUT_EXHAUSTED, utf8 done, part) /\ (cap < length from)%nat /\
        exists c, head left = Some c /\ (cap < length (utf8 (done ++ [c])))%nat)).
Proof.
  intros Hc E. pose proof (scalars_bound _ Hc) as Hb. unfold utf8_utf8Convert.
  destruct (cap <? length from)%nat eqn:X.
  - (* truncated to the capacity *)
    unfold with_len. replace (cap <=? length from)%nat with true by lia. cbn [bind].
    destruct (trim_cut cs (firstn cap from) (skipn cap from ++ r) Hb) as (done & part & T & F & D).
    { rewrite app_assoc, firstn_skipn. exact E. }
    rewrite T. cbn [bind].
    assert (F2 : from = utf8 done ++ part ++ skipn cap from).
    { rewrite app_assoc, <- F. symmetry. apply firstn_skipn. }
    exists done, (part ++ skipn cap from). split; [exact F2|].
    assert (L : (length (utf8 done) + length part = cap)%nat).
    { rewrite <- app_length, <- F, firstn_length. lia. }
    split; [lia|].
    destruct D as [(N1 & _)|(c & left & more & -> & H2 & H3 & H4)].
    { apply app_eq_nil in N1 as [N1 _]. apply (f_equal (@length N)) in N1.
      rewrite skipn_length in N1. cbn in N1. lia. }
    exists (c :: left). split; auto. split.
    { rewrite <- app_assoc, H4. cbn. rewrite H2, <- app_assoc. reflexivity. }
    assert (I : inc_start (length (utf8 done)) from = Ok (part ++ skipn cap from)).
    { rewrite F2 at 1. apply inc_start_app_len. }
    right; right. rewrite I. cbn [bind].
    repeat split; auto; [lia|]. exists c; split; auto. rewrite utf8_app. cbn. rewrite app_nil_r, app_length, H2, app_length.
    destruct more; [congruence|cbn; lia].
  - cbn [bind]. destruct (trim_cut cs from r Hb E) as (done & part & T & F & D).
    rewrite T. cbn [bind]. exists done, part. split; auto.
    assert (L : length from = (length (utf8 done) + length part)%nat) by (rewrite F at 1; apply app_length).
    split; [lia|].
    assert (I : inc_start (length (utf8 done)) from = Ok part).
    { rewrite F at 1. apply inc_start_app_len. }
    destruct D as [(-> & -> & ->)|(c & left & more & -> & H2 & H3 & H4)].
    + exists []. rewrite !app_nil_r. split; auto. split; auto. left.
      cbn in L. replace (length (utf8 cs) <? length from)%nat with false by lia.
      rewrite I. cbn [bind]. auto.
    + exists (c :: left). split; auto. split; [rewrite H4; cbn; rewrite H2, <- app_assoc; reflexivity|].
      rewrite I. cbn [bind]. destruct part as [|x part].
      * left. cbn in L. replace (length (utf8 done) <? length from)%nat with false by lia. auto.
      * right; left. cbn in L. replace (length (utf8 done) <? length from)%nat with true by lia.
        split; auto. exists c, more. repeat split; auto. congruence.
Qed.

Lemma utf8_transfers : transfers utf8_utf8Convert utf8_encode scalar_dom.
Proof.
  intros cs cap Hc. fold (utf8 cs).
  destruct (utf8_transfers_cut cs (utf8 cs) [] cap Hc (app_nil_r _))
    as (done & part & F & L & left & -> & P & D).
  exists done, left. split; auto. split; auto. rewrite app_nil_r in P. subst part.
  destruct D as [[D E]|[[D (c & more & E1 & E2 & _ & H)]|[D (_ & c & H & X)]]].
  - destruct left as [|c left]; [exact D|]. cbn in E. apply app_eq_nil in E as [E _].
    now apply utf8_ne in E.
  - destruct left as [|c' left]; [discriminate|]. injection H as ->. exfalso.
    cbn in E1. apply (f_equal (@length N)) in E1. rewrite !app_length in E1.
    destruct more; [congruence|]. cbn in E1. lia.
  - destruct left as [|c' left]; [discriminate|]. injection H as ->. split; auto.
Qed.

(* ---- Latin-1 and ASCII to UTF-8 ---- *)

Lemma latin1_step c : c < 256 -> 128 <= c ->
  [N.lor (N.shiftr c 6) 192; N.lor (N.land c 63) 128] = utf8_encode c.
Proof.
  intros H1 H2. rewrite shr, land63. change (2^6) with 64.
  rewrite (lor_add (c / 64) 192 6), (lor_add (c mod 64) 128 6) by (try reflexivity; lia).
  unfold utf8_encode. replace (c <? 128) with false by lia. replace (c <? 2048) with true by lia.
  f_equal; [lia|]. f_equal. lia.
Qed.

Definition byte_dom (c : N) : Prop := c < 256.
Definition ascii_dom (c : N) : Prop := c < 128.
Definition one_byte (c : N) : bytes := [c].

Lemma utf8_cons c cs : utf8 (c :: cs) = utf8_encode c ++ utf8 cs. Proof. reflexivity. Qed.
Lemma utf8_ascii c : c < 128 -> utf8_encode c = [c].
Proof. intros H. unfold utf8_encode. now replace (c <? 128) with true by lia. Qed.
Lemma flat_one cs : flat_map one_byte cs = cs.
Proof. induction cs; cbn; congruence. Qed.

Lemma latin1_loop cs : Forall byte_dom cs -> forall cap out,
  exists done left, cs = done ++ left /\ (length (utf8 done) <= cap)%nat /\
    match left with
    | [] => latin1_utf8_loop cs cap out = (COMPLETED, out ++ utf8 done, [])
    | c :: _ => latin1_utf8_loop cs cap out = (OUTPUT_EXHAUSTED, out ++ utf8 done, left)
                /\ (cap < length (utf8 (done ++ [c])))%nat
    end.
Proof.
  induction 1 as [|c cs Hc Hcs IH]; intros cap out.
  { exists [], []. cbn. rewrite app_nil_r. repeat split; auto; lia. }
  assert (STOP : (cap < length (utf8_encode c))%nat ->
    exists done left, c :: cs = done ++ left /\ (length (utf8 done) <= cap)%nat /\
    match left with
    | [] => (OUTPUT_EXHAUSTED, out, c :: cs) = (COMPLETED, out ++ utf8 done, [])
    | c' :: _ => (OUTPUT_EXHAUSTED, out, c :: cs) = (OUTPUT_EXHAUSTED, out ++ utf8 done, left)
                /\ (cap < length (utf8 (done ++ [c'])))%nat
    end).
  { intros L. exists [], (c :: cs). cbn. rewrite !app_nil_r. repeat split; auto; lia. }
  assert (GO : forall cap', (cap = length (utf8_encode c) + cap')%nat ->
    exists done left, c :: cs = done ++ left /\ (length (utf8 done) <= cap)%nat /\
    match left with
    | [] => latin1_utf8_loop cs cap' (out ++ utf8_encode c) = (COMPLETED, out ++ utf8 done, [])
    | c' :: _ => latin1_utf8_loop cs cap' (out ++ utf8_encode c) = (OUTPUT_EXHAUSTED, out ++ utf8 done, left)
                /\ (cap < length (utf8 (done ++ [c'])))%nat
    end).
  { intros cap' ->. destruct (IH cap' (out ++ utf8_encode c)) as (done & left & -> & L & M).
    exists (c :: done), left. split; auto. split; [rewrite utf8_cons, app_length; lia|].
    rewrite utf8_cons. rewrite <- !app_assoc in M. destruct left; auto.
    destruct M as [M1 M2]. split; auto. cbn [app]. rewrite utf8_cons, app_length. lia. }
  cbn [latin1_utf8_loop]. rewrite mask128 by auto.
  destruct (c <? 128) eqn:X; cbn [negb].
  - rewrite utf8_ascii in * by lia. destruct cap as [|cap]; [apply STOP; cbn; lia|].
    apply GO; cbn; lia.
  - rewrite latin1_step in * by (unfold byte_dom in *; lia).
    assert (L2 : length (utf8_encode c) = 2%nat) by (rewrite <- latin1_step by (unfold byte_dom in *; lia); reflexivity).
    destruct cap as [|[|cap]]; [apply STOP; lia|apply STOP; lia|]. apply GO; lia.
Qed.

Lemma latin1_transfers : transfers latin1_utf8Convert one_byte byte_dom.
Proof.
  intros cs cap H. destruct (latin1_loop cs H cap []) as (done & left & E & L & M).
  exists done, left. split; auto. split; auto. rewrite flat_one. unfold latin1_utf8Convert.
  destruct left as [|c left]; [rewrite M; reflexivity|]. destruct M as [M1 M2]. rewrite M1.
  rewrite flat_one. auto.
Qed.

Lemma ascii_loop cs : Forall ascii_dom cs -> forall cap out,
  exists done left, cs = done ++ left /\ (length (utf8 done) <= cap)%nat /\
    match left with
    | [] => ascii_utf8_loop cs cap out = (COMPLETED, out ++ utf8 done, [])
    | c :: _ => ascii_utf8_loop cs cap out = (OUTPUT_EXHAUSTED, out ++ utf8 done, left)
                /\ (cap < length (utf8 (done ++ [c])))%nat
    end.
Proof.
  induction 1 as [|c cs Hc Hcs IH]; intros cap out.
  { exists [], []. destruct cap; cbn; rewrite app_nil_r; repeat split; auto; lia. }
  destruct cap as [|cap].
  - exists [], (c :: cs). cbn. rewrite !app_nil_r. repeat split; auto; try lia. rewrite utf8_ascii by auto. cbn; lia.
  - cbn [ascii_utf8_loop]. destruct (IH cap (out ++ [c])) as (done & left & -> & L & M).
    exists (c :: done), left. split; auto. rewrite utf8_cons, utf8_ascii by auto.
    split; [cbn; lia|]. rewrite <- !app_assoc in M. destruct left; auto. destruct M as [M1 M2].
    split; auto. cbn [app]. rewrite utf8_cons, utf8_ascii by auto. cbn [app length]. lia.
Qed.

Lemma ascii_transfers : transfers ascii_utf8Convert one_byte ascii_dom.
Proof.
  intros cs cap H. destruct (ascii_loop cs H cap []) as (done & left & E & L & M).
  exists done, left. split; auto. split; auto. rewrite flat_one. unfold ascii_utf8Convert.
  destruct left as [|c left]; [rewrite M; reflexivity|]. destruct M as [M1 M2]. rewrite M1.
  rewrite flat_one. auto.
Qed.

(* ---- UTF-16 to UTF-8 ---- *)

Definition utf16_encode (be : bool) (c : N) : bytes := if be then utf16be_encode c else utf16le_encode c.

Definition put (be : bool) (u : N) : bytes := if be then [u / 256; u mod 256] else [u mod 256; u / 256].
Lemma utf16_encode_put be c : utf16_encode be c = flat_map (put be) (utf16_units c).
Proof. destruct be; reflexivity. Qed.

Lemma unit2_ok hi lo : hi < 8 -> lo < 256 -> 128 <= hi * 256 + lo ->
  utf16_unit2 hi lo = utf8_encode (hi * 256 + lo).
Proof.
  intros H1 H2 H3. unfold utf16_unit2. rewrite land63, shr, shl. change (2^6) with 64. change (2^2) with 4.
  rewrite (lor_add (lo / 64) (hi * 4) 2) by (try (change (2^2) with 4); lia).
  rewrite (lor_add (lo / 64 + hi * 4) 192 6), (lor_add (lo mod 64) 128 6) by (try reflexivity; lia).
  unfold utf8_encode. replace (hi * 256 + lo <? 128) with false by lia.
  replace (hi * 256 + lo <? 2048) with true by lia.
  f_equal; [lia|]. f_equal. lia.
Qed.

Lemma unit3_ok hi lo : 8 <= hi < 256 -> lo < 256 ->
  utf16_unit3 hi lo = utf8_encode (hi * 256 + lo).
Proof.
  intros H1 H2. unfold utf16_unit3. rewrite land63, land15', !shr, shl.
  change (2^6) with 64. change (2^2) with 4. change (2^4) with 16.
  rewrite (N.lor_comm (hi mod 16 * 4)).
  rewrite (lor_add (lo / 64) (hi mod 16 * 4) 2) by (try (change (2^2) with 4); lia).
  rewrite (lor_add (hi / 16) 224 5) by (try reflexivity; lia).
  rewrite (lor_add (lo / 64 + hi mod 16 * 4) 128 6), (lor_add (lo mod 64) 128 6) by (try reflexivity; lia).
  unfold utf8_encode. replace (hi * 256 + lo <? 128) with false by lia.
  replace (hi * 256 + lo <? 2048) with false by lia.
  replace (hi * 256 + lo <? 65536) with true by lia.
  f_equal; [lia|]. f_equal; [lia|]. f_equal. lia.
Qed.

Lemma pair_ok c hi lo hi2 lo2 : 65536 <= c < 1114112 ->
  hi * 256 + lo = 55296 + (c - 65536) / 1024 -> lo < 256 ->
  hi2 * 256 + lo2 = 56320 + (c - 65536) mod 1024 -> lo2 < 256 ->
  utf16_pair hi lo hi2 lo2 = utf8_encode c.
Proof.
  intros H0 H1 H2 H3 H4. unfold utf16_pair. cbv zeta.
  rewrite !land63, !land3', !land15', !shr, !shl.
  change (2^6) with 64. change (2^2) with 4. change (2^4) with 16.
  rewrite (N.lor_comm (hi mod 4 * 4)).
  rewrite (lor_add ((lo / 64) mod 4) (hi mod 4 * 4) 2) by (try (change (2^2) with 4); lia).
  set (plane := (lo / 64) mod 4 + hi mod 4 * 4 + 1).
  assert (P : plane = c / 65536) by (unfold plane; lia).
  rewrite (lor_add (plane / 4) 240 4) by (try reflexivity; lia).
  rewrite (lor_add ((lo / 4) mod 16) (plane mod 4 * 16) 4) by (try (change (2^4) with 16); lia).
  rewrite (lor_add ((lo / 4) mod 16 + plane mod 4 * 16) 128 6) by (try reflexivity; lia).
  rewrite (N.lor_comm (lo mod 4 * 16)).
  rewrite (lor_add (hi2 mod 4 * 4) (lo mod 4 * 16) 4) by (try (change (2^4) with 16); lia).
  rewrite (N.lor_comm (hi2 mod 4 * 4 + lo mod 4 * 16)).
  rewrite (lor_add (lo2 / 64) (hi2 mod 4 * 4 + lo mod 4 * 16) 2) by (try (change (2^2) with 4); lia).
  rewrite (lor_add _ 128 6) by (try reflexivity; change (2^6) with 64; lia).
  rewrite (lor_add (lo2 mod 64) 128 6) by (try reflexivity; lia).
  unfold utf8_encode. replace (c <? 128) with false by lia.
  replace (c <? 2048) with false by lia. replace (c <? 65536) with false by lia.
  clearbody plane. subst plane.
  f_equal; [lia|]. f_equal; [lia|]. f_equal; [|f_equal; lia].
  lia.
Qed.

Definition lone_high (be : bool) (post : bytes) : Prop :=
  exists h, 55296 <= h < 56320 /\ post = put be h.

(* what the loop answers when only [post] is left and there is room for [room] bytes *)
Definition at_end (post : bytes) (room : nat) : ConvRes :=
  match post with
  | [] => COMPLETED
  | _ => if (room <? 4)%nat then OUTPUT_EXHAUSTED else INPUT_INCOMPLETE
  end.

Lemma utf16_loop be post : post = [] \/ lone_high be post ->
  forall cs, Forall scalar_dom cs -> forall cap out,
  exists done left, cs = done ++ left /\ (length (utf8 done) <= cap)%nat /\
    match left with
    | [] => utf16_utf8_loop be (flat_map (utf16_encode be) cs ++ post) cap out
            = Ok (at_end post (cap - length (utf8 done)), out ++ utf8 done, post)
    | c :: _ => utf16_utf8_loop be (flat_map (utf16_encode be) cs ++ post) cap out
            = Ok (OUTPUT_EXHAUSTED, out ++ utf8 done, flat_map (utf16_encode be) left ++ post)
                /\ (cap < length (utf8 (done ++ [c])))%nat
    end.
Proof.
  intros Hpost. induction 1 as [|c cs Hc Hcs IH]; intros cap out.
  { exists [], []. split; auto. split; [cbn; lia|]. cbn [utf8 flat_map app length].
    rewrite app_nil_r, Nat.sub_0_r. destruct Hpost as [->|(h & Hh & ->)]; [reflexivity|].
    destruct be; cbn [put utf16_utf8_loop at_end].
    - replace (h / 256 <=? 7) with false by lia.
      replace ((216 <=? h / 256) && (h / 256 <=? 219)) with true by lia.
      destruct (cap <? 4)%nat; reflexivity.
    - replace (h / 256 <=? 7) with false by lia.
      replace ((216 <=? h / 256) && (h / 256 <=? 219)) with true by lia.
      destruct (cap <? 4)%nat; reflexivity. }
  cbn [flat_map]. rewrite <- app_assoc.
  set (tail := flat_map (utf16_encode be) cs ++ post) in *.
  assert (STOP : (cap < length (utf8_encode c))%nat ->
    exists done left, c :: cs = done ++ left /\ (length (utf8 done) <= cap)%nat /\
    match left with
    | [] => Ok (OUTPUT_EXHAUSTED, out, utf16_encode be c ++ tail)
            = Ok (at_end post (cap - length (utf8 done)), out ++ utf8 done, post)
    | c' :: _ => Ok (OUTPUT_EXHAUSTED, out, utf16_encode be c ++ tail)
            = Ok (OUTPUT_EXHAUSTED, out ++ utf8 done, flat_map (utf16_encode be) left ++ post)
                /\ (cap < length (utf8 (done ++ [c'])))%nat
    end).
  { intros L. exists [], (c :: cs). cbn. rewrite !app_nil_r, <- app_assoc. repeat split; auto; lia. }
  assert (GO : forall cap', (cap = length (utf8_encode c) + cap')%nat ->
    exists done left, c :: cs = done ++ left /\ (length (utf8 done) <= cap)%nat /\
    match left with
    | [] => utf16_utf8_loop be tail cap' (out ++ utf8_encode c)
            = Ok (at_end post (cap - length (utf8 done)), out ++ utf8 done, post)
    | c' :: _ => utf16_utf8_loop be tail cap' (out ++ utf8_encode c)
            = Ok (OUTPUT_EXHAUSTED, out ++ utf8 done, flat_map (utf16_encode be) left ++ post)
                /\ (cap < length (utf8 (done ++ [c'])))%nat
    end).
  { intros cap' ->. destruct (IH cap' (out ++ utf8_encode c)) as (done & left & -> & L & M).
    exists (c :: done), left. split; auto. split; [rewrite utf8_cons, app_length; lia|].
    rewrite utf8_cons. rewrite <- !app_assoc in M. destruct left.
    - rewrite M. rewrite app_length. do 4 f_equal. lia.
    - destruct M as [M1 M2]. split; auto. cbn [app]. rewrite utf8_cons, app_length. lia. }
  clearbody tail. clear IH.
  unfold scalar_dom, is_scalar in Hc.
  rewrite utf16_encode_put in *. unfold utf16_units in *.
  destruct (c <? 65536) eqn:X.
  - cbn [flat_map] in *. rewrite app_nil_r in *.
    remember (c / 256) as hi eqn:Ehi. remember (c mod 256) as lo eqn:Elo.
    assert (Hhl : c = hi * 256 + lo) by lia. assert (lo < 256) by lia. assert (hi < 256) by lia.
    assert (P : forall cap, utf16_utf8_loop be (put be c ++ tail) cap out =
      if hi <=? 7 then
        if (hi =? 0) && (lo <? 128) then
          match cap with
          | O => Ok (OUTPUT_EXHAUSTED, out, put be c ++ tail)
          | S cap' => utf16_utf8_loop be tail cap' (out ++ [lo])
          end
        else if (cap <? 2)%nat then Ok (OUTPUT_EXHAUSTED, out, put be c ++ tail)
        else utf16_utf8_loop be tail (cap - 2) (out ++ utf16_unit2 hi lo)
      else if (cap <? 3)%nat then Ok (OUTPUT_EXHAUSTED, out, put be c ++ tail)
      else utf16_utf8_loop be tail (cap - 3) (out ++ utf16_unit3 hi lo)).
    { intros k. unfold put. rewrite <- Ehi, <- Elo.
      assert (NS : (216 <=? hi) && (hi <=? 219) = false) by lia.
      destruct be; cbn [app utf16_utf8_loop]; rewrite NS; reflexivity. }
    rewrite P. clear P.
    destruct (hi <=? 7) eqn:E7.
    + destruct ((hi =? 0) && (lo <? 128)) eqn:E1.
      * assert (C1 : utf8_encode c = [lo]) by (rewrite utf8_ascii by lia; f_equal; lia).
        rewrite C1 in *. destruct cap as [|cap]; [apply STOP; cbn; lia|]. apply GO; cbn; lia.
      * rewrite unit2_ok by lia. rewrite <- Hhl.
        assert (L2 : length (utf8_encode c) = 2%nat).
        { unfold utf8_encode. replace (c <? 128) with false by lia. replace (c <? 2048) with true by lia. reflexivity. }
        destruct (cap <? 2)%nat eqn:L; [apply STOP; lia|]. apply GO; lia.
    + rewrite unit3_ok by lia. rewrite <- Hhl.
      assert (L2 : length (utf8_encode c) = 3%nat).
      { unfold utf8_encode. replace (c <? 128) with false by lia. replace (c <? 2048) with false by lia.
        replace (c <? 65536) with true by lia. reflexivity. }
      destruct (cap <? 3)%nat eqn:L; [apply STOP; lia|]. apply GO; lia.
  - cbn [flat_map] in *. rewrite app_nil_r in *. rewrite <- app_assoc in *.
    remember (55296 + (c - 65536) / 1024) as u eqn:Eu.
    remember (56320 + (c - 65536) mod 1024) as v eqn:Ev.
    assert (P : forall cap, utf16_utf8_loop be (put be u ++ put be v ++ tail) cap out =
      if (cap <? 4)%nat then Ok (OUTPUT_EXHAUSTED, out, put be u ++ put be v ++ tail)
      else utf16_utf8_loop be tail (cap - 4) (out ++ utf16_pair (u / 256) (u mod 256) (v / 256) (v mod 256))).
    { intros k. unfold put.
      assert (NS : (216 <=? u / 256) && (u / 256 <=? 219) = true) by lia.
      assert (N7 : (u / 256 <=? 7) = false) by lia.
      destruct be; cbn [app utf16_utf8_loop]; rewrite NS, N7; reflexivity. }
    rewrite P. clear P. rewrite (pair_ok c) by lia.
    assert (L2 : length (utf8_encode c) = 4%nat).
    { unfold utf8_encode. replace (c <? 128) with false by lia. replace (c <? 2048) with false by lia.
      rewrite X. reflexivity. }
    destruct (cap <? 4)%nat eqn:L; [apply STOP; lia|]. apply GO; lia.
Qed.

Lemma even_prefix_even k b : length b = (2 * k)%nat -> even_prefix b = b.
Proof.
  intros H. unfold even_prefix. rewrite H. rewrite Nat.div2_double. rewrite <- H. apply firstn_all.
Qed.

Lemma utf16_text_even be cs : exists k, length (flat_map (utf16_encode be) cs) = (2 * k)%nat.
Proof.
  induction cs as [|c cs [k IH]]; [exists 0%nat; reflexivity|]. cbn. rewrite app_length, IH.
  assert (exists j, length (utf16_encode be c) = (2 * j)%nat) as [j ->].
  { destruct be; unfold utf16_encode, utf16be_encode, utf16le_encode, utf16_units;
      destruct (_ <? _); [exists 1%nat|exists 2%nat|exists 1%nat|exists 2%nat]; reflexivity. }
  exists (j + k)%nat. lia.
Qed.

Lemma utf16_transfers be : transfers (utf16_utf8Convert be) (utf16_encode be) scalar_dom.
Proof.
  intros cs cap Hc.
  destruct (utf16_loop be [] (or_introl eq_refl) cs Hc cap []) as (done & left & E & L & M).
  exists done, left. split; auto. split; auto. unfold utf16_utf8Convert.
  destruct (utf16_text_even be cs) as [k K]. rewrite (even_prefix_even k) by auto.
  destruct left; rewrite ?app_nil_r in M; exact M.
Qed.

(* a text cut between the two halves of a surrogate pair *)
Lemma utf16_cut be cs h cap : Forall scalar_dom cs -> 55296 <= h < 56320 ->
  exists done left, cs = done ++ left /\ (length (utf8 done) <= cap)%nat /\
    exists code, utf16_utf8Convert be (flat_map (utf16_encode be) cs ++ put be h) cap
      = Ok (code, utf8 done, flat_map (utf16_encode be) left ++ put be h) /\
      (code = INPUT_INCOMPLETE /\ left = [] \/ code = OUTPUT_EXHAUSTED) /\
      ((length (utf8 cs) + 4 <= cap)%nat -> code = INPUT_INCOMPLETE).
Proof.
  intros Hc Hh.
  destruct (utf16_loop be (put be h) (or_intror (ex_intro _ h (conj Hh eq_refl))) cs Hc cap [])
    as (done & left & E & L & M).
  exists done, left. split; auto. split; auto. unfold utf16_utf8Convert.
  destruct (utf16_text_even be cs) as [k K]. rewrite (even_prefix_even (k + 1)).
  2:{ rewrite app_length, K. destruct be; cbn; lia. }
  assert (put be h <> []) by (destruct be; discriminate).
  destruct left as [|c left].
  - rewrite app_nil_r in E. subst done. eexists. split; [exact M|].
    unfold at_end. destruct (put be h); [congruence|].
    destruct (_ <? _)%nat eqn:X; split; auto; lia.
  - destruct M as [M1 M2]. eexists. split; [exact M1|]. split; auto. intros H2. exfalso.
    subst cs. rewrite utf8_app, utf8_cons, !app_length in H2. rewrite utf8_app, app_length in M2. cbn [utf8 flat_map] in M2.
    rewrite app_nil_r in M2. lia.
Qed.

(* ---- driving a conversion ---- *)

Lemma drive_prefix conv enc dom sizes : transfers conv enc dom -> (forall c, dom c -> enc c <> []) ->
  forall cs, Forall dom cs ->
  exists done left, cs = done ++ left /\
    drive conv sizes (flat_map enc cs) = Ok (utf8 done, flat_map enc left).
Proof.
  intros T Hne. induction sizes as [|cap sizes IH]; intros cs Hcs.
  - exists [], cs. split; auto. cbn. destruct (flat_map enc cs); reflexivity.
  - destruct cs as [|c cs]; [exists [], []; auto|].
    destruct (T (c :: cs) cap Hcs) as (done & left & E & L & M).
    assert (D : drive conv (cap :: sizes) (flat_map enc (c :: cs)) =
      let* (_, out, rest) := conv (flat_map enc (c :: cs)) cap in
      let* (out', rest') := drive conv sizes rest in Ok (out ++ out', rest')).
    { cbn [drive]. destruct (flat_map enc (c :: cs)) eqn:F; auto. exfalso. cbn in F.
      apply app_eq_nil in F as [F _]. apply Forall_inv in Hcs. eapply Hne; eauto. }
    rewrite D.
    assert (HL : Forall dom left) by (rewrite E in Hcs; apply Forall_app in Hcs; tauto).
    destruct left as [|d left].
    + rewrite M. cbn [bind]. exists done, []. split; auto.
      destruct sizes; cbn [drive bind]; rewrite app_nil_r; reflexivity.
    + destruct M as [M _]. rewrite M. cbn [bind].
      destruct (IH (d :: left) HL) as (done' & left' & E' & ->). cbn [bind].
      exists (done ++ done'), left'. rewrite utf8_app, <- app_assoc, <- E'. auto.
Qed.

Lemma drive_all conv enc dom : transfers conv enc dom -> (forall c, dom c -> enc c <> []) ->
  forall sizes cs, Forall dom cs -> Forall (fun cap => 4 <= cap)%nat sizes ->
  (length cs <= length sizes)%nat ->
  drive conv sizes (flat_map enc cs) = Ok (utf8 cs, []).
Proof.
  intros T Hne. induction sizes as [|cap sizes IH]; intros cs Hcs Hs Hl.
  - destruct cs; [reflexivity|cbn in Hl; lia].
  - destruct cs as [|c cs]; [reflexivity|].
    apply Forall_cons_iff in Hs as [Hcap Hs].
    destruct (T (c :: cs) cap Hcs) as (done & left & E & L & M).
    assert (D : drive conv (cap :: sizes) (flat_map enc (c :: cs)) =
      let* (_, out, rest) := conv (flat_map enc (c :: cs)) cap in
      let* (out', rest') := drive conv sizes rest in Ok (out ++ out', rest')).
    { cbn [drive]. destruct (flat_map enc (c :: cs)) eqn:F; auto. exfalso. cbn in F.
      apply app_eq_nil in F as [F _]. apply Forall_inv in Hcs. eapply Hne; eauto. }
    rewrite D.
    assert (HL : Forall dom left) by (rewrite E in Hcs; apply Forall_app in Hcs; tauto).
    destruct left as [|d left].
    + rewrite M, E, app_nil_r. cbn [bind].
      destruct sizes; cbn [drive bind]; rewrite app_nil_r; reflexivity.
    + destruct M as [M X]. rewrite M. cbn [bind].
      assert (ND : done <> []).
      { intros ->. cbn in X. rewrite app_nil_r in X. pose proof (utf8_encode_len d). lia. }
      rewrite (IH (d :: left)); auto.
      * cbn [bind]. rewrite E, utf8_app. reflexivity.
      * apply (f_equal (@length N)) in E. rewrite app_length in E. cbn [length] in *.
        destruct done; [congruence|]. cbn [length] in E. lia.
Qed.
