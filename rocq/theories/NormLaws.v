(* The in-place normalisations compute their specifications. *)
From Coq Require Import List NArith Arith Bool Lia.
From Coq Require Import ZifyBool ZifyNat ZifyN.
From Verif Require Import Base Norm SpecMisc.
Import ListNotations.
Local Open Scope N_scope.

Lemma get_app a c r : get (a ++ c :: r) (length a) = Ok c.
Proof. unfold get. now rewrite nth_error_app2, Nat.sub_diag by lia. Qed.
Lemma put_app a c r v : put (a ++ c :: r) (length a) v = Ok (a ++ v :: r).
Proof.
  unfold put. rewrite app_length. cbn [length]. replace (_ <? _)%nat with true by (symmetry; apply Nat.ltb_lt; lia).
  rewrite firstn_app, firstn_all, Nat.sub_diag. cbn [firstn]. rewrite app_nil_r.
  replace (S (length a)) with (length (a ++ [c])) by (rewrite app_length; cbn; lia).
  replace (a ++ c :: r) with ((a ++ [c]) ++ r) by (rewrite <- app_assoc; reflexivity).
  rewrite skipn_app, skipn_all, Nat.sub_diag. reflexivity.
Qed.
Definition nozero (s : list N) : Prop := Forall (fun c => c <> 0) s.
Lemma cstr_app s r : nozero s -> cstr (s ++ 0 :: r) = s.
Proof. induction 1 as [|c s Hc Hs IH]; [reflexivity|]. cbn [app cstr]. replace (c =? 0) with false by lia. now rewrite IH. Qed.
Lemma get_at pre mid c r n : n = (length pre + length mid)%nat -> get (pre ++ mid ++ c :: r) n = Ok c.
Proof. intros ->. rewrite app_assoc. rewrite <- app_length. apply get_app. Qed.

Lemma nl_find_spec : forall s pre rest f, nozero s -> (length s < f)%nat ->
  (nl_find f (pre ++ s ++ 0 :: rest) (length pre) = Ok None /\ ~ In 13 s) \/
  (exists a b, s = a ++ 13 :: b /\ ~ In 13 a /\ nl_find f (pre ++ s ++ 0 :: rest) (length pre) = Ok (Some (length pre + length a)%nat)).
Proof.
  induction s as [|c s IH]; intros pre rest f Hz Hf; (destruct f as [|f]; [lia|]); cbn [nl_find].
  - left. cbn [app]. rewrite get_app. cbn. auto.
  - cbn [app]. rewrite get_app. cbn [bind]. inversion Hz; subst. replace (c =? 0) with false by lia.
    destruct (c =? 13) eqn:C.
    + right. exists [], s. cbn [length]. replace (length pre + 0)%nat with (length pre) by lia. repeat split; auto. apply N.eqb_eq in C. now subst.
    + cbn [length] in Hf. specialize (IH (pre ++ [c]) rest f H2 ltac:(lia)). rewrite app_length, Nat.add_1_r in IH.
      rewrite <- app_assoc in IH. cbn [app] in IH. destruct IH as [[E H]|(a & b & -> & Ha & E)].
      * left. split; auto. intros [->|?]; [discriminate|auto].
      * right. exists (c :: a), b. cbn [length]. split; auto. split; [|now rewrite <- Nat.add_succ_comm].
        intros [->|?]; [discriminate|auto].
Qed.
Lemma norm_eol_nozero s : nozero s -> nozero (norm_eol s).
Proof.
  remember (length s) as n eqn:En. revert s En. induction n as [n IH] using lt_wf_ind. intros s -> Hz. destruct s as [|c r]; [constructor|].
  inversion Hz; subst. cbn [norm_eol]. destruct (c =? 13).
  - destruct r as [|d r']; [constructor; [discriminate|constructor]|]. constructor; [discriminate|]. destruct (d =? 10).
    + inversion H2; subst. apply (IH (length r')); cbn; auto; lia.
    + apply (IH (length (d :: r'))); auto.
  - constructor; auto. apply (IH (length r)); auto.
Qed.
(* the array: what has been written, stale cells, what is still to be read *)
Lemma nl_loop_spec : forall n s out gap rest f, (length s <= n)%nat -> s <> [] -> nozero s -> (n < f)%nat ->
  exists rest', nl_loop f (out ++ gap ++ s ++ 0 :: rest) (length out + length gap) (length out) = Ok (out ++ norm_eol s ++ 0 :: rest') /\
    (length out + length gap + length s + 1 + length rest = length (out ++ norm_eol s ++ 0%N :: rest'))%nat.
Proof.
  induction n as [n IH] using lt_wf_ind. intros s out gap rest f Hn Hs Hz Hf. destruct f as [|f]; [lia|]. cbn [nl_loop].
  destruct s as [|c r]; [congruence|]. inversion Hz as [|? ? Hc Hr]; subst. cbn [length] in Hn.
  rewrite (get_at out gap c (r ++ 0 :: rest)) by reflexivity. cbn [bind].
  (* writing at the end of [out] *)
  assert (W : forall v, exists gap', put (out ++ gap ++ (c :: r) ++ 0 :: rest) (length out) v = Ok ((out ++ [v]) ++ gap' ++ r ++ 0 :: rest) /\ length gap' = length gap).
  { intros v. destruct gap as [|g gap]; cbn [app].
    - rewrite put_app. exists []. rewrite <- app_assoc. auto.
    - rewrite put_app. exists (gap ++ [c]). rewrite <- !app_assoc. cbn [app]. split; auto. rewrite app_length. cbn. lia. }
  assert (Next : forall v gap' t, nozero t -> (length t < n)%nat ->
    exists rest', (let* z := get ((out ++ [v]) ++ gap' ++ t ++ 0 :: rest) (length out + 1 + length gap') in
       if z =? 0 then put ((out ++ [v]) ++ gap' ++ t ++ 0 :: rest) (S (length out)) 0
       else nl_loop f ((out ++ [v]) ++ gap' ++ t ++ 0 :: rest) (length out + 1 + length gap') (S (length out)))
      = Ok (out ++ (v :: norm_eol t) ++ 0 :: rest') /\
      (length out + 1 + length gap' + length t + 1 + length rest = length (out ++ (v :: norm_eol t) ++ 0%N :: rest'))%nat).
  { intros v gap' t Ht Hl. assert (El : (length out + 1)%nat = length (out ++ [v])) by (rewrite app_length; reflexivity).
    assert (E2 : S (length out) = length (out ++ [v])) by (rewrite app_length; cbn; lia).
    destruct t as [|d t].
    - cbn [app]. rewrite (get_at (out ++ [v]) gap' 0 rest) by (rewrite El; reflexivity). cbn [bind N.eqb]. rewrite E2.
      destruct gap' as [|g gap']; cbn [app].
      + rewrite put_app. exists rest. cbn [norm_eol app]. rewrite <- app_assoc. split; [reflexivity|]. rewrite !app_length. cbn. lia.
      + rewrite put_app. exists (gap' ++ 0 :: rest). cbn [norm_eol app]. rewrite <- app_assoc. split; [reflexivity|]. rewrite !app_length. cbn. rewrite app_length. cbn. lia.
    - inversion Ht; subst. cbn [app]. rewrite (get_at (out ++ [v]) gap' d (t ++ 0 :: rest)) by (rewrite El; reflexivity). cbn [bind].
      replace (d =? 0) with false by lia.
      destruct (IH (length (d :: t)) ltac:(cbn in *; lia) (d :: t) (out ++ [v]) gap' rest f) as (rest' & E & L); auto; [discriminate|cbn in *; lia|].
      exists rest'. cbn [app] in E. rewrite El, E2, E.
      rewrite <- app_assoc. split; [reflexivity|]. rewrite <- app_assoc in L. cbn [app] in L. rewrite <- L. rewrite !app_length. cbn [length]. lia. }
  destruct (c =? 13) eqn:C.
  - destruct (W 10) as (gap' & -> & Lg). cbn [bind]. cbn [norm_eol]. rewrite C.
    destruct r as [|d r'].
    + cbn [app]. replace (get _ (S (length out + length gap))) with (@Ok N 0).
      2:{ symmetry. apply (get_at (out ++ [10]) gap' 0 rest). rewrite app_length. cbn. lia. }
      cbn [bind N.eqb]. destruct (Next 10 gap' [] ltac:(constructor) ltac:(cbn in *; lia)) as (rest' & E & L). cbn [app] in E.
      replace (length out + 1 + length gap')%nat with (S (length out + length gap)) in * by lia. exists rest'. split; [exact E|].
      etransitivity; [|exact L]. cbn [length]. lia.
    + inversion Hr; subst. replace (get _ (S (length out + length gap))) with (Ok d).
      2:{ symmetry. apply (get_at (out ++ [10]) gap' d (r' ++ 0 :: rest)). rewrite app_length. cbn. lia. }
      cbn [bind]. destruct (d =? 10) eqn:D.
      * destruct (Next 10 (gap' ++ [d]) r' ltac:(auto) ltac:(cbn in *; lia)) as (rest' & E & L).
        rewrite app_length in E, L. cbn [length] in E, L. rewrite <- (app_assoc gap' [d]) in E. cbn [app] in E.
        replace (length out + 1 + (length gap' + 1))%nat with (S (S (length out + length gap))) in * by lia. exists rest'. split; [exact E|].
        etransitivity; [|exact L]. cbn [length]. lia.
      * destruct (Next 10 gap' (d :: r') ltac:(auto) ltac:(cbn in *; lia)) as (rest' & E & L).
        replace (length out + 1 + length gap')%nat with (S (length out + length gap)) in * by lia. exists rest'. split; [exact E|].
        etransitivity; [|exact L]. cbn [length]. lia.
  - destruct (W c) as (gap' & -> & Lg). cbn [bind]. cbn [norm_eol]. rewrite C.
    destruct (Next c gap' r Hr ltac:(lia)) as (rest' & E & L).
    replace (length out + 1 + length gap')%nat with (S (length out + length gap)) in * by lia. exists rest'. split; [exact E|].
    etransitivity; [|exact L]. cbn [length]. lia.
Qed.
Lemma norm_eol_id s : ~ In 13 s -> norm_eol s = s.
Proof.
  induction s as [|c r IH]; intros H; [reflexivity|]. cbn [norm_eol]. replace (c =? 13) with false.
  - rewrite IH; auto. intros K; apply H; now right.
  - symmetry. apply N.eqb_neq. intros ->. apply H. now left.
Qed.
Lemma norm_eol_app a b : ~ In 13 a -> norm_eol (a ++ b) = a ++ norm_eol b.
Proof.
  induction a as [|c r IH]; intros H; [reflexivity|]. cbn [norm_eol app]. replace (c =? 13) with false.
  - rewrite IH; auto. intros K; apply H; now right.
  - symmetry. apply N.eqb_neq. intros ->. apply H. now left.
Qed.
Theorem normalizeLines_spec s rest : nozero s ->
  exists a', normalizeLines (s ++ 0 :: rest) = Ok a' /\ cstr a' = norm_eol s /\ length a' = length (s ++ 0 :: rest).
Proof.
  intros Hz. unfold normalizeLines. destruct (nl_find_spec s [] rest (S (length (s ++ 0 :: rest))) Hz) as [[E H]|(a & b & Es & Ha & E)];
    try (rewrite app_length; cbn; lia); cbn [app length Nat.add] in E; rewrite E; cbn [bind].
  - exists (s ++ 0 :: rest). rewrite cstr_app, norm_eol_id; auto.
  - subst s. apply Forall_app in Hz as [Hza Hzb].
    destruct (nl_loop_spec (length (13 :: b)) (13 :: b) a [] rest (S (length ((a ++ 13 :: b) ++ 0 :: rest)))) as (rest' & E' & L); auto; [discriminate|rewrite !app_length; cbn; lia|].
    rewrite <- app_assoc. cbn [app length] in E'. rewrite Nat.add_0_r in E'. rewrite <- app_assoc in E'. cbn [app] in *. rewrite E'.
    eexists. split; [reflexivity|]. split.
    + rewrite norm_eol_app by auto. rewrite app_assoc. rewrite cstr_app; auto. apply Forall_app. split; auto. now apply norm_eol_nozero.
    + rewrite <- L. rewrite !app_length. cbn. rewrite app_length. cbn. lia.
Qed.
(* no CR remains; already normalised text is unchanged; twice is once *)
Lemma norm_eol_nocr s : ~ In 13 (norm_eol s).
Proof.
  remember (length s) as n eqn:En. revert s En. induction n as [n IH] using lt_wf_ind. intros s ->. destruct s as [|c r]; [auto|].
  cbn [norm_eol]. destruct (c =? 13) eqn:C.
  - intros [H|H]; [discriminate|]. destruct r as [|d r']; [destruct H|]. destruct (d =? 10); revert H.
    + apply (IH (length r')); cbn; auto; lia.
    + apply (IH (length (d :: r'))); auto.
  - intros [H|H]; [subst; discriminate|]. revert H. apply (IH (length r)); auto.
Qed.

(* ---- public identifiers ---- *)
(* the state of the loop: words completed, then the current word *)
Fixpoint pjoin (ws : list (list N)) (w : list N) : list N :=
  match ws with [] => w | v :: ws' => v ++ 32 :: pjoin ws' w end.
Lemma pjoin_snoc ws w : pjoin (ws ++ [w]) [] = pjoin ws w ++ [32].
Proof. induction ws as [|v ws IH]; cbn [app pjoin]; [reflexivity|]. rewrite IH, <- app_assoc. reflexivity. Qed.
Lemma pjoin_app ws w c : pjoin ws (w ++ [c]) = pjoin ws w ++ [c].
Proof. induction ws as [|v ws IH]; cbn [pjoin]; [reflexivity|]. now rewrite IH, <- app_assoc. Qed.
Definition good (ws : list (list N)) : Prop := Forall (fun w => w <> [] /\ Forall (fun c => pubid_space c = false) w) ws.
Lemma words_pjoin ws w : good ws -> Forall (fun c => pubid_space c = false) w ->
  join (ws ++ (if w then [] else [w])) = (if w then match ws with [] => [] | _ => removelast (pjoin ws w) end else pjoin ws w).
Proof.
  intros Hg Hw. induction Hg as [|v ws [Hv _] Hg IH]; [now destruct w|].
  cbn [app pjoin]. destruct w as [|c w].
  - rewrite app_nil_r in *. destruct ws as [|u ws].
    + cbn. now rewrite removelast_last.
    + cbn [join]. cbn [join] in IH. rewrite IH. change (v ++ 32 :: pjoin (u :: ws) []) with (v ++ [32] ++ pjoin (u :: ws) []).
      rewrite app_assoc, removelast_app. { rewrite <- app_assoc. reflexivity. }
      cbn [pjoin]. destruct u; discriminate.
  - destruct ws; cbn [app join]; cbn [app join] in IH; rewrite IH; reflexivity.
Qed.
Lemma pjoin_last ws w : ws <> [] \/ w <> [] -> good ws -> Forall (fun c => pubid_space c = false) w ->
  exists u l, pjoin ws w = u ++ [l] /\ (l = 32 <-> w = []).
Proof.
  intros Hne Hg Hw. destruct w as [|c w] using rev_ind.
  - destruct ws as [|v ws _] using rev_ind; [destruct Hne; congruence|]. exists (pjoin ws v), 32. rewrite pjoin_snoc. tauto.
  - exists (pjoin ws w), c. rewrite pjoin_app. split; auto. apply Forall_app in Hw as [_ Hc]. inversion Hc; subst.
    split; [intros ->; discriminate|]. intros K. destruct w; discriminate.
Qed.
Lemma pid_loop_spec : forall s ws w gap rest f, good ws -> Forall (fun c => pubid_space c = false) w -> nozero s ->
  (length s < f)%nat ->
  exists ws' w' tail, pid_loop f (pjoin ws w ++ gap ++ s ++ 0 :: rest) (length (pjoin ws w) + length gap) (length (pjoin ws w)) =
      Ok (pjoin ws' w' ++ tail, length (pjoin ws' w')) /\ tail <> [] /\
    good ws' /\ Forall (fun c => pubid_space c = false) w' /\
    ws' ++ (if w' then [] else [w']) = ws ++ words_from w s /\ (ws' = [] -> w' = [] -> ws = [] /\ w = []) /\
    (length (pjoin ws w ++ gap ++ s ++ 0%N :: rest) = length (pjoin ws' w' ++ tail))%nat /\ (ws' <> [] -> w' = [] -> pjoin ws' w' <> []).
Proof.
  induction s as [|c s IH]; intros ws w gap rest f Hg Hw Hz Hf; (destruct f as [|f]; [lia|]); cbn [pid_loop].
  - rewrite (get_at _ gap 0 rest) by reflexivity. cbn [bind N.eqb]. exists ws, w, (gap ++ 0 :: rest). split; [reflexivity|].
    split; [destruct gap; discriminate|]. repeat split; auto; try (destruct w; reflexivity); try tauto.
    intros Hn ->. destruct ws; [congruence|]. cbn [pjoin]. destruct l; discriminate.
  - inversion Hz as [|? ? Hc Hs]; subst. cbn [length] in Hf. rewrite (get_at _ gap c (s ++ 0 :: rest)) by reflexivity. cbn [bind].
    replace (c =? 0) with false by lia. cbn [words_from]. fold (pubid_space c).
    assert (Skip : forall g', g' = gap ++ [c] -> pjoin ws w ++ gap ++ (c :: s) ++ 0 :: rest = pjoin ws w ++ g' ++ s ++ 0 :: rest /\
       S (length (pjoin ws w) + length gap) = (length (pjoin ws w) + length g')%nat).
    { intros g' ->. rewrite <- !app_assoc. cbn [app]. split; auto. rewrite app_length. cbn. lia. }
    assert (W : forall v, exists gap', put (pjoin ws w ++ gap ++ (c :: s) ++ 0 :: rest) (length (pjoin ws w)) v = Ok ((pjoin ws w ++ [v]) ++ gap' ++ s ++ 0 :: rest) /\ length gap' = length gap).
    { intros v. destruct gap as [|g gap]; cbn [app].
      - rewrite put_app. exists []. rewrite <- app_assoc. auto.
      - rewrite put_app. exists (gap ++ [c]). rewrite <- !app_assoc. cbn [app]. split; auto. rewrite app_length. cbn. lia. }
    destruct (pubid_space c) eqn:Sp.
    + case_eq (length (pjoin ws w)); [intros El|intros q El].
      * assert (pjoin ws w = []) by (destruct (pjoin ws w); [auto|discriminate]).
        assert (ws = []) by (destruct ws as [|[|] ?]; auto; discriminate). subst ws. cbn [pjoin] in *. subst w.
        destruct (Skip _ eq_refl) as [-> _]. destruct (IH [] [] (gap ++ [c]) rest f) as (ws' & w' & tail & E & R); auto; [lia|].
        exists ws', w', tail. cbn [pjoin app length Nat.add] in *. replace (S (length gap)) with (length (gap ++ [c])) by (rewrite app_length; cbn; lia).
        split; [exact E|exact R].
      * destruct (pjoin_last ws w) as (u & l & Eu & Hl); auto.
        { destruct ws; [|left; discriminate]. destruct w; [discriminate El|right; discriminate]. }
        assert (q = length u) by (rewrite Eu, app_length in El; cbn in El; lia). subst q.
        replace (get (pjoin ws w ++ gap ++ (c :: s) ++ 0 :: rest) (length u)) with (Ok l).
        2:{ rewrite Eu, <- app_assoc. symmetry. apply get_app. }
        cbn [bind]. rewrite <- El. destruct (l =? 32) eqn:L32.
        -- apply N.eqb_eq in L32. destruct w as [|x w]; [|exfalso; assert (x :: w = []) by tauto; discriminate].
           destruct (Skip _ eq_refl) as [-> _].
           replace (S (length (pjoin ws []) + length gap)) with (length (pjoin ws []) + length (gap ++ [c]))%nat by (rewrite app_length; cbn; lia).
           destruct (IH ws [] (gap ++ [c]) rest f) as (ws' & w' & tail & E & R); auto; [lia|]. exists ws', w', tail. split; [exact E|exact R].
        -- destruct w as [|x w]; [exfalso; assert (l = 32) by tauto; lia|]. destruct (W 32) as (gap' & -> & Lg). cbn [bind].
           rewrite <- pjoin_snoc.
           destruct (IH (ws ++ [x :: w]) [] gap' rest f) as (ws' & w' & tail & E & T & G & Gw & Ew & Ne & Le & Nn); auto; [|lia|].
           { apply Forall_app. split; auto. constructor; auto. split; [discriminate|auto]. }
           exists ws', w', tail. rewrite pjoin_snoc, app_length in E. cbn [length] in E.
           replace (length (pjoin ws (x :: w)) + 1 + length gap')%nat with (S (length (pjoin ws (x :: w)) + length gap)) in E by lia.
           replace (length (pjoin ws (x :: w)) + 1)%nat with (S (length (pjoin ws (x :: w)))) in E by lia. rewrite pjoin_snoc. rewrite E. split; auto. split; auto. split; auto. split; auto. split; [|split; [|split]]; auto.
           ++ rewrite Ew, <- app_assoc. reflexivity.
           ++ intros A B. destruct (Ne A B) as [K _]. destruct ws; discriminate.
           ++ rewrite <- Le, pjoin_snoc, !app_length. cbn [length]. lia.
    + destruct (W c) as (gap' & -> & Lg). cbn [bind].
      destruct (IH ws (w ++ [c]) gap' rest f) as (ws' & w' & tail & E & T & G & Gw & Ew & Ne & Le & Nn); auto; [|lia|].
      { apply Forall_app. split; auto. }
      exists ws', w', tail. rewrite pjoin_app, app_length in E. cbn [length] in E.
      replace (length (pjoin ws w) + 1 + length gap')%nat with (S (length (pjoin ws w) + length gap)) in E by lia.
      replace (length (pjoin ws w) + 1)%nat with (S (length (pjoin ws w))) in E by lia. rewrite E. split; auto. split; auto. split; auto. split; auto. split; auto. split; [|split]; auto.
      * intros A B. destruct (Ne A B) as [_ K]. destruct w; discriminate.
      * rewrite <- Le, pjoin_app, !app_length. cbn [length]. lia.
Qed.
Lemma pjoin_nozero ws w : nozero (concat ws) -> nozero w -> nozero (pjoin ws w).
Proof.
  induction ws as [|v ws IH]; cbn [pjoin concat]; auto. intros H Hw. apply Forall_app in H as [Hv H].
  apply Forall_app. split; auto. constructor; [discriminate|]. now apply IH.
Qed.
Lemma words_nozero s : forall w, nozero s -> nozero w -> nozero (concat (words_from w s)).
Proof.
  induction s as [|c s IH]; intros w Hs Hw; cbn [words_from].
  - destruct w; [constructor|]. cbn [concat]. now rewrite app_nil_r.
  - inversion Hs; subst. destruct (pubid_space c).
    + destruct w; [apply IH; auto|]. cbn [concat]. apply Forall_app. split; auto. apply IH; auto. constructor.
    + apply IH; auto. apply Forall_app. split; auto.
Qed.
Theorem normalizePublicId_spec s rest : nozero s ->
  exists a', normalizePublicId (s ++ 0 :: rest) = Ok a' /\ cstr a' = join (words s).
Proof.
  intros Hz. unfold normalizePublicId, words.
  destruct (pid_loop_spec s [] [] [] rest (S (length (s ++ 0 :: rest)))) as (ws & w & tail & E & T & G & Gw & Ew & _ & _ & Nn); auto; try constructor.
  { rewrite app_length. cbn. lia. }
  cbn [pjoin app length Nat.add] in E. rewrite E. cbn [bind]. cbn [app] in Ew. rewrite <- Ew. rewrite words_pjoin by auto.
  assert (Z : nozero (concat ws) /\ nozero w).
  { pose proof (words_nozero s [] Hz ltac:(constructor)) as K. rewrite <- Ew, concat_app in K. apply Forall_app in K as [K1 K2]. split; auto.
    destruct w; [constructor|]. cbn [concat] in K2. now rewrite app_nil_r in K2. }
  destruct tail as [|t tail]; [congruence|]. destruct Z as [Z1 Z2]. pose proof (pjoin_nozero ws w Z1 Z2) as Zj.
  case_eq (length (pjoin ws w)); [intros El|intros q El].
  - assert (Ej : pjoin ws w = []) by (destruct (pjoin ws w); [auto|discriminate]). rewrite Ej. cbn [app].
    exists (0 :: tail). split; [exact (put_app [] t tail 0)|]. cbn [cstr N.eqb].
    destruct w; [|reflexivity]. destruct ws; [reflexivity|]. exfalso. apply Nn; auto. discriminate.
  - destruct (pjoin_last ws w) as (u & l & Eu & Hl); auto.
    { destruct ws; [|left; discriminate]. destruct w; [discriminate El|right; discriminate]. }
    assert (q = length u) by (rewrite Eu, app_length in El; cbn in El; lia). subst q. rewrite Eu in *.
    replace (get ((u ++ [l]) ++ t :: tail) (length u)) with (Ok l) by (rewrite <- app_assoc; symmetry; apply get_app). cbn [bind].
    destruct (l =? 32) eqn:L.
    + apply N.eqb_eq in L. rewrite <- app_assoc. cbn [app]. rewrite put_app. eexists. split; [reflexivity|].
      apply Forall_app in Zj as [Zu _]. rewrite cstr_app by auto. assert (w = []) by tauto. subst w. destruct ws; [destruct u; discriminate|].
      now rewrite removelast_last.
    + replace (S (length u)) with (length (u ++ [l])) by (rewrite app_length; cbn; lia). rewrite put_app. eexists. split; [reflexivity|].
      rewrite cstr_app by auto. destruct w; [exfalso; assert (l = 32) by tauto; lia|reflexivity].
Qed.
(* the words of a normalised text are the words *)
Lemma words_from_word w r : Forall (fun c => pubid_space c = false) w -> forall v, words_from v (w ++ r) = words_from (v ++ w) r.
Proof.
  induction 1 as [|c w Hc Hw IH]; intros v; [now rewrite app_nil_r|]. cbn [app words_from]. rewrite Hc, IH, <- app_assoc. reflexivity.
Qed.
Lemma words_good s : forall w, Forall (fun c => pubid_space c = false) w -> good (words_from w s).
Proof.
  induction s as [|c s IH]; intros w Hw; cbn [words_from].
  - destruct w; constructor; [|constructor]. split; [discriminate|auto].
  - destruct (pubid_space c) eqn:C.
    + destruct w; [apply IH; constructor|]. constructor; [split; [discriminate|auto]|apply IH; constructor].
    + apply IH. apply Forall_app. split; auto.
Qed.
Lemma words_join ws : good ws -> words (join ws) = ws.
Proof.
  unfold words. induction 1 as [|w ws [Hne Hw] Hg IH]; [reflexivity|]. destruct ws as [|v ws].
  - cbn [join]. rewrite <- (app_nil_r w) at 1. rewrite words_from_word by auto. cbn [app words_from]. destruct w; [congruence|reflexivity].
  - cbn [join]. rewrite words_from_word by auto. cbn [app words_from]. change (pubid_space 32) with true. cbv iota.
    destruct w; [congruence|]. f_equal. exact IH.
Qed.
Lemma pubid_idem s : join (words (join (words s))) = join (words s).
Proof. rewrite words_join; auto. apply words_good. constructor. Qed.
