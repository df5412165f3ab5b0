(* Ignored conditional sections over code points. *)
From Coq Require Import String List NArith ZArith Bool Lia Arith.
From Coq Require Import ZifyBool ZifyNat ZifyN.
From Verif Require Import Base Encoding SpecText SpecUnicode SpecNames SpecLex SpecMisc EncLaws Tok TokWp TokSafe Charset Sim SimTop TextEnc CpBase.
Import ListNotations.
Local Open Scope N_scope.

Fixpoint ig (d : nat) (cs : list N) {struct cs} : option (list N) :=
  match cs with
  | [] => None
  | c :: r =>
      if c =? 60 then
        match r with
        | [] => None
        | x :: r1 => if x =? 33 then match r1 with [] => None | y :: r2 => if y =? 91 then ig (S d) r2 else ig d r1 end else ig d r
        end
      else if c =? 93 then
        match r with
        | [] => None
        | x :: r1 => if x =? 93 then match r1 with
                                     | [] => None
                                     | y :: r2 => if y =? 62 then match d with O => Some r2 | S d' => ig d' r2 end else ig d r1
                                     end else ig d r
        end
      else if is_xml_char c then ig d r else None
  end.

Section Cp.
Variables (lat ns : bool) (dom : N -> bool) (k : cls).
Hypothesis ST : std lat ns dom k.
Notation ce := (cp_enc k).

Definition ibody : nat -> M nat := fun level : nat =>
    mbind (bt ce) (fun t =>
    match_invalid ce t level (
      match t with
      | BT_LT =>
          mbind (adv1 ce) (fun _ => mbind (require_char ce) (fun _ =>
          mbind (matches ce c_EXCL) (fun x =>
          if x then
            mbind (adv1 ce) (fun _ => mbind (require_char ce) (fun _ =>
            mbind (matches ce c_LSQB) (fun b =>
            if b then (mbind (adv1 ce) (fun _ => ret (S level))) else ret level)))
          else ret level)))
      | BT_RSQB =>
          mbind (adv1 ce) (fun _ => mbind (require_char ce) (fun _ =>
          mbind (matches ce c_RSQB) (fun x =>
          if x then
            mbind (adv1 ce) (fun _ => mbind (require_char ce) (fun _ =>
            mbind (matches ce c_GT) (fun g =>
            if g then
              mbind (adv1 ce) (fun _ =>
              match level with O => stop_here T_IGNORE_SECT | S l => ret l end)
            else ret level)))
          else ret level)))
      | _ => mbind (adv1 ce) (fun _ => ret level)
      end)).
Lemma scan_eq {B} : @ignoreScan ce B = while_ ce ibody (fun _ => Ok T_PARTIAL) O. Proof. reflexivity. Qed.
Lemma istep {B} d b : @while_ ce nat B ibody (fun _ => Ok T_PARTIAL) d b =
  match b with
  | [] => Ok (Stop T_PARTIAL None)
  | _ => match ibody d b with
         | Ok (Cont s' b') => while_ ce ibody (fun _ => Ok T_PARTIAL) s' b'
         | Ok (Stop t n) => Ok (Stop t n)
         | Err x => Err x
         end
  end.
Proof. rewrite while_eq; [reflexivity|]. clear. unfold ibody. prog k. Qed.
Lemma ig_loop {B} : forall n cs d p, (length cs <= n)%nat -> all_in dom cs ->
  (@while_ ce nat B ibody (fun _ => Ok T_PARTIAL) d cs = Ok (Stop T_IGNORE_SECT (Some p)) <-> ig d cs = Some p).
Proof.
  pose proof (@istep B) as IS. set (W := @while_ ce nat B ibody (fun _ => Ok T_PARTIAL)) in *. clearbody W.
  induction n as [n IH] using lt_wf_ind. intros [|c r] d p L Hd; rewrite IS; [split; discriminate|].
  inversion Hd as [|? ? Hc Hr]; subst. cbn [length] in L. unfold ibody. cps. unfold match_invalid. rewrite (no_lead _ _ _ _ ST c Hc).
  pose proof (type_char_iff _ _ _ _ ST c BT_LT 60 Hc eq_refl) as T1. pose proof (type_char_iff _ _ _ _ ST c BT_RSQB 93 Hc eq_refl) as T2.
  pose proof (st_xml _ _ _ _ ST c Hc) as T3. pose proof (no_trail _ _ _ _ ST c Hc) as T4. cbn [ig].
  destruct (c =? 60) eqn:E1; [|destruct (c =? 93) eqn:E2].
  - rewrite (proj2 T1) by lia. destruct r as [|x r]; cps; [split; discriminate|]. change c_EXCL with 33. destruct (x =? 33); cps; [|apply (IH (length (x :: r))); auto; cbn in *; lia].
    destruct r as [|y r]; cps; [split; discriminate|]. inversion Hr as [|? ? _ Hr']; subst. inversion Hr'; subst. change c_LSQB with 91. cbn [length] in *. destruct (y =? 91); cps; (eapply (IH (Nat.pred (Nat.pred n))); [lia|cbn [length]; lia|auto]).
  - rewrite (proj2 T2) by lia. destruct r as [|x r]; cps; [split; discriminate|]. change c_RSQB with 93. destruct (x =? 93); cps; [|apply (IH (length (x :: r))); auto; cbn in *; lia].
    destruct r as [|y r]; cps; [split; discriminate|]. inversion Hr as [|? ? _ Hr']; subst. inversion Hr'; subst. change c_GT with 62. cbn [length] in *. destruct (y =? 62); cps; [|eapply (IH (Nat.pred (Nat.pred n))); [lia|cbn [length]; lia|auto]].
    destruct d as [|d]; cps; [|eapply (IH (Nat.pred (Nat.pred n))); [lia|cbn [length]; lia|auto]].
    split; intros E; injection E as ->; reflexivity.
  - destruct (is_xml_char c) eqn:X.
    + assert (ty k c <> BT_NONXML) by (intros K; apply T3 in K; discriminate).
      assert (G : forall q, W d r = Ok (Stop T_IGNORE_SECT (Some q)) <-> ig d r = Some q) by (intros q; apply (IH (length r)); auto; lia).
      destruct (ty k c); cps; try (exfalso; tauto); try apply G; exfalso; try (assert (c = 60) by tauto; lia); assert (c = 93) by tauto; lia.
    + rewrite (proj2 T3 eq_refl). cps. split; discriminate.
Qed.
Lemma ignore_cp cs n : all_in dom cs -> (ignoreSectionTok ce cs = Ok (T_IGNORE_SECT, Some n) <->
  exists p, ig 0 cs = Some p /\ n = (length cs - length p)%nat).
Proof.
  intros Hd. unfold ignoreSectionTok. rewrite round_cp, scan_eq. unfold run. split.
  - destruct (while_ ce ibody (fun _ => Ok T_PARTIAL) 0%nat cs) as [[t [p|]|[]]|] eqn:E; try discriminate.
    intros K. injection K as -> <-. exists p. split; auto. now apply (ig_loop (B := Empty_set) (length cs) cs 0 p).
  - intros (p & E & ->). apply (ig_loop (B := Empty_set) (length cs)) in E; auto. rewrite E. reflexivity.
Qed.
End Cp.

(* the scan and the grammar *)
Definition starts (w cs : list N) : Prop := exists r, cs = w ++ r.
Inductive ign : nat -> list N -> Prop :=
| ign_nil : ign 0 []
| ign_char d c w : is_xml_char c = true -> ~ starts (txt "<![") (c :: w) -> ~ starts (txt "]]>") (c :: w) -> ign d w -> ign d (c :: w)
| ign_open d w : ign (S d) w -> ign d (txt "<![" ++ w)
| ign_close d w : ign d w -> ign (S d) (txt "]]>" ++ w).
Notation bad := (occurs (txt "]]]>")).
Lemma occ_cons w c cs : occurs w cs -> occurs w (c :: cs).
Proof. intros (a & b & ->). now exists (c :: a), b. Qed.
Lemma occ_app w a cs : occurs w cs -> occurs w (a ++ cs).
Proof. intros (x & y & ->). exists (a ++ x), y. now rewrite app_assoc. Qed.
Lemma ig_lt d r : ig d (60 :: r) = match r with
        | [] => None
        | x :: r1 => if x =? 33 then match r1 with [] => None | y :: r2 => if y =? 91 then ig (S d) r2 else ig d r1 end else ig d r
        end. Proof. reflexivity. Qed.
Lemma ig_rs d r : ig d (93 :: r) = match r with
        | [] => None
        | x :: r1 => if x =? 93 then match r1 with
                                     | [] => None
                                     | y :: r2 => if y =? 62 then match d with O => Some r2 | S d' => ig d' r2 end else ig d r1
                                     end else ig d r
        end. Proof. reflexivity. Qed.
Lemma ig_rsqb : forall n s d, (length s <= n)%nat -> ~ bad (93 :: 93 :: s) -> ig d (93 :: s) = ig d s.
Proof.
  induction n as [n IH] using lt_wf_ind. intros [|y r2] d L Hb; [reflexivity|].
  destruct (y =? 93) eqn:E.
  - assert (y = 93) as -> by lia. destruct r2 as [|z r3]; [reflexivity|].
    assert (z <> 62) by (intros ->; apply Hb; now exists [], r3).
    transitivity (ig d (z :: r3)).
    + cbn [ig N.eqb Pos.eqb]. now replace (z =? 62) with false by lia.
    + symmetry. apply (IH (length (z :: r3))); try (cbn in *; lia). intros K. apply Hb. now apply occ_cons.
  - cbn [ig N.eqb Pos.eqb]. rewrite E. reflexivity.
Qed.
Lemma ig_complete d body rest : ign d body -> ~ bad (body ++ txt "]]>" ++ rest) -> ig d (body ++ txt "]]>" ++ rest) = Some rest.
Proof.
  induction 1 as [|d c w X S1 S2 _ IH|d w _ IH|d w _ IH]; intros Hb.
  - reflexivity.
  - assert (Hb' : ~ bad (w ++ txt "]]>" ++ rest)) by (intros K; apply Hb; now apply occ_cons). specialize (IH Hb').
    cbn [app]. destruct (N.eq_dec c 60) as [->|N1]; [|destruct (N.eq_dec c 93) as [->|N2]].
    + rewrite ig_lt. destruct w as [|x w]; [exact IH|]. cbn [app] in *. destruct (x =? 33) eqn:E; [|exact IH].
      assert (x = 33) as -> by lia. change (ig d (w ++ txt "]]>" ++ rest) = Some rest) in IH.
      destruct w as [|y w]; [exact IH|]. cbn [app] in *. destruct (y =? 91) eqn:E2; [|exact IH].
      exfalso. apply S1. exists w. assert (y = 91) as -> by lia. reflexivity.
    + destruct w as [|x w]; [exfalso; apply Hb; now exists [], rest|]. cbn [app] in *. destruct (x =? 93) eqn:E; [|rewrite ig_rs, E; exact IH].
      assert (x = 93) as -> by lia. set (t := w ++ txt "]]>" ++ rest) in *.
      assert (Et : ig d t = Some rest) by (rewrite <- IH; symmetry; apply (ig_rsqb (length t)); auto).
      assert (t <> [] /\ (forall r, t <> 62 :: r)) as [N3 N4].
      { unfold t. destruct w as [|y w]; [split; discriminate|]. split; [discriminate|]. intros r K. cbn in K. injection K as -> K. apply S2. now exists w. }
      rewrite ig_rs. destruct t as [|y t']; [congruence|]. destruct (y =? 62) eqn:E2; auto. exfalso. apply (N4 t'). f_equal. lia.
    + cbn [ig]. replace (c =? 60) with false by lia. replace (c =? 93) with false by lia. rewrite X. exact IH.
  - rewrite <- app_assoc. apply IH. intros K. apply Hb. rewrite <- app_assoc. now apply occ_app.
  - rewrite <- app_assoc. apply IH. intros K. apply Hb. rewrite <- app_assoc. now apply occ_app.
Qed.
Lemma starts_app w a b : starts w a -> starts w (a ++ b). Proof. intros (r & ->). exists (r ++ b). now rewrite app_assoc. Qed.
Lemma ig_sound : forall n cs d rest, (length cs <= n)%nat -> ~ bad cs -> ig d cs = Some rest -> exists body, cs = body ++ txt "]]>" ++ rest /\ ign d body.
Proof.
  induction n as [n IH] using lt_wf_ind. intros [|c r] d rest L Hb E; [discriminate|]. cbn [length] in L.
  assert (B : forall a, ~ bad (a ++ r) -> ~ bad r) by (intros a K1 K2; apply K1; now apply occ_app).
  assert (Br : ~ bad r) by (intros K; apply Hb; now apply occ_cons).
  assert (IHr : ig d r = Some rest -> exists body, r = body ++ txt "]]>" ++ rest /\ ign d body) by (intros K; apply (IH (length r)); auto; lia).
  cbn [ig] in E. destruct (c =? 60) eqn:E1; [assert (c = 60) as -> by lia|destruct (c =? 93) eqn:E2; [assert (c = 93) as -> by lia|]].
  - destruct r as [|x r1]; [discriminate|]. destruct (x =? 33) eqn:E3; [assert (x = 33) as -> by lia|].
    + destruct r1 as [|y r2]; [discriminate|]. destruct (y =? 91) eqn:E4; [assert (y = 91) as -> by lia|].
      * destruct (IH (length r2) ltac:(cbn in L; lia) r2 (S d) rest ltac:(lia)) as (b & -> & Hi); auto.
        { intros K. apply Br. now do 2 apply occ_cons. }
        exists (txt "<![" ++ b). split; [now rewrite <- app_assoc|now apply ign_open].
      * destruct (IH (length (y :: r2)) ltac:(cbn in L |- *; lia) (y :: r2) d rest ltac:(lia)) as (b & Eb & Hi); auto.
        { intros K. apply Br. now apply occ_cons. }
        exists (60 :: 33 :: b). split; [cbn [app]; now rewrite <- Eb|].
        constructor; [reflexivity| |intros (q & K); discriminate|constructor; [reflexivity|intros (q & K); discriminate|intros (q & K); discriminate|auto]].
        intros (q & K). destruct b as [|b0 b]; [discriminate|]. cbn in K. injection K as -> K. cbn in Eb. injection Eb as -> _. discriminate.
    + destruct (IHr E) as (b & Eb & Hi). exists (60 :: b). split; [cbn [app]; now rewrite <- Eb|].
      constructor; [reflexivity| |intros (q & K); discriminate|auto].
      intros (q & K). destruct b as [|b0 b]; [discriminate|]. cbn in K. injection K as -> K. cbn in Eb. injection Eb as -> _. discriminate.
  - destruct r as [|x r1]; [discriminate|]. destruct (x =? 93) eqn:E3; [assert (x = 93) as -> by lia|].
    + destruct r1 as [|y r2]; [discriminate|]. destruct (y =? 62) eqn:E4; [assert (y = 62) as -> by lia|].
      * destruct d as [|d].
        { injection E as ->. exists []. split; [reflexivity|constructor]. }
        destruct (IH (length r2) ltac:(cbn in L; lia) r2 d rest ltac:(lia)) as (b & -> & Hi); auto.
        { intros K. apply Br. now do 2 apply occ_cons. }
        exists (txt "]]>" ++ b). split; [now rewrite <- app_assoc|now apply ign_close].
      * destruct (IH (length (y :: r2)) ltac:(cbn in L |- *; lia) (y :: r2) d rest ltac:(lia)) as (b & Eb & Hi); auto.
        { intros K. apply Br. now apply occ_cons. }
        exists (93 :: 93 :: b). split; [cbn [app]; now rewrite <- Eb|].
        constructor; [reflexivity|intros (q & K); discriminate| |constructor; [reflexivity|intros (q & K); discriminate| |auto]].
        -- intros (q & K). destruct b as [|b0 b]; [discriminate|]. cbn in K. injection K as -> K. cbn in Eb. injection Eb as -> _. discriminate.
        -- intros (q & K). destruct b as [|b0 [|b1 b]]; try discriminate. cbn in K. injection K as -> -> K. cbn in Eb. rewrite Eb in Hb. apply Hb. now exists [], (b ++ txt "]]>" ++ rest).
    + destruct (IHr E) as (b & Eb & Hi). exists (93 :: b). split; [cbn [app]; now rewrite <- Eb|].
      constructor; [reflexivity|intros (q & K); discriminate| |auto].
      intros (q & K). destruct b as [|b0 b]; [discriminate|]. cbn in K. injection K as -> K. cbn in Eb. injection Eb as -> _. discriminate.
  - destruct (is_xml_char c) eqn:X; [|discriminate]. destruct (IHr E) as (b & -> & Hi). exists (c :: b). split; auto.
    constructor; auto; intros (q & K); cbn in K; injection K as -> _; discriminate.
Qed.

(* the grammar *)
Lemma text_ign s d w : ignore_text s -> ign d w -> (w = [] \/ starts (txt "<![") w \/ starts (txt "]]>") w) -> ign d (s ++ w).
Proof.
  intros (X & O1 & O2) Hw Hs. induction X as [|c s Xc Xs IH]; [exact Hw|]. cbn [app].
  assert (P : forall t x y, x <> 60 -> x <> 93 -> y <> 60 -> y <> 93 -> t = [c; x; y] -> starts t (c :: s ++ w) -> starts t (c :: s)) .
  { intros t x y H1 H2 H3 H4 -> (q & K). cbn in K. injection K as K.
    destruct s as [|s0 s]; [exfalso; cbn in K; destruct Hs as [->|[(z & ->)|(z & ->)]]; [discriminate|injection K as K1 _; congruence|injection K as K1 _; congruence]|].
    cbn in K. injection K as -> K. destruct s as [|s1 s]; [exfalso; cbn in K; destruct Hs as [->|[(z & ->)|(z & ->)]]; [discriminate|injection K as K1 _; congruence|injection K as K1 _; congruence]|].
    cbn in K. injection K as -> K. now exists s. }
  constructor; auto.
  - intros S. destruct (N.eq_dec c 60) as [->|Nc]; [|destruct S as (q & K); cbn in K; injection K as K _; congruence].
    apply O1. destruct (P (txt "<![") 33 91) as (q & K); auto; try discriminate. rewrite K. now exists [], q.
  - intros (q & K). cbn in K. injection K as -> K.
    destruct s as [|s0 s]; [cbn in K; destruct Hs as [->|[(z & ->)|(z & ->)]]; discriminate|].
    cbn in K. injection K as -> K. destruct s as [|s1 s]; [cbn in K; destruct Hs as [->|[(z & ->)|(z & ->)]]; discriminate|].
    cbn in K. injection K as -> K. apply O2. now exists [], s.
  - apply IH; intros K; [apply O1|apply O2]; now apply occ_cons.
Qed.
Lemma contents_ign b : ignore_contents b -> forall d w, ign d w -> (w = [] \/ starts (txt "]]>") w) -> ign d (b ++ w).
Proof.
  induction 1 as [s Hs|s a b Hs _ IHa _ IHb]; intros d w Hw Sw.
  - apply text_ign; auto. tauto.
  - rewrite <- !app_assoc. apply text_ign; auto; [|right; left; eexists; reflexivity].
    apply ign_open. apply IHa; [|right; eexists; reflexivity]. apply ign_close. now apply IHb.
Qed.
Fixpoint closes (l : list (list N)) : list N := match l with [] => [] | a :: r => txt "]]>" ++ a ++ closes r end.
Lemma text_nil : ignore_text [].
Proof. split; [constructor|]. split; intros (a & b & K); destruct a; discriminate. Qed.
Lemma text_cons c s : is_xml_char c = true -> ignore_text s -> ~ starts (txt "<![") (c :: s) -> ~ starts (txt "]]>") (c :: s) -> ignore_text (c :: s).
Proof.
  intros X (H1 & H2 & H3) S1 S2. split; [now constructor|]. split; intros (a & b & K); (destruct a as [|a0 a]; [|injection K as -> K]).
  - apply S1. now exists b.
  - apply H2. now exists a, b.
  - apply S2. now exists b.
  - apply H3. now exists a, b.
Qed.
Lemma contents_cons c s : is_xml_char c = true -> ignore_contents s -> ~ starts (txt "<![") (c :: s) -> ~ starts (txt "]]>") (c :: s) -> ignore_contents (c :: s).
Proof.
  intros X [s' Hs|s' a b Hs Ha Hb] S1 S2.
  - apply ic_text. now apply text_cons.
  - change (c :: s' ++ txt "<![" ++ a ++ txt "]]>" ++ b) with ((c :: s') ++ txt "<![" ++ a ++ txt "]]>" ++ b). apply ic_nest; auto.
    apply text_cons; auto; intros K; [apply S1|apply S2]; apply (starts_app _ (c :: s')); auto.
Qed.
Lemma ign_contents d w : ign d w -> exists c l, w = c ++ closes l /\ length l = d /\ ignore_contents c /\ Forall ignore_contents l.
Proof.
  induction 1 as [|d c w X S1 S2 _ (c0 & l & -> & L & Hc & Hl)|d w _ (c0 & l & -> & L & Hc & Hl)|d w _ (c0 & l & -> & L & Hc & Hl)].
  - exists [], []. repeat split; auto. apply ic_text, text_nil.
  - exists (c :: c0), l. repeat split; auto. apply contents_cons; auto; intros K; [apply S1|apply S2]; now apply (starts_app _ (c :: c0)).
  - destruct l as [|a l]; [discriminate|]. inversion Hl; subst. exists (txt "<![" ++ c0 ++ txt "]]>" ++ a), l. cbn [closes] in *. repeat split; auto.
    + now rewrite <- !app_assoc.
    + apply (ic_nest [] c0 a); auto. apply text_nil.
  - exists [], (c0 :: l). repeat split; auto; [cbn; auto|apply ic_text; apply text_nil].
Qed.
Lemma ign_iff w : ign 0 w <-> ignore_contents w.
Proof.
  split.
  - intros H. apply ign_contents in H as (c & l & -> & L & Hc & _). destruct l; [|discriminate]. cbn. now rewrite app_nil_r.
  - intros H. rewrite <- (app_nil_r w). apply contents_ign; auto. constructor.
Qed.
Lemma ignore_exact e enc dom lat ns cs n : text_encoding e enc dom lat ns -> all_in dom cs -> ~ occurs (txt "]]]>") cs ->
  (ignoreSectionTok e (flat_map enc cs) = Ok (T_IGNORE_SECT, Some n) <->
   exists body rest, cs = body ++ txt "]]>" ++ rest /\ ignore_contents body /\ n = List.length (flat_map enc (body ++ txt "]]>"))).
Proof.
  intros TE Hd Hb. destruct (text_encoding_std _ _ _ _ _ TE) as (k & CS & ST).
  rewrite (lift_tok enc false cs _ _ T_IGNORE_SECT n (ignoreSectionTok_sim _ _ _ _ CS cs Hd)) by discriminate. split.
  - intros (m & E & ->). apply (ignore_cp _ _ _ _ ST) in E as (p & E & ->); auto.
    destruct (ig_sound (length cs) cs 0 p) as (body & Ec & Hi); auto. exists body, p. split; auto. split; [now apply ign_iff|].
    unfold at_char. do 2 f_equal. rewrite Ec. rewrite (app_assoc body). rewrite app_length with (l' := p). replace (length (body ++ txt "]]>") + length p - length p)%nat with (length (body ++ txt "]]>")) by lia.
    rewrite firstn_app, firstn_all, Nat.sub_diag. cbn. now rewrite app_nil_r.
  - intros (body & rest & Ec & Hi & ->). exists (length cs - length rest)%nat. split.
    + apply (ignore_cp _ _ _ _ ST); auto. exists rest. split; auto. rewrite Ec. apply ig_complete; [now apply ign_iff|]. now rewrite <- Ec.
    + unfold at_char. do 2 f_equal. rewrite Ec. rewrite (app_assoc body). rewrite app_length with (l' := rest). replace (length (body ++ txt "]]>") + length rest - length rest)%nat with (length (body ++ txt "]]>")) by lia.
      rewrite firstn_app, firstn_all, Nat.sub_diag. cbn. now rewrite app_nil_r.
Qed.
