(* Reading a document whose text arrives in pieces. *)
From Coq Require Import String List NArith ZArith Bool Lia Arith.
From Coq Require Import ZifyBool ZifyNat ZifyN.
From Verif Require Import Base Encoding SpecText SpecUnicode SpecNames SpecLex SpecMisc Tok TokMisc UniLaws.
From Verif Require Import Status Role State AttVal Bind Atts Content Prolog Core SpecAttVal SpecAtts AttNorm AttsLaws.
From Verif Require Import SpecDoc DocLaws DocTok DocItem DocAct.
From Coq Require Import List.
Import ListNotations.
Local Open Scope nat_scope.

Lemma inside_ne stk l : inside stk l -> stk <> [] -> l <> [].
Proof. intros H Hs. inversion H; subst; congruence. Qed.
Lemma chars_reports r l : merged (ireports (chars r l)) = merged (Text (utf8 (norm_eol r)) :: ireports l).
Proof. destruct r; [|reflexivity]. cbn [chars norm_eol utf8 flat_map merged]. symmetry. apply glue_nil. Qed.
Definition preports (p : place) : list report :=
  match p with Content l => ireports l | Sect cs l => Text (utf8 (norm_eol cs)) :: SectionEnds :: ireports l end.
Definition pitems (p : place) : list item := match p with Content l => l | Sect _ l => l end.
Definition pgood (stk : list (list N)) (p : place) : Prop :=
  match p with Content l => inside stk l | Sect cs l => stk <> [] /\ section_good cs /\ inside stk l end.
Definition proc_of (p : place) : processor := match p with Content [] => PrEpilog | Content _ => PrContent | Sect _ _ => PrCdata end.
Lemma scalar_app a b : all_in is_scalar (a ++ b) <-> all_in is_scalar a /\ all_in is_scalar b. Proof. apply Forall_app. Qed.

Section Doc.
Variable sref : st.
Hypothesis EV : docenv sref.
Variable k : nat.
Definition item_reads (i : item) : Prop :=
  match i with IOpen _ atts given _ | IPiece (Empty _ atts given _) => reads_all sref k atts given | _ => True end.
Record ready (stk : list (list N)) (s : st) : Prop := {
  rd_same : same sref s;
  rd_tame : tame s;
  rd_tags : s_tags s = map tag_of stk;
  rd_level : s_tagLevel s = length stk;
  rd_parsing : s_parsing s = PARSING;
  rd_child : s_child s = false
}.
Record stand (stk : list (list N)) (p : place) (s : st) : Prop := {
  sd_ready : ready stk s;
  sd_good : pgood stk p;
  sd_reads : Forall item_reads (pitems p);
  sd_scalar : all_in is_scalar (place_text p)
}.
Lemma ready_env stk s : ready stk s -> docenv s. Proof. intros R. exact (env_same _ _ (rd_same _ _ R) EV). Qed.
Lemma ready_did rs stk s s' : ready stk s -> did rs s s' -> ready stk s'.
Proof.
  intros [A1 A2 A3 A4 A5 A6] [B1 B2 B3 B4 B5]. unfold fixed in B1. injection B1; intros. constructor; try congruence; [eapply same_trans; eauto|auto].
Qed.
Lemma did_proc rs s s' : did rs s s' -> s_processor s' = s_processor s.
Proof. intros [B1 _ _ _ _]. unfold fixed in B1. congruence. Qed.

(* ---- sections ---- *)
Lemma after_goes rest stk s : ready stk s -> after_token ENormal rest s = Ret false (set_ev (Some (length rest)) s).
Proof. intros R. unfold after_token, pbind, set_event, upd, get. cbn [is_internal]. change (s_parsing (set_ev _ s)) with (s_parsing s). rewrite (rd_parsing _ _ R). reflexivity. Qed.
Lemma cdata_goes f : forall cs l stk b x s hm, ready stk s -> section_good cs -> all_in is_scalar (cs ++ txt "]]>" ++ text l) ->
  b ++ x = utf8 (cs ++ txt "]]>" ++ text l) -> (hm = false -> x = []) -> length b < f ->
  exists r s' rs, doCdataSection f ENormal b hm s = Ret r s' /\ did rs s s' /\
    match r with
    | inl rest => exists cs', section_good cs' /\ (exists a, cs = a ++ cs') /\ rest ++ x = utf8 (cs' ++ txt "]]>" ++ text l) /\ all_in is_scalar (cs' ++ txt "]]>" ++ text l) /\ x <> [] /\
        merged (rs ++ [Text (utf8 (norm_eol cs')); SectionEnds]) = merged [Text (utf8 (norm_eol cs)); SectionEnds]
    | inr rest => rest ++ x = utf8 (text l) /\ length rest <= length b /\ merged rs = merged [Text (utf8 (norm_eol cs)); SectionEnds]
    end.
Proof.
  induction f as [|f IH]; intros cs l stk b x s hm R G Sc E Hm L; [lia|]. cbn [doCdataSection].
  pose proof (ready_env _ _ R) as V.
  unfold pbind at 1, set_event at 1, upd at 1. cbn [is_internal]. pose proof (did_ev (Some (length b)) s) as D1. set (s1 := set_ev _ s) in *.
  pose proof (ready_did _ _ _ _ R D1) as R1. pose proof (ready_env _ _ R1) as V1.
  unfold pbind at 1. rewrite (u8_encoding s1 V1). unfold pbind at 1, lift at 1.
  destruct (cstep_cut cs (text l) b x G Sc E) as [(t & Et & W & Hx)|(t & lx & o & b' & Et & St & Eb & E')]; rewrite Et.
  - unfold pbind at 1, set_event_end_tok at 1, upd at 1. cbn [is_internal]. pose proof (did_evEnd None s1) as D2. set (s2 := set_evEnd None s1) in *.
    assert (hm = true) by (destruct hm; [reflexivity|exfalso; apply Hx; apply Hm; reflexivity]). subst hm.
    assert (Go : exists r s' rs, @Ret (bytes + bytes) (inl b) s2 = Ret r s' /\ did rs s s' /\
      match r with
      | inl rest => exists cs', section_good cs' /\ (exists a, cs = a ++ cs') /\ rest ++ x = utf8 (cs' ++ txt "]]>" ++ text l) /\ all_in is_scalar (cs' ++ txt "]]>" ++ text l) /\ x <> [] /\
        merged (rs ++ [Text (utf8 (norm_eol cs')); SectionEnds]) = merged [Text (utf8 (norm_eol cs)); SectionEnds]
      | inr rest => rest ++ x = utf8 (text l) /\ length rest <= length b /\ merged rs = merged [Text (utf8 (norm_eol cs)); SectionEnds]
      end).
    { exists (inl b), s2, []. split; [reflexivity|]. split; [exact (did_nil _ _ _ _ D1 D2)|]. exists cs. split; [exact G|]. split; [exists []; reflexivity|]. auto. }
    destruct t; try contradiction W; try exact Go.
  - unfold pbind at 1, set_event_end_tok at 1, upd at 1. cbn [is_internal]. set (e2 := Some (length b - length (utf8 lx))). pose proof (did_evEnd e2 s1) as D2. set (s2 := set_evEnd e2 s1) in *.
    pose proof (did_nil _ _ _ _ D1 D2) as D12. pose proof (ready_did _ _ _ _ R D12) as R2. pose proof (ready_env _ _ R2) as V2.
    assert (Go : forall rs cs' s3, cs = lx ++ cs' -> o = Some cs' -> lx <> [] -> did rs s2 s3 ->
      merged (rs ++ [Text (utf8 (norm_eol cs')); SectionEnds]) = merged [Text (utf8 (norm_eol cs)); SectionEnds] ->
      exists r s' rs, pbind (inc (length (utf8 lx)) b) (fun rest => pbind (after_token ENormal rest) (fun ret => if ret then pret (inl rest) else doCdataSection f ENormal rest hm)) s3 = Ret r s' /\ did rs s s' /\
      match r with
      | inl rest => exists cs', section_good cs' /\ (exists a, cs = a ++ cs') /\ rest ++ x = utf8 (cs' ++ txt "]]>" ++ text l) /\ all_in is_scalar (cs' ++ txt "]]>" ++ text l) /\ x <> [] /\
        merged (rs ++ [Text (utf8 (norm_eol cs')); SectionEnds]) = merged [Text (utf8 (norm_eol cs)); SectionEnds]
      | inr rest => rest ++ x = utf8 (text l) /\ length rest <= length b /\ merged rs = merged [Text (utf8 (norm_eol cs)); SectionEnds]
      end).
    { intros rs cs' s3 Ec Eo Nl D3 Mg. subst o cs. cbn [DocItem.after] in E'. rewrite Eb. unfold pbind at 1. rewrite inc_p. unfold pbind at 1.
      pose proof (ready_did _ _ _ _ R2 D3) as R3. rewrite (after_goes b' stk s3 R3). pose proof (did_ev (Some (length b')) s3) as D4.
      assert (Lb : length b' < length b).
      { rewrite Eb, app_length. destruct lx as [|c lx]; [congruence|]. rewrite utf8_cons, app_length.
        assert (1 <= length (utf8_encode c)); [|lia]. unfold utf8_encode. repeat match goal with |- context [if ?b then _ else _] => destruct b end; cbn; lia. }
      rewrite <- app_assoc in Sc. apply scalar_app in Sc as [_ Sc].
      destruct (IH cs' l stk b' x _ hm (ready_did _ _ _ _ R3 D4) (section_suffix _ _ G) Sc E' Hm) as (r & s' & rs' & Er & D5 & M); [lia|].
      exists r, s', (rs ++ rs'). split; [exact Er|]. split; [exact (did_nil _ _ _ _ D12 (did_trans _ _ _ _ _ (did_more _ _ _ _ D3 D4) D5))|].
      destruct r as [rest|rest].
      - destruct M as (cs2 & M1 & (a & Ma) & M2 & M3 & M4 & M5). exists cs2. split; [assumption|]. split; [exists (lx ++ a); rewrite <- app_assoc, <- Ma; reflexivity|]. repeat (split; [assumption|]). rewrite <- app_assoc. rewrite <- Mg. apply merged_eq; auto.
      - destruct M as (M1 & M2 & M3). split; [assumption|]. split; [rewrite <- Eb; lia|]. rewrite <- Mg. apply merged_eq; auto. }
    assert (I : forall u, inc (length (utf8 lx)) b u = Ret b' u) by (intros; rewrite Eb; apply inc_p).
    assert (F : firstn (length (utf8 lx)) b = utf8 lx) by (rewrite Eb; apply firstn_app_len).
    inversion St; subst t o.
    + subst cs lx. unfold pbind at 1, need at 1, pret at 1. unfold pbind at 1. destruct (emit_does h_endCdata EvEndCdata s2 V2) as (s3 & -> & D3); [apply (dv_on _ V2)|].
      unfold pbind at 1, when at 1, pret at 1. cbn [negb]. unfold pbind at 1. rewrite I. unfold pbind at 1, get at 1. rewrite (did_parsing _ _ _ D3), (rd_parsing _ _ R2).
      exists (inr b'), s3, [SectionEnds]. split; [reflexivity|]. split; [exact (did_nil _ _ _ _ D12 D3)|]. split; [exact E'|]. split; [rewrite Eb, app_length; lia|reflexivity].
    + subst cs lx. unfold pbind at 1, need at 1, pret at 1. unfold pbind at 1. rewrite F.
      destruct (charText_does (utf8 a) (length b - length (utf8 a)) s2 V2) as (s3 & -> & D3). eapply Go; [reflexivity|reflexivity|assumption|exact D3|].
      rewrite norm_data by assumption. rewrite utf8_app. apply merged_text.
    + subst cs lx. unfold pbind at 1, need at 1, pret at 1. unfold pbind at 1.
      destruct (charData_does [10%N] (firstn (length (utf8 e)) b) (length b - length (utf8 e)) s2 V2) as (s3 & -> & D3). eapply Go; [reflexivity|reflexivity| |exact D3|].
      * match goal with H : line_end _ _ |- _ => destruct H as [-> |[-> |[-> _]]] end; discriminate.
      * match goal with H : line_end _ _ |- _ => rewrite (norm_line _ _ H) end. change (utf8 (10%N :: norm_eol r)) with ([10%N] ++ utf8 (norm_eol r)). apply merged_text.
Qed.

(* ---- content ---- *)
Definition lands (x : bytes) (tx : list N) (all : list report) (o : out bytes) : Prop :=
  exists rest s' stk' p', o = Ret rest s' /\ stand stk' p' s' /\ s_processor s' = proc_of p' /\ rest ++ x = utf8 (place_text p') /\
    (x = [] -> p' = Content []) /\ (exists a, tx = a ++ place_text p') /\ merged (said s' ++ preports p') = merged all.
Lemma lands_more x u t a a' o : merged a = merged a' -> lands x t a o -> lands x (u ++ t) a' o.
Proof. intros E (rest & s' & stk' & p' & H1 & H2 & H3 & H4 & H5 & (y & H6) & H7). exists rest, s', stk', p'. repeat (split; [assumption|]). split; [exists (u ++ y); rewrite <- app_assoc, <- H6; reflexivity|]. congruence. Qed.
Lemma utf8_pos lx : lx <> [] -> 1 <= length (utf8 lx).
Proof using.
  destruct lx as [|c lx]; [congruence|]. intros _. rewrite utf8_cons, app_length.
  assert (1 <= length (utf8_encode c)); [|lia]. unfold utf8_encode. repeat match goal with |- context [if ?b then _ else _] => destruct b end; cbn; lia.
Qed.
Lemma prolog_nil : prologTok u8 [] = Ok (T_NONE, None).
Proof using. reflexivity. Qed.
Lemma epilog_ends f s : docenv s -> exists s', epilogProcessor (S f) [] s = Ret [] s' /\ s_processor s' = PrEpilog /\ did [] (set_processor PrEpilog s) s'.
Proof using.
  intros V. unfold epilogProcessor, pbind at 1, upd at 1. set (s1 := set_processor PrEpilog s). assert (V1 : docenv s1) by (apply (env_same s); [repeat split|exact V]).
  cbn [epilog_loop]. unfold pbind at 1, set_event at 1, upd at 1. cbn [is_internal]. pose proof (did_ev (Some 0) s1) as D1. cbn [length]. set (s2 := set_ev (Some 0) s1) in *.
  unfold pbind at 1, scan at 1, pbind at 1, get at 1. assert (V2 := did_env _ _ _ D1 V1). rewrite (dv_enc _ V2). cbn iota. unfold pbind, lift. rewrite prolog_nil.
  eexists. split; [reflexivity|]. split; [reflexivity|]. eapply did_nil; [exact D1|]. apply did_evEnd.
Qed.
Lemma chars_inside stk a r l : inside stk (IPiece (Chars (a ++ r)) :: l) -> inside stk (chars r l).
Proof using.
  intros H. inversion H; subst. destruct r as [|c r]; [assumption|]. apply in_piece; auto. eapply suffix_good; [discriminate|eassumption].
Qed.
Lemma chars_read r l : Forall item_reads l -> Forall item_reads (chars r l).
Proof using. intros H. destruct r; [exact H|]. constructor; [exact I|exact H]. Qed.
Lemma knot_fuel n : rc_fuel (knot n) = n. Proof using. destruct n; reflexivity. Qed.
Lemma content_goes n : forall l stk b x s hm, l <> [] -> stand stk (Content l) s -> s_processor s = PrContent ->
  b ++ x = utf8 (text l) -> (hm = false -> x = []) -> k + length b + 2 <= n ->
  lands x (text l) (said s ++ ireports l) (rc_content (knot n) 0 ENormal b hm s).
Proof.
  induction n as [|n IH]; intros l stk b x s hm Ln T Pr E Hm L; [lia|]. destruct T as [R G Rd Sc]. cbn [pgood pitems place_text] in G, Rd, Sc.
  change (rc_content (knot (S n)) 0 ENormal b hm s) with (doContent (knot n) 0 ENormal b hm s). unfold doContent.
  unfold pbind at 1, set_event at 1, upd at 1. cbn [is_internal]. pose proof (did_ev (Some (length b)) s) as D1. set (s1 := set_ev _ s) in *.
  pose proof (ready_did _ _ _ _ R D1) as R1. pose proof (ready_env _ _ R1) as V1.
  unfold pbind at 1. rewrite (u8_encoding s1 V1). unfold pbind at 1.
  destruct (step_cut stk l b x G Ln Sc E) as [(t & Et & W & Hx)|(t & lx & p & b' & Et & St & Eb & E')].
  - assert (Es : scan_as ENormal true b s1 = Ret (t, None) s1) by (unfold scan_as, scan, lift; rewrite (dv_enc _ V1), Et; reflexivity). rewrite Es.
    unfold pbind at 1, set_event_end_tok at 1, upd at 1. cbn [is_internal]. match goal with |- context [set_evEnd ?e s1] => pose proof (did_evEnd e s1) as D2; set (s2 := set_evEnd e s1) in * end.
    assert (hm = true) by (destruct hm; [reflexivity|exfalso; apply Hx; apply Hm; reflexivity]). subst hm.
    assert (Go : lands x (text l) (said s ++ ireports l) (Ret b s2)).
    { pose proof (did_nil _ _ _ _ D1 D2) as D. exists b, s2, stk, (Content l). split; [reflexivity|]. split; [constructor; auto; exact (ready_did _ _ _ _ R D)|].
      split; [rewrite (did_proc _ _ _ D), Pr; destruct l; [congruence|reflexivity]|]. split; [exact E|]. split; [contradiction|]. split; [exists []; reflexivity|].
      rewrite (did_said _ _ _ D), app_nil_r. reflexivity. }
    destruct t; try contradiction W; exact Go.
  - assert (Es : scan_as ENormal true b s1 = Ret (t, Some (length (utf8 lx))) s1) by (unfold scan_as, scan, lift; rewrite (dv_enc _ V1), Et; reflexivity). rewrite Es.
    unfold pbind at 1, set_event_end_tok at 1, upd at 1. cbn [is_internal]. match goal with |- context [set_evEnd ?e s1] => pose proof (did_evEnd e s1) as D2; set (s2 := set_evEnd e s1) in * end.
    pose proof (did_nil _ _ _ _ D1 D2) as D12. pose proof (ready_did _ _ _ _ R D12) as R2. pose proof (ready_env _ _ R2) as V2.
    assert (S2 : said s2 = said s) by (rewrite (did_said _ _ _ D12), app_nil_r; reflexivity).
    assert (P2 : s_processor s2 = PrContent) by (rewrite (did_proc _ _ _ D12); exact Pr).
    clear D1 D2 D12 Es R1 V1. clearbody s2.
    assert (Lx : lx <> []).
    { clear -St. destruct St; try discriminate; try assumption.
      - destruct H as [(d & _ & _ & ->)|(d & _ & _ & ->)]; discriminate.
      - destruct H as [-> |[-> |[-> _]]]; discriminate. }
    assert (Lb : length b' < length b) by (rewrite Eb, app_length; pose proof (utf8_pos lx Lx); lia).
    assert (Ht : text l = lx ++ place_text p) by (exact (step_text _ _ _ _ St)).
    rewrite Ht in Sc. apply scalar_app in Sc as [Sl Sp].
    assert (I : forall u, inc (length (utf8 lx)) b u = Ret b' u) by (intros; rewrite Eb; apply inc_p).
    assert (F : firstn (length (utf8 lx)) b = utf8 lx) by (rewrite Eb; apply firstn_app_len).
    assert (GoC : forall stk' l' s3, l' <> [] -> ready stk' s3 -> s_processor s3 = PrContent -> inside stk' l' -> Forall item_reads l' -> all_in is_scalar (text l') ->
      b' ++ x = utf8 (text l') -> text l = lx ++ text l' -> merged (said s3 ++ ireports l') = merged (said s ++ ireports l) ->
      lands x (text l) (said s ++ ireports l) (pbind (after_token ENormal b') (fun ret => if ret then pret b' else rc_content (knot n) 0 ENormal b' hm) s3)).
    { intros stk' l' s3 Hl R3 P3 I3 Rd3 Sc3 E3 T3 M3. unfold pbind at 1. rewrite (after_goes b' stk' s3 R3). pose proof (did_ev (Some (length b')) s3) as D4.
      rewrite T3. eapply lands_more; [exact M3|]. apply (lands_more x [] (text l') (said (set_ev (Some (length b')) s3) ++ ireports l')); [|eapply (IH l' stk' b' x); auto].
      - rewrite (did_said _ _ _ D4), app_nil_r. reflexivity.
      - constructor; auto. exact (ready_did _ _ _ _ R3 D4).
      - lia. }
    assert (GoE : forall stk' l' s3, (stk' = [] -> l' = []) -> ready stk' s3 -> s_processor s3 = PrContent -> inside stk' l' -> Forall item_reads l' -> all_in is_scalar (text l') ->
      b' ++ x = utf8 (text l') -> text l = lx ++ text l' -> merged (said s3 ++ ireports l') = merged (said s ++ ireports l) ->
      lands x (text l) (said s ++ ireports l) (pbind (maybe_epilog (knot n) b') (fun o => match o with Some y => pret y | None => pbind (after_token ENormal b') (fun ret => if ret then pret b' else rc_content (knot n) 0 ENormal b' hm) end) s3)).
    { intros stk' l' s3 Hl R3 P3 I3 Rd3 Sc3 E3 T3 M3. unfold pbind at 1, maybe_epilog at 1. unfold pbind at 1, get at 1. unfold pbind at 1, get at 1. rewrite (rd_level _ _ R3), (rd_parsing _ _ R3).
      change (negb (parsing_eqb PARSING FINISHED)) with true. change (parsing_eqb PARSING SUSPENDED) with false. rewrite andb_true_r. destruct stk' as [|nm stk'].
      - change (length [] =? 0) with true. cbn iota. rewrite (Hl eq_refl) in *. cbn [text flat_map utf8] in E3. apply app_eq_nil in E3 as [-> ->].
        unfold pbind. rewrite knot_fuel. destruct n as [|n']; [lia|]. destruct (epilog_ends n' s3 (ready_env _ _ R3)) as (s4 & -> & P4 & D4).
        exists [], s4, [], (Content []). split; [reflexivity|]. split; [constructor; auto; eapply ready_did; [|exact D4]; destruct R3 as [Q1 Q2 Q3 Q4 Q5 Q6]; constructor; auto; apply (tame_like s3); [reflexivity|reflexivity|exact Q2]|].
        split; [exact P4|]. split; [reflexivity|]. split; [reflexivity|]. split; [exists lx; exact T3|]. rewrite (did_said _ _ _ D4), app_nil_r. exact M3.
      - change (length (nm :: stk') =? 0) with false. cbn iota. apply (GoC (nm :: stk') l'); auto. eapply inside_ne; eauto; discriminate. }
    assert (GoD : forall rs l' s3, did rs s2 s3 -> stk <> [] -> inside stk l' -> Forall item_reads l' -> all_in is_scalar (text l') ->
      b' ++ x = utf8 (text l') -> text l = lx ++ text l' -> merged (rs ++ ireports l') = merged (ireports l) ->
      lands x (text l) (said s ++ ireports l) (pbind (inc (length (utf8 lx)) b) (fun rest => pbind (after_token ENormal rest) (fun ret => if ret then pret rest else rc_content (knot n) 0 ENormal rest hm)) s3)).
    { intros rs l' s3 D Hs I3 Rd3 Sc3 E3 T3 M3. unfold pbind at 1. rewrite I. apply (GoC stk l'); auto; [eapply inside_ne; eauto|exact (ready_did _ _ _ _ R2 D)|rewrite (did_proc _ _ _ D); exact P2|].
      rewrite (did_said _ _ _ D), S2, <- app_assoc. apply merged_eq; auto. }
    destruct St as [name atts given sp l|name sp l|name atts given sp l|r c l Hr Hc|nm c l Hc|cs l|body l|target data l|a r l Ha Hd|e r l He];
      cbn [place_text] in *; inversion Rd as [|? ? Rd1 Rd2]; subst.
    + (* a start tag *)
      unfold tag_token. destruct atts; (unfold pbind at 1, need at 1, pret at 1; unfold pbind at 1;
        match goal with |- context [tag_text name ?atts sp false] =>
          destruct (open_does sref EV k (knot n) name atts given sp b' (length (utf8 (tag_text name atts sp false))) s2 (rd_same _ _ R2) (rd_tame _ _ R2)) as (s3 & -> & D3);
            [inversion G; assumption|exact Sl|exact Rd1|rewrite knot_fuel; lia|] end;
        unfold pbind at 1; rewrite inc_p; apply (GoC (name :: stk) l);
          [inversion G; subst; eapply inside_ne; [eassumption|discriminate]
          |eapply ready_did; [|exact D3]; destruct R2 as [Q1 Q2 Q3 Q4 Q5 Q6]; constructor; auto; [apply (tame_like s2); [reflexivity|reflexivity|exact Q2]|cbn [s_tags map]; rewrite <- Q3; reflexivity|cbn [length]; rewrite <- Q4; reflexivity]
          |rewrite (did_proc _ _ _ D3); exact P2|inversion G; assumption|exact Rd2|exact Sp|exact E'|exact Ht|];
        rewrite (did_said _ _ _ D3); change (said (set_tags _ _)) with (said s2); rewrite S2, <- app_assoc; reflexivity).
    + (* an end tag *)
      unfold pbind at 1, need at 1, pret at 1. unfold pbind at 1, get at 1. inversion G as [| |stk1 ? ? ? Gn Gs Gl Gz| |]; subst. rewrite (rd_level _ _ R2). change (length (name :: stk1) =? 0) with false. cbn iota.
      unfold pbind at 1.
      assert (Sn : all_in is_scalar name) by (unfold etag_text in Sl; apply scalar_app in Sl as [_ Sl]; apply scalar_app in Sl as [Sl _]; exact Sl).
      destruct (close_does name sp b' (length (utf8 (etag_text name sp))) s2 (map tag_of stk1) V2 (rd_tags _ _ R2) Gn Gs Sn) as (s3 & -> & D3).
      unfold pbind at 1. rewrite inc_p. apply (GoE stk1 l);
        [exact Gz
        |eapply ready_did; [|exact D3]; destruct R2 as [Q1 Q2 Q3 Q4 Q5 Q6]; constructor; auto; [apply (tame_like s2); [reflexivity|reflexivity|exact Q2]|change (pred (s_tagLevel s2) = length stk1); rewrite Q4; reflexivity]
        |rewrite (did_proc _ _ _ D3); exact P2|exact Gl|exact Rd2|exact Sp|exact E'|exact Ht|].
      rewrite (did_said _ _ _ D3). change (said (set_tagLevel _ _)) with (said s2). rewrite S2, <- app_assoc. reflexivity.
    + (* an empty element *)
      unfold tag_token. assert (Gt : tag_good name atts given sp) by (inversion G; assumption). assert (Gl : inside stk l /\ (stk = [] -> l = [])) by (inversion G; subst; [split; [assumption|congruence]|split; [constructor|reflexivity]]). destruct Gl as [Gl Gz].
      destruct atts; (unfold pbind at 1, need at 1, pret at 1; unfold pbind at 1;
        match goal with |- context [tag_text name ?atts sp true] =>
          destruct (empty_does sref EV k (knot n) name atts given sp b' (length (utf8 (tag_text name atts sp true))) s2 (rd_same _ _ R2) (rd_tame _ _ R2)) as (s3 & -> & D3);
            [exact Gt|exact Sl|exact Rd1|rewrite knot_fuel; lia|] end;
        unfold pbind at 1; rewrite inc_p; apply (GoE stk l);
          [exact Gz|eapply ready_did; [exact R2|exact D3]|rewrite (did_proc _ _ _ D3); exact P2|exact Gl|exact Rd2|exact Sp|exact E'|exact Ht|];
        rewrite (did_said _ _ _ D3); rewrite S2, <- app_assoc; reflexivity).
    + (* a character reference *)
      unfold pbind at 1, need at 1, pret at 1. unfold pbind at 1, lift at 1. destruct (charRef_reads r c b' Hr Hc) as [-> Bc]. replace (Z.of_N c <? 0)%Z with false by lia. cbn iota. rewrite (XmlUtf8Encode_spec c Bc). unfold pbind at 1. rewrite F.
      match goal with |- context [char_data ENormal ?d ?a ?m s2] => destruct (charData_does d a m s2 V2) as (s3 & -> & D3) end. inversion G; subst.
      eapply GoD; [exact D3|assumption|eassumption|exact Rd2|exact Sp|exact E'|exact Ht|]. cbn [ireports flat_map item_reports piece_reports List.app]. change (utf8 [c]) with (utf8_encode c ++ []). rewrite app_nil_r. reflexivity.
    + (* an entity reference *)
      unfold pbind at 1, need at 1, pret at 1. unfold pbind at 1.
      destruct (entity_does (knot n) nm c b' s2 V2 Hc) as (s3 & -> & D3). inversion G; subst.
      eapply GoD; [exact D3|assumption|eassumption|exact Rd2|exact Sp|exact E'|exact Ht|]. reflexivity.
    + (* a section *)
      unfold pbind at 1, need at 1, pret at 1. unfold pbind at 1. destruct (emit_does h_startCdata EvStartCdata s2 V2) as (s3 & -> & D3); [apply (dv_on _ V2)|].
      unfold pbind at 1, when at 1, pret at 1. cbn [negb]. unfold pbind at 1. rewrite inc_p. unfold pbind at 1. rewrite knot_fuel. inversion G as [| | |? ? ? Gs Gp Gl _|]; subst.
      pose proof (ready_did _ _ _ _ R2 D3) as R3.
      destruct (cdata_goes n cs l stk b' x s3 hm R3 Gp Sp E' Hm) as (o & s4 & rs & -> & D4 & M); [lia|]. pose proof (did_trans _ _ _ _ _ D3 D4) as D. pose proof (ready_did _ _ _ _ R2 D) as R4.
      cbn [heard] in D. destruct o as [rest|rest].
      * destruct M as (cs' & M1 & (y & My) & M2 & M3 & M4 & M5). unfold pbind at 1, upd at 1. exists rest, (set_processor PrCdata s4), stk, (Sect cs' l). split; [reflexivity|].
        split; [constructor; [|cbn; auto|exact Rd2|exact M3]|].
        { destruct R4 as [Q1 Q2 Q3 Q4 Q5 Q6]; constructor; auto. apply (tame_like s4); [reflexivity|reflexivity|exact Q2]. }
        split; [reflexivity|]. split; [exact M2|]. split; [contradiction|]. split; [exists (txt "<![CDATA[" ++ y); rewrite Ht, My; cbn [place_text]; rewrite <- !app_assoc; reflexivity|]. change (said (set_processor PrCdata s4)) with (said s4). rewrite (did_said _ _ _ D), S2, <- app_assoc. apply merged_eq; [reflexivity|].
        cbn [preports]. change (ireports (IPiece (Section cs) :: l)) with ([SectionBegins] ++ [Text (utf8 (norm_eol cs)); SectionEnds] ++ ireports l). rewrite <- app_assoc. apply merged_eq; [reflexivity|].
        change (Text (utf8 (norm_eol cs')) :: SectionEnds :: ireports l) with ([Text (utf8 (norm_eol cs')); SectionEnds] ++ ireports l). rewrite app_assoc. apply merged_eq; auto.
      * destruct M as (M1 & M2 & M3). unfold pbind at 1. rewrite (after_goes rest stk s4 R4). pose proof (did_ev (Some (length rest)) s4) as D5. pose proof (did_more _ _ _ _ D D5) as D6.
        rewrite Ht, app_assoc, app_assoc. eapply lands_more; [|eapply (IH l stk rest x); auto].
        -- rewrite (did_said _ _ _ D6), S2, <- app_assoc. apply merged_eq; [reflexivity|]. change (ireports (IPiece (Section cs) :: l)) with ([SectionBegins] ++ [Text (utf8 (norm_eol cs)); SectionEnds] ++ ireports l). rewrite <- app_assoc. apply merged_eq; [reflexivity|]. apply merged_eq; auto.
        -- eapply inside_ne; eauto.
        -- constructor; auto; [exact (ready_did _ _ _ _ R2 D6)|]. cbn. apply scalar_app in Sp as [_ Sp]. apply scalar_app in Sp as [_ Sp]. exact Sp.
        -- rewrite (did_proc _ _ _ D6). exact P2.
        -- lia.
    + (* a comment *)
      unfold pbind at 1, need at 1, pret at 1. unfold pbind at 1. rewrite F. inversion G; subst.
      assert (Sb : all_in is_scalar body) by (unfold comment_text in Sl; apply scalar_app in Sl as [_ Sl]; apply scalar_app in Sl as [Sl _]; exact Sl).
      match goal with |- context [reportComment ENormal _ ?m s2] => destruct (comment_does body m s2 V2) as (s3 & -> & D3); [assumption|exact Sb|] end.
      eapply GoD; [exact D3|assumption|eassumption|exact Rd2|exact Sp|exact E'|exact Ht|]. reflexivity.
    + (* a processing instruction *)
      unfold pbind at 1, need at 1, pret at 1. unfold pbind at 1. rewrite F. inversion G; subst. match goal with H : piece_good _ |- _ => destruct H as (G1 & _ & G2) end.
      unfold pi_text in Sl. apply scalar_app in Sl as [_ Sl]. apply scalar_app in Sl as [St Sl]. apply scalar_app in Sl as [Sd _].
      match goal with |- context [reportPI ENormal _ ?m s2] => destruct (pi_does target data m s2 V2 G1 G2 St Sd) as (s3 & -> & D3) end.
      eapply GoD; [exact D3|assumption|eassumption|exact Rd2|exact Sp|exact E'|exact Ht|]. reflexivity.
    + (* character data *)
      unfold pbind at 1, need at 1, pret at 1. unfold pbind at 1. rewrite F.
      match goal with |- context [char_data_text ENormal ?a ?m s2] => destruct (charText_does a m s2 V2) as (s3 & -> & D3) end. inversion G; subst.
      eapply (GoD _ (chars r l)); [exact D3|assumption|eapply chars_inside; eassumption|apply chars_read; exact Rd2|exact Sp|exact E'|exact Ht|].
      change (ireports (IPiece (Chars (a ++ r)) :: l)) with (Text (utf8 (norm_eol (a ++ r))) :: ireports l).
      rewrite norm_data by (intros Ia; unfold all_in in Hd; rewrite Forall_forall in Hd; specialize (Hd _ Ia); discriminate Hd). rewrite utf8_app, <- merged_text. apply (merged_eq [Text (utf8 a)] [Text (utf8 a)]); [reflexivity|apply chars_reports].
    + (* a line end *)
      unfold pbind at 1, need at 1, pret at 1. unfold pbind at 1. rewrite F.
      match goal with |- context [char_data ENormal ?d ?a ?m s2] => destruct (charData_does d a m s2 V2) as (s3 & -> & D3) end. inversion G; subst.
      eapply (GoD _ (chars r l)); [exact D3|assumption|eapply chars_inside; eassumption|apply chars_read; exact Rd2|exact Sp|exact E'|exact Ht|].
      change (ireports (IPiece (Chars (e ++ r)) :: l)) with (Text (utf8 (norm_eol (e ++ r))) :: ireports l).
      rewrite (norm_line _ _ He). change (utf8 (10%N :: norm_eol r)) with ([10%N] ++ utf8 (norm_eol r)). rewrite <- merged_text. apply (merged_eq [Text [10%N]] [Text [10%N]]); [reflexivity|apply chars_reports].
Qed.

(* ---- the processors ---- *)
Lemma ready_proc stk pr s : ready stk s -> ready stk (set_processor pr s).
Proof. intros [Q1 Q2 Q3 Q4 Q5 Q6]. constructor; auto. apply (tame_like s); [reflexivity|reflexivity|exact Q2]. Qed.
Lemma stand_proc stk p pr s : stand stk p s -> stand stk p (set_processor pr s).
Proof. intros [A1 A2 A3 A4]. constructor; auto. apply ready_proc. exact A1. Qed.
Lemma contentProcessor_goes n l stk b x s f : l <> [] -> stand stk (Content l) s -> s_processor s = PrContent -> s_final s = f ->
  b ++ x = utf8 (text l) -> (f = true -> x = []) -> k + length b + 2 <= n -> lands x (text l) (said s ++ ireports l) (contentProcessor (knot n) b s).
Proof.
  intros Hl T Pr Hf E Hx L. unfold contentProcessor, pbind at 1, get at 1. rewrite Hf. eapply content_goes; eauto. destruct f; [intros _; auto|discriminate].
Qed.
Lemma process_goes n p stk b x s f : stand stk p s -> s_processor s = proc_of p -> s_final s = f -> b ++ x = utf8 (place_text p) ->
  (f = true -> x = []) -> k + length b + 2 <= n -> lands x (place_text p) (said s ++ preports p) (process (knot n) b s).
Proof.
  intros T Pr Hf E Hx L. unfold process, pbind at 1, get at 1. rewrite Pr. destruct p as [l|cs l].
  - destruct l as [|i l].
    + cbn [proc_of]. cbn [place_text text flat_map utf8] in E. apply app_eq_nil in E as [-> ->]. rewrite knot_fuel. destruct n as [|n]; [lia|].
      destruct (epilog_ends n s (ready_env _ _ (sd_ready _ _ _ T))) as (s' & -> & P' & D).
      exists [], s', stk, (Content []). split; [reflexivity|].
      split; [destruct T as [A1 A2 A3 A4]; constructor; auto; eapply ready_did; [apply ready_proc; exact A1|exact D]|].
      split; [exact P'|]. split; [reflexivity|]. split; [reflexivity|]. split; [exists []; reflexivity|]. rewrite (did_said _ _ _ D), app_nil_r. reflexivity.
    + cbn [proc_of]. eapply contentProcessor_goes; eauto. discriminate.
  - cbn [proc_of]. unfold cdataSectionProcessor, pbind at 1, get at 1. rewrite Hf, knot_fuel. unfold pbind at 1. destruct T as [R (Gs & Gc & Gl) Rd Sc]. cbn [place_text pitems] in *.
    destruct (cdata_goes n cs l stk b x s (negb f) R Gc Sc E) as (o & s1 & rs & -> & D & M); [destruct f; [intros _; auto|discriminate]|lia|].
    pose proof (ready_did _ _ _ _ R D) as R1. destruct o as [rest|rest].
    + destruct M as (cs' & M1 & (y & My) & M2 & M3 & M4 & M5). exists rest, s1, stk, (Sect cs' l). split; [reflexivity|].
      split; [constructor; [exact R1|cbn; auto|exact Rd|exact M3]|]. split; [rewrite (did_proc _ _ _ D); exact Pr|]. split; [exact M2|]. split; [contradiction|].
      split; [exists y; rewrite My; cbn [place_text]; rewrite <- app_assoc; reflexivity|].
      rewrite (did_said _ _ _ D), <- app_assoc. apply merged_eq; [reflexivity|]. cbn [preports].
      change (Text (utf8 (norm_eol cs')) :: SectionEnds :: ireports l) with ([Text (utf8 (norm_eol cs')); SectionEnds] ++ ireports l).
      change (Text (utf8 (norm_eol cs)) :: SectionEnds :: ireports l) with ([Text (utf8 (norm_eol cs)); SectionEnds] ++ ireports l). rewrite app_assoc. apply merged_eq; auto.
    + destruct M as (M1 & M2 & M3). unfold pbind at 1, get at 1. rewrite (rd_child _ _ R1). unfold pbind at 1, upd at 1.
      rewrite app_assoc. eapply lands_more; [|eapply (contentProcessor_goes n l stk rest x (set_processor PrContent s1) f)].
      * change (said (set_processor PrContent s1)) with (said s1). rewrite (did_said _ _ _ D), <- app_assoc. apply merged_eq; [reflexivity|]. cbn [preports].
        change (Text (utf8 (norm_eol cs)) :: SectionEnds :: ireports l) with ([Text (utf8 (norm_eol cs)); SectionEnds] ++ ireports l). apply merged_eq; auto.
      * eapply inside_ne; eauto.
      * apply stand_proc. constructor; auto. apply scalar_app in Sc as [_ Sc]. apply scalar_app in Sc as [_ Sc]. exact Sc.
      * reflexivity.
      * destruct D as [B1 _ _ _ _]. unfold fixed in B1. change (s_final (set_processor PrContent s1)) with (s_final s1). congruence.
      * exact M1.
      * exact Hx.
      * lia.
Qed.
End Doc.
