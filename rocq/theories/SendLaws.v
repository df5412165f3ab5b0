(* Text is given to its handler in pieces, and all of it. *)
From Coq Require Import String List NArith ZArith Bool Lia Arith.
From Verif Require Import Base Encoding SpecUnicode SpecConv UniLaws UniConv Tok Status State Content Core SpecSend.
From Coq Require Import List.
Import ListNotations.
Local Open Scope nat_scope.

Lemma delivered_call mk t s : delivered mk t s (set_parsing (stopped (c_app (s_cfg s) ((s_pid s, mk t) :: s_log s)) (s_isParam s) (s_parsing s)) (set_log ((s_pid s, mk t) :: s_log s) s)).
Proof. exists [t]. cbn [s_log set_parsing set_log rev map concat]. rewrite map_app, app_nil_r. split; reflexivity. Qed.
Lemma delivered_trans mk a b s1 s2 s3 : delivered mk a s1 s2 -> delivered mk b s2 s3 -> delivered mk (a ++ b) s1 s3.
Proof. intros (p & E1 & <-) (q & E2 & <-). exists (p ++ q). rewrite E2, E1, map_app, concat_app, app_assoc. auto. Qed.
Section Send.
Variables (e : EncImpl) (enc : N -> bytes) (dom : N -> Prop).
Hypothesis T : transfers (utf8Convert e) enc dom.
Hypothesis NE : forall c, dom c -> enc c <> [].
Lemma chunks_all mk t after : forall fuel cs s, Forall dom cs -> length (flat_map enc cs) < fuel ->
  exists s', send_chunks fuel mk t e (flat_map enc cs) after s = Ret tt s' /\ delivered mk (utf8 cs) s s' /\ s_cfg s' = s_cfg s /\ s_enc s' = s_enc s.
Proof.
  induction fuel as [|fuel IH]; intros cs s D L; [lia|]. destruct (T cs DATA_BUF D) as (done & left & E & Lc & M).
  assert (Z : forall n s, exists s', set_event_n t n s = Ret tt s' /\ s_log s' = s_log s /\ s_cfg s' = s_cfg s /\ s_enc s' = s_enc s) by (intros; unfold set_event_n; destruct (is_internal t); eexists; repeat split; reflexivity).
  assert (Y : forall n s, exists s', set_event_end_n t n s = Ret tt s' /\ s_log s' = s_log s /\ s_cfg s' = s_cfg s /\ s_enc s' = s_enc s) by (intros; unfold set_event_end_n; destruct (is_internal t); eexists; repeat split; reflexivity).
  assert (X : forall rest : bytes, exists s', (set_event_end_n t (length rest + after) ;;; call (mk (utf8 done)) ;;; set_event_n t (length rest + after)) s = Ret tt s' /\ delivered mk (utf8 done) s s' /\ s_cfg s' = s_cfg s /\ s_enc s' = s_enc s).
  { intros rest. unfold pbind. destruct (Y (length rest + after) s) as (s1 & -> & Y1 & Y2 & Y3). unfold call.
    pose proof (delivered_call mk (utf8 done) s1) as Dc. set (s2 := set_parsing _ _) in *. assert (C2 : s_cfg s2 = s_cfg s1 /\ s_enc s2 = s_enc s1) by (split; reflexivity). clearbody s2. destruct C2 as (C2 & C3).
    destruct (Z (length rest + after) s2) as (s3 & -> & Z1 & Z2 & Z3). exists s3. split; [reflexivity|]. split; [|split; congruence]. unfold delivered in *. rewrite Z1, <- Y1. exact Dc. }
  cbn [send_chunks]. destruct left as [|c left].
  - rewrite app_nil_r in E. subst done. destruct (X []) as (s1 & E1 & D1 & C1 & C2). exists s1. split; [|auto].
    unfold pbind at 1, lift at 1. rewrite M. unfold pbind in E1 |- *. destruct (set_event_end_n _ _ _) as [[] s2|? ?|?]; try discriminate E1. destruct (call _ _) as [? s3|? ?|?]; try discriminate E1. rewrite E1. reflexivity.
  - destruct M as [M Lx]. destruct (X (flat_map enc (c :: left))) as (s1 & E1 & D1 & C1 & C2).
    assert (Dl : Forall dom (c :: left)) by (rewrite E in D; apply Forall_app in D; tauto).
    assert (ND : done <> []).
    { intros ->. change (utf8 ([] ++ [c])) with (utf8_encode c ++ []) in Lx. rewrite app_nil_r in Lx. pose proof (utf8_encode_len c) as Ql. unfold DATA_BUF in Lx. lia. }
    assert (Ll : length (flat_map enc (c :: left)) < fuel).
    { rewrite E, flat_map_app, app_length in L. revert L. generalize (length (flat_map enc (c :: left))). intros k L. destruct done as [|d done]; [congruence|]. cbn [flat_map] in L. rewrite app_length in L.
      assert (enc d <> []) by (apply NE; rewrite E in D; inversion D; assumption). destruct (enc d); [congruence|]. cbn [length] in L. lia. }
    destruct (IH (c :: left) s1 Dl Ll) as (s2 & E2 & D2 & C3 & C4). exists s2. split; [|split; [|split; congruence]].
    + unfold pbind at 1, lift at 1. rewrite M. unfold pbind in E1 |- *. destruct (set_event_end_n _ _ _) as [[] s3|? ?|?]; try discriminate E1. destruct (call _ _) as [? s4|? ?|?]; try discriminate E1. rewrite E1. exact E2.
    + rewrite E, utf8_app. eapply delivered_trans; eassumption.
Qed.
Lemma send_all mk cs after s : isUtf8 e = false -> s_enc s = EKnown e -> Forall dom cs ->
  exists s', send mk ENormal (flat_map enc cs) after s = Ret tt s' /\ delivered mk (utf8 cs) s s' /\ s_cfg s' = s_cfg s /\ s_enc s' = s_enc s.
Proof.
  intros U En D. unfold send, pbind, encoding. rewrite En. cbn [known]. rewrite U. rewrite <- En. apply chunks_all; [exact D|lia].
Qed.
End Send.
Lemma send_utf8 mk b after s : isUtf8 (known (c_ns (s_cfg s)) (s_enc s)) = true ->
  exists s', send mk ENormal b after s = Ret tt s' /\ delivered mk b s s' /\ s_cfg s' = s_cfg s /\ s_enc s' = s_enc s.
Proof. intros U. unfold send, pbind, encoding. rewrite U. eexists. split; [reflexivity|]. split; [|split; reflexivity]. apply delivered_call. Qed.
Lemma reaches e enc dom cs after s : transfers (utf8Convert e) enc dom -> (forall c, dom c -> enc c <> []) -> isUtf8 e = false ->
  s_enc s = EKnown e -> (h_charData (c_h (s_cfg s)) = true \/ h_default (c_h (s_cfg s)) = true) -> Forall dom cs ->
  exists s', char_data_text ENormal (flat_map enc cs) after s = Ret tt s' /\ delivered (text_handler s) (utf8 cs) s s'.
Proof.
  intros T NE U En H D. unfold char_data_text, reportDefault, text_handler, pbind, handler, get, when.
  destruct (h_charData (c_h (s_cfg s))).
  - destruct (send_all e enc dom T NE EvCharData cs after s U En D) as (s' & -> & X & _). eauto.
  - destruct H as [H|H]; [discriminate|]. rewrite H. destruct (send_all e enc dom T NE EvDefault cs after s U En D) as (s' & -> & X & _). eauto.
Qed.
