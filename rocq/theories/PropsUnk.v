(* Application-supplied encodings. *)
From Coq Require Import String List NArith ZArith Bool Arith.
From Verif Require Import Base Tables Encoding SpecText SpecUnicode SpecNames SpecLex SpecUnknown SpecConv Tok UnkLaws DeclFinal.
Import ListNotations.
Local Open Scope N_scope.

(* C46: a map of 256 entries is accepted exactly if it is acceptable; otherwise it is refused, and
   examining it never crashes. *)
Theorem C46_accepted : forall table convert ns, length table = 256%nat ->
  ((exists u, unknown_initialize table convert ns = Ok (Some u)) <-> map_ok table convert).
Proof.
  intros table convert ns L. destruct (init_eval table convert ns L) as [[M E]|[M E]]; rewrite E; split; eauto; try tauto. intros [u H]. discriminate.
Qed.
Print Assumptions C46_accepted.
Theorem C46_refused : forall table convert ns, length table = 256%nat -> ~ map_ok table convert -> unknown_initialize table convert ns = Ok None.
Proof. intros table convert ns L M. destruct (init_eval table convert ns L) as [[M' E]|[_ E]]; [contradiction|exact E]. Qed.
Print Assumptions C46_refused.
(* how the tokenisers see each byte of an accepted map *)
Theorem C46_bytes : forall table convert ns u i c r, length table = 256%nat -> unknown_initialize table convert ns = Ok (Some u) ->
  nth_error table (N.to_nat i) = Some c ->
  byte_type (unknown_enc u) (i :: r) = Ok (
    if (c =? -1)%Z then BT_MALFORM
    else if (c =? -2)%Z then BT_LEAD2 else if (c =? -3)%Z then BT_LEAD3 else if (c =? -4)%Z then BT_LEAD4
    else let v := Z.to_N c in
      if negb (is_xml_char v) then BT_NONXML
      else if v <? 128 then (if ns && (v =? 58) then BT_COLON else nth (N.to_nat v) Latin1EncodingTable BT_NONXML)
      else if is_name_start v then BT_NMSTRT else if is_NameChar v then BT_NAME else BT_OTHER).
Proof. exact unk_byte_types. Qed.
Print Assumptions C46_bytes.
(* a single byte converts to the UTF-8 form of its code point *)
Theorem C46_converts : forall table convert ns u i v cap, length table = 256%nat -> unknown_initialize table convert ns = Ok (Some u) ->
  nth_error table (N.to_nat i) = Some (Z.of_N v) -> is_xml_char v = true ->
  utf8Convert (unknown_enc u) [i] cap = if (length (utf8_encode v) <=? cap)%nat then Ok (COMPLETED, utf8_encode v, []) else Ok (OUTPUT_EXHAUSTED, [], [i]).
Proof. exact unk_byte_utf8. Qed.
Print Assumptions C46_converts.
(* whole texts, of single bytes and of sequences, convert for every buffer size *)
Theorem C46_texts : forall u enc dom lat ns, text_encoding (unknown_enc u) enc dom lat ns ->
  transfers (utf8Convert (unknown_enc u)) enc (fun c => dom c = true).
Proof. intros u enc dom lat ns TE. exact (te_transfers _ _ _ _ _ TE). Qed.
Print Assumptions C46_texts.

(* a map with ASCII, one further single byte (the euro sign) and one lead byte of two-byte sequences *)
Definition sample : list Z := map Z.of_nat (seq 0 128) ++ [0x20AC; -2]%Z ++ repeat (-1)%Z 126.
Definition pair_value (w : list N) : Z := match w with [_; b] => 0x3000 + Z.of_N b | _ => -1 end%Z.
Definition sample_dom (c : N) : bool := (c <? 128) || (c =? 0x20AC) || (0x3000 <=? c) && (c <? 0x3080).
Definition sample_enc (c : N) : list N := if c <? 128 then [c] else if c =? 0x20AC then [128] else [129; c - 0x3000].
Example C46_example : exists u, unknown_initialize sample (Some pair_value) true = Ok (Some u) /\
  text_encoding (unknown_enc u) sample_enc sample_dom false true /\
  contentTok (unknown_enc u) (flat_map sample_enc (txt "</" ++ [0x3042; 0x3043] ++ txt ">")) = Ok (T_END_TAG, Some 7%nat) /\
  utf8Convert (unknown_enc u) (flat_map sample_enc [97; 0x20AC; 0x3042]) 100 = Ok (COMPLETED, utf8 [97; 0x20AC; 0x3042], []).
Proof.
  eexists. split; [vm_compute; reflexivity|]. split; [|split; vm_compute; reflexivity].
  apply (te_unknown sample (Some pair_value)); [reflexivity|vm_compute; reflexivity| |].
  - intros c Hc. assert (H : forallb (fun c => match nth_error sample (N.to_nat c) with Some z => Z.eqb z (Z.of_N c) | None => false end) (map N.of_nat (seq 0 128)) = true) by (vm_compute; reflexivity).
    apply (fun H => sweep128 _ H c Hc) in H. cbv beta in H. destruct (nth_error sample (N.to_nat c)) as [z|]; [|discriminate]. apply Z.eqb_eq in H. subst z.
    unfold sample_enc, sample_dom. apply N.ltb_lt in Hc. rewrite Hc. auto.
  - intros c Hc Hd. unfold sample_dom, sample_enc in *. apply N.ltb_ge in Hc. rewrite Hc in *. cbn [orb] in Hd. destruct (c =? 0x20AC) eqn:E.
    + apply N.eqb_eq in E. subst c. repeat split. left. exists 128. repeat split.
    + cbn [orb] in Hd. apply andb_prop in Hd as [H1 H2]. apply N.leb_le in H1. apply N.ltb_lt in H2.
      assert (K : exists d, c = 0x3000 + d /\ d < 128). { exists (c - 0x3000). rewrite N.add_comm, N.sub_add by exact H1. split; [reflexivity|]. apply (N.add_lt_mono_r _ _ 0x3000). rewrite N.sub_add by exact H1. exact H2. }
      destruct K as (d & -> & Hd2). replace (0x3000 + d - 0x3000) with d by (rewrite N.add_comm, N.add_sub; reflexivity).
      split; [apply N.lt_trans with 0x3080; [exact H2|reflexivity]|]. split.
      * unfold is_xml_char. apply orb_true_iff. left. apply orb_true_iff. left. apply orb_true_iff. right. apply andb_true_intro. split; apply N.leb_le.
        -- apply N.le_trans with 0x3000; [discriminate|exact H1].
        -- apply N.lt_le_incl. apply N.lt_trans with 0x3080; [exact H2|reflexivity].
      * right. exists 129, [d], pair_value. repeat split; auto. cbn [pair_value]. rewrite N2Z.inj_add. reflexivity.
Qed.
