(* Character conversion properties. *)
From Coq Require Import List NArith ZArith Bool Arith String.
From Verif Require Import Base Encoding Tok SpecTok SpecText SpecUnicode SpecConv UniLaws UniConv.
Import ListNotations.
Local Open Scope string_scope.
Local Open Scope list_scope.
Local Open Scope N_scope.

(* C01: a character reference to code point [c] is written as the UTF-8 form of [c]. *)
Theorem C01_charref_utf8 : forall c, c <= 0x10FFFF -> XmlUtf8Encode (Z.of_N c) = utf8_encode c.
Proof. intros c H. apply XmlUtf8Encode_spec. exact (proj2 (N.lt_succ_r c 0x10FFFF) H). Qed.
Print Assumptions C01_charref_utf8.
Theorem C01_length : forall c, (1 <= List.length (utf8_encode c) <= 4)%nat.
Proof. exact utf8_encode_len. Qed.
Print Assumptions C01_length.
Theorem C01_injective : forall c d, c <= 0x10FFFF -> d <= 0x10FFFF ->
  XmlUtf8Encode (Z.of_N c) = XmlUtf8Encode (Z.of_N d) -> c = d.
Proof.
  intros c d Hc Hd E. rewrite !C01_charref_utf8 in E by assumption.
  exact (utf8_encode_inj c d (proj2 (N.lt_succ_r c 0x10FFFF) Hc) (proj2 (N.lt_succ_r d 0x10FFFF) Hd) E).
Qed.
Print Assumptions C01_injective.
Theorem C01_out_of_range : forall z, (z < 0 \/ 0x110000 <= z)%Z -> XmlUtf8Encode z = [].
Proof. exact XmlUtf8Encode_none. Qed.
Print Assumptions C01_out_of_range.
Example C01_example : XmlUtf8Encode 0x1F600 = [0xF0; 0x9F; 0x98; 0x80] /\ utf8_encode 0xE9 = [0xC3; 0xA9].
Proof. split; vm_compute; reflexivity. Qed.

(* C03: at a lead byte announcing [n] bytes, the [n] bytes are accepted as a character exactly if
   they are the UTF-8 form of a Unicode scalar value other than U+FFFE and U+FFFF. *)
Theorem C03_exact : forall e b t n,
  In e [utf8_encoding; utf8_encoding_ns; internal_utf8_encoding; internal_utf8_encoding_ns] ->
  bytes_ok b -> byte_type e b = Ok t -> lead_len t = Some n -> (n <= List.length b)%nat ->
  (is_invalid_char e b n = Ok false <->
   exists c, is_scalar c = true /\ c <> 0xFFFE /\ c <> 0xFFFF /\ utf8_encode c = firstn n b).
Proof. exact utf8_invalid_exact'. Qed.
Print Assumptions C03_exact.
(* the lead byte announces the number of bytes by its value; no other byte announces anything *)
Theorem C03_lead : forall e b r t,
  In e [utf8_encoding; utf8_encoding_ns; internal_utf8_encoding; internal_utf8_encoding_ns] ->
  b < 256 -> byte_type e (b :: r) = Ok t ->
  lead_len t = (if (0xC0 <=? b) && (b <? 0xE0) then Some 2%nat else if (0xE0 <=? b) && (b <? 0xF0) then Some 3%nat
                else if (0xF0 <=? b) && (b <? 0xF5) then Some 4%nat else None).
Proof. exact utf8_lead'. Qed.
Print Assumptions C03_lead.
(* bytes that neither are ASCII nor announce a character are rejected as such *)
Theorem C03_stray : forall e b r,
  In e [utf8_encoding; utf8_encoding_ns; internal_utf8_encoding; internal_utf8_encoding_ns] ->
  0x80 <= b < 0xC0 \/ 0xF5 <= b < 0x100 ->
  byte_type e (b :: r) = Ok BT_TRAIL \/ byte_type e (b :: r) = Ok BT_NONXML \/ byte_type e (b :: r) = Ok BT_MALFORM.
Proof. exact utf8_stray. Qed.
Print Assumptions C03_stray.
Example C03_example :
  is_invalid_char utf8_encoding [0xE2; 0x82; 0xAC] 3 = Ok false /\
  is_invalid_char utf8_encoding [0xED; 0xA0; 0x80] 3 = Ok true /\
  is_invalid_char utf8_encoding [0xC0; 0xAF] 2 = Ok true /\
  is_invalid_char utf8_encoding [0xF4; 0x90; 0x80; 0x80] 4 = Ok true /\
  byte_type utf8_encoding [0xE2; 0x82; 0xAC] = Ok BT_LEAD3.
Proof. repeat split; vm_compute; reflexivity. Qed.

(* C04 *)
Theorem C04_transfer : transfers (utf8Convert utf8_encoding) utf8_encode (fun c => is_scalar c = true).
Proof. exact utf8_transfers. Qed.
Print Assumptions C04_transfer.
(* the input [from] is a text cut at any byte *)
Theorem C04_cut : forall cs from r cap, scalars cs -> from ++ r = utf8 cs ->
  exists done part, from = utf8 done ++ part /\ (List.length (utf8 done) <= cap)%nat /\
    exists left, cs = done ++ left /\ part ++ r = utf8 left /\
    ((utf8_utf8Convert from cap = Ok (COMPLETED, utf8 done, part) /\ part = []) \/
     (utf8_utf8Convert from cap = Ok (INPUT_INCOMPLETE, utf8 done, part) /\
        exists c more, utf8_encode c = part ++ more /\ more <> [] /\ part <> [] /\ head left = Some c) \/
     (utf8_utf8Convert from cap = Ok (OUTPUT_EXHAUSTED, utf8 done, part) /\ (cap < List.length from)%nat /\
        exists c, head left = Some c /\ (cap < List.length (utf8 (done ++ [c])))%nat)).
Proof. exact utf8_transfers_cut. Qed.
Print Assumptions C04_cut.
Theorem C04_drive : forall sizes cs, scalars cs -> Forall (fun cap => 4 <= cap)%nat sizes ->
  (List.length cs <= List.length sizes)%nat ->
  drive utf8_utf8Convert sizes (utf8 cs) = Ok (utf8 cs, []).
Proof. exact (drive_all _ _ _ utf8_transfers (fun c _ => utf8_ne c)). Qed.
Print Assumptions C04_drive.
Example C04_example : scalars [0x20AC; 0x41] /\
  utf8_utf8Convert (utf8 [0x20AC; 0x41]) 3 = Ok (OUTPUT_EXHAUSTED, utf8 [0x20AC], utf8 [0x41]) /\
  utf8_utf8Convert [0x41; 0xE2; 0x82] 9 = Ok (INPUT_INCOMPLETE, [0x41], [0xE2; 0x82]).
Proof. split; [repeat (apply Forall_cons; [reflexivity|]); apply Forall_nil|split; vm_compute; reflexivity]. Qed.

(* C05: [from] is a text cut anywhere; trimming removes exactly the incomplete last character *)
Theorem C05_trim : forall cs from r, Forall (fun c => c < 0x110000) cs -> from ++ r = utf8 cs ->
  exists done part, trim_to_complete_utf8 from = Ok (utf8 done) /\ from = utf8 done ++ part /\
    ((r = [] /\ part = [] /\ done = cs) \/
     exists c left more, cs = done ++ c :: left /\ utf8_encode c = part ++ more /\ more <> []
       /\ r = more ++ utf8 left).
Proof. exact trim_cut. Qed.
Print Assumptions C05_trim.
Example C05_example : trim_to_complete_utf8 [0x41; 0xF0; 0x9F; 0x98] = Ok [0x41] /\
  [0x41; 0xF0; 0x9F; 0x98] ++ [0x80] = utf8 [0x41; 0x1F600].
Proof. split; vm_compute; reflexivity. Qed.

(* C06 *)
Theorem C06_latin1 : transfers (utf8Convert latin1_encoding) (fun c => [c]) (fun c => c < 256).
Proof. exact latin1_transfers. Qed.
Print Assumptions C06_latin1.
Theorem C06_ascii : transfers (utf8Convert ascii_encoding) (fun c => [c]) (fun c => c < 128).
Proof. exact ascii_transfers. Qed.
Print Assumptions C06_ascii.
Theorem C06_latin1_drive : forall sizes cs, Forall (fun c => c < 256) cs ->
  Forall (fun cap => 4 <= cap)%nat sizes -> (List.length cs <= List.length sizes)%nat ->
  drive latin1_utf8Convert sizes (flat_map (fun c => [c]) cs) = Ok (utf8 cs, []).
Proof.
  refine (drive_all _ _ _ latin1_transfers _). intros c _ H. discriminate H.
Qed.
Print Assumptions C06_latin1_drive.
Example C06_example : latin1_utf8Convert [0x41; 0xE9; 0x42] 2 = Ok (OUTPUT_EXHAUSTED, [0x41], [0xE9; 0x42]) /\
  latin1_utf8Convert [0x41; 0xE9] 3 = Ok (COMPLETED, [0x41; 0xC3; 0xA9], []).
Proof. split; vm_compute; reflexivity. Qed.

(* C07 *)
Theorem C07_utf16le : transfers (utf8Convert little2_encoding) utf16le_encode (fun c => is_scalar c = true).
Proof. exact (utf16_transfers false). Qed.
Print Assumptions C07_utf16le.
Theorem C07_utf16be : transfers (utf8Convert big2_encoding) utf16be_encode (fun c => is_scalar c = true).
Proof. exact (utf16_transfers true). Qed.
Print Assumptions C07_utf16be.
(* a text cut between the two halves [h] and (not yet there) of a surrogate pair: the half stays in
   the input, and with enough room the input is reported to be incomplete *)
Theorem C07_cut_pair : forall be cs h cap, scalars cs -> 0xD800 <= h < 0xDC00 ->
  let half := if be : bool then [h / 256; h mod 256] else [h mod 256; h / 256] in
  let enc := if be then utf16be_encode else utf16le_encode in
  exists done left, cs = done ++ left /\ (List.length (utf8 done) <= cap)%nat /\
    exists code, utf16_utf8Convert be (flat_map enc cs ++ half) cap
      = Ok (code, utf8 done, flat_map enc left ++ half) /\
      (code = INPUT_INCOMPLETE /\ left = [] \/ code = OUTPUT_EXHAUSTED) /\
      ((List.length (utf8 cs) + 4 <= cap)%nat -> code = INPUT_INCOMPLETE).
Proof. intros be cs h cap Hc Hh. destruct be; [exact (utf16_cut true cs h cap Hc Hh)|exact (utf16_cut false cs h cap Hc Hh)]. Qed.
Print Assumptions C07_cut_pair.
Theorem C07_drive : forall sizes cs, scalars cs -> Forall (fun cap => 4 <= cap)%nat sizes ->
  (List.length cs <= List.length sizes)%nat ->
  drive (utf16_utf8Convert false) sizes (utf16le cs) = Ok (utf8 cs, []).
Proof.
  refine (drive_all _ _ _ (utf16_transfers false) _). intros c _ H.
  unfold utf16_encode, utf16le_encode, utf16_units in H. destruct (c <? 0x10000); discriminate H.
Qed.
Print Assumptions C07_drive.
Example C07_example : scalars [0x1F600; 0x41] /\
  utf16_utf8Convert false (utf16le [0x1F600; 0x41]) 4 = Ok (OUTPUT_EXHAUSTED, utf8 [0x1F600], utf16le [0x41]) /\
  utf16_utf8Convert false [0x41; 0; 0x3D; 0xD8] 9 = Ok (INPUT_INCOMPLETE, [0x41], [0x3D; 0xD8]).
Proof. split; [repeat (apply Forall_cons; [reflexivity|]); apply Forall_nil|split; vm_compute; reflexivity]. Qed.
(* a text cut inside a code unit is reported as completely converted, and the odd byte vanishes *)
Theorem C07_odd_byte_dropped : exists from cap, from ++ [0] = utf16le [0x41; 0x42] /\
  utf16_utf8Convert false from cap = Ok (COMPLETED, utf8 [0x41], []).
Proof. exists [0x41; 0; 0x42], 9%nat. split; vm_compute; reflexivity. Qed.
Print Assumptions C07_odd_byte_dropped.

(* C08: tokenising the big-endian UTF-16 text <a>é</a> panics *)
Theorem C08_big_endian_refuted : exists cs, scalars cs /\
  Forall (fun c => is_xml_char c = true) cs /\
  contentTok big2_encoding (utf16be cs) = Err EPanic.
Proof.
  exists [0xE9; 0x3C; 0x2F; 0x61; 0x3E].
  repeat split; try (repeat (apply Forall_cons; [reflexivity|]); apply Forall_nil).
Qed.
Print Assumptions C08_big_endian_refuted.
(* the same text in little-endian form is fine *)
Example C08_example : contentTok little2_encoding (utf16le [0xE9; 0x3C; 0x2F; 0x61; 0x3E]) = Ok (T_DATA_CHARS, Some 2%nat).
Proof. vm_compute. reflexivity. Qed.

(* C09: with ample room, the UTF-8 text "éa" is not converted to its UTF-16 units *)
Theorem C09_utf8_to_utf16_refuted : exists cs, scalars cs /\
  utf16Convert utf8_encoding (utf8 cs) 100 <> Ok (COMPLETED, flat_map utf16_units cs, []).
Proof.
  exists [0xE9; 0x61]. split; [repeat (apply Forall_cons; [reflexivity|]); apply Forall_nil|].
  vm_compute. discriminate.
Qed.
Print Assumptions C09_utf8_to_utf16_refuted.

(* C10: with room, a non-empty Latin-1 text converts to nothing and is reported as finished; without
   room the conversion panics *)
Theorem C10_latin1_to_utf16_refuted : forall c cs cap,
  utf16Convert latin1_encoding (c :: cs) (S cap) = Ok (COMPLETED, [], c :: cs) /\ utf16Convert latin1_encoding (c :: cs) 0 = Err EPanic.
Proof. split; reflexivity. Qed.
Print Assumptions C10_latin1_to_utf16_refuted.
