(* XML declarations, encoding names and encoding detection. *)
From Coq Require Import String List NArith ZArith Bool Arith.
From Verif Require Import Base Encoding SpecText SpecUnicode SpecLex SpecDecl Tok XmlDecl SpecEnc DeclFinal.
Import ListNotations.
Local Open Scope N_scope.

(* C43: a declaration "<?xml ... ?>" is accepted exactly if it is written as the grammar says, and
   then the version, encoding and standalone values reported are the ones written. *)
Theorem C43_sound : forall e enc dom lat ns0 ns text body r, text_encoding e enc dom lat ns0 -> all_in dom body ->
  doParseXmlDecl e ns text (flat_map enc (txt "<?xml" ++ body ++ txt "?>")) = Ok (inr r) ->
  exists d, txt "<?xml" ++ body ++ txt "?>" = decl_text d /\ decl_ok text d /\ describes e enc ns d r /\
    (forall a, ds_encoding d = Some a -> length (as_value a) <> 127%nat).
Proof. intros e enc dom lat ns0 ns text body r TE. exact (te_decl_sound e enc dom lat ns0 TE ns text body r). Qed.
Print Assumptions C43_sound.
Theorem C43_complete : forall e enc dom lat ns0 ns text d, text_encoding e enc dom lat ns0 -> decl_ok text d ->
  (forall a, ds_encoding d = Some a -> length (as_value a) <> 127%nat) ->
  exists r, doParseXmlDecl e ns text (flat_map enc (decl_text d)) = Ok (inr r) /\ describes e enc ns d r.
Proof. intros e enc dom lat ns0 ns text d TE. exact (te_decl_complete e enc dom lat ns0 TE ns text d). Qed.
Print Assumptions C43_complete.
(* otherwise an error is reported; the only way to crash is an encoding name of 127 characters *)
Theorem C43_total : forall e enc dom lat ns0 ns text body, text_encoding e enc dom lat ns0 -> all_in dom body ->
  (exists o, doParseXmlDecl e ns text (flat_map enc (txt "<?xml" ++ body ++ txt "?>")) = Ok o) \/
  (exists pre a suf, body = pre ++ att_text a ++ suf /\ pseudo "encoding" a /\ length (as_value a) = 127%nat).
Proof. intros e enc dom lat ns0 ns text body TE. exact (te_decl_total e enc dom lat ns0 TE ns text body). Qed.
Print Assumptions C43_total.
Theorem C43_never_panics_refuted : forall e enc dom lat ns0 ns text d a, text_encoding e enc dom lat ns0 -> decl_ok text d ->
  ds_encoding d = Some a -> length (as_value a) = 127%nat ->
  doParseXmlDecl e ns text (flat_map enc (decl_text d)) = Err EPanic.
Proof. intros e enc dom lat ns0 ns text d a TE. exact (te_decl_127 e enc dom lat ns0 TE ns text d a). Qed.
Print Assumptions C43_never_panics_refuted.
Definition att (n : string) (v : list N) : att_src := {| as_space := [32]; as_name := txt n; as_eq1 := []; as_eq2 := []; as_quote := 34; as_value := v |}.
(* whether a supported encoding was found, and the standalone value *)
Definition shown (o : res decl_out) : option (bool * Z) :=
  match o with Ok (inr r) => Some (match dr_encoding r with Some _ => true | None => false end, dr_standalone r) | _ => None end.
Example C43_example :
  let d := {| ds_version := Some (att "version" (txt "1.0")); ds_encoding := Some (att "encoding" (txt "utf-8"));
              ds_standalone := Some (att "standalone" (txt "no")); ds_space := [] |} in
  decl_text d = (txt "<?xml version=" ++ [34] ++ txt "1.0" ++ [34] ++ txt " encoding=" ++ [34] ++ txt "utf-8" ++ [34] ++ txt " standalone=" ++ [34] ++ txt "no" ++ [34] ++ txt "?>")%list /\
  decl_ok false d /\
  shown (doParseXmlDecl utf8_encoding true false (decl_text d)) = Some (true, 0%Z) /\
  shown (doParseXmlDecl utf8_encoding true true (decl_text d)) = None /\
  shown (doParseXmlDecl utf8_encoding true false (txt "<?xml encoding='a'?>")) = None /\
  shown (doParseXmlDecl utf8_encoding true true (txt "<?xml encoding='a'?>")) = Some (false, (-1)%Z).
Proof.
  assert (P : forall n v, forallb value_char v = true -> pseudo n (att n v)).
  { intros n v H. unfold pseudo, att. cbn. repeat split; auto; try discriminate; try (repeat (apply Forall_cons; [reflexivity|]); apply Forall_nil).
    rewrite forallb_forall in H. apply Forall_forall. exact H. }
  cbn zeta. split; [reflexivity|]. split.
  - repeat split; cbn [opt_ok ds_version ds_encoding ds_standalone ds_space as_value att]; auto; try (apply P; reflexivity); try discriminate; try apply Forall_nil;
      try (apply (P "version"%string (txt "1.0")); reflexivity); try (apply (P "encoding"%string (txt "utf-8")); reflexivity); try (apply (P "standalone"%string (txt "no")); reflexivity).
    exists 117, (txt "tf-8"). split; reflexivity.
  - split; [vm_compute; reflexivity|]. split; [vm_compute; reflexivity|]. split; vm_compute; reflexivity.
Qed.

(* C44: a name in a declaration stands for a supported encoding exactly if it is one of the six
   names, without regard to case; any other name (of a length other than 127) is unknown. *)
Theorem C44_names : forall e enc dom lat ns0 ns v r, text_encoding e enc dom lat ns0 -> all_in value_char v -> length v <> 127%nat ->
  (findEncoding ns e (flat_map enc v) = Ok r <-> selects ns e v r).
Proof. intros e enc dom lat ns0 ns v r TE. exact (te_find e enc dom lat ns0 TE ns v r). Qed.
Print Assumptions C44_names.
Theorem C44_total : forall e enc dom lat ns0 ns v, text_encoding e enc dom lat ns0 -> all_in value_char v -> length v <> 127%nat ->
  exists r, findEncoding ns e (flat_map enc v) = Ok r.
Proof. intros e enc dom lat ns0 ns v TE. exact (te_find_total e enc dom lat ns0 TE ns v). Qed.
Print Assumptions C44_total.
(* names of exactly 127 characters crash the parser *)
Theorem C44_any_length_refuted : forall e enc dom lat ns0 ns v, text_encoding e enc dom lat ns0 -> all_in value_char v -> length v = 127%nat ->
  findEncoding ns e (flat_map enc v) = Err EPanic.
Proof. intros e enc dom lat ns0 ns v TE. exact (te_find_127 e enc dom lat ns0 TE ns v). Qed.
Print Assumptions C44_any_length_refuted.
Example C44_example :
  findEncoding true utf8_encoding (txt "uTf-16Le") = Ok (Some little2_encoding_ns) /\
  findEncoding false little2_encoding (flat_map utf16le_encode (txt "Utf-16")) = Ok (Some little2_encoding) /\
  findEncoding false utf8_encoding (txt "utf-7") = Ok None /\
  (let v := repeat 97 127 in all_in value_char v /\ findEncoding false utf8_encoding v = Err EPanic).
Proof.
  split; [reflexivity|]. split; [reflexivity|]. split; [reflexivity|]. cbn zeta. split; [|reflexivity]. apply Forall_forall. intros c Hc. apply repeat_spec in Hc. subst. reflexivity.
Qed.

(* C45: byte order marks select their encoding and are consumed.  In an external general entity
   ([ext]) they are data if the application named an encoding in which they are text. *)
Theorem C45_utf16be_mark : forall ns n ext r, (ext = true -> n <> N_latin1) ->
  initScan ns (named_index n) ext (254 :: 255 :: r) = Ok (T_BOM, Some 2%nat, Some (utf16be_for ns)).
Proof. exact detect_be_mark. Qed.
Print Assumptions C45_utf16be_mark.
Theorem C45_utf16le_mark : forall ns n ext r, (ext = true -> n <> N_latin1) ->
  initScan ns (named_index n) ext (255 :: 254 :: r) = Ok (T_BOM, Some 2%nat, Some (utf16le_for ns)).
Proof. exact detect_le_mark. Qed.
Print Assumptions C45_utf16le_mark.
Theorem C45_utf8_mark : forall ns n ext r, (ext = true -> n <> N_latin1 /\ is16 n = false) ->
  initScan ns (named_index n) ext (239 :: 187 :: 191 :: r) = Ok (T_BOM, Some 3%nat, Some (utf8_for ns)).
Proof. exact detect_utf8_mark. Qed.
Print Assumptions C45_utf8_mark.
(* UTF-16 without a mark *)
Theorem C45_utf16be_no_mark : forall ns n ext c r, (ext = true -> n <> N_utf16le) ->
  initScan ns (named_index n) ext (0 :: c :: r) = scan_with (utf16be_for ns) ext (0 :: c :: r).
Proof. exact detect_zero_first. Qed.
Print Assumptions C45_utf16be_no_mark.
Theorem C45_utf16le_no_mark : forall ns n ext c r, c <> 0 -> (ext = true -> c = 60 /\ n <> N_utf16 /\ n <> N_utf16be) ->
  initScan ns (named_index n) ext (c :: 0 :: r) = scan_with (utf16le_for ns) ext (c :: 0 :: r).
Proof. exact detect_zero_second. Qed.
Print Assumptions C45_utf16le_no_mark.
(* otherwise the named or default encoding *)
Theorem C45_named : forall ns n ext b, (2 <= length b)%nat -> no_signs ext n b ->
  initScan ns (named_index n) ext b = scan_with (named_enc ns n) ext b.
Proof. exact detect_named. Qed.
Print Assumptions C45_named.
(* too little input to tell: more is asked for and nothing is chosen *)
Theorem C45_one_byte : forall ns n ext c, initScan ns (named_index n) ext [c] =
  if is16 n || (((c =? 254) || (c =? 255) || (c =? 239)) && negb (ext && match n with N_latin1 => true | _ => false end)) || (c =? 0) || (c =? 60)
  then Ok (T_PARTIAL, None, None) else scan_with (named_enc ns n) ext [c].
Proof. exact detect_one. Qed.
Print Assumptions C45_one_byte.
Theorem C45_part_of_utf8_mark : forall ns n ext, (ext = true -> n <> N_latin1 /\ is16 n = false) ->
  initScan ns (named_index n) ext [239; 187] = Ok (T_PARTIAL, None, None).
Proof. exact detect_two_utf8. Qed.
Print Assumptions C45_part_of_utf8_mark.
(* what is chosen on a beginning of the input is what is chosen on more of it, except for a document
   whose first call passes one byte and whose second byte is zero *)
Theorem C45_chunks_partial : forall ns n ext p q t k x t' k' y,
  initScan ns (named_index n) ext p = Ok (t, k, Some x) ->
  initScan ns (named_index n) ext (p ++ q) = Ok (t', k', y) ->
  (ext = false -> forall c r, p = [c] -> q <> 0 :: r) -> y = Some x.
Proof. exact detect_chunks. Qed.
Print Assumptions C45_chunks_partial.
(* the exception is real: a UTF-16LE document (without a mark) beginning with white space *)
Theorem C45_chunks_refuted : forall ns, exists cs p q,
  cs = txt " <a/>" /\ p ++ q = flat_map utf16le_encode cs /\
  (exists t k, initScan ns (named_index N_none) false (p ++ q) = Ok (t, k, Some (utf16le_for ns))) /\
  (exists t k, initScan ns (named_index N_none) false p = Ok (t, k, Some (utf8_for ns))).
Proof.
  intros ns. exists (txt " <a/>"), [32], (0 :: flat_map utf16le_encode (txt "<a/>")).
  split; [reflexivity|]. split; [reflexivity|]. 
  change ([32] ++ 0 :: flat_map utf16le_encode (txt "<a/>"))%list with (32 :: 0 :: flat_map utf16le_encode (txt "<a/>")).
  rewrite detect_zero_second, detect_one by discriminate. split.
  - assert (H : exists t n, prologTok (utf16le_for ns) (32 :: 0 :: flat_map utf16le_encode (txt "<a/>")) = Ok (t, n)) by (destruct ns; do 2 eexists; vm_compute; reflexivity).
    destruct H as (t & n & H). exists t, n. unfold scan_with. rewrite H. reflexivity.
  - assert (H : exists t n, prologTok (utf8_for ns) [32] = Ok (t, n)) by (destruct ns; do 2 eexists; vm_compute; reflexivity).
    destruct H as (t & n & H). exists t, n. unfold scan_with. cbn [named_enc]. change (is16 N_none || (((32 =? 254) || (32 =? 255) || (32 =? 239)) && negb (false && false)) || (32 =? 0) || (32 =? 60)) with false. cbv iota. rewrite H. reflexivity.
Qed.
Print Assumptions C45_chunks_refuted.
Example C45_example :
  initScan true 6 false (254 :: 255 :: utf16be (txt "<a/>")) = Ok (T_BOM, Some 2%nat, Some big2_encoding_ns) /\
  initScan false 6 false (txt "<a/>") = Ok (T_INSTANCE_START, Some 0%nat, Some utf8_encoding) /\
  no_signs false N_none (txt "<a/>") /\
  initScan false 0 true [254; 255] = Ok (T_DATA_CHARS, Some 2%nat, Some latin1_encoding).
Proof.
  split; [reflexivity|]. split; [reflexivity|]. split; [|reflexivity].
  split; [|split; [|split; [|split]]]; unfold begins; cbn.
  - intros [[r H]|[r H]]; discriminate.
  - intros [r H]; discriminate.
  - intros [r H]; discriminate.
  - intros [r H]; discriminate.
  - intros c r H. discriminate.
Qed.
