(* Tokeniser properties. *)
From Coq Require Import List NArith Bool Arith String.
From Verif Require Import Base Encoding Tok TokMisc SpecTok SpecText TokTop TokStabTop.
Import ListNotations.
Local Open Scope string_scope.
Local Open Scope list_scope.

(* C11: for every byte string, every tokeniser returns a token with an end position inside the
   input, and consumed tokens make progress. *)
Theorem C11_content : forall e buf, doc_encoding e -> bytes_ok buf ->
  tok_result_ok buf (contentTok e buf).
Proof. intros e buf He. exact (contentTok_ok e (doc_encoding_ok e He) buf). Qed.
Print Assumptions C11_content.

Theorem C11_cdata : forall e buf, doc_encoding e -> bytes_ok buf ->
  tok_result_ok buf (cdataSectionTok e buf).
Proof. intros e buf He. exact (cdataSectionTok_ok e (doc_encoding_ok e He) buf). Qed.
Print Assumptions C11_cdata.

Theorem C11_prolog : forall e buf, doc_encoding e -> bytes_ok buf ->
  tok_result_ok buf (prologTok e buf).
Proof. intros e buf He. exact (prologTok_ok e (doc_encoding_ok e He) buf). Qed.
Print Assumptions C11_prolog.

Theorem C11_ignore : forall e buf, doc_encoding e -> bytes_ok buf ->
  tok_result_ok buf (ignoreSectionTok e buf).
Proof. intros e buf He. exact (ignoreSectionTok_ok e (doc_encoding_ok e He) buf). Qed.
Print Assumptions C11_ignore.

(* Attribute and entity values have already been scanned once when they are tokenised, so they
   consist of whole characters. *)
Theorem C11_attribute_value : forall e buf, doc_encoding e -> bytes_ok buf -> whole_chars e buf ->
  tok_result_ok buf (attributeValueTok e buf).
Proof. intros e buf He. exact (attributeValueTok_ok e (doc_encoding_ok e He) buf). Qed.
Print Assumptions C11_attribute_value.

Theorem C11_entity_value : forall e buf, doc_encoding e -> bytes_ok buf -> whole_chars e buf ->
  tok_result_ok buf (entityValueTok e buf).
Proof. intros e buf He. exact (entityValueTok_ok e (doc_encoding_ok e He) buf). Qed.
Print Assumptions C11_entity_value.

(* the check of a public identifier literal (quotes included) stays inside it *)
Theorem C11_public_id : forall e buf, doc_encoding e -> bytes_ok buf -> (2 * minbpc e <= List.length buf)%nat ->
  exists r, isPublicId e buf = Ok r /\ (forall k, r = Some k -> (k < List.length buf)%nat).
Proof. intros e buf He. exact (isPublicId_ok e (doc_encoding_ok e He) buf). Qed.
Print Assumptions C11_public_id.

Example C11_example_tag : contentTok utf8_encoding (txt "<a b='&x;'/>t") = Ok (T_EMPTY_ELEMENT_WITH_ATTS, Some 12).
Proof. vm_compute. reflexivity. Qed.
Example C11_example_16 : contentTok little2_encoding (txt16 "<!-- c -->") = Ok (T_COMMENT, Some 20).
Proof. vm_compute. reflexivity. Qed.
Example C11_example_cut : contentTok utf8_encoding (txt "<a b='&x;") = Ok (T_PARTIAL, None).
Proof. vm_compute. reflexivity. Qed.
Example C11_example_bytes : bytes_ok [60; 200; 0; 255]%N /\
  contentTok utf8_encoding_ns [60; 200; 0; 255]%N = Ok (T_INVALID, Some 3).
Proof. split; [repeat (apply Forall_cons; [reflexivity|]); apply Forall_nil | vm_compute; reflexivity]. Qed.
Example C11_example_whole : whole_chars utf8_encoding [195; 169; 32]%N /\
  attributeValueTok utf8_encoding [195; 169; 32]%N = Ok (T_DATA_CHARS, Some 2).
Proof.
  split; [|vm_compute; reflexivity].
  eapply wc_lead; [vm_compute; reflexivity..|].
  eapply wc_one; [vm_compute; reflexivity..|]. apply wc_end; reflexivity.
Qed.
(* without the whole-character condition the code would step past the end *)
Example C11_whole_needed : attributeValueTok utf8_encoding [195]%N = Err EPanic.
Proof. vm_compute. reflexivity. Qed.

(* C12: a complete token stays the same token with the same extent when more input follows. *)
Theorem C12_content : forall e buf more t n, doc_encoding e -> bytes_ok buf -> bytes_ok more ->
  contentTok e buf = Ok (t, Some n) -> t <> T_DATA_CHARS ->
  contentTok e (buf ++ more) = Ok (t, Some n).
Proof. intros e buf more t n He. exact (contentTok_stable e (doc_encoding_ok e He) buf more t n). Qed.
Print Assumptions C12_content.

(* A run of character data can only grow; the only way it can turn into something else is that the
   forbidden text "]]>" follows it directly in the same run. *)
Theorem C12_content_data : forall e buf more n, doc_encoding e -> bytes_ok buf -> bytes_ok more ->
  contentTok e buf = Ok (T_DATA_CHARS, Some n) ->
  (exists n', n <= n' /\ contentTok e (buf ++ more) = Ok (T_DATA_CHARS, Some n')) \/
  (exists k, n <= k /\ contentTok e (buf ++ more) = Ok (T_INVALID, Some (k + 2 * minbpc e)) /\
     cdata_end_at e (buf ++ more) k).
Proof. intros e buf more n He. exact (contentTok_data e (doc_encoding_ok e He) buf more n). Qed.
Print Assumptions C12_content_data.

(* and it does not even grow unless it touches the end of the input (up to four code units) *)
Theorem C12_content_data_decided : forall e buf more n, doc_encoding e -> bytes_ok buf -> bytes_ok more ->
  contentTok e buf = Ok (T_DATA_CHARS, Some n) -> n + 4 * minbpc e <= List.length buf ->
  contentTok e (buf ++ more) = Ok (T_DATA_CHARS, Some n).
Proof. intros e buf more n He. exact (contentTok_data_decided e (doc_encoding_ok e He) buf more n). Qed.
Print Assumptions C12_content_data_decided.

Theorem C12_cdata : forall e buf more t n, doc_encoding e -> bytes_ok buf -> bytes_ok more ->
  cdataSectionTok e buf = Ok (t, Some n) -> t <> T_DATA_CHARS ->
  cdataSectionTok e (buf ++ more) = Ok (t, Some n).
Proof. intros e buf more t n He. exact (cdataSectionTok_stable e (doc_encoding_ok e He) buf more t n). Qed.
Print Assumptions C12_cdata.

Theorem C12_cdata_data : forall e buf more n, doc_encoding e -> bytes_ok buf -> bytes_ok more ->
  cdataSectionTok e buf = Ok (T_DATA_CHARS, Some n) ->
  exists n', n <= n' /\ cdataSectionTok e (buf ++ more) = Ok (T_DATA_CHARS, Some n') /\
    (n + 4 * minbpc e <= List.length buf -> n' = n).
Proof. intros e buf more n He. exact (cdataSectionTok_data e (doc_encoding_ok e He) buf more n). Qed.
Print Assumptions C12_cdata_data.

Theorem C12_prolog : forall e buf more t n, doc_encoding e -> bytes_ok buf ->
  prologTok e buf = Ok (t, Some n) -> t <> T_PROLOG_S -> t <> T_PROLOG_S_NEG ->
  prologTok e (buf ++ more) = Ok (t, Some n).
Proof. intros e buf more t n He. exact (prologTok_stable e (doc_encoding_ok e He) buf more t n). Qed.
Print Assumptions C12_prolog.

(* white space in the prolog only grows *)
Theorem C12_prolog_space : forall e buf more n, doc_encoding e -> bytes_ok buf -> bytes_ok more ->
  prologTok e buf = Ok (T_PROLOG_S, Some n) ->
  exists n', n <= n' /\ prologTok e (buf ++ more) = Ok (T_PROLOG_S, Some n').
Proof. intros e buf more n He. exact (prologTok_space e (doc_encoding_ok e He) buf more n). Qed.
Print Assumptions C12_prolog_space.

Theorem C12_ignore : forall e buf more t n, doc_encoding e -> bytes_ok buf ->
  ignoreSectionTok e buf = Ok (t, Some n) -> ignoreSectionTok e (buf ++ more) = Ok (t, Some n).
Proof. intros e buf more t n He. exact (ignoreSectionTok_stable e (doc_encoding_ok e He) buf more t n). Qed.
Print Assumptions C12_ignore.

Example C12_example_tag : contentTok utf8_encoding (txt "<a b='>'>") = Ok (T_START_TAG_WITH_ATTS, Some 9) /\
  contentTok utf8_encoding (txt "<a b='>'>" ++ txt "<b/>") = Ok (T_START_TAG_WITH_ATTS, Some 9).
Proof. repeat split; vm_compute; reflexivity. Qed.
Example C12_example_data : contentTok utf8_encoding (txt "ab") = Ok (T_DATA_CHARS, Some 2) /\
  contentTok utf8_encoding (txt "ab" ++ txt "c<") = Ok (T_DATA_CHARS, Some 3) /\
  contentTok utf8_encoding (txt "ab" ++ txt "]]>") = Ok (T_INVALID, Some 4) /\
  cdata_end_at utf8_encoding (txt "ab]]>") 2.
Proof. repeat split; vm_compute; reflexivity. Qed.
Example C12_example_decided : contentTok utf8_encoding (txt "ab<c/>") = Ok (T_DATA_CHARS, Some 2).
Proof. repeat split; vm_compute; reflexivity. Qed.
Example C12_example_prolog : prologTok utf8_encoding (txt "<!DOCTYPE ") = Ok (T_DECL_OPEN, Some 9) /\
  prologTok utf8_encoding (txt "  ") = Ok (T_PROLOG_S, Some 2).
Proof. repeat split; vm_compute; reflexivity. Qed.
Example C12_example_cdata : cdataSectionTok little2_encoding (txt16 "x]]>") = Ok (T_DATA_CHARS, Some 2) /\
  cdataSectionTok little2_encoding (txt16 "]]>") = Ok (T_CDATA_SECT_CLOSE, Some 6).
Proof. repeat split; vm_compute; reflexivity. Qed.
