(* What a user of the tokeniser may rely on, independently of how it is implemented. *)
From Coq Require Import List NArith Bool Arith.
From Verif Require Import Base Encoding Tok.
Import ListNotations.

(* Tokens that ask for more input or for a decision at the end of the input: no end position. *)
Inductive needs_more : XML_TOK -> Prop :=
| nm_none : needs_more T_NONE                 (* nothing to read *)
| nm_partial : needs_more T_PARTIAL           (* incomplete token *)
| nm_char : needs_more T_PARTIAL_CHAR         (* incomplete character *)
| nm_cr : needs_more T_TRAILING_CR
| nm_rsqb : needs_more T_TRAILING_RSQB
| nm_name : needs_more T_NAME_NEG             (* token complete only if the input ends here *)
| nm_nmtoken : needs_more T_NMTOKEN_NEG
| nm_prefixed : needs_more T_PREFIXED_NAME_NEG
| nm_pound : needs_more T_POUND_NAME_NEG
| nm_paren : needs_more T_CLOSE_PAREN_NEG
| nm_bracket : needs_more T_CLOSE_BRACKET_NEG
| nm_literal : needs_more T_LITERAL_NEG.

(* The tokeniser returned normally (no panic, no read outside the buffer, no endless loop); if it
   reported an end position that position lies inside the buffer and, unless the token is
   "invalid" or the zero-width "document element starts here", is beyond its start. *)
Definition tok_result_ok (buf : bytes) (r : tokres) : Prop :=
  match r with
  | Ok (t, None) => needs_more t
  | Ok (t, Some n) => (n <= length buf)%nat /\ (t = T_INVALID \/ t = T_INSTANCE_START \/ (0 < n)%nat)
  | Err _ => False
  end.

(* A buffer cut at character boundaries: every lead byte is followed by its whole character. *)
Inductive whole_chars (e : EncImpl) : bytes -> Prop :=
| wc_end : forall b, has (minbpc e) b = false -> whole_chars e b
| wc_lead : forall b t n b', byte_type e b = Ok t -> lead_len t = Some n -> inc_start n b = Ok b' ->
    whole_chars e b' -> whole_chars e b
| wc_one : forall b t b', byte_type e b = Ok t -> lead_len t = None ->
    inc_start (minbpc e) b = Ok b' -> whole_chars e b' -> whole_chars e b.

(* The text at offset [k] of [buf] is "]]>" *)
Definition cdata_end_at (e : EncImpl) (buf : bytes) (k : nat) : Prop :=
  byte_type e (skipn k buf) = Ok BT_RSQB /\
  char_matches e (skipn (k + minbpc e) buf) c_RSQB = Ok true /\
  char_matches e (skipn (k + 2 * minbpc e) buf) c_GT = Ok true.

(* The encodings documents are tokenised with: every encoding the library ships except UTF-16BE
   (see C08), and every encoding an application supplies through the unknown-encoding handler. *)
Inductive doc_encoding : EncImpl -> Prop :=
| de_utf8 : doc_encoding utf8_encoding
| de_utf8_ns : doc_encoding utf8_encoding_ns
| de_iutf8 : doc_encoding internal_utf8_encoding
| de_iutf8_ns : doc_encoding internal_utf8_encoding_ns
| de_latin1 : doc_encoding latin1_encoding
| de_latin1_ns : doc_encoding latin1_encoding_ns
| de_ascii : doc_encoding ascii_encoding
| de_ascii_ns : doc_encoding ascii_encoding_ns
| de_utf16le : doc_encoding little2_encoding
| de_utf16le_ns : doc_encoding little2_encoding_ns
| de_iutf16le : doc_encoding internal_little2_encoding
| de_iutf16le_ns : doc_encoding internal_little2_encoding_ns
| de_unknown : forall table convert ns u, length table = 256%nat ->
    unknown_initialize table convert ns = Ok (Some u) -> doc_encoding (unknown_enc u).
