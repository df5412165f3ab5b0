(* Model of the character encodings: src/lib/xmltok.rs:347-1173 (XmlEncodingImpl and its
   implementations), 1918-1932, 2236-2475 (UnknownEncoding), 2741-2805, 3119-3182. *)
From Coq Require Import List NArith ZArith Bool.
From Verif Require Import Base Tables.
Import ListNotations.
Local Open Scope N_scope.

(* src/lib/xmltok.rs:202-209 *)
Inductive ConvRes := COMPLETED | INPUT_INCOMPLETE | OUTPUT_EXHAUSTED.

(* Result of a bounded conversion: code, code units written, input that remains. *)
Definition convT := (ConvRes * list N * bytes)%type.

(* trait XmlEncodingImpl, src/lib/xmltok.rs:347-372.  A pointer argument is the list of bytes from
   the pointer to the end of the buffer it belongs to; reads past it are [EOob].
   [utf8Convert from cap]: [cap] is the room in the output buffer. *)
Record EncImpl := {
  minbpc : nat;
  isUtf8 : bool;
  byte_type : bytes -> res ByteType;
  byte_to_ascii : bytes -> res N;
  is_name_char : bytes -> nat -> res bool;
  is_nmstrt_char : bytes -> nat -> res bool;
  is_invalid_char : bytes -> nat -> res bool;
  is_name_char_minbpc : bytes -> res bool;
  is_nmstrt_char_minbpc : bytes -> res bool;
  char_matches : bytes -> N -> res bool;
  utf8Convert : bytes -> nat -> res convT;
  utf16Convert : bytes -> nat -> res convT;
}.

(* namingBitmap[i] & (1 << bit) != 0; the shift is of a u32 by a value below 32 *)
Definition bitmap_bit (i bit : N) : res bool :=
  let* w := index namingBitmap i in Ok (N.testbit w bit).

(* UCS2_GET_NAMING, src/lib/xmltok.rs:382-386 *)
Definition ucs2_get_naming (pages : list N) (hi lo : N) : res bool :=
  let* pg := index pages hi in
  bitmap_bit (N.shiftl pg 3 + N.shiftr lo 5) (N.land lo 31).

(* one-byte table look-up: T::types[idx], e.g. src/lib/xmltok.rs:402-405 *)
Definition table_byte_type (types : list ByteType) (p : bytes) : res ByteType :=
  let* b := peek 0 p in index types b.

(* byte_to_ascii of the one-byte encodings, src/lib/xmltok.rs:408-410 *)
Definition byte_to_ascii1 (p : bytes) : res N := peek 0 p.

(* char_matches of the one-byte encodings, src/lib/xmltok.rs:545-547 *)
Definition char_matches1 (p : bytes) (c : N) : res bool :=
  let* b := peek 0 p in Ok (b =? c).

(* Utf8EncodingImpl::is_name_char / is_nmstrt_char, src/lib/xmltok.rs:413-476.
   The two differ only in the page table. *)
Definition utf8_naming (pages : list N) (p : bytes) (n : nat) : res bool :=
  match n with
  | 2%nat =>
      let* b0 := peek 0 p in
      let* b1 := peek 1 p in
      let* pg := index pages (N.land (N.shiftr b0 2) 7) in
      bitmap_bit (N.shiftl pg 3 + N.shiftl (N.land b0 3) 1 + N.land (N.shiftr b1 5) 1)
                 (N.land b1 31)
  | 3%nat =>
      let* b0 := peek 0 p in
      let* b1 := peek 1 p in
      let* b2 := peek 2 p in
      let* pg := index pages (N.shiftl (N.land b0 15) 4 + N.land (N.shiftr b1 2) 15) in
      bitmap_bit (N.shiftl pg 3 + N.shiftl (N.land b1 3) 1 + N.land (N.shiftr b2 5) 1)
                 (N.land b2 31)
  | 4%nat => Ok false
  | _ => Err EPanic
  end.

(* Utf8EncodingImpl::is_invalid_char, src/lib/xmltok.rs:479-532.  All [n] bytes are read up front;
   the code short-circuits, which only matters when fewer than [n] bytes are present. *)
Definition utf8_is_invalid (p : bytes) (n : nat) : res bool :=
  match n with
  | 2%nat =>
      let* b0 := peek 0 p in
      let* b1 := peek 1 p in
      Ok ((b0 <? 194) || (N.land b1 128 =? 0) || (N.land b1 192 =? 192))
  | 3%nat =>
      let* b0 := peek 0 p in
      let* b1 := peek 1 p in
      let* b2 := peek 2 p in
      Ok ((N.land b2 128 =? 0)
          || (if (b0 =? 239) && (b1 =? 191) then 189 <? b2 else N.land b2 192 =? 192)
          || (if b0 =? 224 then (b1 <? 160) || (N.land b1 192 =? 192)
              else (N.land b1 128 =? 0)
                   || (if b0 =? 237 then 159 <? b1 else N.land b1 192 =? 192)))
  | 4%nat =>
      let* b0 := peek 0 p in
      let* b1 := peek 1 p in
      let* b2 := peek 2 p in
      let* b3 := peek 3 p in
      Ok ((N.land b3 128 =? 0) || (N.land b3 192 =? 192)
          || (N.land b2 128 =? 0) || (N.land b2 192 =? 192)
          || (if b0 =? 240 then (b1 <? 144) || (N.land b1 192 =? 192)
              else (N.land b1 128 =? 0)
                   || (if b0 =? 244 then 143 <? b1 else N.land b1 192 =? 192)))
  | _ => Err EPanic
  end.

(* the loop of _INTERNAL_trim_to_complete_utf8_characters, src/lib/xmltok.rs:2746-2777;
   returns the final [i].  ([walked] is reset to 0 and then incremented on the reset arms.) *)
Fixpoint trim_loop (buf : bytes) (i walked : nat) : res nat :=
  match i with
  | O => Ok O
  | S i' =>
      let* prev := index buf (N.of_nat i') in
      if N.land prev 248 =? 240 then
        if (4 <=? walked + 1)%nat then Ok (i + 3)%nat else trim_loop buf i' 1
      else if N.land prev 240 =? 224 then
        if (3 <=? walked + 1)%nat then Ok (i + 2)%nat else trim_loop buf i' 1
      else if N.land prev 224 =? 192 then
        if (2 <=? walked + 1)%nat then Ok (i + 1)%nat else trim_loop buf i' 1
      else if N.land prev 128 =? 0 then Ok i
      else trim_loop buf i' (walked + 1)
  end.

(* ExpatBufRef::with_len, src/lib/xmlparse.rs:117-122 *)
Definition with_len (n : nat) (buf : bytes) : res bytes :=
  if (n <=? length buf)%nat then Ok (firstn n buf) else Err EPanic.

(* _INTERNAL_trim_to_complete_utf8_characters, src/lib/xmltok.rs:2741-2779 *)
Definition trim_to_complete_utf8 (buf : bytes) : res bytes :=
  let* i := trim_loop buf (length buf) 0 in
  with_len i buf.

(* Utf8EncodingImpl::utf8Convert, src/lib/xmltok.rs:550-582 *)
Definition utf8_utf8Convert (fromP : bytes) (cap : nat) : res convT :=
  let exhausted := (cap <? length fromP)%nat in
  let* from := (if exhausted then with_len cap fromP else Ok fromP) in
  let len_before := length from in
  let* from := trim_to_complete_utf8 from in
  let incomplete := (length from <? len_before)%nat in
  let* rest := inc_start (length from) fromP in
  Ok (if exhausted then OUTPUT_EXHAUSTED
      else if incomplete then INPUT_INCOMPLETE else COMPLETED, from, rest).

(* i8 as u16 / i8 as c_int: sign extension of the bit pattern *)
Definition sext8 (b : N) : Z := if b <? 128 then Z.of_N b else (Z.of_N b - 256)%Z.
Definition sext8_u16 (b : N) : N := if b <? 128 then b else 65280 + b.

Definition as_u16 (n : N) : N := n mod 65536.
Definition as_u64 (n : N) : N := n mod 18446744073709551616.

(* Utf8EncodingImpl::utf16Convert, src/lib/xmltok.rs:585-651 (feature "unicode").
   Note that the 2- and 3-byte arms call [from.inc_start] without assigning the result. *)
Fixpoint utf8_utf16_loop (types : list ByteType) (from : bytes) (cap : nat) (out : list N)
  : res (ConvRes * list N * bytes) :=
  match from, cap with
  | [], _ => Ok (COMPLETED, out, from)
  | _ :: _, O => Ok (COMPLETED, out, from)
  | f0 :: _, S cap' =>
      let* t := index types f0 in
      match t with
      | BT_LEAD2 =>
          if (length from <? 2)%nat then Ok (INPUT_INCOMPLETE, out, from)
          else
            let* f1 := index from 1 in
            let* _ := inc_start 2 from in
            utf8_utf16_loop types from cap'
              (out ++ [N.lor (N.shiftl (N.land f0 31) 6) (N.land f1 63)])
      | BT_LEAD3 =>
          if (length from <? 3)%nat then Ok (INPUT_INCOMPLETE, out, from)
          else
            let* f1 := index from 1 in
            let* f2 := index from 2 in
            let* _ := inc_start 3 from in
            utf8_utf16_loop types from cap'
              (out ++ [N.lor (N.lor (N.shiftl (N.land f0 15) 12) (N.shiftl (N.land f1 63) 6))
                             (N.land f2 63)])
      | BT_LEAD4 =>
          match cap' with
          | O => Ok (OUTPUT_EXHAUSTED, out, from)
          | S cap'' =>
              if (length from <? 4)%nat then Ok (INPUT_INCOMPLETE, out, from)
              else
                let* f1 := index from 1 in
                let* f2 := index from 2 in
                let* f3 := index from 3 in
                let n := N.lor (N.lor (N.lor (N.shiftl (N.land f0 7) 18)
                                             (N.shiftl (N.land f1 63) 12))
                                      (N.shiftl (N.land f2 63) 6)) (N.land f3 63) in
                let n := as_u64 (n + 18446744073709486080) in  (* wrapping_sub(0x10000) on u64 *)
                let* rest := inc_start 4 from in
                utf8_utf16_loop types rest cap''
                  (out ++ [as_u16 (N.lor (N.shiftr n 10) 55296); as_u16 (N.lor (N.land n 1023) 56320)])
          end
      | _ =>
          let* rest := inc_start 1 from in
          utf8_utf16_loop types rest cap' (out ++ [sext8_u16 f0])
      end
  end.

Definition utf8_utf16Convert (types : list ByteType) (from : bytes) (cap : nat) : res convT :=
  let* (r, out, rest) := utf8_utf16_loop types from cap [] in
  Ok (match rest with [] => r | _ => OUTPUT_EXHAUSTED end, out, rest).

(* Latin1EncodingImpl::utf8Convert, src/lib/xmltok.rs:706-735 *)
Fixpoint latin1_utf8_loop (from : bytes) (cap : nat) (out : list N) : convT :=
  match from with
  | [] => (COMPLETED, out, [])
  | c :: rest =>
      if negb (N.land c 128 =? 0) then
        match cap with
        | S (S cap') =>
            latin1_utf8_loop rest cap'
              (out ++ [N.lor (N.shiftr c 6) 192; N.lor (N.land c 63) 128])
        | _ => (OUTPUT_EXHAUSTED, out, from)
        end
      else
        match cap with
        | S cap' => latin1_utf8_loop rest cap' (out ++ [c])
        | O => (OUTPUT_EXHAUSTED, out, from)
        end
  end.

Definition latin1_utf8Convert (from : bytes) (cap : nat) : res convT :=
  Ok (latin1_utf8_loop from cap []).

(* latin1_toUtf16, src/lib/xmltok.rs:1918-1932 (feature "unicode").  The loop runs while the output
   buffer is EMPTY, and its body then indexes to[0], which panics. *)
Definition latin1_toUtf16 (from : bytes) (cap : nat) : res convT :=
  match from, cap with
  | _ :: _, O => Err EPanic
  | [], O => Ok (COMPLETED, [], from)
  | _, S _ => Ok (COMPLETED, [], from)
  end.

(* AsciiEncodingImpl::utf8Convert, src/lib/xmltok.rs:799-814 *)
Fixpoint ascii_utf8_loop (from : bytes) (cap : nat) (out : list N) : convT :=
  match from, cap with
  | c :: rest, S cap' => ascii_utf8_loop rest cap' (out ++ [c])
  | [], _ => (COMPLETED, out, [])
  | _ :: _, O => (OUTPUT_EXHAUSTED, out, from)
  end.

Definition ascii_utf8Convert (from : bytes) (cap : nat) : res convT :=
  Ok (ascii_utf8_loop from cap []).

(* even prefix: from.with_len((len >> 1) << 1), src/lib/xmltok.rs:900 *)
Definition even_prefix (from : bytes) : bytes := firstn (2 * Nat.div2 (length from)) from.

(* bytes produced for one UTF-16 code unit or surrogate pair, src/lib/xmltok.rs:902-949, 1076-1123 *)
Definition utf16_unit2 (hi lo : N) : list N :=
  [N.lor (N.lor (N.shiftr lo 6) (N.shiftl hi 2)) 192; N.lor (N.land lo 63) 128].
Definition utf16_unit3 (hi lo : N) : list N :=
  [N.lor (N.shiftr hi 4) 224; N.lor (N.lor (N.shiftl (N.land hi 15) 2) (N.shiftr lo 6)) 128;
   N.lor (N.land lo 63) 128].
Definition utf16_pair (hi lo hi2 lo2 : N) : list N :=
  let plane := N.lor (N.shiftl (N.land hi 3) 2) (N.land (N.shiftr lo 6) 3) + 1 in
  [N.lor (N.shiftr plane 2) 240;
   N.lor (N.lor (N.land (N.shiftr lo 2) 15) (N.shiftl (N.land plane 3) 4)) 128;
   N.lor (N.lor (N.lor (N.shiftl (N.land lo 3) 4) (N.shiftl (N.land hi2 3) 2)) (N.shiftr lo2 6)) 128;
   N.lor (N.land lo2 63) 128].

(* Little2EncodingImpl::utf8Convert loop, src/lib/xmltok.rs:901-964 ([be]=false) and
   Big2EncodingImpl::utf8Convert loop, 1075-1138 ([be]=true); they differ only in byte order.
   [from] has even length, so the single-byte arm is a from[1] panic. *)
Fixpoint utf16_utf8_loop (be : bool) (from : bytes) (cap : nat) (out : list N) : res convT :=
  match from with
  | [] => Ok (COMPLETED, out, [])
  | [_] => Err EPanic
  | x0 :: x1 :: rest =>
      let lo := if be then x1 else x0 in
      let hi := if be then x0 else x1 in
      if hi <=? 7 then
        if (hi =? 0) && (lo <? 128) then
          match cap with
          | O => Ok (OUTPUT_EXHAUSTED, out, from)
          | S cap' => utf16_utf8_loop be rest cap' (out ++ [lo])
          end
        else if (cap <? 2)%nat then Ok (OUTPUT_EXHAUSTED, out, from)
        else utf16_utf8_loop be rest (cap - 2) (out ++ utf16_unit2 hi lo)
      else if (216 <=? hi) && (hi <=? 219) then
        if (cap <? 4)%nat then Ok (OUTPUT_EXHAUSTED, out, from)
        else
          match rest with
          | y0 :: y1 :: rest' =>
              let lo2 := if be then y1 else y0 in
              let hi2 := if be then y0 else y1 in
              utf16_utf8_loop be rest' (cap - 4) (out ++ utf16_pair hi lo hi2 lo2)
          | _ => Ok (INPUT_INCOMPLETE, out, from)
          end
      else if (cap <? 3)%nat then Ok (OUTPUT_EXHAUSTED, out, from)
      else utf16_utf8_loop be rest (cap - 3) (out ++ utf16_unit3 hi lo)
  end.

Definition utf16_utf8Convert (be : bool) (fromP : bytes) (cap : nat) : res convT :=
  utf16_utf8_loop be (even_prefix fromP) cap [].

(* Little2/Big2 utf16Convert, src/lib/xmltok.rs:974-998, 1148-1172 (feature "unicode") *)
Fixpoint utf16_utf16_loop (be : bool) (from : bytes) (cap : nat) (out : list N) : res (list N * bytes) :=
  match from, cap with
  | [], _ => Ok (out, from)
  | _ :: _, O => Ok (out, from)
  | [_], S _ => Err EPanic
  | x0 :: x1 :: rest, S cap' =>
      let lo := if be then x1 else x0 in
      let hi := if be then x0 else x1 in
      utf16_utf16_loop be rest cap' (out ++ [N.lor (N.shiftl hi 8) lo])
  end.

Definition utf16_utf16Convert (be : bool) (fromP : bytes) (cap : nat) : res convT :=
  let from := even_prefix fromP in
  let last := nth (length from - (if be then 2 else 1)) from 0 in
  let cut := (2 * cap <? length from)%nat && (N.land last 248 =? 216) in
  let from := if cut then firstn (length from - 2) from else from in
  let* (out, rest) := utf16_utf16_loop be from cap [] in
  Ok (if (length out =? cap)%nat && negb (match rest with [] => true | _ => false end)
      then OUTPUT_EXHAUSTED
      else if cut then INPUT_INCOMPLETE else COMPLETED, out, rest).

(* unicode_byte_type, src/lib/xmltok.rs:2782-2805 *)
Definition unicode_byte_type (hi lo : N) : ByteType :=
  if (216 <=? hi) && (hi <=? 219) then BT_LEAD4
  else if (220 <=? hi) && (hi <=? 223) then BT_TRAIL
  else if (hi =? 255) && ((lo =? 255) || (lo =? 254)) then BT_NONXML
  else BT_NONASCII.

(* Little2EncodingImpl::byte_type, src/lib/xmltok.rs:845-852 *)
Definition little2_byte_type (types : list ByteType) (p : bytes) : res ByteType :=
  let* b0 := peek 0 p in
  let* b1 := peek 1 p in
  if b1 =? 0 then index types b0 else Ok (unicode_byte_type b1 b0).

(* [i8 as usize] of a byte: sign extension to 64 bits *)
Definition i8_as_usize (b : N) : N := if b <? 128 then b else 18446744073709551360 + b.

(* Big2EncodingImpl::byte_type, src/lib/xmltok.rs:1019-1026.  The table index is
   [bytes.1 as usize] of an i8 (no "as u8"), i.e. sign-extended. *)
Definition big2_byte_type (types : list ByteType) (p : bytes) : res ByteType :=
  let* b0 := peek 0 p in
  let* b1 := peek 1 p in
  if b0 =? 0 then
    (* guard written out so that the index never has to be converted to a huge nat *)
    (if i8_as_usize b1 <? N.of_nat (length types) then index types (i8_as_usize b1) else Err EPanic)
  else Ok (unicode_byte_type b0 b1).

(* byte_to_ascii of the two-byte encodings, src/lib/xmltok.rs:855-862, 1029-1036; -1 as i8 is 255 *)
Definition byte_to_ascii2 (be : bool) (p : bytes) : res N :=
  let* b0 := peek 0 p in
  let* b1 := peek 1 p in
  let hi := if be then b0 else b1 in
  let lo := if be then b1 else b0 in
  if hi =? 0 then Ok lo else Ok 255.

(* char_matches of the two-byte encodings, src/lib/xmltok.rs:889-891, 1063-1065 *)
Definition char_matches2 (be : bool) (p : bytes) (c : N) : res bool :=
  let* b0 := peek 0 p in
  let* b1 := peek 1 p in
  let hi := if be then b0 else b1 in
  let lo := if be then b1 else b0 in
  Ok ((hi =? 0) && (lo =? c)).

(* is_name_char_minbpc / is_nmstrt_char_minbpc of the two-byte encodings,
   src/lib/xmltok.rs:879-886, 1053-1060 *)
Definition naming2 (be : bool) (pages : list N) (p : bytes) : res bool :=
  let* b0 := peek 0 p in
  let* b1 := peek 1 p in
  ucs2_get_naming pages (if be then b0 else b1) (if be then b1 else b0).

(* Utf8EncodingImpl<T>, src/lib/xmltok.rs:388-652 *)
Definition utf8_enc (types : list ByteType) : EncImpl := {|
  minbpc := 1; isUtf8 := true;
  byte_type := table_byte_type types;
  byte_to_ascii := byte_to_ascii1;
  is_name_char := utf8_naming namePages;
  is_nmstrt_char := utf8_naming nmstrtPages;
  is_invalid_char := utf8_is_invalid;
  is_name_char_minbpc := fun _ => Ok false;
  is_nmstrt_char_minbpc := fun _ => Ok false;
  char_matches := char_matches1;
  utf8Convert := utf8_utf8Convert;
  utf16Convert := utf8_utf16Convert types;
|}.

(* Latin1EncodingImpl<T>, src/lib/xmltok.rs:654-745 *)
Definition latin1_enc (types : list ByteType) : EncImpl := {|
  minbpc := 1; isUtf8 := false;
  byte_type := table_byte_type types;
  byte_to_ascii := byte_to_ascii1;
  is_name_char := fun _ _ => Ok false;
  is_nmstrt_char := fun _ _ => Ok false;
  is_invalid_char := fun _ _ => Ok false;
  is_name_char_minbpc := fun _ => Ok false;
  is_nmstrt_char_minbpc := fun _ => Ok false;
  char_matches := char_matches1;
  utf8Convert := latin1_utf8Convert;
  utf16Convert := latin1_toUtf16;
|}.

(* AsciiEncodingImpl<T>, src/lib/xmltok.rs:747-824 *)
Definition ascii_enc (types : list ByteType) : EncImpl := {|
  minbpc := 1; isUtf8 := true;
  byte_type := table_byte_type types;
  byte_to_ascii := byte_to_ascii1;
  is_name_char := fun _ _ => Ok false;
  is_nmstrt_char := fun _ _ => Ok false;
  is_invalid_char := fun _ _ => Ok false;
  is_name_char_minbpc := fun _ => Ok false;
  is_nmstrt_char_minbpc := fun _ => Ok false;
  char_matches := char_matches1;
  utf8Convert := ascii_utf8Convert;
  utf16Convert := latin1_toUtf16;
|}.

(* Little2EncodingImpl<T>, src/lib/xmltok.rs:826-999 *)
Definition little2_enc (types : list ByteType) : EncImpl := {|
  minbpc := 2; isUtf8 := false;
  byte_type := little2_byte_type types;
  byte_to_ascii := byte_to_ascii2 false;
  is_name_char := fun _ _ => Ok false;
  is_nmstrt_char := fun _ _ => Ok false;
  is_invalid_char := fun _ _ => Ok false;
  is_name_char_minbpc := naming2 false namePages;
  is_nmstrt_char_minbpc := naming2 false nmstrtPages;
  char_matches := char_matches2 false;
  utf8Convert := utf16_utf8Convert false;
  utf16Convert := utf16_utf16Convert false;
|}.

(* Big2EncodingImpl<T>, src/lib/xmltok.rs:1001-1173 *)
Definition big2_enc (types : list ByteType) : EncImpl := {|
  minbpc := 2; isUtf8 := false;
  byte_type := big2_byte_type types;
  byte_to_ascii := byte_to_ascii2 true;
  is_name_char := fun _ _ => Ok false;
  is_nmstrt_char := fun _ _ => Ok false;
  is_invalid_char := fun _ _ => Ok false;
  is_name_char_minbpc := naming2 true namePages;
  is_nmstrt_char_minbpc := naming2 true nmstrtPages;
  char_matches := char_matches2 true;
  utf8Convert := utf16_utf8Convert true;
  utf16Convert := utf16_utf16Convert true;
|}.

(* The encoding constants, src/lib/xmltok.rs:2479-2494 *)
Definition latin1_encoding := latin1_enc Latin1EncodingTable.
Definition latin1_encoding_ns := latin1_enc Latin1EncodingTableNS.
Definition utf8_encoding := utf8_enc Utf8EncodingTable.
Definition utf8_encoding_ns := utf8_enc Utf8EncodingTableNS.
Definition internal_utf8_encoding := utf8_enc InternalUtf8EncodingTable.
Definition internal_utf8_encoding_ns := utf8_enc InternalUtf8EncodingTableNS.
Definition ascii_encoding := ascii_enc AsciiEncodingTable.
Definition ascii_encoding_ns := ascii_enc AsciiEncodingTableNS.
Definition little2_encoding := little2_enc Latin1EncodingTable.
Definition little2_encoding_ns := little2_enc Latin1EncodingTableNS.
Definition internal_little2_encoding := little2_enc InternalLatin1EncodingTable.
Definition internal_little2_encoding_ns := little2_enc InternalLatin1EncodingTableNS.
Definition big2_encoding := big2_enc Latin1EncodingTable.
Definition big2_encoding_ns := big2_enc Latin1EncodingTableNS.

(* checkCharRefNumber, src/lib/xmltok.rs:3119-3135 *)
Definition checkCharRefNumber (result : Z) : res Z :=
  let h := Z.shiftr result 8 in
  if ((216 <=? h) && (h <=? 223))%Z then Ok (-1)%Z
  else if (h =? 0)%Z then
    let* t := index Latin1EncodingTable (Z.to_N result) in
    Ok (if bt_eqb t BT_NONXML then (-1)%Z else result)
  else if ((h =? 255) && ((result =? 65534) || (result =? 65535)))%Z then Ok (-1)%Z
  else Ok result.

(* [c as c_char]: low eight bits *)
Definition as_char (c : Z) : N := Z.to_N (Z.modulo c 256).

(* XmlUtf8Encode, src/lib/xmltok.rs:3137-3165; the returned count is the length of the list *)
Definition XmlUtf8Encode (c : Z) : list N :=
  (if c <? 0 then []
   else if c <? 128 then [as_char (Z.lor c 0)]
   else if c <? 2048 then
     [as_char (Z.lor (Z.shiftr c 6) 192); as_char (Z.lor (Z.land c 63) 128)]
   else if c <? 65536 then
     [as_char (Z.lor (Z.shiftr c 12) 224);
      as_char (Z.lor (Z.land (Z.shiftr c 6) 63) 128);
      as_char (Z.lor (Z.land c 63) 128)]
   else if c <? 1114112 then
     [as_char (Z.lor (Z.shiftr c 18) 240);
      as_char (Z.lor (Z.land (Z.shiftr c 12) 63) 128);
      as_char (Z.lor (Z.land (Z.shiftr c 6) 63) 128);
      as_char (Z.lor (Z.land c 63) 128)]
   else [])%Z.

(* XmlUtf16Encode, src/lib/xmltok.rs:3167-3182 *)
Definition XmlUtf16Encode (c : Z) : list N :=
  (if c <? 0 then []
   else if c <? 65536 then [Z.to_N c]
   else if c <? 1114112 then
     let c := c - 65536 in
     [Z.to_N (Z.shiftr c 10 + 55296); Z.to_N (Z.land c 1023 + 56320)]
   else [])%Z.

(* ---- UnknownEncoding, src/lib/xmltok.rs:2236-2475 ---- *)

(* struct UnknownEncoding; [ue_convert] is the application's converter applied to the bytes of the
   character (the code passes the pointer; that it reads at most the announced number of bytes is
   the application's contract).  [ue_utf8] holds per byte the count and the bytes. *)
Record UnknownEnc := {
  ue_types : list ByteType;
  ue_convert : option (bytes -> Z);
  ue_utf16 : list N;
  ue_utf8 : list (list N);    (* empty = "n == 0": a multi-byte lead *)
}.

(* the per-entry step of UnknownEncoding::initialize, src/lib/xmltok.rs:2271-2330 *)
Definition unknown_entry (has_conv : bool) (i : N) (c : Z) : res (option (ByteType * N * list N)) :=
  if (c =? -1)%Z then Ok (Some (BT_MALFORM, 65535, [0]))
  else if (c <? 0)%Z then
    if (c <? -4)%Z then Ok None
    else if negb has_conv then Ok None
    else Ok (Some (match c with -2 => BT_LEAD2 | -3 => BT_LEAD3 | _ => BT_LEAD4 end%Z, 0, []))
  else if (c <? 128)%Z then
    let* t := index Latin1EncodingTable (Z.to_N c) in
    if negb (bt_eqb t BT_OTHER) && negb (bt_eqb t BT_NONXML) && negb (c =? Z.of_N i)%Z
    then Ok None
    else Ok (Some (t, (if (c =? 0)%Z then 65535 else Z.to_N c), [Z.to_N c]))
  else
    let* r := checkCharRefNumber c in
    if (r <? 0)%Z then Ok (Some (BT_NONXML, 65535, [0]))
    else if (65535 <? c)%Z then Ok None
    else
      let u := Z.to_N c in
      let* st := ucs2_get_naming nmstrtPages (N.shiftr u 8) (N.land u 255) in
      let* nm := ucs2_get_naming namePages (N.shiftr u 8) (N.land u 255) in
      Ok (Some (if st then BT_NMSTRT else if nm then BT_NAME else BT_OTHER, u, XmlUtf8Encode c)).

Fixpoint unknown_entries (has_conv : bool) (i : N) (table : list Z)
  : res (option (list (ByteType * N * list N))) :=
  match table with
  | [] => Ok (Some [])
  | c :: rest =>
      let* e := unknown_entry has_conv i c in
      match e with
      | None => Ok None
      | Some e =>
          let* es := unknown_entries has_conv (i + 1) rest in
          match es with None => Ok None | Some es => Ok (Some (e :: es)) end
      end
  end.

(* the first loop of initialize, src/lib/xmltok.rs:2263-2270 *)
Fixpoint unknown_ascii_ok (i : N) (types : list ByteType) (table : list Z) : bool :=
  match types, table with
  | t :: types', c :: table' =>
      (bt_eqb t BT_OTHER || bt_eqb t BT_NONXML || (c =? Z.of_N i)%Z)
      && unknown_ascii_ok (i + 1) types' table'
  | _, _ => true
  end.

Fixpoint set_nth {A} (n : nat) (x : A) (l : list A) : list A :=
  match n, l with
  | O, _ :: t => x :: t
  | S n', h :: t => h :: set_nth n' x t
  | _, [] => []
  end.

(* UnknownEncoding::initialize, src/lib/xmltok.rs:2256-2339; [None] is the result [false] *)
Definition unknown_initialize (table : list Z) (convert : option (bytes -> Z)) (is_ns : bool)
  : res (option UnknownEnc) :=
  if negb (unknown_ascii_ok 0 (firstn 128 Latin1EncodingTable) (firstn 128 table)) then Ok None
  else
    let* es := unknown_entries (match convert with Some _ => true | None => false end) 0 table in
    match es with
    | None => Ok None
    | Some es =>
        let types := map (fun e => fst (fst e)) es in
        Ok (Some {|
          ue_types := if is_ns then set_nth 58 BT_COLON types else types;
          ue_convert := convert;
          ue_utf16 := map (fun e => snd (fst e)) es;
          ue_utf8 := map (fun e => snd e) es |})
    end.

(* UnknownEncoding::is_name_char / is_nmstrt_char, src/lib/xmltok.rs:2360-2382 *)
Definition unknown_naming (u : UnknownEnc) (pages : list N) (p : bytes) (n : nat) : res bool :=
  match ue_convert u with
  | None => Ok false
  | Some convert =>
      if negb (has n p) then Err EOob
      else
        let c := convert (firstn n p) in
        if ((c <? 0) || (65535 <? c))%Z then Ok false
        else ucs2_get_naming pages (N.shiftr (Z.to_N c) 8) (N.land (Z.to_N c) 255)
  end.

(* UnknownEncoding::is_invalid_char, src/lib/xmltok.rs:2385-2392 *)
Definition unknown_is_invalid (u : UnknownEnc) (p : bytes) (n : nat) : res bool :=
  match ue_convert u with
  | None => Ok false
  | Some convert =>
      if negb (has n p) then Err EOob
      else
        let c := convert (firstn n p) in
        if ((c <? 0) || (65535 <? c))%Z then Ok true
        else let* r := checkCharRefNumber c in Ok (r <? 0)%Z
  end.

Definition lead_len (t : ByteType) : option nat :=
  match t with BT_LEAD2 => Some 2 | BT_LEAD3 => Some 3 | BT_LEAD4 => Some 4 | _ => None end%nat.

(* UnknownEncoding::utf8Convert, src/lib/xmltok.rs:2410-2445 *)
Fixpoint unknown_utf8_loop (u : UnknownEnc) (fuel : nat) (from : bytes) (cap : nat) (out : list N)
  : res convT :=
  match fuel with
  | O => Err EFuel
  | S fuel' =>
      match from with
      | [] => Ok (COMPLETED, out, [])
      | b :: rest =>
          let* utf8 := index (ue_utf8 u) b in
          match utf8 with
          | [] =>
              match ue_convert u with
              | None => Err EPanic
              | Some convert =>
                  let* t := index (ue_types u) b in
                  match lead_len t with
                  | None => Err EPanic   (* entries with n == 0 always have a lead type *)
                  | Some n =>
                      let o := XmlUtf8Encode (convert (firstn n from)) in
                      if (cap <? length o)%nat then Ok (OUTPUT_EXHAUSTED, out, from)
                      else
                        let* from' := inc_start n from in
                        unknown_utf8_loop u fuel' from' (cap - length o) (out ++ o)
                  end
              end
          | _ =>
              if (cap <? length utf8)%nat then Ok (OUTPUT_EXHAUSTED, out, from)
              else unknown_utf8_loop u fuel' rest (cap - length utf8) (out ++ utf8)
          end
      end
  end.

Definition unknown_utf8Convert (u : UnknownEnc) (from : bytes) (cap : nat) : res convT :=
  unknown_utf8_loop u (S (length from)) from cap [].

(* UnknownEncoding::utf16Convert, src/lib/xmltok.rs:2448-2474 *)
Fixpoint unknown_utf16_loop (u : UnknownEnc) (from : bytes) (cap : nat) (out : list N)
  : res convT :=
  match from, cap with
  | [], _ => Ok (COMPLETED, out, from)
  | _ :: _, O => Ok (OUTPUT_EXHAUSTED, out, from)
  | b :: rest, S cap' =>
      let* c := index (ue_utf16 u) b in
      if c =? 0 then
        match ue_convert u with
        | None => Err EPanic
        | Some convert =>
            let* t := index (ue_types u) b in
            match lead_len t with
            | None => Err EPanic
            | Some n =>
                let* from' := inc_start n from in
                unknown_utf16_loop u from' cap'
                  (out ++ [Z.to_N (Z.modulo (convert (firstn n from)) 65536)])
            end
        end
      else unknown_utf16_loop u rest cap' (out ++ [c])
  end.

Definition unknown_enc (u : UnknownEnc) : EncImpl := {|
  minbpc := 1; isUtf8 := false;
  byte_type := table_byte_type (ue_types u);
  byte_to_ascii := byte_to_ascii1;
  is_name_char := unknown_naming u namePages;
  is_nmstrt_char := unknown_naming u nmstrtPages;
  is_invalid_char := unknown_is_invalid u;
  is_name_char_minbpc := fun _ => Ok false;
  is_nmstrt_char_minbpc := fun _ => Ok false;
  char_matches := char_matches1;
  utf8Convert := unknown_utf8Convert u;
  utf16Convert := fun from cap => unknown_utf16_loop u from cap [];
|}.
