(* Model of the remaining XmlEncoding methods, src/lib/xmltok_impl.rs:1516-1803: attribute
   extraction, character references, predefined entities, name comparison, positions. *)
From Coq Require Import List NArith ZArith Bool.
From Verif Require Import Base Encoding.
Import ListNotations.
Local Open Scope N_scope.

(* struct Attribute, src/lib/xmltok.rs:166-173.  Pointers: [a_name] is the unread buffer from the
   name on ([None] is the null pointer), [a_value] the bytes between valuePtr and valueEnd. *)
Record Attribute := { a_name : option bytes; a_value : bytes; a_normalized : bool }.

Inductive getAtts_state := GS_Other | GS_InName | GS_InValue.
Definition gs_eqb (a b : getAtts_state) : bool :=
  match a, b with
  | GS_Other, GS_Other | GS_InName, GS_InName | GS_InValue, GS_InValue => true
  | _, _ => false
  end.

(* Position, src/lib/xmltok.rs:175-180; XML_Size is a 64-bit unsigned integer *)
Record Position := { pos_line : N; pos_col : N }.
Definition wrap64 (n : N) : N := n mod 18446744073709551616.

Section WithEnc.
Variable e : EncImpl.
Notation minbpc := (minbpc e).

(* The loop of getAtts, src/lib/xmltok_impl.rs:1554-1626.  The code calls [f(att)] for each
   attribute and stops when it returns an error; the model returns the list of attributes that
   would be passed to [f] in order.  [vptr] is valuePtr as a buffer suffix. *)
Fixpoint getAtts_loop (fuel : nat) (state : getAtts_state) (name : option bytes) (vptr : bytes)
    (norm : bool) (open : ByteType) (acc : list Attribute) (buf : bytes) : res (list Attribute) :=
  match fuel with
  | O => Err EFuel
  | S f =>
      let* t := byte_type e buf in
      let start_name := gs_eqb state GS_Other in
      let state_n := if start_name then GS_InName else state in
      let name_n := if start_name then Some buf else name in
      let norm_n := if start_name then true else norm in
      let quote q :=
        if negb (gs_eqb state GS_InValue) then
          let* v := inc_start minbpc buf in
          getAtts_loop f GS_InValue name v norm q acc v
        else if bt_eqb open q then
          let* b := inc_start minbpc buf in
          getAtts_loop f GS_Other name vptr norm open
            (acc ++ [{| a_name := name;
                        a_value := firstn (length vptr - length buf) vptr;
                        a_normalized := norm |}]) b
        else
          let* b := inc_start minbpc buf in
          getAtts_loop f state name vptr norm open acc b in
      match lead_len t with
      | Some n =>
          (* buf.inc_start(n - MINBPC) and then inc_start(MINBPC) *)
          let* b := inc_start (n - minbpc) buf in
          let* b := inc_start minbpc b in
          getAtts_loop f state_n name_n vptr norm_n open acc b
      | None =>
          match t with
          | BT_NONASCII | BT_NMSTRT | BT_HEX =>
              let* b := inc_start minbpc buf in
              getAtts_loop f state_n name_n vptr norm_n open acc b
          | BT_QUOT => quote BT_QUOT
          | BT_APOS => quote BT_APOS
          | BT_AMP =>
              let* b := inc_start minbpc buf in
              getAtts_loop f state name vptr false open acc b
          | BT_S =>
              let* b := inc_start minbpc buf in
              match state with
              | GS_InName => getAtts_loop f GS_Other name vptr norm open acc b
              | GS_InValue =>
                  if norm then
                    let* a0 := byte_to_ascii e buf in
                    let* bad :=
                      (if (length buf =? length vptr)%nat || negb (a0 =? 32) then Ok true
                       else
                         let* a1 := byte_to_ascii e b in
                         if a1 =? 32 then Ok true
                         else let* t1 := byte_type e b in Ok (bt_eqb t1 open)) in
                    getAtts_loop f state name vptr (negb bad) open acc b
                  else getAtts_loop f state name vptr norm open acc b
              | GS_Other => getAtts_loop f state name vptr norm open acc b
              end
          | BT_CR | BT_LF =>
              let* b := inc_start minbpc buf in
              match state with
              | GS_InName => getAtts_loop f GS_Other name vptr norm open acc b
              | GS_InValue => getAtts_loop f state name vptr false open acc b
              | GS_Other => getAtts_loop f state name vptr norm open acc b
              end
          | BT_GT | BT_SOL =>
              if negb (gs_eqb state GS_InValue) then Ok acc
              else
                let* b := inc_start minbpc buf in
                getAtts_loop f state name vptr norm open acc b
          | _ =>
              let* b := inc_start minbpc buf in
              getAtts_loop f state name vptr norm open acc b
          end
      end
  end.

(* getAtts, src/lib/xmltok_impl.rs:1520-1629 *)
Definition getAtts (buf : bytes) : res (list Attribute) :=
  let* b := inc_start minbpc buf in
  getAtts_loop (S (length buf)) GS_InName None [] false BT_NONXML [] b.

(* charRefNumber, hexadecimal loop, src/lib/xmltok_impl.rs:1635-1656 *)
Fixpoint charRef_hex (fuel : nat) (result : Z) (buf : bytes) : res Z :=
  match fuel with
  | O => Err EFuel
  | S f =>
      let* semi := char_matches e buf c_SEMI in
      if semi then checkCharRefNumber result
      else
        let* c := byte_to_ascii e buf in
        let result :=
          if (48 <=? c) && (c <=? 57) then Z.lor (Z.shiftl result 4) (Z.of_N c - 48)%Z
          else if (65 <=? c) && (c <=? 70) then (Z.shiftl result 4 + (10 + (Z.of_N c - 65)))%Z
          else if (97 <=? c) && (c <=? 102) then (Z.shiftl result 4 + (10 + (Z.of_N c - 97)))%Z
          else result in
        if (1114112 <=? result)%Z then Ok (-1)%Z
        else let* b := inc_start minbpc buf in charRef_hex f result b
  end.

(* charRefNumber, decimal loop, src/lib/xmltok_impl.rs:1657-1668.  [c_0 - ASCII_0] is an i8
   subtraction, which panics on overflow in debug builds. *)
Fixpoint charRef_dec (fuel : nat) (result : Z) (buf : bytes) : res Z :=
  match fuel with
  | O => Err EFuel
  | S f =>
      let* semi := char_matches e buf c_SEMI in
      if semi then checkCharRefNumber result
      else
        let* c := byte_to_ascii e buf in
        if (sext8 c - 48 <? -128)%Z then Err EPanic
        else
          let result := (result * 10 + (sext8 c - 48))%Z in
          if (1114112 <=? result)%Z then Ok (-1)%Z
          else let* b := inc_start minbpc buf in charRef_dec f result b
  end.

(* charRefNumber, src/lib/xmltok_impl.rs:1630-1670; buf is the whole reference "&#...;" *)
Definition charRefNumber (buf : bytes) : res Z :=
  let* b := inc_start (2 * minbpc) buf in
  let* x := char_matches e b 120 in
  if x then
    let* b := inc_start minbpc b in
    charRef_hex (S (length buf)) 0 b
  else charRef_dec (S (length buf)) 0 b.

(* matching of a fixed ASCII string, stopping at the first mismatch *)
Fixpoint chars_match (s : bytes) (buf : bytes) : res bool :=
  match s with
  | [] => Ok true
  | c :: s' =>
      let* m := char_matches e buf c in
      if m then
        match s' with
        | [] => Ok true
        | _ => let* b := inc_start minbpc buf in chars_match s' b
        end
      else Ok false
  end.

(* predefinedEntityName, src/lib/xmltok_impl.rs:1671-1726 *)
Definition predefinedEntityName (buf : bytes) : res N :=
  match Nat.div (length buf) minbpc with
  | 2%nat =>
      let* b := inc_start minbpc buf in
      let* t := char_matches e b 116 in
      if t then
        let* a := byte_to_ascii e buf in
        Ok (if a =? 108 then 60 else if a =? 103 then 62 else 0)
      else Ok 0
  | 3%nat => let* m := chars_match [97; 109; 112] buf in Ok (if m then 38 else 0)
  | 4%nat =>
      let* a := byte_to_ascii e buf in
      if a =? 113 then
        let* b := inc_start minbpc buf in
        let* m := chars_match [117; 111; 116] b in Ok (if m then 34 else 0)
      else if a =? 97 then
        let* b := inc_start minbpc buf in
        let* m := chars_match [112; 111; 115] b in Ok (if m then 39 else 0)
      else Ok 0
  | _ => Ok 0
  end.

(* nameMatchesAscii, src/lib/xmltok_impl.rs:1727-1747 *)
Fixpoint nameMatchesAscii (buf : bytes) (s : bytes) : res bool :=
  match s with
  | [] => Ok (match buf with [] => true | _ => false end)
  | ch :: s' =>
      if negb (has minbpc buf) then Ok false
      else
        let* m := char_matches e buf ch in
        if negb m then Ok false
        else let* b := inc_start minbpc buf in nameMatchesAscii b s'
  end.

(* ptr.offset(n) on a raw pointer into [buf]: going past one-beyond-the-end is undefined *)
Definition ptr_offset (n : nat) (buf : bytes) : res bytes :=
  if has n buf then Ok (skipn n buf) else Err EOob.

(* nameLength, src/lib/xmltok_impl.rs:1748-1765 (raw pointer, no end) *)
Fixpoint nameLength_loop (fuel : nat) (n0 : nat) (buf : bytes) : res nat :=
  match fuel with
  | O => Err EFuel
  | S f =>
      let* t := byte_type e buf in
      match lead_len t with
      | Some n => let* b := ptr_offset n buf in nameLength_loop f (n0 + n) b
      | None =>
          match t with
          | BT_NONASCII | BT_NMSTRT | BT_COLON | BT_HEX | BT_DIGIT | BT_NAME | BT_MINUS =>
              let* b := ptr_offset minbpc buf in nameLength_loop f (n0 + minbpc) b
          | _ => Ok n0
          end
      end
  end.
Definition nameLength (buf : bytes) : res nat := nameLength_loop (S (length buf)) 0 buf.

(* skipS, src/lib/xmltok_impl.rs:1766-1773 (raw pointer, no end) *)
Fixpoint skipS_loop (fuel : nat) (buf : bytes) : res bytes :=
  match fuel with
  | O => Err EFuel
  | S f =>
      let* t := byte_type e buf in
      match t with
      | BT_LF | BT_CR | BT_S => let* b := ptr_offset minbpc buf in skipS_loop f b
      | _ => Ok buf
      end
  end.
Definition skipS (buf : bytes) : res bytes := skipS_loop (S (length buf)) buf.

(* updatePosition, src/lib/xmltok_impl.rs:1774-1803 *)
Fixpoint updatePosition_loop (fuel : nat) (buf : bytes) (pos : Position) : res Position :=
  if has minbpc buf then
    match fuel with
    | O => Err EFuel
    | S f =>
        let* t := byte_type e buf in
        let col_next p := {| pos_line := pos_line p; pos_col := wrap64 (pos_col p + 1) |} in
        let newline := {| pos_line := wrap64 (pos_line pos + 1); pos_col := 18446744073709551615 |} in
        match lead_len t with
        | Some n => let* b := inc_start n buf in updatePosition_loop f b (col_next pos)
        | None =>
            let* b := inc_start minbpc buf in
            match t with
            | BT_LF => updatePosition_loop f b (col_next newline)
            | BT_CR =>
                if has minbpc b then
                  let* t2 := byte_type e b in
                  if bt_eqb t2 BT_LF then
                    let* b := inc_start minbpc b in updatePosition_loop f b (col_next newline)
                  else updatePosition_loop f b (col_next newline)
                else updatePosition_loop f b (col_next newline)
            | _ => updatePosition_loop f b (col_next pos)
            end
        end
    end
  else Ok pos.
Definition updatePosition (buf : bytes) (pos : Position) : res Position :=
  updatePosition_loop (S (length buf)) buf pos.

End WithEnc.
