(* Model of the calling interface and the input buffer, src/lib/xmlparse.rs:2578-3132.

   The layer is generic in the rest of the parser: [C] is the state behind it (handlers, DTD, stacks,
   ...) and [run] the processor stored in m_processor.  A processor gets the unread bytes and answers
   with the new state, the error code, how many bytes it consumed (the pointer it leaves in its out
   argument, as an offset), the offsets it left in m_eventPtr and m_eventEndPtr if it set them, and
   the parsing status it left behind (a handler may have called XML_StopParser).  Pointers into
   m_buffer are indices.  The capacity of m_buffer is taken to be its length; [mem] arguments say whether an
   allocation succeeds. *)
From Coq Require Import List NArith ZArith Bool Arith.
From Verif Require Import Base Status TokMisc.
Import ListNotations.
Local Open Scope nat_scope.

Record prun (C : Type) := {
  r_core : C;
  r_err : XML_Error;
  r_next : nat;
  r_event : option nat;
  r_event_end : option nat;
  r_parsing : XML_Parsing
}.
Arguments r_core {C}. Arguments r_err {C}. Arguments r_next {C}. Arguments r_event {C}. Arguments r_event_end {C}. Arguments r_parsing {C}.

(* the fields of XML_ParserStruct this layer uses, src/lib/xmlparse.rs:753-838.  [failed]: m_processor is
   errorProcessor.  [child], [param_entity]: is_child_parser, m_isParamEntity. *)
Record api (C : Type) := {
  buffer : bytes;
  bufferStart : nat;
  bufferEnd : nat;
  parseEndByteIndex : nat;
  parseEndIdx : nat;
  eventPtr : option nat;
  eventEndPtr : option nat;
  positionIdx : option nat;
  position : Position;
  errorCode : XML_Error;
  parsing : XML_Parsing;
  finalBuffer : bool;
  child : bool;
  param_entity : bool;
  failed : bool;
  core : C
}.
Arguments buffer {C}. Arguments bufferStart {C}. Arguments bufferEnd {C}. Arguments parseEndByteIndex {C}. Arguments parseEndIdx {C}.
Arguments eventPtr {C}. Arguments eventEndPtr {C}. Arguments positionIdx {C}. Arguments position {C}. Arguments errorCode {C}.
Arguments parsing {C}. Arguments finalBuffer {C}. Arguments child {C}. Arguments param_entity {C}. Arguments failed {C}. Arguments core {C}.

Section Api.
Context {C : Type}.
(* the current processor *)
Variable run : C -> XML_Parsing -> bool -> bytes -> res (prun C).
(* startParsing, src/lib/xmlparse.rs:1584-1594; [None]: out of memory *)
Variable start : C -> res (option C).
(* m_encoding.updatePosition *)
Variable upd : C -> bytes -> Position -> res Position.

Notation api := (api C).

Definition set_error (e : XML_Error) (s : api) : api :=
  {| buffer := buffer s; bufferStart := bufferStart s; bufferEnd := bufferEnd s; parseEndByteIndex := parseEndByteIndex s;
     parseEndIdx := parseEndIdx s; eventPtr := eventPtr s; eventEndPtr := eventEndPtr s; positionIdx := positionIdx s;
     position := position s; errorCode := e; parsing := parsing s; finalBuffer := finalBuffer s; child := child s;
     param_entity := param_entity s; failed := failed s; core := core s |}.
Definition set_parsing (p : XML_Parsing) (s : api) : api :=
  {| buffer := buffer s; bufferStart := bufferStart s; bufferEnd := bufferEnd s; parseEndByteIndex := parseEndByteIndex s;
     parseEndIdx := parseEndIdx s; eventPtr := eventPtr s; eventEndPtr := eventEndPtr s; positionIdx := positionIdx s;
     position := position s; errorCode := errorCode s; parsing := p; finalBuffer := finalBuffer s; child := child s;
     param_entity := param_entity s; failed := failed s; core := core s |}.
Definition set_core (c : C) (s : api) : api :=
  {| buffer := buffer s; bufferStart := bufferStart s; bufferEnd := bufferEnd s; parseEndByteIndex := parseEndByteIndex s;
     parseEndIdx := parseEndIdx s; eventPtr := eventPtr s; eventEndPtr := eventEndPtr s; positionIdx := positionIdx s;
     position := position s; errorCode := errorCode s; parsing := parsing s; finalBuffer := finalBuffer s; child := child s;
     param_entity := param_entity s; failed := failed s; core := c |}.
Definition set_buffer (b : bytes) (st en : nat) (s : api) : api :=
  {| buffer := b; bufferStart := st; bufferEnd := en; parseEndByteIndex := parseEndByteIndex s;
     parseEndIdx := parseEndIdx s; eventPtr := eventPtr s; eventEndPtr := eventEndPtr s; positionIdx := positionIdx s;
     position := position s; errorCode := errorCode s; parsing := parsing s; finalBuffer := finalBuffer s; child := child s;
     param_entity := param_entity s; failed := failed s; core := core s |}.
Definition set_final (f : bool) (s : api) : api :=
  {| buffer := buffer s; bufferStart := bufferStart s; bufferEnd := bufferEnd s; parseEndByteIndex := parseEndByteIndex s;
     parseEndIdx := parseEndIdx s; eventPtr := eventPtr s; eventEndPtr := eventEndPtr s; positionIdx := positionIdx s;
     position := position s; errorCode := errorCode s; parsing := parsing s; finalBuffer := f; child := child s;
     param_entity := param_entity s; failed := failed s; core := core s |}.
Definition set_pos (i : option nat) (p : Position) (s : api) : api :=
  {| buffer := buffer s; bufferStart := bufferStart s; bufferEnd := bufferEnd s; parseEndByteIndex := parseEndByteIndex s;
     parseEndIdx := parseEndIdx s; eventPtr := eventPtr s; eventEndPtr := eventEndPtr s; positionIdx := i;
     position := p; errorCode := errorCode s; parsing := parsing s; finalBuffer := finalBuffer s; child := child s;
     param_entity := param_entity s; failed := failed s; core := core s |}.
Definition set_parse_end (byteix ix : nat) (s : api) : api :=
  {| buffer := buffer s; bufferStart := bufferStart s; bufferEnd := bufferEnd s; parseEndByteIndex := byteix;
     parseEndIdx := ix; eventPtr := eventPtr s; eventEndPtr := eventEndPtr s; positionIdx := positionIdx s;
     position := position s; errorCode := errorCode s; parsing := parsing s; finalBuffer := finalBuffer s; child := child s;
     param_entity := param_entity s; failed := failed s; core := core s |}.
Definition set_event (ev en : option nat) (s : api) : api :=
  {| buffer := buffer s; bufferStart := bufferStart s; bufferEnd := bufferEnd s; parseEndByteIndex := parseEndByteIndex s;
     parseEndIdx := parseEndIdx s; eventPtr := ev; eventEndPtr := en; positionIdx := positionIdx s;
     position := position s; errorCode := errorCode s; parsing := parsing s; finalBuffer := finalBuffer s; child := child s;
     param_entity := param_entity s; failed := failed s; core := core s |}.
Definition set_failed (s : api) : api :=
  {| buffer := buffer s; bufferStart := bufferStart s; bufferEnd := bufferEnd s; parseEndByteIndex := parseEndByteIndex s;
     parseEndIdx := parseEndIdx s; eventPtr := eventPtr s; eventEndPtr := eventEndPtr s; positionIdx := positionIdx s;
     position := position s; errorCode := errorCode s; parsing := parsing s; finalBuffer := finalBuffer s; child := child s;
     param_entity := param_entity s; failed := true; core := core s |}.

(* m_buffer[a..b] *)
Definition slice (b : bytes) (i j : nat) : res bytes :=
  if (i <=? j) && (j <=? length b) then Ok (firstn (j - i) (skipn i b)) else Err EPanic.

(* a call of m_processor on m_buffer[from..to]; stores the error code, the status and the event pointers,
   and returns the consumed count.  errorProcessor (7134-7140) returns the stored error code and
   touches nothing. *)
Definition call_processor (from to : nat) (s : api) : res (api * nat) :=
  let* b := slice (buffer s) from to in
  if failed s then Ok (s, 0)
  else
    let* r := run (core s) (parsing s) (finalBuffer s) b in
    let ev := match r_event r with Some n => Some (from + n) | None => eventPtr s end in
    let en := match r_event_end r with Some n => Some (from + n) | None => eventEndPtr s end in
    Ok (set_event ev en (set_parsing (r_parsing r) (set_error (r_err r) (set_core (r_core r) s))), r_next r).

Definition is_none (e : XML_Error) : bool := match e with XE_NONE => true | _ => false end.

(* the tail of parse, parseBuffer and resumeParser after an error *)
Definition fail (s : api) : api := set_failed (set_event (eventPtr s) (eventPtr s) s).

(* m_encoding.updatePosition(m_buffer[m_positionIdx.unwrap()..m_bufferStart]); m_positionIdx = Some(m_bufferStart) *)
Definition sync_position (s : api) : res api :=
  match positionIdx s with
  | None => Err EPanic
  | Some i =>
      let* b := slice (buffer s) i (bufferStart s) in
      let* p := upd (core s) b (position s) in
      Ok (set_pos (Some (bufferStart s)) p s)
  end.

(* the status checks at the start of parse and parseBuffer; [inl] is the early return *)
Definition enter (s : api) : res (api * XML_Status + api) :=
  match parsing s with
  | SUSPENDED => Ok (inl (set_error XE_SUSPENDED s, ST_ERROR))
  | FINISHED => Ok (inl (set_error XE_FINISHED s, ST_ERROR))
  | INITIALIZED =>
      if child s then Ok (inr (set_parsing PARSING s))
      else
        let* c := start (core s) in
        match c with
        | None => Ok (inl (set_error XE_NO_MEMORY s, ST_ERROR))
        | Some c => Ok (inr (set_parsing PARSING (set_core c s)))
        end
  | PARSING => Ok (inr (set_parsing PARSING s))
  end.

(* src/lib/xmlparse.rs:2706-2711: the state in which parseBuffer calls the processor *)
Definition prepare (len : nat) (isFinal : bool) (s : api) : api :=
  let s := set_pos (Some (bufferStart s)) (position s) s in
  let s := set_buffer (buffer s) (bufferStart s) (bufferEnd s + len) s in
  let s := set_parse_end (parseEndByteIndex s + len) (bufferEnd s) s in
  set_final isFinal s.

(* parseBuffer, src/lib/xmlparse.rs:2681-2742; [len] is not negative.  The slice panics if [len] exceeds
   what is left of the buffer. *)
Definition parseBuffer (len : nat) (isFinal : bool) (s : api) : res (api * XML_Status) :=
  let* r := enter s in
  match r with
  | inl r => Ok r
  | inr s =>
      let s := prepare len isFinal s in
      let* (s, n) := call_processor (bufferStart s) (bufferEnd s) s in
      let s := set_buffer (buffer s) (bufferStart s + n) (bufferEnd s) s in
      if negb (is_none (errorCode s)) then Ok (fail s, ST_ERROR)
      else
        match parsing s with
        | SUSPENDED => let* s := sync_position s in Ok (s, ST_SUSPENDED)
        | INITIALIZED | PARSING =>
            if isFinal then Ok (set_parsing FINISHED s, ST_OK)
            else let* s := sync_position s in Ok (s, ST_OK)
        | FINISHED => let* s := sync_position s in Ok (s, ST_OK)
        end
  end.

(* the doubling loop of getBuffer, src/lib/xmlparse.rs:2813-2821: [None] is the overflow of an i32.
   A positive i32 doubles at most 31 times. *)
Definition i32_max : Z := 2147483647.
Fixpoint grow (fuel : nat) (size needed : Z) : res (option Z) :=
  match fuel with
  | O => Err EFuel
  | S f =>
      if (size <? needed)%Z then
        if (i32_max <? 2 * size)%Z then Ok None else grow f (2 * size) needed
      else Ok (Some size)
  end.

(* Vec::copy_within(from..to, 0) *)
Definition copy_within (b : bytes) (from to : nat) : res bytes :=
  let* m := slice b from to in Ok (m ++ skipn (to - from) b).

Definition CONTEXT_BYTES : nat := 1024.
Definition INIT_BUFFER_SIZE : Z := 1024.

(* getBuffer, src/lib/xmlparse.rs:2757-2842.  The result is how many bytes may be written from bufferEnd
   on ([None]: null).  [try_into().unwrap()] to i32 panics above i32::MAX. *)
Definition getBuffer (len : Z) (mem : bool) (s : api) : res (api * option nat) :=
  if (len <? 0)%Z then Ok (set_error XE_NO_MEMORY s, None)
  else
    match parsing s with
    | SUSPENDED => Ok (set_error XE_SUSPENDED s, None)
    | FINISHED => Ok (set_error XE_FINISHED s, None)
    | _ =>
        let blen := length (buffer s) in
        if blen <? bufferEnd s then Err EPanic
        else if (Z.of_nat (blen - bufferEnd s) <? len)%Z then
          if bufferEnd s <? bufferStart s then Err EPanic
          else
            let unread := Z.of_nat (bufferEnd s - bufferStart s) in
            if (i32_max <? unread)%Z then Err EPanic
            else if (i32_max <? len + unread)%Z then Ok (set_error XE_NO_MEMORY s, None)
            else
              let keep := Nat.min CONTEXT_BYTES (bufferStart s) in
              let needed := (len + unread + Z.of_nat keep)%Z in
              let* r :=
                (if (needed <=? Z.of_nat blen)%Z then
                   if keep <? bufferStart s then
                     let off := bufferStart s - keep in
                     let* b := copy_within (buffer s) off (bufferEnd s) in
                     Ok (Some (set_buffer b (bufferStart s - off) (bufferEnd s - off) s))
                   else Ok (Some s)
                 else
                   let room := Z.of_nat (blen - bufferStart s) in
                   let* size := (if (room =? 0)%Z then Ok INIT_BUFFER_SIZE
                                 else if (i32_max <? room)%Z then Err EPanic else Ok room) in
                   let* size := grow 64 size needed in
                   match size with
                   | None => Ok None
                   | Some size =>
                       if negb mem then Ok None
                       else
                         let b := buffer s ++ repeat 0%N (Z.to_nat size - blen) in
                         if bufferStart s <? bufferEnd s then
                           let* b := copy_within b (bufferStart s - keep) (bufferEnd s) in
                           Ok (Some (set_buffer b keep (bufferEnd s - bufferStart s + keep) s))
                         else Ok (Some (set_buffer b 0 0 s))
                   end) in
              match r with
              | None => Ok (set_error XE_NO_MEMORY s, None)
              | Some s =>
                  let s := set_pos None (position s) (set_event None None s) in
                  Ok (s, Some (length (buffer s) - bufferEnd s))
              end
        else Ok (s, Some (blen - bufferEnd s))
    end.

(* the application (or XML_Parse) writes [data] at bufferEnd *)
Definition write_at (b : bytes) (i : nat) (data : bytes) : bytes := firstn i b ++ data ++ skipn (i + length data) b.
Definition fill (data : bytes) (s : api) : api := set_buffer (write_at (buffer s) (bufferEnd s) data) (bufferStart s) (bufferEnd s) s.

(* parse, src/lib/xmlparse.rs:2579-2661, called from XML_Parse (2664-2678) with a valid pointer and
   len = length data *)
Definition parse (data : bytes) (isFinal mem : bool) (s : api) : res (api * XML_Status) :=
  let* r := enter s in
  match r with
  | inl r => Ok r
  | inr s =>
      match data with
      | [] =>
          let s := set_final isFinal s in
          if negb isFinal then Ok (s, ST_OK)
          else
            let s := set_pos (Some (bufferStart s)) (position s) s in
            let s := set_parse_end (parseEndByteIndex s) (bufferEnd s) s in
            let* (s, n) := call_processor (bufferStart s) (bufferEnd s) s in
            let s := set_buffer (buffer s) (bufferStart s + n) (bufferEnd s) s in
            if negb (is_none (errorCode s)) then Ok (fail s, ST_ERROR)
            else
              match parsing s with
              | SUSPENDED => let* s := sync_position s in Ok (s, ST_SUSPENDED)
              | INITIALIZED | PARSING => Ok (set_parsing FINISHED s, ST_OK)
              | FINISHED => Ok (s, ST_OK)
              end
      | _ =>
          let* (s, room) := getBuffer (Z.of_nat (length data)) mem s in
          match room with
          | None => Ok (s, ST_ERROR)
          | Some room =>
              if (room <? length data) then Err EPanic
              else parseBuffer (length data) isFinal (fill data s)
          end
      end
  end.

(* stopParser, src/lib/xmlparse.rs:2880-2910 *)
Definition stopParser (resumable : bool) (s : api) : api * XML_Status :=
  match parsing s with
  | SUSPENDED => if resumable then (set_error XE_SUSPENDED s, ST_ERROR) else (set_parsing FINISHED s, ST_OK)
  | FINISHED => (set_error XE_FINISHED s, ST_ERROR)
  | _ =>
      if resumable then
        if param_entity s then (set_error XE_SUSPEND_PE s, ST_ERROR) else (set_parsing SUSPENDED s, ST_OK)
      else (set_parsing FINISHED s, ST_OK)
  end.

(* resumeParser, src/lib/xmlparse.rs:2930-2979.  The out argument is a temporary, so what the processor
   consumed is not stored; &m_buffer[m_bufferStart] is bounds-checked. *)
Definition resumeParser (s : api) : res (api * XML_Status) :=
  if negb (parsing_eqb (parsing s) SUSPENDED) then Ok (set_error XE_NOT_SUSPENDED s, ST_ERROR)
  else
    let s := set_parsing PARSING s in
    if length (buffer s) <=? bufferStart s then Err EPanic
    else
      let* (s, _) := call_processor (bufferStart s) (parseEndIdx s) s in
      if negb (is_none (errorCode s)) then Ok (fail s, ST_ERROR)
      else
        match parsing s with
        | SUSPENDED => let* s := sync_position s in Ok (s, ST_SUSPENDED)
        | INITIALIZED | PARSING =>
            if finalBuffer s then Ok (set_parsing FINISHED s, ST_OK)
            else let* s := sync_position s in Ok (s, ST_OK)
        | FINISHED => let* s := sync_position s in Ok (s, ST_OK)
        end.

(* buffer_index, src/lib/xmlparse.rs:850-859: Err beyond the last byte *)
Definition buffer_index (p : nat) (s : api) : option nat := if p <? length (buffer s) then Some p else None.

(* XML_GetCurrentByteIndex, src/lib/xmlparse.rs:3020-3032; usize subtraction panics on underflow *)
Definition getCurrentByteIndex (s : api) : res Z :=
  match eventPtr s with
  | None => Ok (-1)%Z
  | Some p =>
      match buffer_index p s with
      | None => Err EPanic
      | Some i =>
          if parseEndIdx s <? i then Err EPanic
          else if parseEndByteIndex s <? parseEndIdx s - i then Err EPanic
          else Ok (Z.of_nat (parseEndByteIndex s - (parseEndIdx s - i)))
      end
  end.

(* XML_GetCurrentByteCount, src/lib/xmlparse.rs:3036-3046 *)
Definition getCurrentByteCount (s : api) : Z :=
  match eventPtr s, eventEndPtr s with
  | Some p, Some e => (Z.of_nat e - Z.of_nat p)%Z
  | _, _ => 0%Z
  end.

(* XML_GetInputContext, src/lib/xmlparse.rs:3060-3088: the buffer up to m_bufferEnd and the offset of the event *)
Definition getInputContext (s : api) : option (bytes * nat) :=
  match eventPtr s with
  | Some p => Some (firstn (bufferEnd s) (buffer s), p)
  | None => None
  end.

(* the common part of XML_GetCurrentLineNumber and XML_GetCurrentColumnNumber, src/lib/xmlparse.rs:3092-3132 *)
Definition locate (s : api) : res api :=
  match positionIdx s with
  | None => Err EPanic
  | Some i =>
      match eventPtr s with
      | Some p =>
          if i <=? p then
            let* b := slice (buffer s) i p in
            let* q := upd (core s) b (position s) in
            Ok (set_pos (Some p) q s)
          else Ok s
      | None => Ok s
      end
  end.
Definition getCurrentLineNumber (s : api) : res (api * N) :=
  let* s := locate s in Ok (s, wrap64 (pos_line (position s) + 1)).
Definition getCurrentColumnNumber (s : api) : res (api * N) :=
  let* s := locate s in Ok (s, pos_col (position s)).

(* the settings that must not change once parsing has begun: setEncoding 1886-1916 (ERROR),
   XML_UseForeignDTD 2118-2133 (CANT_CHANGE_FEATURE_ONCE_PARSING), XML_SetReturnNSTriplet 2148-2159
   (ignored), XML_SetParamEntityParsing 2542-2558 (0).  Each tests the same condition. *)
Definition setting_refused (s : api) : bool := parsing_eqb (parsing s) PARSING || parsing_eqb (parsing s) SUSPENDED.
(* such a setting, as a change of the state behind *)
Definition change_setting (f : C -> C) (s : api) : api * bool :=
  if setting_refused s then (s, false) else (set_core (f (core s)) s, true).

(* XML_ParserStruct::try_new / init, src/lib/xmlparse.rs:1639-1805: the state of a new parser *)
Definition fresh (is_child is_param : bool) (c : C) : api :=
  {| buffer := []; bufferStart := 0; bufferEnd := 0; parseEndByteIndex := 0; parseEndIdx := 0; eventPtr := None;
     eventEndPtr := None; positionIdx := Some 0; position := {| pos_line := 0; pos_col := 0 |}; errorCode := XE_NONE;
     parsing := INITIALIZED; finalBuffer := false; child := is_child; param_entity := is_param; failed := false; core := c |}.

(* calls an application can make between callbacks *)
Inductive op :=
| OpParse (data : bytes) (isFinal mem : bool)
| OpGetBuffer (len : Z) (mem : bool)
| OpFill (data : bytes)
| OpParseBuffer (len : nat) (isFinal : bool)
| OpStop (resumable : bool)
| OpResume
| OpLine | OpColumn
| OpSetting (f : C -> C).

Inductive answer := A_status (st : XML_Status) | A_room (n : option nat) | A_num (n : N) | A_bool (b : bool) | A_unit.

Definition step (o : op) (s : api) : res (api * answer) :=
  match o with
  | OpParse d f m => let* (s, r) := parse d f m s in Ok (s, A_status r)
  | OpGetBuffer n m => let* (s, r) := getBuffer n m s in Ok (s, A_room r)
  | OpFill d => Ok (fill d s, A_unit)
  | OpParseBuffer n f => let* (s, r) := parseBuffer n f s in Ok (s, A_status r)
  | OpStop r => let '(s, r) := stopParser r s in Ok (s, A_status r)
  | OpResume => let* (s, r) := resumeParser s in Ok (s, A_status r)
  | OpLine => let* (s, r) := getCurrentLineNumber s in Ok (s, A_num r)
  | OpColumn => let* (s, r) := getCurrentColumnNumber s in Ok (s, A_num r)
  | OpSetting f => let '(s, r) := change_setting f s in Ok (s, A_bool r)
  end.
Fixpoint steps (os : list op) (s : api) : res (api * list answer) :=
  match os with
  | [] => Ok (s, [])
  | o :: os => let* (s, a) := step o s in let* (s, l) := steps os s in Ok (s, a :: l)
  end.
End Api.
