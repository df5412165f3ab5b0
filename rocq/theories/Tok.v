(* Model of the tokeniser, src/lib/xmltok_impl.rs:146-1514.

   A scanner is a computation over the unread part of the buffer.  [M A] either stops the whole
   scan with a token, optionally assigning *nextTokPtr ([Stop t (Some p)] assigns the suffix [p],
   [Stop t None] leaves it unassigned), or continues with a value and a shorter buffer ([Cont]).
   Panics and out-of-bounds reads are errors of the underlying [res]. *)
From Coq Require Import List NArith ZArith Bool.
From Verif Require Import Base Encoding.
Import ListNotations.
Local Open Scope N_scope.

Inductive outc (A : Type) :=
| Stop (t : XML_TOK) (next : option bytes)
| Cont (a : A) (buf : bytes).
Arguments Stop {A}.
Arguments Cont {A}.

Definition M (A : Type) := bytes -> res (outc A).

Definition ret {A} (a : A) : M A := fun buf => Ok (Cont a buf).
Definition mbind {A B} (m : M A) (k : A -> M B) : M B := fun buf =>
  match m buf with
  | Ok (Cont a b) => k a b
  | Ok (Stop t n) => Ok (Stop t n)
  | Err x => Err x
  end.
Declare Scope scan_scope.
Delimit Scope scan_scope with scan.
Notation "x <- m ;; k" := (mbind m (fun x => k))
  (at level 61, m at next level, right associativity) : scan_scope.
Notation "m ;; k" := (mbind m (fun _ => k)) (at level 61, right associativity) : scan_scope.
Local Open Scope scan_scope.

(* *nextTokPtr = buf.as_ptr(); return t *)
Definition stop_here {A} (t : XML_TOK) : M A := fun buf => Ok (Stop t (Some buf)).
(* return t, *nextTokPtr not assigned *)
Definition stop_none {A} (t : XML_TOK) : M A := fun _ => Ok (Stop t None).
(* buf = buf.inc_start(n) *)
Definition adv (n : nat) : M unit := fun buf => let* b := inc_start n buf in Ok (Cont tt b).

(* run [m] and return the bytes it consumed: [start.with_end(buf.as_ptr())] *)
Definition capture {A} (m : M A) : M (A * bytes) := fun buf =>
  match m buf with
  | Ok (Cont a b) => Ok (Cont (a, firstn (length buf - length b) buf) b)
  | Ok (Stop t n) => Ok (Stop t n)
  | Err x => Err x
  end.

(* loop { body }: [inl s] = next iteration, [inr b] = break *)
Fixpoint loop {S B} (fuel : nat) (body : S -> M (S + B)) (s : S) : M B := fun buf =>
  match fuel with
  | O => Err EFuel
  | Datatypes.S f =>
      match body s buf with
      | Ok (Cont (inl s') b) => loop f body s' b
      | Ok (Cont (inr r) b) => Ok (Cont r b)
      | Ok (Stop t n) => Ok (Stop t n)
      | Err x => Err x
      end
  end.
Definition loopb {S B} (body : S -> M (S + B)) (s : S) : M B := fun buf =>
  loop (Datatypes.S (length buf)) body s buf.

Section WithEnc.
Variable e : EncImpl.
Notation minbpc := (minbpc e).

(* HAS_CHARS / REQUIRE_CHARS, src/lib/xmltok_impl.rs:119-144 *)
Definition has_chars (k : nat) (buf : bytes) : bool := has (k * minbpc) buf.
Definition require_or (k : nat) (t : XML_TOK) : M unit := fun buf =>
  if has_chars k buf then Ok (Cont tt buf) else Ok (Stop t None).
Definition require_chars (k : nat) : M unit := require_or k T_PARTIAL.
Definition require_char : M unit := require_chars 1.
Definition adv1 : M unit := adv minbpc.
(* *nextTokPtr = buf.inc_start(MINBPC).as_ptr(); return t *)
Definition stop_after {A} (t : XML_TOK) : M A := adv1 ;; stop_here t.

(* self.byte_type(buf.as_ptr()), self.char_matches(buf.as_ptr(), c) *)
Definition bt : M ByteType := fun buf => let* t := byte_type e buf in Ok (Cont t buf).
Definition matches (c : N) : M bool := fun buf =>
  let* b := char_matches e buf c in Ok (Cont b buf).
(* the same at buf.inc_start(k * MINBPC) *)
Definition bt_at (k : nat) : M ByteType := fun buf =>
  let* b := inc_start (k * minbpc) buf in let* t := byte_type e b in Ok (Cont t buf).
Definition matches_at (k : nat) (c : N) : M bool := fun buf =>
  let* b := inc_start (k * minbpc) buf in let* r := char_matches e b c in Ok (Cont r buf).
Definition lift_check (f : bytes -> res bool) : M bool := fun buf =>
  let* b := f buf in Ok (Cont b buf).
Definition require_bytes (n : nat) (t : XML_TOK) : M unit := fun buf =>
  if has n buf then Ok (Cont tt buf) else Ok (Stop t None).

(* while HAS_CHAR { body } ; return fin, *nextTokPtr not assigned *)
Fixpoint while_fuel {S B} (fuel : nat) (body : S -> M S) (fin : S -> res XML_TOK) (s : S) : M B :=
  fun buf =>
  if has_chars 1 buf then
    match fuel with
    | O => Err EFuel
    | Datatypes.S f =>
        match body s buf with
        | Ok (Cont s' b) => while_fuel f body fin s' b
        | Ok (Stop t n) => Ok (Stop t n)
        | Err x => Err x
        end
    end
  else let* t := fin s in Ok (Stop t None).
Definition while_ {S B} (body : S -> M S) (fin : S -> res XML_TOK) (s : S) : M B := fun buf =>
  while_fuel (Datatypes.S (length buf)) body fin s buf.
(* the common case: no state, PARTIAL at the end *)
Definition while_partial {B} (body : M unit) : M B :=
  while_ (fun _ => body) (fun _ => Ok T_PARTIAL) tt.

(* MATCH_INVALID_CASES, src/lib/xmltok_impl.rs:31-56: [k] after a multi-byte character,
   [other] for the remaining byte types *)
Definition match_invalid {A} (t : ByteType) (k : A) (other : M A) : M A :=
  match lead_len t with
  | Some n =>
      require_bytes n T_PARTIAL_CHAR ;;
      bad <- lift_check (fun b => is_invalid_char e b n) ;;
      if bad then stop_here T_INVALID else (adv n ;; ret k)
  | None =>
      match t with
      | BT_NONXML | BT_MALFORM | BT_TRAIL => stop_here T_INVALID
      | _ => other
      end
  end.

(* CHECK_NAME_CASES, src/lib/xmltok_impl.rs:58-86 *)
Definition check_name {A} (t : ByteType) (k : A) (other : M A) : M A :=
  match lead_len t with
  | Some n =>
      require_bytes n T_PARTIAL_CHAR ;;
      good <- lift_check (fun b => is_name_char e b n) ;;
      if good then (adv n ;; ret k) else stop_here T_INVALID
  | None =>
      match t with
      | BT_NONASCII =>
          good <- lift_check (is_name_char_minbpc e) ;;
          if good then (adv1 ;; ret k) else stop_here T_INVALID
      | BT_NMSTRT | BT_HEX | BT_DIGIT | BT_NAME | BT_MINUS => adv1 ;; ret k
      | _ => other
      end
  end.

(* CHECK_NMSTRT_CASES, src/lib/xmltok_impl.rs:88-116 *)
Definition check_nmstrt {A} (t : ByteType) (k : A) (other : M A) : M A :=
  match lead_len t with
  | Some n =>
      require_bytes n T_PARTIAL_CHAR ;;
      good <- lift_check (fun b => is_nmstrt_char e b n) ;;
      if good then (adv n ;; ret k) else stop_here T_INVALID
  | None =>
      match t with
      | BT_NONASCII =>
          good <- lift_check (is_nmstrt_char_minbpc e) ;;
          if good then (adv1 ;; ret k) else stop_here T_INVALID
      | BT_NMSTRT | BT_HEX => adv1 ;; ret k
      | _ => other
      end
  end.

(* scanComment, src/lib/xmltok_impl.rs:149-183; buf follows "<!-" *)
Definition scanComment {B} : M B :=
  require_char ;;
  m <- matches c_MINUS ;;
  if negb m then stop_here T_INVALID else
  adv1 ;;
  while_partial (
    t <- bt ;;
    match_invalid t tt (
      match t with
      | BT_MINUS =>
          adv1 ;; require_char ;;
          m <- matches c_MINUS ;;
          if m then
            adv1 ;; require_char ;;
            g <- matches c_GT ;;
            if negb g then stop_here T_INVALID else stop_after T_COMMENT
          else ret tt
      | _ => adv1
      end)).

(* scanDecl, src/lib/xmltok_impl.rs:186-232; buf follows "<!" *)
Definition scanDecl {B} : M B :=
  require_char ;;
  t <- bt ;;
  match t with
  | BT_MINUS => adv1 ;; scanComment
  | BT_LSQB => stop_after T_COND_SECT_OPEN
  | BT_NMSTRT | BT_HEX =>
      adv1 ;;
      while_partial (
        t <- bt ;;
        match t with
        | BT_PERCNT =>
            require_chars 2 ;;
            t2 <- bt_at 1 ;;
            match t2 with
            | BT_S | BT_CR | BT_LF | BT_PERCNT => stop_here T_INVALID
            | _ => stop_here T_DECL_OPEN
            end
        | BT_S | BT_CR | BT_LF => stop_here T_DECL_OPEN
        | BT_NMSTRT | BT_HEX => adv1
        | _ => stop_here T_INVALID
        end)
  | _ => stop_here T_INVALID
  end.

(* checkPiTarget, src/lib/xmltok_impl.rs:233-265; [None] is the return value 0 *)
Definition checkPiTarget (target : bytes) : res (option XML_TOK) :=
  if negb (length target =? minbpc * 3)%nat then Ok (Some T_PI)
  else
    let* a := byte_to_ascii e target in
    if negb ((a =? 120) || (a =? 88)) then Ok (Some T_PI) else
    let* buf1 := inc_start minbpc target in
    let* b := byte_to_ascii e buf1 in
    if negb ((b =? 109) || (b =? 77)) then Ok (Some T_PI) else
    let* buf2 := inc_start minbpc buf1 in
    let* c := byte_to_ascii e buf2 in
    if negb ((c =? 108) || (c =? 76)) then Ok (Some T_PI) else
    if (a =? 88) || (b =? 77) || (c =? 76) then Ok None else Ok (Some T_XML_DECL).

Definition check_pi_target (target : bytes) : M (option XML_TOK) := fun buf =>
  let* r := checkPiTarget target in Ok (Cont r buf).

(* scanPi, src/lib/xmltok_impl.rs:268-332; buf follows "<?".  The name loop is written so that it
   exits with the byte type of the character after the name, white space or '?'; these two arms of
   the code, which return, are in [scanPi]. *)
Definition pi_name : M ByteType :=
  require_char ;;
  t <- bt ;;
  check_nmstrt t tt (stop_here T_INVALID) ;;
  loopb (fun _ : unit =>
    require_char ;;
    t <- bt ;;
    check_name t (inl tt) (
      match t with
      | BT_S | BT_CR | BT_LF | BT_QUEST => ret (inr t)
      | _ => stop_here T_INVALID
      end)) tt.

(* the text after the target, src/lib/xmltok_impl.rs:292-309 *)
Definition pi_text {B} (tok : XML_TOK) : M B :=
  while_partial (
    t <- bt ;;
    match_invalid t tt (
      match t with
      | BT_QUEST =>
          adv1 ;; require_char ;;
          g <- matches c_GT ;;
          if g then stop_after tok else ret tt
      | _ => adv1
      end)).

Definition scanPi {B} : M B :=
  r <- capture pi_name ;;
  match fst r with
  | BT_S | BT_CR | BT_LF =>
      tok <- check_pi_target (snd r) ;;
      match tok with
      | None => stop_here T_INVALID
      | Some tok => adv1 ;; pi_text tok
      end
  | BT_QUEST =>
      tok <- check_pi_target (snd r) ;;
      match tok with
      | None => stop_here T_INVALID
      | Some tok =>
          adv1 ;; require_char ;;
          g <- matches c_GT ;;
          if g then stop_after tok else stop_here T_INVALID
      end
  | _ => stop_here T_INVALID
  end.

(* scanCdataSection, src/lib/xmltok_impl.rs:333-360; buf follows "<![" *)
Fixpoint match_string {A} (s : bytes) (k : M A) : M A :=
  match s with
  | [] => k
  | c :: s' =>
      m <- matches c ;;
      if negb m then stop_here T_INVALID else (adv1 ;; match_string s' k)
  end.
Definition CDATA_LSQB : bytes := [67; 68; 65; 84; 65; 91].
Definition scanCdataSection {B} : M B :=
  require_chars 6 ;;
  match_string CDATA_LSQB (stop_here T_CDATA_SECT_OPEN).

(* scanEndTag, src/lib/xmltok_impl.rs:363-407; buf follows "</" *)
Definition scanEndTag {B} : M B :=
  require_char ;;
  t <- bt ;;
  check_nmstrt t tt (stop_here T_INVALID) ;;
  while_partial (
    t <- bt ;;
    check_name t tt (
      match t with
      | BT_S | BT_CR | BT_LF =>
          adv1 ;;
          while_partial (
            t <- bt ;;
            match t with
            | BT_S | BT_CR | BT_LF => adv1
            | BT_GT => stop_after T_END_TAG
            | _ => stop_here T_INVALID
            end)
      | BT_COLON => adv1
      | BT_GT => stop_after T_END_TAG
      | _ => stop_here T_INVALID
      end)).

(* scanHexCharRef, src/lib/xmltok_impl.rs:410-440; buf follows "&#x" *)
Definition scanHexCharRef {B} : M B :=
  require_char ;;
  t <- bt ;;
  match t with
  | BT_DIGIT | BT_HEX =>
      adv1 ;;
      while_partial (
        t <- bt ;;
        match t with
        | BT_DIGIT | BT_HEX => adv1
        | BT_SEMI => stop_after T_CHAR_REF
        | _ => stop_here T_INVALID
        end)
  | _ => stop_here T_INVALID
  end.

(* scanCharRef, src/lib/xmltok_impl.rs:443-476; buf follows "&#" *)
Definition scanCharRef {B} : M B :=
  require_char ;;
  x <- matches 120 ;;
  if x then adv1 ;; scanHexCharRef else
  t <- bt ;;
  match t with
  | BT_DIGIT =>
      adv1 ;;
      while_partial (
        t <- bt ;;
        match t with
        | BT_DIGIT => adv1
        | BT_SEMI => stop_after T_CHAR_REF
        | _ => stop_here T_INVALID
        end)
  | _ => stop_here T_INVALID
  end.

(* scanRef, src/lib/xmltok_impl.rs:479-508; buf follows "&" *)
Definition scanRef {B} : M B :=
  require_char ;;
  t <- bt ;;
  check_nmstrt t tt (
    match t with
    | BT_NUM => adv1 ;; scanCharRef
    | _ => stop_here T_INVALID
    end) ;;
  while_partial (
    t <- bt ;;
    check_name t tt (
      match t with
      | BT_SEMI => stop_after T_ENTITY_REF
      | _ => stop_here T_INVALID
      end)).

(* the AMP arm of scanAtts, src/lib/xmltok_impl.rs:607-617: [ptr] starts at the '&' and keeps that
   value when scanRef does not assign it *)
Definition atts_ref : M unit := fun buf =>
  let* b1 := inc_start minbpc buf in
  match scanRef (B := Empty_set) b1 with
  | Ok (Stop t next) =>
      let p := match next with Some p => p | None => buf end in
      if tok_is_error t then
        if tok_eqb t T_INVALID then Ok (Stop t (Some p)) else Ok (Stop t None)
      else Ok (Cont tt p)
  | Ok (Cont x _) => match x : Empty_set with end
  | Err x => Err x
  end.

Inductive atts_label := L_None | L_Sol | L_Gt.

(* scanAtts, src/lib/xmltok_impl.rs:511-675; buf follows the first character of an attribute name.
   The state of the outer loop is hadColon. *)

(* loop { buf += 1; REQUIRE_CHAR; ... } up to the opening quote, lines 578-592 *)
Definition atts_open : M ByteType :=
  loopb (fun _ : unit =>
    adv1 ;; require_char ;;
    t <- bt ;;
    match t with
    | BT_QUOT | BT_APOS => ret (inr t)
    | BT_S | BT_LF | BT_CR => ret (inl tt)
    | _ => stop_here T_INVALID
    end) tt.

(* in attribute value, lines 595-622 *)
Definition atts_in_value (open : ByteType) : M unit :=
  loopb (fun _ : unit =>
    require_char ;;
    t <- bt ;;
    if bt_eqb t open then ret (inr tt) else
    match_invalid t (inl tt) (
      match t with
      | BT_AMP => atts_ref ;; ret (inl tt)
      | BT_LT => stop_here T_INVALID
      | _ => adv1 ;; ret (inl tt)
      end)) tt.

(* from the closing quote to the next attribute name or the end of the tag, lines 623-669 *)
Definition atts_after : M atts_label :=
  adv1 ;; require_char ;;
  t <- bt ;;
  match t with
  | BT_S | BT_CR | BT_LF =>
      loopb (fun _ : unit =>
        adv1 ;; require_char ;;
        t <- bt ;;
        check_nmstrt t (inr L_None) (
          match t with
          | BT_S | BT_CR | BT_LF => ret (inl tt)
          | BT_GT => ret (inr L_Gt)
          | BT_SOL => ret (inr L_Sol)
          | _ => stop_here T_INVALID
          end)) tt
  | BT_SOL => ret L_Sol
  | BT_GT => ret L_Gt
  | _ => stop_here T_INVALID
  end.

Definition scanAtts_value : M bool :=
  open <- atts_open ;;
  adv1 ;;
  atts_in_value open ;;
  l <- atts_after ;;
  match l with
  | L_Gt => stop_after T_START_TAG_WITH_ATTS
  | L_Sol =>
      adv1 ;; require_char ;;
      g <- matches c_GT ;;
      if negb g then stop_here T_INVALID else stop_after T_EMPTY_ELEMENT_WITH_ATTS
  | L_None => ret false     (* hadColon = 0 *)
  end.

(* lines 529-570: the part of the loop before EqFallthrough; white space before '=' *)
Definition atts_eq : M unit :=
  loopb (fun _ : unit =>
    adv1 ;; require_char ;;
    t <- bt ;;
    match t with
    | BT_EQUALS => ret (inr tt)
    | BT_S | BT_LF | BT_CR => ret (inl tt)
    | _ => stop_here T_INVALID
    end) tt.

Definition scanAtts_body (hadColon : bool) : M bool :=
  t <- bt ;;
  check_name t hadColon (
    match t with
    | BT_COLON =>
        if hadColon then stop_here T_INVALID else
        adv1 ;; require_char ;;
        t2 <- bt ;;
        check_nmstrt t2 true (stop_here T_INVALID)
    | BT_S | BT_CR | BT_LF =>
        atts_eq ;; scanAtts_value
    | BT_EQUALS => scanAtts_value
    | _ => stop_here T_INVALID
    end).

Definition scanAtts {B} : M B := while_ scanAtts_body (fun _ => Ok T_PARTIAL) false.

(* scanLtHelper, src/lib/xmltok_impl.rs:677-690 *)
Definition scanLtHelper {B} : M B :=
  adv1 ;; require_char ;;
  g <- matches c_GT ;;
  if negb g then stop_here T_INVALID else stop_after T_EMPTY_ELEMENT_NO_ATTS.

(* white space after the element name, src/lib/xmltok_impl.rs:742-770; continues after the first
   character of an attribute name *)
Definition lt_space : M unit :=
  loopb (fun _ : unit =>
    require_char ;;
    t <- bt ;;
    check_nmstrt t (inr tt) (
      match t with
      | BT_GT => stop_after T_START_TAG_NO_ATTS
      | BT_SOL => scanLtHelper
      | BT_S | BT_CR | BT_LF => adv1 ;; ret (inl tt)
      | _ => stop_here T_INVALID
      end)) tt.

(* one iteration of the start-tag loop, src/lib/xmltok_impl.rs:725-780; state hadColon *)
Definition lt_name_body (hadColon : bool) : M bool :=
  t <- bt ;;
  check_name t hadColon (
    match t with
    | BT_COLON =>
        if hadColon then stop_here T_INVALID else
        adv1 ;; require_char ;;
        t2 <- bt ;;
        check_nmstrt t2 true (stop_here T_INVALID)
    | BT_S | BT_CR | BT_LF => adv1 ;; lt_space ;; scanAtts
    | BT_GT => stop_after T_START_TAG_NO_ATTS
    | BT_SOL => scanLtHelper
    | _ => stop_here T_INVALID
    end).

(* scanLt, src/lib/xmltok_impl.rs:693-782; buf follows "<" *)
Definition scanLt {B} : M B :=
  require_char ;;
  t <- bt ;;
  check_nmstrt t tt (
    match t with
    | BT_EXCL =>
        adv1 ;; require_char ;;
        t <- bt ;;
        match t with
        | BT_MINUS => adv1 ;; scanComment
        | BT_LSQB => adv1 ;; scanCdataSection
        | _ => stop_here T_INVALID
        end
    | BT_QUEST => adv1 ;; scanPi
    | BT_SOL => adv1 ;; scanEndTag
    | _ => stop_here T_INVALID
    end) ;;
  (* we have a start-tag *)
  while_ lt_name_body (fun _ => Ok T_PARTIAL) false.

(* scanPercent, src/lib/xmltok_impl.rs:785-809; buf follows "%" *)
Definition scanPercent {B} : M B :=
  require_char ;;
  t <- bt ;;
  check_nmstrt t tt (
    match t with
    | BT_S | BT_LF | BT_CR | BT_PERCNT => stop_here T_PERCENT
    | _ => stop_here T_INVALID
    end) ;;
  while_partial (
    t <- bt ;;
    check_name t tt (
      match t with
      | BT_SEMI => stop_after T_PARAM_ENTITY_REF
      | _ => stop_here T_INVALID
      end)).

(* scanPoundName, src/lib/xmltok_impl.rs:810-833 *)
Definition scanPoundName {B} : M B :=
  require_char ;;
  t <- bt ;;
  check_nmstrt t tt (stop_here T_INVALID) ;;
  while_ (fun _ : unit =>
    t <- bt ;;
    check_name t tt (
      match t with
      | BT_CR | BT_LF | BT_S | BT_RPAR | BT_GT | BT_PERCNT | BT_VERBAR => stop_here T_POUND_NAME
      | _ => stop_here T_INVALID
      end)) (fun _ => Ok T_POUND_NAME_NEG) tt.

(* scanLit, src/lib/xmltok_impl.rs:834-864 *)
Definition scanLit {B} (open : ByteType) : M B :=
  while_partial (
    t <- bt ;;
    match_invalid t tt (
      match t with
      | BT_QUOT | BT_APOS =>
          adv1 ;;
          if bt_eqb t open then
            require_or 1 T_LITERAL_NEG ;;
            t2 <- bt ;;
            match t2 with
            | BT_S | BT_CR | BT_LF | BT_GT | BT_PERCNT | BT_LSQB => stop_here T_LITERAL
            | _ => stop_here T_INVALID
            end
          else ret tt
      | _ => adv1
      end)).

(* A token and the offset (from the start of the buffer given to the tokeniser) assigned to
   *nextTokPtr, if it was assigned. *)
Definition tokres := res (XML_TOK * option nat).

Definition run (m : M Empty_set) (buf : bytes) : tokres :=
  match m buf with
  | Ok (Stop t next) => Ok (t, option_map (fun p => (length buf - length p)%nat) next)
  | Ok (Cont x _) => match x : Empty_set with end
  | Err x => Err x
  end.

(* The length adjustment at the start of the tokenisers, src/lib/xmltok_impl.rs:879-888:
   [n &= !(MINBPC - 1)]; MINBPC is 1 or 2 *)
Definition round_down (buf : bytes) : bytes :=
  if (minbpc =? 2)%nat then even_prefix buf else buf.
Definition is_nil (buf : bytes) : bool := match buf with [] => true | _ => false end.

(* the run of ordinary characters after the first one in cdataSectionTok, lines 921-939 *)
Fixpoint cdata_run {B} (fuel : nat) : M B := fun buf =>
  if has_chars 1 buf then
    match fuel with
    | O => Err EFuel
    | S f =>
        let* t := byte_type e buf in
        match lead_len t with
        | Some n =>
            if negb (has n buf) then stop_here T_DATA_CHARS buf
            else
              let* bad := is_invalid_char e buf n in
              if bad then stop_here T_DATA_CHARS buf
              else let* b := inc_start n buf in cdata_run f b
        | None =>
            match t with
            | BT_NONXML | BT_MALFORM | BT_TRAIL | BT_CR | BT_LF | BT_RSQB => stop_here T_DATA_CHARS buf
            | _ => let* b := inc_start minbpc buf in cdata_run f b
            end
        end
    end
  else stop_here T_DATA_CHARS buf.

(* cdataSectionTok from the first character, src/lib/xmltok_impl.rs:889-939.  In the RSQB arm the
   code advances and restores [prev_buf]; here it looks ahead. *)
Definition cdataSectionScan {B} : M B :=
  t <- bt ;;
  match_invalid t tt (
    match t with
    | BT_RSQB =>
        adv1 ;; require_char ;;
        m <- matches c_RSQB ;;
        if m then
          require_chars 2 ;;
          g <- matches_at 1 c_GT ;;
          if negb g then ret tt else (adv1 ;; stop_after T_CDATA_SECT_CLOSE)
        else ret tt
    | BT_CR =>
        adv1 ;; require_char ;;
        t2 <- bt ;;
        if bt_eqb t2 BT_LF then stop_after T_DATA_NEWLINE else stop_here T_DATA_NEWLINE
    | BT_LF => stop_after T_DATA_NEWLINE
    | _ => adv1
    end) ;;
  (fun buf => cdata_run (S (length buf)) buf).

(* cdataSectionTok, src/lib/xmltok_impl.rs:870-940 *)
Definition cdataSectionTok (buf : bytes) : tokres :=
  if is_nil buf then Ok (T_NONE, None)
  else if is_nil (round_down buf) then Ok (T_PARTIAL, None)
  else run cdataSectionScan (round_down buf).

(* the run of ordinary characters in contentTok, lines 995-1037; [break] ends the run *)
Fixpoint content_run {B} (fuel : nat) : M B := fun buf =>
  if has_chars 1 buf then
    match fuel with
    | O => Err EFuel
    | S f =>
        let* t := byte_type e buf in
        match lead_len t with
        | Some n =>
            if negb (has n buf) then stop_here T_DATA_CHARS buf
            else
              let* bad := is_invalid_char e buf n in
              if bad then stop_here T_DATA_CHARS buf
              else let* b := inc_start n buf in content_run f b
        | None =>
            match t with
            | BT_RSQB =>
                if has_chars 2 buf then
                  let* b1 := inc_start minbpc buf in
                  let* m := char_matches e b1 c_RSQB in
                  if negb m then content_run f b1
                  else if has_chars 3 buf then
                    let* b2 := inc_start (2 * minbpc) buf in
                    let* g := char_matches e b2 c_GT in
                    if negb g then content_run f b1 else stop_here T_INVALID b2
                  else stop_here T_DATA_CHARS buf
                else stop_here T_DATA_CHARS buf
            | BT_AMP | BT_LT | BT_NONXML | BT_MALFORM | BT_TRAIL | BT_CR | BT_LF =>
                stop_here T_DATA_CHARS buf
            | _ => let* b := inc_start minbpc buf in content_run f b
            end
        end
    end
  else stop_here T_DATA_CHARS buf.

(* contentTok from the first character, src/lib/xmltok_impl.rs:960-1038 *)
Definition contentScan {B} : M B :=
  t <- bt ;;
  match_invalid t tt (
    match t with
    | BT_LT => adv1 ;; scanLt
    | BT_AMP => adv1 ;; scanRef
    | BT_CR =>
        adv1 ;; require_or 1 T_TRAILING_CR ;;
        t2 <- bt ;;
        if bt_eqb t2 BT_LF then stop_after T_DATA_NEWLINE else stop_here T_DATA_NEWLINE
    | BT_LF => stop_after T_DATA_NEWLINE
    | BT_RSQB =>
        adv1 ;; require_or 1 T_TRAILING_RSQB ;;
        m <- matches c_RSQB ;;
        if m then
          require_or 2 T_TRAILING_RSQB ;;
          g <- matches_at 1 c_GT ;;
          if negb g then ret tt else (adv1 ;; stop_here T_INVALID)
        else ret tt
    | _ => adv1
    end) ;;
  (fun buf => content_run (S (length buf)) buf).

(* contentTok, src/lib/xmltok_impl.rs:941-1039 *)
Definition contentTok (buf : bytes) : tokres :=
  if is_nil buf then Ok (T_NONE, None)
  else if is_nil (round_down buf) then Ok (T_PARTIAL, None)
  else run contentScan (round_down buf).

(* white space run of prologTok, src/lib/xmltok_impl.rs:1117-1141 *)
Fixpoint prolog_s_run {B} (fuel : nat) : M B := fun buf =>
  match fuel with
  | O => Err EFuel
  | S f =>
      let* b := inc_start minbpc buf in
      if negb (has_chars 1 b) then stop_here T_PROLOG_S b
      else
        let* t := byte_type e b in
        match t with
        | BT_CR => if (length b =? minbpc)%nat then stop_here T_PROLOG_S b else prolog_s_run f b
        | BT_S | BT_LF => prolog_s_run f b
        | _ => stop_here T_PROLOG_S b
        end
  end.

(* the name loop of prologTok, src/lib/xmltok_impl.rs:1223-1280 *)
Definition prolog_name_body (tok : XML_TOK) : M XML_TOK :=
  t <- bt ;;
  check_name t tok (
    match t with
    | BT_GT | BT_RPAR | BT_COMMA | BT_VERBAR | BT_LSQB | BT_PERCNT | BT_S | BT_CR | BT_LF =>
        stop_here tok
    | BT_COLON =>
        adv1 ;;
        match tok with
        | T_NAME =>
            require_char ;;
            t2 <- bt ;;
            check_name t2 T_PREFIXED_NAME (ret T_NMTOKEN)
        | T_PREFIXED_NAME => ret T_NMTOKEN
        | _ => ret tok
        end
    | BT_PLUS => if tok_eqb tok T_NMTOKEN then stop_here T_INVALID else stop_after T_NAME_PLUS
    | BT_AST => if tok_eqb tok T_NMTOKEN then stop_here T_INVALID else stop_after T_NAME_ASTERISK
    | BT_QUEST => if tok_eqb tok T_NMTOKEN then stop_here T_INVALID else stop_after T_NAME_QUESTION
    | _ => stop_here T_INVALID
    end).
Definition prolog_name {B} (tok : XML_TOK) : M B := while_ prolog_name_body tok_negate tok.

(* prologTok from the first character, src/lib/xmltok_impl.rs:1059-1281.  In the LT arm the code
   steps over '<' and steps back for INSTANCE_START; here it looks ahead. *)
Definition prologScan {B} : M B :=
  t <- bt ;;
  match lead_len t with
  | Some n =>
      require_bytes n T_PARTIAL_CHAR ;;
      s <- lift_check (fun b => is_nmstrt_char e b n) ;;
      if s then (adv n ;; prolog_name T_NAME) else
      m <- lift_check (fun b => is_name_char e b n) ;;
      if m then (adv n ;; prolog_name T_NMTOKEN) else stop_here T_INVALID
  | None =>
      match t with
      | BT_QUOT => adv1 ;; scanLit BT_QUOT
      | BT_APOS => adv1 ;; scanLit BT_APOS
      | BT_LT =>
          require_chars 2 ;;
          t2 <- bt_at 1 ;;
          match t2 with
          | BT_EXCL => adv1 ;; adv1 ;; scanDecl
          | BT_QUEST => adv1 ;; adv1 ;; scanPi
          | BT_NMSTRT | BT_HEX | BT_NONASCII | BT_LEAD2 | BT_LEAD3 | BT_LEAD4 =>
              stop_here T_INSTANCE_START
          | _ => adv1 ;; stop_here T_INVALID
          end
      | BT_CR => fun buf =>
          if (length buf =? minbpc)%nat then Ok (Stop T_PROLOG_S_NEG (Some []))
          else prolog_s_run (S (length buf)) buf
      | BT_S | BT_LF => fun buf => prolog_s_run (S (length buf)) buf
      | BT_PERCNT => adv1 ;; scanPercent
      | BT_COMMA => stop_after T_COMMA
      | BT_LSQB => stop_after T_OPEN_BRACKET
      | BT_RSQB =>
          adv1 ;; require_or 1 T_CLOSE_BRACKET_NEG ;;
          m <- matches c_RSQB ;;
          if m then
            require_chars 2 ;;
            g <- matches_at 1 c_GT ;;
            if g then (adv1 ;; stop_after T_COND_SECT_CLOSE) else stop_here T_CLOSE_BRACKET
          else stop_here T_CLOSE_BRACKET
      | BT_LPAR => stop_after T_OPEN_PAREN
      | BT_RPAR =>
          adv1 ;; require_or 1 T_CLOSE_PAREN_NEG ;;
          t2 <- bt ;;
          match t2 with
          | BT_AST => stop_after T_CLOSE_PAREN_ASTERISK
          | BT_QUEST => stop_after T_CLOSE_PAREN_QUESTION
          | BT_PLUS => stop_after T_CLOSE_PAREN_PLUS
          | BT_CR | BT_LF | BT_S | BT_GT | BT_COMMA | BT_VERBAR | BT_RPAR => stop_here T_CLOSE_PAREN
          | _ => stop_here T_INVALID
          end
      | BT_VERBAR => stop_after T_OR
      | BT_GT => stop_after T_DECL_CLOSE
      | BT_NUM => adv1 ;; scanPoundName
      | BT_NMSTRT | BT_HEX => adv1 ;; prolog_name T_NAME
      | BT_DIGIT | BT_NAME | BT_MINUS | BT_COLON => adv1 ;; prolog_name T_NMTOKEN
      | BT_NONASCII =>
          s <- lift_check (is_nmstrt_char_minbpc e) ;;
          if s then (adv1 ;; prolog_name T_NAME) else
          m <- lift_check (is_name_char_minbpc e) ;;
          if m then (adv1 ;; prolog_name T_NMTOKEN) else stop_here T_INVALID
      | _ => stop_here T_INVALID
      end
  end.

(* prologTok, src/lib/xmltok_impl.rs:1040-1282 *)
Definition prologTok (buf : bytes) : tokres :=
  if is_nil buf then Ok (T_NONE, None)
  else if is_nil (round_down buf) then Ok (T_PARTIAL, None)
  else run prologScan (round_down buf).

(* attributeValueTok loop, src/lib/xmltok_impl.rs:1300-1356; [first] = (buf.as_ptr() == start) *)
Fixpoint attributeValue_run {B} (fuel : nat) (first : bool) : M B := fun buf =>
  if has_chars 1 buf then
    match fuel with
    | O => Err EFuel
    | S f =>
        let* t := byte_type e buf in
        match lead_len t with
        | Some n => let* b := inc_start n buf in attributeValue_run f false b
        | None =>
            match t with
            | BT_AMP => if first then (adv1 ;; scanRef) buf else stop_here T_DATA_CHARS buf
            | BT_LT => stop_here T_INVALID buf
            | BT_LF => if first then stop_after T_DATA_NEWLINE buf else stop_here T_DATA_CHARS buf
            | BT_CR =>
                if first then
                  (adv1 ;; require_or 1 T_TRAILING_CR ;;
                   t2 <- bt ;;
                   if bt_eqb t2 BT_LF then stop_after T_DATA_NEWLINE else stop_here T_DATA_NEWLINE) buf
                else stop_here T_DATA_CHARS buf
            | BT_S => if first then stop_after T_ATTRIBUTE_VALUE_S buf else stop_here T_DATA_CHARS buf
            | _ => let* b := inc_start minbpc buf in attributeValue_run f false b
            end
        end
    end
  else stop_here T_DATA_CHARS buf.

(* attributeValueTok, src/lib/xmltok_impl.rs:1283-1357 *)
Definition attributeValueTok (buf : bytes) : tokres :=
  if is_nil buf then Ok (T_NONE, None)
  else if negb (has_chars 1 buf) then Ok (T_PARTIAL, None)
  else run (attributeValue_run (S (length buf)) true) buf.

(* scanPercent from entityValueTok: PERCENT becomes INVALID, src/lib/xmltok_impl.rs:1388-1396 *)
Definition percent_as_invalid {B} (m : M B) : M B := fun buf =>
  match m buf with
  | Ok (Stop t n) => Ok (Stop (if tok_eqb t T_PERCENT then T_INVALID else t) n)
  | r => r
  end.

(* entityValueTok loop, src/lib/xmltok_impl.rs:1375-1430 *)
Fixpoint entityValue_run {B} (fuel : nat) (first : bool) : M B := fun buf =>
  if has_chars 1 buf then
    match fuel with
    | O => Err EFuel
    | S f =>
        let* t := byte_type e buf in
        match lead_len t with
        | Some n => let* b := inc_start n buf in entityValue_run f false b
        | None =>
            match t with
            | BT_AMP => if first then (adv1 ;; scanRef) buf else stop_here T_DATA_CHARS buf
            | BT_PERCNT =>
                if first then (adv1 ;; percent_as_invalid scanPercent) buf
                else stop_here T_DATA_CHARS buf
            | BT_LF => if first then stop_after T_DATA_NEWLINE buf else stop_here T_DATA_CHARS buf
            | BT_CR =>
                if first then
                  (adv1 ;; require_or 1 T_TRAILING_CR ;;
                   t2 <- bt ;;
                   if bt_eqb t2 BT_LF then stop_after T_DATA_NEWLINE else stop_here T_DATA_NEWLINE) buf
                else stop_here T_DATA_CHARS buf
            | _ => let* b := inc_start minbpc buf in entityValue_run f false b
            end
        end
    end
  else stop_here T_DATA_CHARS buf.

(* entityValueTok, src/lib/xmltok_impl.rs:1358-1431 *)
Definition entityValueTok (buf : bytes) : tokres :=
  if is_nil buf then Ok (T_NONE, None)
  else if negb (has_chars 1 buf) then Ok (T_PARTIAL, None)
  else run (entityValue_run (S (length buf)) true) buf.

(* ignoreSectionTok, src/lib/xmltok_impl.rs:1432-1481.  [level] is a c_int in the code; a nat here
   (it cannot reach 2^31 on a buffer below 2^31 bytes). *)
Definition ignoreScan {B} : M B :=
  while_ (fun level : nat =>
    t <- bt ;;
    match_invalid t level (
      match t with
      | BT_LT =>
          adv1 ;; require_char ;;
          x <- matches c_EXCL ;;
          if x then
            adv1 ;; require_char ;;
            b <- matches c_LSQB ;;
            if b then (adv1 ;; ret (S level)) else ret level
          else ret level
      | BT_RSQB =>
          adv1 ;; require_char ;;
          x <- matches c_RSQB ;;
          if x then
            adv1 ;; require_char ;;
            g <- matches c_GT ;;
            if g then
              adv1 ;;
              match level with O => stop_here T_IGNORE_SECT | S l => ret l end
            else ret level
          else ret level
      | _ => adv1 ;; ret level
      end)) (fun _ => Ok T_PARTIAL) O.
Definition ignoreSectionTok (buf : bytes) : tokres := run ignoreScan (round_down buf).

(* isPublicId, src/lib/xmltok_impl.rs:1482-1514; [None] is the result 1, [Some k] is the result 0
   with *badPtr at offset [k] *)
Fixpoint isPublicId_loop (fuel : nat) (buf : bytes) : res (option bytes) :=
  if has_chars 1 buf then
    match fuel with
    | O => Err EFuel
    | S f =>
        let* t := byte_type e buf in
        let* a := byte_to_ascii e buf in
        let next := let* b := inc_start minbpc buf in isPublicId_loop f b in
        let dflt := if (a =? 36) || (a =? 64) then next else Ok (Some buf) in
        match t with
        | BT_DIGIT | BT_HEX | BT_MINUS | BT_APOS | BT_LPAR | BT_RPAR | BT_PLUS | BT_COMMA | BT_SOL
        | BT_EQUALS | BT_QUEST | BT_CR | BT_LF | BT_SEMI | BT_EXCL | BT_AST | BT_PERCNT | BT_NUM
        | BT_COLON => next
        | BT_S =>
            let* tab := char_matches e buf c_TAB in
            if tab then Ok (Some buf) else next
        | BT_NAME | BT_NMSTRT => if a <? 128 then next else dflt
        | _ => dflt
        end
    end
  else Ok None.
Definition isPublicId (buf : bytes) : res (option nat) :=
  let* b := inc_start minbpc buf in
  if (length b <? minbpc)%nat then Err EPanic
  else
    let b := firstn (length b - minbpc) b in
    let* r := isPublicId_loop (S (length b)) b in
    Ok (option_map (fun p => (length b - length p + minbpc)%nat) r).

End WithEnc.
