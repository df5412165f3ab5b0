(* Base vocabulary of the model: bytes, panics, buffers, byte types and tokens.

   A byte is an [N] below 256 (Rust [c_char] is [i8]; the model stores the bit pattern and
   sign-extends explicitly where the code does).  A buffer reference ([ExpatBufRef],
   src/lib/xmlparse.rs:86-146) is the list of bytes from its start to its end. *)
From Coq Require Import List NArith ZArith Bool.
Import ListNotations.
Local Open Scope N_scope.

(* Ways in which the Rust code can fail to return normally. *)
Inductive err :=
| EPanic  (* slice index / inc_start / unwrap / explicit panic *)
| EOob    (* a raw pointer is dereferenced outside the buffer it came from *)
| EFuel.  (* the model ran out of fuel; theorems exclude it *)

Inductive res (A : Type) :=
| Ok (a : A)
| Err (e : err).
Arguments Ok {A}.
Arguments Err {A}.

Definition bind {A B} (r : res A) (k : A -> res B) : res B :=
  match r with Ok a => k a | Err e => Err e end.
Notation "'let*' x ':=' r 'in' k" := (bind r (fun x => k))
  (at level 200, x pattern, r at level 100, k at level 200, right associativity).

Definition byte := N.
Definition bytes := list N.

(* Every element is a byte value. *)
Definition bytes_ok (l : bytes) : Prop := Forall (fun b => b < 256) l.

(* ExpatBufRef::inc_start, src/lib/xmlparse.rs:101-107: the suffix after [n] bytes; panics when
   [n] exceeds the length. *)
Fixpoint inc_start (n : nat) (buf : bytes) : res bytes :=
  match n, buf with
  | O, _ => Ok buf
  | S n', [] => Err EPanic
  | S n', _ :: t => inc_start n' t
  end.

(* [buf.len() >= n] *)
Fixpoint has (n : nat) (buf : bytes) : bool :=
  match n, buf with
  | O, _ => true
  | S n', [] => false
  | S n', _ :: t => has n' t
  end.

(* *p.offset(n) through a raw pointer: no bounds check in the code, so an access past the end of
   the buffer is undefined behaviour. *)
Definition peek (n : nat) (buf : bytes) : res N :=
  match nth_error buf n with Some b => Ok b | None => Err EOob end.

(* bounds-checked indexing of an array or slice *)
Definition index {A} (l : list A) (n : N) : res A :=
  match nth_error l (N.to_nat n) with Some b => Ok b | None => Err EPanic end.

(* src/xmltok_impl_h.rs:7-45 *)
Inductive ByteType :=
| BT_NONXML | BT_MALFORM | BT_LT | BT_AMP | BT_RSQB | BT_LEAD2 | BT_LEAD3 | BT_LEAD4 | BT_TRAIL
| BT_CR | BT_LF | BT_GT | BT_QUOT | BT_APOS | BT_EQUALS | BT_QUEST | BT_EXCL | BT_SOL | BT_SEMI
| BT_NUM | BT_LSQB | BT_S | BT_NMSTRT | BT_COLON | BT_HEX | BT_DIGIT | BT_NAME | BT_MINUS
| BT_OTHER | BT_NONASCII | BT_PERCNT | BT_LPAR | BT_RPAR | BT_AST | BT_PLUS | BT_COMMA
| BT_VERBAR.

Definition ByteType_eq_dec (a b : ByteType) : {a = b} + {a <> b}.
Proof. decide equality. Defined.
Definition bt_eqb (a b : ByteType) : bool := if ByteType_eq_dec a b then true else false.

(* src/lib/xmltok.rs:51-137 *)
Inductive XML_TOK :=
| T_TRAILING_RSQB | T_NONE | T_TRAILING_CR | T_PARTIAL_CHAR | T_PARTIAL | T_INVALID
| T_START_TAG_WITH_ATTS | T_START_TAG_NO_ATTS | T_EMPTY_ELEMENT_WITH_ATTS | T_EMPTY_ELEMENT_NO_ATTS
| T_END_TAG | T_DATA_CHARS | T_DATA_NEWLINE | T_CDATA_SECT_OPEN | T_ENTITY_REF | T_CHAR_REF
| T_PI | T_XML_DECL | T_COMMENT | T_BOM
| T_PROLOG_S | T_PROLOG_S_NEG | T_DECL_OPEN | T_DECL_CLOSE | T_NAME | T_NAME_NEG
| T_NMTOKEN | T_NMTOKEN_NEG | T_POUND_NAME | T_POUND_NAME_NEG | T_OR | T_PERCENT
| T_OPEN_PAREN | T_CLOSE_PAREN | T_CLOSE_PAREN_NEG | T_OPEN_BRACKET | T_CLOSE_BRACKET
| T_CLOSE_BRACKET_NEG | T_LITERAL | T_LITERAL_NEG | T_PARAM_ENTITY_REF | T_INSTANCE_START
| T_NAME_QUESTION | T_NAME_ASTERISK | T_NAME_PLUS | T_COND_SECT_OPEN | T_COND_SECT_CLOSE
| T_CLOSE_PAREN_QUESTION | T_CLOSE_PAREN_ASTERISK | T_CLOSE_PAREN_PLUS | T_COMMA
| T_ATTRIBUTE_VALUE_S | T_CDATA_SECT_CLOSE | T_PREFIXED_NAME | T_PREFIXED_NAME_NEG | T_IGNORE_SECT.

Definition XML_TOK_eq_dec (a b : XML_TOK) : {a = b} + {a <> b}.
Proof. decide equality. Defined.
Definition tok_eqb (a b : XML_TOK) : bool := if XML_TOK_eq_dec a b then true else false.

(* discriminants of the enum, src/lib/xmltok.rs:51-137 *)
Definition tok_to_i32 (t : XML_TOK) : Z :=
  match t with
  | T_TRAILING_RSQB => -5 | T_NONE => -4 | T_TRAILING_CR => -3 | T_PARTIAL_CHAR => -2
  | T_PARTIAL => -1 | T_INVALID => 0 | T_START_TAG_WITH_ATTS => 1 | T_START_TAG_NO_ATTS => 2
  | T_EMPTY_ELEMENT_WITH_ATTS => 3 | T_EMPTY_ELEMENT_NO_ATTS => 4 | T_END_TAG => 5
  | T_DATA_CHARS => 6 | T_DATA_NEWLINE => 7 | T_CDATA_SECT_OPEN => 8 | T_ENTITY_REF => 9
  | T_CHAR_REF => 10 | T_PI => 11 | T_XML_DECL => 12 | T_COMMENT => 13 | T_BOM => 14
  | T_PROLOG_S => 15 | T_PROLOG_S_NEG => -15 | T_DECL_OPEN => 16 | T_DECL_CLOSE => 17
  | T_NAME => 18 | T_NAME_NEG => -18 | T_NMTOKEN => 19 | T_NMTOKEN_NEG => -19
  | T_POUND_NAME => 20 | T_POUND_NAME_NEG => -20 | T_OR => 21 | T_PERCENT => 22
  | T_OPEN_PAREN => 23 | T_CLOSE_PAREN => 24 | T_CLOSE_PAREN_NEG => -24 | T_OPEN_BRACKET => 25
  | T_CLOSE_BRACKET => 26 | T_CLOSE_BRACKET_NEG => -26 | T_LITERAL => 27 | T_LITERAL_NEG => -27
  | T_PARAM_ENTITY_REF => 28 | T_INSTANCE_START => 29 | T_NAME_QUESTION => 30
  | T_NAME_ASTERISK => 31 | T_NAME_PLUS => 32 | T_COND_SECT_OPEN => 33 | T_COND_SECT_CLOSE => 34
  | T_CLOSE_PAREN_QUESTION => 35 | T_CLOSE_PAREN_ASTERISK => 36 | T_CLOSE_PAREN_PLUS => 37
  | T_COMMA => 38 | T_ATTRIBUTE_VALUE_S => 39 | T_CDATA_SECT_CLOSE => 40 | T_PREFIXED_NAME => 41
  | T_PREFIXED_NAME_NEG => -41 | T_IGNORE_SECT => 42
  end%Z.

(* XML_TOK::is_error, src/lib/xmltok.rs:140-142 *)
Definition tok_is_error (t : XML_TOK) : bool := (tok_to_i32 t <=? 0)%Z.

(* XML_TOK::negate, src/lib/xmltok.rs:144-163; the catch-all arm is unimplemented!() *)
Definition tok_negate (t : XML_TOK) : res XML_TOK :=
  match t with
  | T_CLOSE_PAREN_NEG => Ok T_CLOSE_PAREN
  | T_POUND_NAME_NEG => Ok T_POUND_NAME
  | T_LITERAL_NEG => Ok T_LITERAL
  | T_NAME_NEG => Ok T_NAME
  | T_NAME => Ok T_NAME_NEG
  | T_PREFIXED_NAME => Ok T_PREFIXED_NAME_NEG
  | T_NMTOKEN => Ok T_NMTOKEN_NEG
  | T_CLOSE_BRACKET_NEG => Ok T_CLOSE_BRACKET
  | T_CLOSE_BRACKET => Ok T_CLOSE_BRACKET_NEG
  | T_PREFIXED_NAME_NEG => Ok T_PREFIXED_NAME
  | T_NMTOKEN_NEG => Ok T_NMTOKEN
  | _ => Err EPanic
  end.

(* ASCII constants, src/ascii_h.rs *)
Definition c_TAB := 9. Definition c_LF := 10. Definition c_CR := 13. Definition c_SPACE := 32.
Definition c_EXCL := 33. Definition c_QUOT := 34. Definition c_NUM := 35. Definition c_AMP := 38.
Definition c_APOS := 39. Definition c_MINUS := 45. Definition c_PERIOD := 46. Definition c_SOL := 47.
Definition c_COLON := 58. Definition c_SEMI := 59. Definition c_LT := 60. Definition c_EQUALS := 61.
Definition c_GT := 62. Definition c_LSQB := 91. Definition c_RSQB := 93.
Definition c_UNDERSCORE := 95. Definition c_FF := 12.
