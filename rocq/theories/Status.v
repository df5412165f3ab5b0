(* Error codes, status codes and parsing states of the API, src/expat_h.rs *)
From Coq Require Import NArith.

(* XML_Error, src/expat_h.rs *)
Inductive XML_Error :=
| XE_NONE | XE_NO_MEMORY | XE_SYNTAX | XE_NO_ELEMENTS | XE_INVALID_TOKEN | XE_UNCLOSED_TOKEN | XE_PARTIAL_CHAR
| XE_TAG_MISMATCH | XE_DUPLICATE_ATTRIBUTE | XE_JUNK_AFTER_DOC_ELEMENT | XE_PARAM_ENTITY_REF | XE_UNDEFINED_ENTITY
| XE_RECURSIVE_ENTITY_REF | XE_ASYNC_ENTITY | XE_BAD_CHAR_REF | XE_BINARY_ENTITY_REF | XE_ATTRIBUTE_EXTERNAL_ENTITY_REF
| XE_MISPLACED_XML_PI | XE_UNKNOWN_ENCODING | XE_INCORRECT_ENCODING | XE_UNCLOSED_CDATA_SECTION
| XE_EXTERNAL_ENTITY_HANDLING | XE_NOT_STANDALONE | XE_UNEXPECTED_STATE | XE_ENTITY_DECLARED_IN_PE
| XE_FEATURE_REQUIRES_XML_DTD | XE_CANT_CHANGE_FEATURE_ONCE_PARSING | XE_UNBOUND_PREFIX | XE_UNDECLARING_PREFIX
| XE_INCOMPLETE_PE | XE_XML_DECL | XE_TEXT_DECL | XE_PUBLICID | XE_SUSPENDED | XE_NOT_SUSPENDED | XE_ABORTED
| XE_FINISHED | XE_SUSPEND_PE | XE_RESERVED_PREFIX_XML | XE_RESERVED_PREFIX_XMLNS | XE_RESERVED_NAMESPACE_URI
| XE_INVALID_ARGUMENT.
Definition XML_Error_eq_dec (a b : XML_Error) : {a = b} + {a <> b}.
Proof. decide equality. Defined.
Definition xe_eqb (a b : XML_Error) : bool := if XML_Error_eq_dec a b then true else false.

(* XML_Status *)
Inductive XML_Status := ST_ERROR | ST_OK | ST_SUSPENDED.

(* XML_Parsing *)
Inductive XML_Parsing := INITIALIZED | PARSING | FINISHED | SUSPENDED.
Definition parsing_eqb (a b : XML_Parsing) : bool :=
  match a, b with INITIALIZED, INITIALIZED | PARSING, PARSING | FINISHED, FINISHED | SUSPENDED, SUSPENDED => true | _, _ => false end.
