(* Model of the prolog grammar machine, src/lib/xmlrole.rs.  A handler function pointer is a value of
   [handler]; a call takes the state by value and returns the new state with the role.  Matching a
   keyword needs the encoding and the bytes of the token; everything else looks at the token only. *)
From Coq Require Import List NArith Bool.
From Verif Require Import Base Encoding TokMisc.
Import ListNotations.
Local Open Scope N_scope.

(* XML_ROLE, src/lib/xmlrole.rs:39-103 *)
Inductive ROLE :=
| R_ERROR | R_NONE | R_XML_DECL | R_INSTANCE_START | R_DOCTYPE_NONE | R_DOCTYPE_NAME | R_DOCTYPE_SYSTEM_ID
| R_DOCTYPE_PUBLIC_ID | R_DOCTYPE_INTERNAL_SUBSET | R_DOCTYPE_CLOSE | R_GENERAL_ENTITY_NAME
| R_PARAM_ENTITY_NAME | R_ENTITY_NONE | R_ENTITY_VALUE | R_ENTITY_SYSTEM_ID | R_ENTITY_PUBLIC_ID
| R_ENTITY_COMPLETE | R_ENTITY_NOTATION_NAME | R_NOTATION_NONE | R_NOTATION_NAME | R_NOTATION_SYSTEM_ID
| R_NOTATION_NO_SYSTEM_ID | R_NOTATION_PUBLIC_ID | R_ATTRIBUTE_NAME | R_ATTRIBUTE_TYPE_CDATA
| R_ATTRIBUTE_TYPE_ID | R_ATTRIBUTE_TYPE_IDREF | R_ATTRIBUTE_TYPE_IDREFS | R_ATTRIBUTE_TYPE_ENTITY
| R_ATTRIBUTE_TYPE_ENTITIES | R_ATTRIBUTE_TYPE_NMTOKEN | R_ATTRIBUTE_TYPE_NMTOKENS
| R_ATTRIBUTE_ENUM_VALUE | R_ATTRIBUTE_NOTATION_VALUE | R_ATTLIST_NONE | R_ATTLIST_ELEMENT_NAME
| R_IMPLIED_ATTRIBUTE_VALUE | R_REQUIRED_ATTRIBUTE_VALUE | R_DEFAULT_ATTRIBUTE_VALUE
| R_FIXED_ATTRIBUTE_VALUE | R_ELEMENT_NONE | R_ELEMENT_NAME | R_CONTENT_ANY | R_CONTENT_EMPTY
| R_CONTENT_PCDATA | R_GROUP_OPEN | R_GROUP_CLOSE | R_GROUP_CLOSE_REP | R_GROUP_CLOSE_OPT
| R_GROUP_CLOSE_PLUS | R_GROUP_CHOICE | R_GROUP_SEQUENCE | R_CONTENT_ELEMENT | R_CONTENT_ELEMENT_REP
| R_CONTENT_ELEMENT_OPT | R_CONTENT_ELEMENT_PLUS | R_PI | R_COMMENT | R_TEXT_DECL | R_IGNORE_SECT
| R_INNER_PARAM_ENTITY_REF | R_PARAM_ENTITY_REF.

Definition ROLE_eq_dec (a b : ROLE) : {a = b} + {a <> b}.
Proof. decide equality. Defined.
Definition role_eqb (a b : ROLE) : bool := if ROLE_eq_dec a b then true else false.

(* the PROLOG_HANDLER functions, src/lib/xmlrole.rs:356-1605 *)
Inductive handler :=
| H_prolog0 | H_prolog1 | H_prolog2 | H_doctype0 | H_doctype1 | H_doctype2 | H_doctype3 | H_doctype4 | H_doctype5
| H_internalSubset | H_externalSubset0 | H_externalSubset1
| H_entity0 | H_entity1 | H_entity2 | H_entity3 | H_entity4 | H_entity5 | H_entity6 | H_entity7 | H_entity8 | H_entity9 | H_entity10
| H_notation0 | H_notation1 | H_notation2 | H_notation3 | H_notation4
| H_attlist0 | H_attlist1 | H_attlist2 | H_attlist3 | H_attlist4 | H_attlist5 | H_attlist6 | H_attlist7 | H_attlist8 | H_attlist9
| H_element0 | H_element1 | H_element2 | H_element3 | H_element4 | H_element5 | H_element6 | H_element7
| H_condSect0 | H_condSect1 | H_condSect2 | H_declClose | H_error.

(* struct prolog_state, src/lib/xmlrole.rs:113-124.  [inEntityValue] is not read by the handlers and
   is not modelled; [doc] is documentEntity != 0. *)
Record pstate := { hd : handler; level : N; role_none : ROLE; include : N; doc : bool }.
Definition to (h : handler) (s : pstate) : pstate :=
  {| hd := h; level := level s; role_none := role_none s; include := include s; doc := doc s |}.
Definition set_level (n : N) (s : pstate) : pstate :=
  {| hd := hd s; level := n; role_none := role_none s; include := include s; doc := doc s |}.
Definition set_none (r : ROLE) (s : pstate) : pstate :=
  {| hd := hd s; level := level s; role_none := r; include := include s; doc := doc s |}.
Definition set_include (n : N) (s : pstate) : pstate :=
  {| hd := hd s; level := level s; role_none := role_none s; include := n; doc := doc s |}.

(* c_uint wrapping_add(1), wrapping_sub(1) *)
Definition u32_succ (n : N) : N := (n + 1) mod 4294967296.
Definition u32_pred (n : N) : N := (n + 4294967295) mod 4294967296.

(* the keyword tables, src/lib/xmlrole.rs:154-354 *)
Definition KW_ANY : bytes := [65; 78; 89].
Definition KW_ATTLIST : bytes := [65; 84; 84; 76; 73; 83; 84].
Definition KW_CDATA : bytes := [67; 68; 65; 84; 65].
Definition KW_DOCTYPE : bytes := [68; 79; 67; 84; 89; 80; 69].
Definition KW_ELEMENT : bytes := [69; 76; 69; 77; 69; 78; 84].
Definition KW_EMPTY : bytes := [69; 77; 80; 84; 89].
Definition KW_ENTITIES : bytes := [69; 78; 84; 73; 84; 73; 69; 83].
Definition KW_ENTITY : bytes := [69; 78; 84; 73; 84; 89].
Definition KW_FIXED : bytes := [70; 73; 88; 69; 68].
Definition KW_ID : bytes := [73; 68].
Definition KW_IDREF : bytes := [73; 68; 82; 69; 70].
Definition KW_IDREFS : bytes := [73; 68; 82; 69; 70; 83].
Definition KW_IGNORE : bytes := [73; 71; 78; 79; 82; 69].
Definition KW_IMPLIED : bytes := [73; 77; 80; 76; 73; 69; 68].
Definition KW_INCLUDE : bytes := [73; 78; 67; 76; 85; 68; 69].
Definition KW_NDATA : bytes := [78; 68; 65; 84; 65].
Definition KW_NMTOKEN : bytes := [78; 77; 84; 79; 75; 69; 78].
Definition KW_NMTOKENS : bytes := [78; 77; 84; 79; 75; 69; 78; 83].
Definition KW_NOTATION : bytes := [78; 79; 84; 65; 84; 73; 79; 78].
Definition KW_PCDATA : bytes := [80; 67; 68; 65; 84; 65].
Definition KW_PUBLIC : bytes := [80; 85; 66; 76; 73; 67].
Definition KW_REQUIRED : bytes := [82; 69; 81; 85; 73; 82; 69; 68].
Definition KW_SYSTEM : bytes := [83; 89; 83; 84; 69; 77].

(* common, src/lib/xmlrole.rs:1599-1605 *)
Definition common (s : pstate) (tok : XML_TOK) : pstate * ROLE :=
  if negb (doc s) && tok_eqb tok T_PARAM_ENTITY_REF then (s, R_INNER_PARAM_ENTITY_REF)
  else (to H_error s, R_ERROR).

(* where a declaration returns to, e.g. src/lib/xmlrole.rs:779-783 *)
Definition subset (s : pstate) : pstate := if doc s then to H_internalSubset s else to H_externalSubset1 s.

Section WithEnc.
Variable e : EncImpl.

(* the chains [if enc.nameMatchesAscii(buf, &KW_..) { ..return.. }] *)
Fixpoint on_kw (buf : bytes) (alts : list (bytes * (pstate * ROLE))) (dflt : pstate * ROLE) : res (pstate * ROLE) :=
  match alts with
  | [] => Ok dflt
  | (k, r) :: alts' =>
      let* m := nameMatchesAscii e buf k in
      if m then Ok r else on_kw buf alts' dflt
  end.

Notation st := pstate (only parsing).
Definition hres := res (pstate * ROLE).

(* src/lib/xmlrole.rs:356-396 *)
Definition prolog0 (s : pstate) (tok : XML_TOK) (buf : bytes) : hres :=
  match tok with
  | T_PROLOG_S => Ok (to H_prolog1 s, R_NONE)
  | T_XML_DECL => Ok (to H_prolog1 s, R_XML_DECL)
  | T_PI => Ok (to H_prolog1 s, R_PI)
  | T_COMMENT => Ok (to H_prolog1 s, R_COMMENT)
  | T_BOM => Ok (s, R_NONE)
  | T_DECL_OPEN =>
      let* b := inc_start (2 * minbpc e) buf in
      on_kw b [(KW_DOCTYPE, (to H_doctype0 s, R_DOCTYPE_NONE))] (common s tok)
  | T_INSTANCE_START => Ok (to H_error s, R_INSTANCE_START)
  | _ => Ok (common s tok)
  end.
(* src/lib/xmlrole.rs:398-434 *)
Definition prolog1 (s : pstate) (tok : XML_TOK) (buf : bytes) : hres :=
  match tok with
  | T_PROLOG_S => Ok (s, R_NONE)
  | T_PI => Ok (s, R_PI)
  | T_COMMENT => Ok (s, R_COMMENT)
  | T_BOM => Ok (s, R_NONE)
  | T_DECL_OPEN =>
      let* b := inc_start (2 * minbpc e) buf in
      on_kw b [(KW_DOCTYPE, (to H_doctype0 s, R_DOCTYPE_NONE))] (common s tok)
  | T_INSTANCE_START => Ok (to H_error s, R_INSTANCE_START)
  | _ => Ok (common s tok)
  end.
(* src/lib/xmlrole.rs:436-453 *)
Definition prolog2 (s : pstate) (tok : XML_TOK) : hres :=
  match tok with
  | T_PROLOG_S => Ok (s, R_NONE)
  | T_PI => Ok (s, R_PI)
  | T_COMMENT => Ok (s, R_COMMENT)
  | T_INSTANCE_START => Ok (to H_error s, R_INSTANCE_START)
  | _ => Ok (common s tok)
  end.
(* src/lib/xmlrole.rs:455-470 *)
Definition doctype0 (s : pstate) (tok : XML_TOK) : hres :=
  match tok with
  | T_PROLOG_S => Ok (s, R_DOCTYPE_NONE)
  | T_NAME | T_PREFIXED_NAME => Ok (to H_doctype1 s, R_DOCTYPE_NAME)
  | _ => Ok (common s tok)
  end.
(* src/lib/xmlrole.rs:472-501 *)
Definition doctype1 (s : pstate) (tok : XML_TOK) (buf : bytes) : hres :=
  match tok with
  | T_PROLOG_S => Ok (s, R_DOCTYPE_NONE)
  | T_OPEN_BRACKET => Ok (to H_internalSubset s, R_DOCTYPE_INTERNAL_SUBSET)
  | T_DECL_CLOSE => Ok (to H_prolog2 s, R_DOCTYPE_CLOSE)
  | T_NAME => on_kw buf [(KW_SYSTEM, (to H_doctype3 s, R_DOCTYPE_NONE)); (KW_PUBLIC, (to H_doctype2 s, R_DOCTYPE_NONE))] (common s tok)
  | _ => Ok (common s tok)
  end.
(* src/lib/xmlrole.rs:503-518 *)
Definition doctype2 (s : pstate) (tok : XML_TOK) : hres :=
  match tok with
  | T_PROLOG_S => Ok (s, R_DOCTYPE_NONE)
  | T_LITERAL => Ok (to H_doctype3 s, R_DOCTYPE_PUBLIC_ID)
  | _ => Ok (common s tok)
  end.
(* src/lib/xmlrole.rs:520-535 *)
Definition doctype3 (s : pstate) (tok : XML_TOK) : hres :=
  match tok with
  | T_PROLOG_S => Ok (s, R_DOCTYPE_NONE)
  | T_LITERAL => Ok (to H_doctype4 s, R_DOCTYPE_SYSTEM_ID)
  | _ => Ok (common s tok)
  end.
(* src/lib/xmlrole.rs:537-556 *)
Definition doctype4 (s : pstate) (tok : XML_TOK) : hres :=
  match tok with
  | T_PROLOG_S => Ok (s, R_DOCTYPE_NONE)
  | T_OPEN_BRACKET => Ok (to H_internalSubset s, R_DOCTYPE_INTERNAL_SUBSET)
  | T_DECL_CLOSE => Ok (to H_prolog2 s, R_DOCTYPE_CLOSE)
  | _ => Ok (common s tok)
  end.
(* src/lib/xmlrole.rs:558-573 *)
Definition doctype5 (s : pstate) (tok : XML_TOK) : hres :=
  match tok with
  | T_PROLOG_S => Ok (s, R_DOCTYPE_NONE)
  | T_DECL_CLOSE => Ok (to H_prolog2 s, R_DOCTYPE_CLOSE)
  | _ => Ok (common s tok)
  end.
(* src/lib/xmlrole.rs:575-625 *)
Definition internalSubset (s : pstate) (tok : XML_TOK) (buf : bytes) : hres :=
  match tok with
  | T_PROLOG_S => Ok (s, R_NONE)
  | T_DECL_OPEN =>
      let* b := inc_start (2 * minbpc e) buf in
      on_kw b [(KW_ENTITY, (to H_entity0 s, R_ENTITY_NONE)); (KW_ATTLIST, (to H_attlist0 s, R_ATTLIST_NONE));
               (KW_ELEMENT, (to H_element0 s, R_ELEMENT_NONE)); (KW_NOTATION, (to H_notation0 s, R_NOTATION_NONE))] (common s tok)
  | T_PI => Ok (s, R_PI)
  | T_COMMENT => Ok (s, R_COMMENT)
  | T_PARAM_ENTITY_REF => Ok (s, R_PARAM_ENTITY_REF)
  | T_CLOSE_BRACKET => Ok (to H_doctype5 s, R_DOCTYPE_NONE)
  | T_NONE => Ok (s, R_NONE)
  | _ => Ok (common s tok)
  end.
(* src/lib/xmlrole.rs:640-667 *)
Definition externalSubset1 (s : pstate) (tok : XML_TOK) (buf : bytes) : hres :=
  match tok with
  | T_COND_SECT_OPEN => Ok (to H_condSect0 s, R_NONE)
  | T_COND_SECT_CLOSE =>
      if include s =? 0 then Ok (common s tok) else Ok (set_include (u32_pred (include s)) s, R_NONE)
  | T_PROLOG_S => Ok (s, R_NONE)
  | T_CLOSE_BRACKET => Ok (common s tok)
  | T_NONE => if include s =? 0 then Ok (s, R_NONE) else Ok (common s tok)
  | _ => internalSubset s tok buf
  end.
(* src/lib/xmlrole.rs:627-638 *)
Definition externalSubset0 (s : pstate) (tok : XML_TOK) (buf : bytes) : hres :=
  if tok_eqb tok T_XML_DECL then Ok (to H_externalSubset1 s, R_TEXT_DECL)
  else externalSubset1 (to H_externalSubset1 s) tok buf.
(* src/lib/xmlrole.rs:670-689 *)
Definition entity0 (s : pstate) (tok : XML_TOK) : hres :=
  match tok with
  | T_PROLOG_S => Ok (s, R_ENTITY_NONE)
  | T_PERCENT => Ok (to H_entity1 s, R_ENTITY_NONE)
  | T_NAME => Ok (to H_entity2 s, R_GENERAL_ENTITY_NAME)
  | _ => Ok (common s tok)
  end.
(* src/lib/xmlrole.rs:691-706 *)
Definition entity1 (s : pstate) (tok : XML_TOK) : hres :=
  match tok with
  | T_PROLOG_S => Ok (s, R_ENTITY_NONE)
  | T_NAME => Ok (to H_entity7 s, R_PARAM_ENTITY_NAME)
  | _ => Ok (common s tok)
  end.
(* src/lib/xmlrole.rs:708-734 *)
Definition entity2 (s : pstate) (tok : XML_TOK) (buf : bytes) : hres :=
  match tok with
  | T_PROLOG_S => Ok (s, R_ENTITY_NONE)
  | T_NAME => on_kw buf [(KW_SYSTEM, (to H_entity4 s, R_ENTITY_NONE)); (KW_PUBLIC, (to H_entity3 s, R_ENTITY_NONE))] (common s tok)
  | T_LITERAL => Ok (set_none R_ENTITY_NONE (to H_declClose s), R_ENTITY_VALUE)
  | _ => Ok (common s tok)
  end.
(* src/lib/xmlrole.rs:736-751 *)
Definition entity3 (s : pstate) (tok : XML_TOK) : hres :=
  match tok with
  | T_PROLOG_S => Ok (s, R_ENTITY_NONE)
  | T_LITERAL => Ok (to H_entity4 s, R_ENTITY_PUBLIC_ID)
  | _ => Ok (common s tok)
  end.
(* src/lib/xmlrole.rs:753-768 *)
Definition entity4 (s : pstate) (tok : XML_TOK) : hres :=
  match tok with
  | T_PROLOG_S => Ok (s, R_ENTITY_NONE)
  | T_LITERAL => Ok (to H_entity5 s, R_ENTITY_SYSTEM_ID)
  | _ => Ok (common s tok)
  end.
(* src/lib/xmlrole.rs:770-795 *)
Definition entity5 (s : pstate) (tok : XML_TOK) (buf : bytes) : hres :=
  match tok with
  | T_PROLOG_S => Ok (s, R_ENTITY_NONE)
  | T_DECL_CLOSE => Ok (subset s, R_ENTITY_COMPLETE)
  | T_NAME => on_kw buf [(KW_NDATA, (to H_entity6 s, R_ENTITY_NONE))] (common s tok)
  | _ => Ok (common s tok)
  end.
(* src/lib/xmlrole.rs:797-813 *)
Definition entity6 (s : pstate) (tok : XML_TOK) : hres :=
  match tok with
  | T_PROLOG_S => Ok (s, R_ENTITY_NONE)
  | T_NAME => Ok (set_none R_ENTITY_NONE (to H_declClose s), R_ENTITY_NOTATION_NAME)
  | _ => Ok (common s tok)
  end.
(* src/lib/xmlrole.rs:815-841 *)
Definition entity7 (s : pstate) (tok : XML_TOK) (buf : bytes) : hres :=
  match tok with
  | T_PROLOG_S => Ok (s, R_ENTITY_NONE)
  | T_NAME => on_kw buf [(KW_SYSTEM, (to H_entity9 s, R_ENTITY_NONE)); (KW_PUBLIC, (to H_entity8 s, R_ENTITY_NONE))] (common s tok)
  | T_LITERAL => Ok (set_none R_ENTITY_NONE (to H_declClose s), R_ENTITY_VALUE)
  | _ => Ok (common s tok)
  end.
(* src/lib/xmlrole.rs:843-858 *)
Definition entity8 (s : pstate) (tok : XML_TOK) : hres :=
  match tok with
  | T_PROLOG_S => Ok (s, R_ENTITY_NONE)
  | T_LITERAL => Ok (to H_entity9 s, R_ENTITY_PUBLIC_ID)
  | _ => Ok (common s tok)
  end.
(* src/lib/xmlrole.rs:860-875 *)
Definition entity9 (s : pstate) (tok : XML_TOK) : hres :=
  match tok with
  | T_PROLOG_S => Ok (s, R_ENTITY_NONE)
  | T_LITERAL => Ok (to H_entity10 s, R_ENTITY_SYSTEM_ID)
  | _ => Ok (common s tok)
  end.
(* src/lib/xmlrole.rs:877-896 *)
Definition entity10 (s : pstate) (tok : XML_TOK) : hres :=
  match tok with
  | T_PROLOG_S => Ok (s, R_ENTITY_NONE)
  | T_DECL_CLOSE => Ok (subset s, R_ENTITY_COMPLETE)
  | _ => Ok (common s tok)
  end.
(* src/lib/xmlrole.rs:898-913 *)
Definition notation0 (s : pstate) (tok : XML_TOK) : hres :=
  match tok with
  | T_PROLOG_S => Ok (s, R_NOTATION_NONE)
  | T_NAME => Ok (to H_notation1 s, R_NOTATION_NAME)
  | _ => Ok (common s tok)
  end.
(* src/lib/xmlrole.rs:915-936 *)
Definition notation1 (s : pstate) (tok : XML_TOK) (buf : bytes) : hres :=
  match tok with
  | T_PROLOG_S => Ok (s, R_NOTATION_NONE)
  | T_NAME => on_kw buf [(KW_SYSTEM, (to H_notation3 s, R_NOTATION_NONE)); (KW_PUBLIC, (to H_notation2 s, R_NOTATION_NONE))] (common s tok)
  | _ => Ok (common s tok)
  end.
(* src/lib/xmlrole.rs:938-953 *)
Definition notation2 (s : pstate) (tok : XML_TOK) : hres :=
  match tok with
  | T_PROLOG_S => Ok (s, R_NOTATION_NONE)
  | T_LITERAL => Ok (to H_notation4 s, R_NOTATION_PUBLIC_ID)
  | _ => Ok (common s tok)
  end.
(* src/lib/xmlrole.rs:955-971 *)
Definition notation3 (s : pstate) (tok : XML_TOK) : hres :=
  match tok with
  | T_PROLOG_S => Ok (s, R_NOTATION_NONE)
  | T_LITERAL => Ok (set_none R_NOTATION_NONE (to H_declClose s), R_NOTATION_SYSTEM_ID)
  | _ => Ok (common s tok)
  end.
(* src/lib/xmlrole.rs:973-997 *)
Definition notation4 (s : pstate) (tok : XML_TOK) : hres :=
  match tok with
  | T_PROLOG_S => Ok (s, R_NOTATION_NONE)
  | T_LITERAL => Ok (set_none R_NOTATION_NONE (to H_declClose s), R_NOTATION_SYSTEM_ID)
  | T_DECL_CLOSE => Ok (subset s, R_NOTATION_NO_SYSTEM_ID)
  | _ => Ok (common s tok)
  end.
(* src/lib/xmlrole.rs:999-1014 *)
Definition attlist0 (s : pstate) (tok : XML_TOK) : hres :=
  match tok with
  | T_PROLOG_S => Ok (s, R_ATTLIST_NONE)
  | T_NAME | T_PREFIXED_NAME => Ok (to H_attlist1 s, R_ATTLIST_ELEMENT_NAME)
  | _ => Ok (common s tok)
  end.
(* src/lib/xmlrole.rs:1016-1039 *)
Definition attlist1 (s : pstate) (tok : XML_TOK) : hres :=
  match tok with
  | T_PROLOG_S => Ok (s, R_ATTLIST_NONE)
  | T_DECL_CLOSE => Ok (subset s, R_ATTLIST_NONE)
  | T_NAME | T_PREFIXED_NAME => Ok (to H_attlist2 s, R_ATTRIBUTE_NAME)
  | _ => Ok (common s tok)
  end.
(* src/lib/xmlrole.rs:1041-1088; the eight types are tried in order, then NOTATION *)
Definition attlist2 (s : pstate) (tok : XML_TOK) (buf : bytes) : hres :=
  match tok with
  | T_PROLOG_S => Ok (s, R_ATTLIST_NONE)
  | T_NAME =>
      on_kw buf [(KW_CDATA, (to H_attlist8 s, R_ATTRIBUTE_TYPE_CDATA)); (KW_ID, (to H_attlist8 s, R_ATTRIBUTE_TYPE_ID));
                 (KW_IDREF, (to H_attlist8 s, R_ATTRIBUTE_TYPE_IDREF)); (KW_IDREFS, (to H_attlist8 s, R_ATTRIBUTE_TYPE_IDREFS));
                 (KW_ENTITY, (to H_attlist8 s, R_ATTRIBUTE_TYPE_ENTITY)); (KW_ENTITIES, (to H_attlist8 s, R_ATTRIBUTE_TYPE_ENTITIES));
                 (KW_NMTOKEN, (to H_attlist8 s, R_ATTRIBUTE_TYPE_NMTOKEN)); (KW_NMTOKENS, (to H_attlist8 s, R_ATTRIBUTE_TYPE_NMTOKENS));
                 (KW_NOTATION, (to H_attlist5 s, R_ATTLIST_NONE))] (common s tok)
  | T_OPEN_PAREN => Ok (to H_attlist3 s, R_ATTLIST_NONE)
  | _ => Ok (common s tok)
  end.
(* src/lib/xmlrole.rs:1090-1107 *)
Definition attlist3 (s : pstate) (tok : XML_TOK) : hres :=
  match tok with
  | T_PROLOG_S => Ok (s, R_ATTLIST_NONE)
  | T_NMTOKEN | T_NAME | T_PREFIXED_NAME => Ok (to H_attlist4 s, R_ATTRIBUTE_ENUM_VALUE)
  | _ => Ok (common s tok)
  end.
(* src/lib/xmlrole.rs:1109-1128 *)
Definition attlist4 (s : pstate) (tok : XML_TOK) : hres :=
  match tok with
  | T_PROLOG_S => Ok (s, R_ATTLIST_NONE)
  | T_CLOSE_PAREN => Ok (to H_attlist8 s, R_ATTLIST_NONE)
  | T_OR => Ok (to H_attlist3 s, R_ATTLIST_NONE)
  | _ => Ok (common s tok)
  end.
(* src/lib/xmlrole.rs:1130-1145 *)
Definition attlist5 (s : pstate) (tok : XML_TOK) : hres :=
  match tok with
  | T_PROLOG_S => Ok (s, R_ATTLIST_NONE)
  | T_OPEN_PAREN => Ok (to H_attlist6 s, R_ATTLIST_NONE)
  | _ => Ok (common s tok)
  end.
(* src/lib/xmlrole.rs:1147-1162 *)
Definition attlist6 (s : pstate) (tok : XML_TOK) : hres :=
  match tok with
  | T_PROLOG_S => Ok (s, R_ATTLIST_NONE)
  | T_NAME => Ok (to H_attlist7 s, R_ATTRIBUTE_NOTATION_VALUE)
  | _ => Ok (common s tok)
  end.
(* src/lib/xmlrole.rs:1164-1183 *)
Definition attlist7 (s : pstate) (tok : XML_TOK) : hres :=
  match tok with
  | T_PROLOG_S => Ok (s, R_ATTLIST_NONE)
  | T_CLOSE_PAREN => Ok (to H_attlist8 s, R_ATTLIST_NONE)
  | T_OR => Ok (to H_attlist6 s, R_ATTLIST_NONE)
  | _ => Ok (common s tok)
  end.
(* src/lib/xmlrole.rs:1186-1227 *)
Definition attlist8 (s : pstate) (tok : XML_TOK) (buf : bytes) : hres :=
  match tok with
  | T_PROLOG_S => Ok (s, R_ATTLIST_NONE)
  | T_POUND_NAME =>
      let* b := inc_start (minbpc e) buf in
      on_kw b [(KW_IMPLIED, (to H_attlist1 s, R_IMPLIED_ATTRIBUTE_VALUE)); (KW_REQUIRED, (to H_attlist1 s, R_REQUIRED_ATTRIBUTE_VALUE));
               (KW_FIXED, (to H_attlist9 s, R_ATTLIST_NONE))] (common s tok)
  | T_LITERAL => Ok (to H_attlist1 s, R_DEFAULT_ATTRIBUTE_VALUE)
  | _ => Ok (common s tok)
  end.
(* src/lib/xmlrole.rs:1229-1244 *)
Definition attlist9 (s : pstate) (tok : XML_TOK) : hres :=
  match tok with
  | T_PROLOG_S => Ok (s, R_ATTLIST_NONE)
  | T_LITERAL => Ok (to H_attlist1 s, R_FIXED_ATTRIBUTE_VALUE)
  | _ => Ok (common s tok)
  end.
(* src/lib/xmlrole.rs:1246-1261 *)
Definition element0 (s : pstate) (tok : XML_TOK) : hres :=
  match tok with
  | T_PROLOG_S => Ok (s, R_ELEMENT_NONE)
  | T_NAME | T_PREFIXED_NAME => Ok (to H_element1 s, R_ELEMENT_NAME)
  | _ => Ok (common s tok)
  end.
(* src/lib/xmlrole.rs:1263-1291 *)
Definition element1 (s : pstate) (tok : XML_TOK) (buf : bytes) : hres :=
  match tok with
  | T_PROLOG_S => Ok (s, R_ELEMENT_NONE)
  | T_NAME =>
      on_kw buf [(KW_EMPTY, (set_none R_ELEMENT_NONE (to H_declClose s), R_CONTENT_EMPTY));
                 (KW_ANY, (set_none R_ELEMENT_NONE (to H_declClose s), R_CONTENT_ANY))] (common s tok)
  | T_OPEN_PAREN => Ok (set_level 1 (to H_element2 s), R_GROUP_OPEN)
  | _ => Ok (common s tok)
  end.
(* src/lib/xmlrole.rs:1293-1335 *)
Definition element2 (s : pstate) (tok : XML_TOK) (buf : bytes) : hres :=
  match tok with
  | T_PROLOG_S => Ok (s, R_ELEMENT_NONE)
  | T_POUND_NAME =>
      let* b := inc_start (minbpc e) buf in
      on_kw b [(KW_PCDATA, (to H_element3 s, R_CONTENT_PCDATA))] (common s tok)
  | T_OPEN_PAREN => Ok (to H_element6 (set_level 2 s), R_GROUP_OPEN)
  | T_NAME | T_PREFIXED_NAME => Ok (to H_element7 s, R_CONTENT_ELEMENT)
  | T_NAME_QUESTION => Ok (to H_element7 s, R_CONTENT_ELEMENT_OPT)
  | T_NAME_ASTERISK => Ok (to H_element7 s, R_CONTENT_ELEMENT_REP)
  | T_NAME_PLUS => Ok (to H_element7 s, R_CONTENT_ELEMENT_PLUS)
  | _ => Ok (common s tok)
  end.
(* src/lib/xmlrole.rs:1337-1362 *)
Definition element3 (s : pstate) (tok : XML_TOK) : hres :=
  match tok with
  | T_PROLOG_S => Ok (s, R_ELEMENT_NONE)
  | T_CLOSE_PAREN => Ok (set_none R_ELEMENT_NONE (to H_declClose s), R_GROUP_CLOSE)
  | T_CLOSE_PAREN_ASTERISK => Ok (set_none R_ELEMENT_NONE (to H_declClose s), R_GROUP_CLOSE_REP)
  | T_OR => Ok (to H_element4 s, R_ELEMENT_NONE)
  | _ => Ok (common s tok)
  end.
(* src/lib/xmlrole.rs:1364-1379 *)
Definition element4 (s : pstate) (tok : XML_TOK) : hres :=
  match tok with
  | T_PROLOG_S => Ok (s, R_ELEMENT_NONE)
  | T_NAME | T_PREFIXED_NAME => Ok (to H_element5 s, R_CONTENT_ELEMENT)
  | _ => Ok (common s tok)
  end.
(* src/lib/xmlrole.rs:1381-1401 *)
Definition element5 (s : pstate) (tok : XML_TOK) : hres :=
  match tok with
  | T_PROLOG_S => Ok (s, R_ELEMENT_NONE)
  | T_CLOSE_PAREN_ASTERISK => Ok (set_none R_ELEMENT_NONE (to H_declClose s), R_GROUP_CLOSE_REP)
  | T_OR => Ok (to H_element4 s, R_ELEMENT_NONE)
  | _ => Ok (common s tok)
  end.
(* src/lib/xmlrole.rs:1403-1434 *)
Definition element6 (s : pstate) (tok : XML_TOK) : hres :=
  match tok with
  | T_PROLOG_S => Ok (s, R_ELEMENT_NONE)
  | T_OPEN_PAREN => Ok (set_level (u32_succ (level s)) s, R_GROUP_OPEN)
  | T_NAME | T_PREFIXED_NAME => Ok (to H_element7 s, R_CONTENT_ELEMENT)
  | T_NAME_QUESTION => Ok (to H_element7 s, R_CONTENT_ELEMENT_OPT)
  | T_NAME_ASTERISK => Ok (to H_element7 s, R_CONTENT_ELEMENT_REP)
  | T_NAME_PLUS => Ok (to H_element7 s, R_CONTENT_ELEMENT_PLUS)
  | _ => Ok (common s tok)
  end.
(* the closing of a group, e.g. src/lib/xmlrole.rs:1444-1450 *)
Definition close_group (s : pstate) : pstate :=
  let s1 := set_level (u32_pred (level s)) s in
  if level s1 =? 0 then set_none R_ELEMENT_NONE (to H_declClose s1) else s1.
(* src/lib/xmlrole.rs:1436-1487 *)
Definition element7 (s : pstate) (tok : XML_TOK) : hres :=
  match tok with
  | T_PROLOG_S => Ok (s, R_ELEMENT_NONE)
  | T_CLOSE_PAREN => Ok (close_group s, R_GROUP_CLOSE)
  | T_CLOSE_PAREN_ASTERISK => Ok (close_group s, R_GROUP_CLOSE_REP)
  | T_CLOSE_PAREN_QUESTION => Ok (close_group s, R_GROUP_CLOSE_OPT)
  | T_CLOSE_PAREN_PLUS => Ok (close_group s, R_GROUP_CLOSE_PLUS)
  | T_COMMA => Ok (to H_element6 s, R_GROUP_SEQUENCE)
  | T_OR => Ok (to H_element6 s, R_GROUP_CHOICE)
  | _ => Ok (common s tok)
  end.
(* src/lib/xmlrole.rs:1489-1510 *)
Definition condSect0 (s : pstate) (tok : XML_TOK) (buf : bytes) : hres :=
  match tok with
  | T_PROLOG_S => Ok (s, R_NONE)
  | T_NAME => on_kw buf [(KW_INCLUDE, (to H_condSect1 s, R_NONE)); (KW_IGNORE, (to H_condSect2 s, R_NONE))] (common s tok)
  | _ => Ok (common s tok)
  end.
(* src/lib/xmlrole.rs:1512-1528 *)
Definition condSect1 (s : pstate) (tok : XML_TOK) : hres :=
  match tok with
  | T_PROLOG_S => Ok (s, R_NONE)
  | T_OPEN_BRACKET => Ok (set_include (u32_succ (include s)) (to H_externalSubset1 s), R_NONE)
  | _ => Ok (common s tok)
  end.
(* src/lib/xmlrole.rs:1530-1545 *)
Definition condSect2 (s : pstate) (tok : XML_TOK) : hres :=
  match tok with
  | T_PROLOG_S => Ok (s, R_NONE)
  | T_OPEN_BRACKET => Ok (to H_externalSubset1 s, R_IGNORE_SECT)
  | _ => Ok (common s tok)
  end.
(* src/lib/xmlrole.rs:1548-1567 *)
Definition declClose (s : pstate) (tok : XML_TOK) : hres :=
  match tok with
  | T_PROLOG_S => Ok (s, role_none s)
  | T_DECL_CLOSE => Ok (subset s, role_none s)
  | _ => Ok (common s tok)
  end.

(* the call through the function pointer; error is src/lib/xmlrole.rs:1589-1596 *)
Definition token_role (s : pstate) (tok : XML_TOK) (buf : bytes) : hres :=
  match hd s with
  | H_prolog0 => prolog0 s tok buf | H_prolog1 => prolog1 s tok buf | H_prolog2 => prolog2 s tok
  | H_doctype0 => doctype0 s tok | H_doctype1 => doctype1 s tok buf | H_doctype2 => doctype2 s tok
  | H_doctype3 => doctype3 s tok | H_doctype4 => doctype4 s tok | H_doctype5 => doctype5 s tok
  | H_internalSubset => internalSubset s tok buf | H_externalSubset0 => externalSubset0 s tok buf
  | H_externalSubset1 => externalSubset1 s tok buf
  | H_entity0 => entity0 s tok | H_entity1 => entity1 s tok | H_entity2 => entity2 s tok buf
  | H_entity3 => entity3 s tok | H_entity4 => entity4 s tok | H_entity5 => entity5 s tok buf
  | H_entity6 => entity6 s tok | H_entity7 => entity7 s tok buf | H_entity8 => entity8 s tok
  | H_entity9 => entity9 s tok | H_entity10 => entity10 s tok
  | H_notation0 => notation0 s tok | H_notation1 => notation1 s tok buf | H_notation2 => notation2 s tok
  | H_notation3 => notation3 s tok | H_notation4 => notation4 s tok
  | H_attlist0 => attlist0 s tok | H_attlist1 => attlist1 s tok | H_attlist2 => attlist2 s tok buf
  | H_attlist3 => attlist3 s tok | H_attlist4 => attlist4 s tok | H_attlist5 => attlist5 s tok
  | H_attlist6 => attlist6 s tok | H_attlist7 => attlist7 s tok | H_attlist8 => attlist8 s tok buf
  | H_attlist9 => attlist9 s tok
  | H_element0 => element0 s tok | H_element1 => element1 s tok buf | H_element2 => element2 s tok buf
  | H_element3 => element3 s tok | H_element4 => element4 s tok | H_element5 => element5 s tok
  | H_element6 => element6 s tok | H_element7 => element7 s tok
  | H_condSect0 => condSect0 s tok buf | H_condSect1 => condSect1 s tok | H_condSect2 => condSect2 s tok
  | H_declClose => declClose s tok
  | H_error => Ok (s, R_NONE)
  end.

(* the handler called on one token after the other, as doProlog does, src/lib/xmlparse.rs:5740-5745 *)
Fixpoint token_roles (s : pstate) (l : list (XML_TOK * bytes)) : res (list ROLE * pstate) :=
  match l with
  | [] => Ok ([], s)
  | (tok, buf) :: l' =>
      let* (s1, r) := token_role s tok buf in
      let* (rs, s2) := token_roles s1 l' in
      Ok (r :: rs, s2)
  end.
End WithEnc.

(* XmlPrologStateInit, src/lib/xmlrole.rs:1608-1614: [level] and [role_none] keep what they were *)
Definition prolog_init (s : pstate) : pstate :=
  {| hd := H_prolog0; level := level s; role_none := role_none s; include := 0; doc := true |}.
(* XmlPrologStateInitExternalEntity, src/lib/xmlrole.rs:1617-1621 *)
Definition external_init (s : pstate) : pstate :=
  {| hd := H_externalSubset0; level := level s; role_none := role_none s; include := 0; doc := false |}.
(* prolog_state::default, src/lib/xmlrole.rs:112-113.  The null handler is not represented: every
   use is preceded by one of the two functions above. *)
Definition prolog_default : pstate :=
  {| hd := H_error; level := 0; role_none := R_NONE; include := 0; doc := false |}.
