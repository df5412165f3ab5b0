(* The grammar of the prolog and of the external subset, over tokens.  A piece of a prolog is a token,
   its text, and what the declaration means by it.  White space between tokens is left out.  Nothing
   here refers to the machine that recognises them. *)
From Coq Require Import String List NArith Bool.
From Verif Require Import Base Encoding SpecText SpecUnicode SpecLex Role.
Import ListNotations.
Local Open Scope list_scope.

Definition piece := (XML_TOK * bytes * ROLE)%type.
Definition tok_of (p : piece) : XML_TOK := fst (fst p).
Definition role_of (p : piece) : ROLE := snd p.
(* tokens whose text is of no interest *)
Definition punct (t : XML_TOK) (r : ROLE) : piece := (t, [], r).

(* How an encoding writes ASCII characters. *)
Inductive ascii_writing : EncImpl -> (N -> list N) -> Prop :=
| aw_text e enc dom lat ns : text_encoding e enc dom lat ns -> ascii_writing e enc
| aw_be : ascii_writing big2_encoding utf16be_encode
| aw_be_ns : ascii_writing big2_encoding_ns utf16be_encode
| aw_internal : ascii_writing internal_utf8_encoding utf8_encode  (* text of internal entities *)
| aw_internal_ns : ascii_writing internal_utf8_encoding_ns utf8_encode.

Record qname := { prefixed : bool; spelt : bytes }.
Definition name (n : qname) (r : ROLE) : piece := (if prefixed n then T_PREFIXED_NAME else T_NAME, spelt n, r).

Inductive quant := One | Opt | Rep | Plus.
(* [48] cp, [49] choice, [50] seq; that the connectors of one group agree is not asked here *)
Inductive cp :=
| Leaf (n : qname) (q : quant)
| Group (first : cp) (rest : cps) (q : quant)
with cps :=
| Done
| And (choice : bool) (c : cp) (rest : cps).

Definition leaf (n : qname) (q : quant) : piece :=
  match q with
  | One => name n R_CONTENT_ELEMENT
  | Opt => (T_NAME_QUESTION, spelt n, R_CONTENT_ELEMENT_OPT)
  | Rep => (T_NAME_ASTERISK, spelt n, R_CONTENT_ELEMENT_REP)
  | Plus => (T_NAME_PLUS, spelt n, R_CONTENT_ELEMENT_PLUS)
  end.
(* a name with a quantifier is one token, which does not say whether the name has a prefix *)
Definition plain_leaf (n : qname) (q : quant) : Prop := q = One \/ prefixed n = false.
Definition close (q : quant) : piece :=
  match q with
  | One => punct T_CLOSE_PAREN R_GROUP_CLOSE
  | Opt => punct T_CLOSE_PAREN_QUESTION R_GROUP_CLOSE_OPT
  | Rep => punct T_CLOSE_PAREN_ASTERISK R_GROUP_CLOSE_REP
  | Plus => punct T_CLOSE_PAREN_PLUS R_GROUP_CLOSE_PLUS
  end.
Definition connector (choice : bool) : piece :=
  if choice then punct T_OR R_GROUP_CHOICE else punct T_COMMA R_GROUP_SEQUENCE.
Fixpoint s_cp (c : cp) : list piece :=
  match c with
  | Leaf n q => [leaf n q]
  | Group first rest q => punct T_OPEN_PAREN R_GROUP_OPEN :: s_cp first ++ s_cps rest ++ [close q]
  end
with s_cps (l : cps) : list piece :=
  match l with
  | Done => []
  | And choice c rest => connector choice :: s_cp c ++ s_cps rest
  end.
Fixpoint wf_cp (c : cp) : Prop :=
  match c with Leaf n q => plain_leaf n q | Group first rest q => wf_cp first /\ wf_cps rest end
with wf_cps (l : cps) : Prop :=
  match l with Done => True | And _ c rest => wf_cp c /\ wf_cps rest end.

Section Spelling.
Variable enc : N -> list N.
Definition kw (s : string) : bytes := flat_map enc (txt s).

(* [46] contentspec, [51] Mixed *)
Inductive content :=
| Empty | Any | Pcdata | Mixed (names : list qname)
| Children (first : cp) (rest : cps) (q : quant).
Definition s_content (c : content) : list piece :=
  match c with
  | Empty => [(T_NAME, kw "EMPTY", R_CONTENT_EMPTY)]
  | Any => [(T_NAME, kw "ANY", R_CONTENT_ANY)]
  | Pcdata => [punct T_OPEN_PAREN R_GROUP_OPEN; (T_POUND_NAME, kw "PCDATA", R_CONTENT_PCDATA); close One]
  | Mixed ns => punct T_OPEN_PAREN R_GROUP_OPEN :: (T_POUND_NAME, kw "PCDATA", R_CONTENT_PCDATA) ::
      flat_map (fun n => [punct T_OR R_ELEMENT_NONE; name n R_CONTENT_ELEMENT]) ns ++ [close Rep]
  | Children first rest q => s_cp (Group first rest q)
  end.
Definition wf_content (c : content) : Prop :=
  match c with Children first rest q => wf_cp (Group first rest q) | _ => True end.

(* [54]-[59] attribute types, [60] DefaultDecl *)
Inductive simple_type := TCdata | TId | TIdref | TIdrefs | TEntity | TEntities | TNmtoken | TNmtokens.
Inductive att_type :=
| Simple (t : simple_type)
| Enum (first : XML_TOK * bytes) (rest : list (XML_TOK * bytes))
| NotationType (first : bytes) (rest : list bytes).
Inductive att_default := Implied | Required | Default (lit : bytes) | Fixed (lit : bytes).
Definition enum_token (t : XML_TOK) : Prop := t = T_NMTOKEN \/ t = T_NAME \/ t = T_PREFIXED_NAME.
Definition s_type (t : att_type) : list piece :=
  match t with
  | Simple TCdata => [(T_NAME, kw "CDATA", R_ATTRIBUTE_TYPE_CDATA)]
  | Simple TId => [(T_NAME, kw "ID", R_ATTRIBUTE_TYPE_ID)]
  | Simple TIdref => [(T_NAME, kw "IDREF", R_ATTRIBUTE_TYPE_IDREF)]
  | Simple TIdrefs => [(T_NAME, kw "IDREFS", R_ATTRIBUTE_TYPE_IDREFS)]
  | Simple TEntity => [(T_NAME, kw "ENTITY", R_ATTRIBUTE_TYPE_ENTITY)]
  | Simple TEntities => [(T_NAME, kw "ENTITIES", R_ATTRIBUTE_TYPE_ENTITIES)]
  | Simple TNmtoken => [(T_NAME, kw "NMTOKEN", R_ATTRIBUTE_TYPE_NMTOKEN)]
  | Simple TNmtokens => [(T_NAME, kw "NMTOKENS", R_ATTRIBUTE_TYPE_NMTOKENS)]
  | Enum x l => punct T_OPEN_PAREN R_ATTLIST_NONE :: (fst x, snd x, R_ATTRIBUTE_ENUM_VALUE) ::
      flat_map (fun y => [punct T_OR R_ATTLIST_NONE; (fst y, snd y, R_ATTRIBUTE_ENUM_VALUE)]) l ++
      [punct T_CLOSE_PAREN R_ATTLIST_NONE]
  | NotationType x l => (T_NAME, kw "NOTATION", R_ATTLIST_NONE) :: punct T_OPEN_PAREN R_ATTLIST_NONE ::
      (T_NAME, x, R_ATTRIBUTE_NOTATION_VALUE) ::
      flat_map (fun y => [punct T_OR R_ATTLIST_NONE; (T_NAME, y, R_ATTRIBUTE_NOTATION_VALUE)]) l ++
      [punct T_CLOSE_PAREN R_ATTLIST_NONE]
  end.
Definition wf_type (t : att_type) : Prop :=
  match t with Enum x l => Forall (fun y => enum_token (fst y)) (x :: l) | _ => True end.
Definition s_default (d : att_default) : list piece :=
  match d with
  | Implied => [(T_POUND_NAME, kw "IMPLIED", R_IMPLIED_ATTRIBUTE_VALUE)]
  | Required => [(T_POUND_NAME, kw "REQUIRED", R_REQUIRED_ATTRIBUTE_VALUE)]
  | Default v => [(T_LITERAL, v, R_DEFAULT_ATTRIBUTE_VALUE)]
  | Fixed v => [(T_POUND_NAME, kw "FIXED", R_ATTLIST_NONE); (T_LITERAL, v, R_FIXED_ATTRIBUTE_VALUE)]
  end.
(* [53] AttDef *)
Definition att_def := (qname * att_type * att_default)%type.
Definition s_att (a : att_def) : list piece :=
  let '(n, t, d) := a in name n R_ATTRIBUTE_NAME :: s_type t ++ s_default d.

(* [75] ExternalID, [83] PublicID *)
Inductive ext_id := System (sys : bytes) | Public (pub sys : bytes).
Definition s_ext (none pubid sysid : ROLE) (x : ext_id) : list piece :=
  match x with
  | System s => [(T_NAME, kw "SYSTEM", none); (T_LITERAL, s, sysid)]
  | Public p s => [(T_NAME, kw "PUBLIC", none); (T_LITERAL, p, pubid); (T_LITERAL, s, sysid)]
  end.
(* [73] EntityDef, [74] PEDef *)
Inductive entity_def := Value (lit : bytes) | External (x : ext_id) | Unparsed (x : ext_id) (notation : bytes).
Definition s_entity (d : entity_def) : list piece :=
  match d with
  | Value v => [(T_LITERAL, v, R_ENTITY_VALUE); punct T_DECL_CLOSE R_ENTITY_NONE]
  | External x => s_ext R_ENTITY_NONE R_ENTITY_PUBLIC_ID R_ENTITY_SYSTEM_ID x ++ [punct T_DECL_CLOSE R_ENTITY_COMPLETE]
  | Unparsed x n => s_ext R_ENTITY_NONE R_ENTITY_PUBLIC_ID R_ENTITY_SYSTEM_ID x ++
      [(T_NAME, kw "NDATA", R_ENTITY_NONE); (T_NAME, n, R_ENTITY_NOTATION_NAME); punct T_DECL_CLOSE R_ENTITY_NONE]
  end.
(* [82] NotationDecl *)
Inductive notation_id := NotationExt (x : ext_id) | NotationPublic (pub : bytes).
Definition s_notation (x : notation_id) : list piece :=
  match x with
  | NotationExt x => s_ext R_NOTATION_NONE R_NOTATION_PUBLIC_ID R_NOTATION_SYSTEM_ID x ++ [punct T_DECL_CLOSE R_NOTATION_NONE]
  | NotationPublic p => [(T_NAME, kw "PUBLIC", R_NOTATION_NONE); (T_LITERAL, p, R_NOTATION_PUBLIC_ID); punct T_DECL_CLOSE R_NOTATION_NO_SYSTEM_ID]
  end.

(* [29] markupdecl and [28a] DeclSep.  The text of a T_DECL_OPEN token is what follows the "<!", that
   of a T_POUND_NAME token what follows the "#". *)
Inductive decl :=
| DElement (n : qname) (c : content)
| DAttlist (n : qname) (l : list att_def)
| DEntity (n : bytes) (d : entity_def)
| DParamEntity (n : bytes) (d : entity_def)
| DNotation (n : bytes) (x : notation_id)
| DPi (t : bytes) | DComment (t : bytes) | DParamRef (t : bytes).
Definition s_decl (d : decl) : list piece :=
  match d with
  | DElement n c => (T_DECL_OPEN, kw "ELEMENT", R_ELEMENT_NONE) :: name n R_ELEMENT_NAME :: s_content c ++ [punct T_DECL_CLOSE R_ELEMENT_NONE]
  | DAttlist n l => (T_DECL_OPEN, kw "ATTLIST", R_ATTLIST_NONE) :: name n R_ATTLIST_ELEMENT_NAME :: flat_map s_att l ++ [punct T_DECL_CLOSE R_ATTLIST_NONE]
  | DEntity n d => (T_DECL_OPEN, kw "ENTITY", R_ENTITY_NONE) :: (T_NAME, n, R_GENERAL_ENTITY_NAME) :: s_entity d
  | DParamEntity n d => (T_DECL_OPEN, kw "ENTITY", R_ENTITY_NONE) :: punct T_PERCENT R_ENTITY_NONE :: (T_NAME, n, R_PARAM_ENTITY_NAME) :: s_entity d
  | DNotation n x => (T_DECL_OPEN, kw "NOTATION", R_NOTATION_NONE) :: (T_NAME, n, R_NOTATION_NAME) :: s_notation x
  | DPi t => [(T_PI, t, R_PI)]
  | DComment t => [(T_COMMENT, t, R_COMMENT)]
  | DParamRef t => [(T_PARAM_ENTITY_REF, t, R_PARAM_ENTITY_REF)]
  end.
Definition wf_decl (d : decl) : Prop :=
  match d with
  | DElement _ c => wf_content c
  | DAttlist _ l => Forall (fun a => wf_type (snd (fst a))) l
  | DParamEntity _ (Unparsed _ _) => False
  | _ => True
  end.

(* [28] doctypedecl, [27] Misc; a byte order mark is let through before the document type *)
Record doctype := { dt_name : qname; dt_ext : option ext_id; dt_subset : option (list decl) }.
Definition s_doctype (d : doctype) : list piece :=
  (T_DECL_OPEN, kw "DOCTYPE", R_DOCTYPE_NONE) :: name (dt_name d) R_DOCTYPE_NAME ::
  match dt_ext d with Some x => s_ext R_DOCTYPE_NONE R_DOCTYPE_PUBLIC_ID R_DOCTYPE_SYSTEM_ID x | None => [] end ++
  match dt_subset d with
  | Some l => punct T_OPEN_BRACKET R_DOCTYPE_INTERNAL_SUBSET :: flat_map s_decl l ++ [punct T_CLOSE_BRACKET R_DOCTYPE_NONE]
  | None => []
  end ++ [punct T_DECL_CLOSE R_DOCTYPE_CLOSE].
Definition wf_doctype (d : doctype) : Prop :=
  match dt_subset d with Some l => Forall wf_decl l | None => True end.
Inductive misc := MPi (t : bytes) | MComment (t : bytes) | MBom.
Definition s_misc (m : misc) : piece :=
  match m with MPi t => (T_PI, t, R_PI) | MComment t => (T_COMMENT, t, R_COMMENT) | MBom => punct T_BOM R_NONE end.
(* [22] prolog without the XML declaration, up to the start of the root element *)
Record prolog := { before : list misc; dtd : option (doctype * list misc) }.
Definition s_prolog (p : prolog) : list piece :=
  map s_misc (before p) ++
  match dtd p with Some (d, after) => s_doctype d ++ map s_misc after | None => [] end ++
  [punct T_INSTANCE_START R_INSTANCE_START].
Definition wf_prolog (p : prolog) : Prop :=
  match dtd p with Some (d, after) => wf_doctype d /\ ~ In MBom after | None => True end.

(* [31] extSubsetDecl, [61] conditionalSect.  The text of an ignored section is not made of tokens. *)
Inductive exts :=
| ENil
| EDecl (d : decl) (rest : exts)
| EInclude (body rest : exts)
| EIgnore (rest : exts).
Fixpoint s_exts (l : exts) : list piece :=
  match l with
  | ENil => []
  | EDecl d rest => s_decl d ++ s_exts rest
  | EInclude body rest => punct T_COND_SECT_OPEN R_NONE :: (T_NAME, kw "INCLUDE", R_NONE) :: punct T_OPEN_BRACKET R_NONE ::
      s_exts body ++ punct T_COND_SECT_CLOSE R_NONE :: s_exts rest
  | EIgnore rest => punct T_COND_SECT_OPEN R_NONE :: (T_NAME, kw "IGNORE", R_NONE) :: punct T_OPEN_BRACKET R_IGNORE_SECT :: s_exts rest
  end.
Fixpoint wf_exts (l : exts) : Prop :=
  match l with
  | ENil => True
  | EDecl d rest => wf_decl d /\ wf_exts rest
  | EInclude body rest => wf_exts body /\ wf_exts rest
  | EIgnore rest => wf_exts rest
  end.
End Spelling.

(* From the tokens and roles of a run to pieces: white space is left out, and so are the parameter
   entity references that stand inside a declaration of the external subset, which are expanded where
   they stand. *)
Definition text_of (e : EncImpl) (x : XML_TOK * bytes) : bytes :=
  match fst x with
  | T_DECL_OPEN => skipn (2 * minbpc e) (snd x)
  | T_POUND_NAME => skipn (minbpc e) (snd x)
  | T_NAME | T_PREFIXED_NAME | T_NAME_QUESTION | T_NAME_ASTERISK | T_NAME_PLUS | T_NMTOKEN | T_LITERAL
  | T_PI | T_COMMENT | T_PARAM_ENTITY_REF => snd x
  | _ => []
  end.
Definition filler (p : piece) : bool := tok_eqb (tok_of p) T_PROLOG_S || role_eqb (role_of p) R_INNER_PARAM_ENTITY_REF.
Definition pieces (e : EncImpl) (ts : list (XML_TOK * bytes)) (rs : list ROLE) : list piece :=
  filter (fun p => negb (filler p)) (map (fun x => (fst (fst x), text_of e (fst x), snd x)) (combine ts rs)).

(* The tokens alone, again without white space. *)
Definition toks (e : EncImpl) (ts : list (XML_TOK * bytes)) : list (XML_TOK * bytes) :=
  filter (fun x => negb (tok_eqb (fst x) T_PROLOG_S)) (map (fun x => (fst x, text_of e x)) ts).
Definition strip (l : list piece) : list (XML_TOK * bytes) := map fst l.
(* [22] prolog: an XML declaration can only come first, with nothing but byte order marks before it *)
Definition prolog_text (e : EncImpl) (enc : N -> list N) (p : prolog) (ts : list (XML_TOK * bytes)) : Prop :=
  toks e ts = strip (s_prolog enc p) \/
  exists boms d rest, ts = boms ++ (T_XML_DECL, d) :: rest /\ Forall (fun x => fst x = T_BOM) boms /\ toks e rest = strip (s_prolog enc p).
(* the same with the roles *)
Definition prolog_roles (e : EncImpl) (enc : N -> list N) (p : prolog) (ts : list (XML_TOK * bytes)) (rs : list ROLE) : Prop :=
  pieces e ts rs = s_prolog enc p \/
  exists boms d rest rs', ts = boms ++ (T_XML_DECL, d) :: rest /\ Forall (fun x => fst x = T_BOM) boms /\
    rs = map (fun _ => R_NONE) boms ++ R_XML_DECL :: rs' /\ pieces e rest rs' = s_prolog enc p.
(* [30] extSubset: a text declaration can only be the very first token *)
Definition subset_text (e : EncImpl) (enc : N -> list N) (x : exts) (ts : list (XML_TOK * bytes)) : Prop :=
  toks e ts = strip (s_exts enc x) \/ exists d rest, ts = (T_XML_DECL, d) :: rest /\ toks e rest = strip (s_exts enc x).
Definition subset_roles (e : EncImpl) (enc : N -> list N) (x : exts) (ts : list (XML_TOK * bytes)) (rs : list ROLE) : Prop :=
  pieces e ts rs = s_exts enc x \/
  exists d rest rs', ts = (T_XML_DECL, d) :: rest /\ rs = R_TEXT_DECL :: rs' /\ pieces e rest rs' = s_exts enc x.

(* what the tokeniser guarantees: the texts of these tokens begin with "<!" and "#" *)
Definition token_ok (e : EncImpl) (x : XML_TOK * bytes) : Prop :=
  (fst x = T_DECL_OPEN -> 2 * minbpc e <= List.length (snd x))%nat /\
  (fst x = T_POUND_NAME -> minbpc e <= List.length (snd x))%nat.

(* Order of the roles of a document prolog, whatever the tokens. *)
Definition misc_role (r : ROLE) : Prop := r = R_NONE \/ r = R_PI \/ r = R_COMMENT.
Definition doctype_role (r : ROLE) : Prop :=
  r = R_DOCTYPE_NONE \/ r = R_DOCTYPE_NAME \/ r = R_DOCTYPE_PUBLIC_ID \/ r = R_DOCTYPE_SYSTEM_ID.
(* what may be reported inside the internal subset: declarations, comments, processing instructions,
   references and white space *)
Definition subset_role (r : ROLE) : Prop :=
  ~ In r [R_ERROR; R_XML_DECL; R_TEXT_DECL; R_INSTANCE_START; R_DOCTYPE_NONE; R_DOCTYPE_NAME; R_DOCTYPE_PUBLIC_ID; R_DOCTYPE_SYSTEM_ID;
          R_DOCTYPE_INTERNAL_SUBSET; R_DOCTYPE_CLOSE; R_IGNORE_SECT; R_INNER_PARAM_ENTITY_REF].
(* the parts of a prolog; the tokens may end, or an error may be met, anywhere *)
Inductive part := PStart | PMisc | PHead | PSubset | PTail | PAfter | PRoot.
(* [follows a r b]: in part [a] the role [r] may be reported, which leads to part [b] *)
Inductive follows : part -> ROLE -> part -> Prop :=
| f_bom : follows PStart R_NONE PStart
| f_decl : follows PStart R_XML_DECL PMisc
| f_first r : misc_role r -> follows PStart r PMisc
| f_misc r : misc_role r -> follows PMisc r PMisc
| f_head0 : follows PStart R_DOCTYPE_NONE PHead
| f_head1 : follows PMisc R_DOCTYPE_NONE PHead
| f_root0 : follows PStart R_INSTANCE_START PRoot
| f_root1 : follows PMisc R_INSTANCE_START PRoot
| f_head r : doctype_role r -> follows PHead r PHead
| f_open : follows PHead R_DOCTYPE_INTERNAL_SUBSET PSubset
| f_close1 : follows PHead R_DOCTYPE_CLOSE PAfter
| f_subset r : subset_role r -> follows PSubset r PSubset
| f_tail0 : follows PSubset R_DOCTYPE_NONE PTail
| f_tail : follows PTail R_DOCTYPE_NONE PTail
| f_close2 : follows PTail R_DOCTYPE_CLOSE PAfter
| f_after r : misc_role r -> follows PAfter r PAfter
| f_root2 : follows PAfter R_INSTANCE_START PRoot
| f_root r : r = R_NONE -> follows PRoot r PRoot.
(* [in_order a rs]: the roles [rs] are in order from part [a] on; after an error nothing is reported *)
Inductive in_order : part -> list ROLE -> Prop :=
| io_end a : in_order a []
| io_role a r b rs : follows a r b -> in_order b rs -> in_order a (r :: rs)
| io_error a rs : Forall (eq R_NONE) rs -> in_order a (R_ERROR :: rs).
