(* The state of a parser and the handler calls, src/lib/xmlparse.rs.

   Strings are byte lists without a terminating NUL.  They live in string pools in the code; that a
   finished string stays what it was is the subject of Pool.v.  Hash tables are association lists
   and pointers into them are keys: entries are never removed while a document is being parsed.
   Memory allocation succeeds.  Handlers do not change while a document is being parsed. *)
From Coq Require Import List NArith ZArith Bool.
From Verif Require Import Base Encoding Status Role.
Import ListNotations.
Local Open Scope N_scope.

Fixpoint beqb (a b : bytes) : bool :=
  match a, b with
  | [], [] => true
  | x :: a, y :: b => (x =? y) && beqb a b
  | _, _ => false
  end.

(* HashMap get / insert of a vacant key / update, src/lib/xmlparse.rs:1038-1085 *)
Fixpoint look {A} (k : bytes) (t : list (bytes * A)) : option A :=
  match t with
  | [] => None
  | (k', v) :: t => if beqb k k' then Some v else look k t
  end.
Fixpoint put {A} (k : bytes) (v : A) (t : list (bytes * A)) : list (bytes * A) :=
  match t with
  | [] => [(k, v)]
  | (k', v') :: t => if beqb k k' then (k, v) :: t else (k', v') :: put k v t
  end.

(* Prefix, src/lib/xmlparse.rs:952-973: the default prefix has a null name.  [PDangling]: a pointer to the default
   prefix of a DTD that has been moved since (try_clone, 1217-1218; see Core.v) *)
Inductive prefref := PDefault | PNamed (n : bytes) | PDangling.
Definition prefix_name (p : prefref) : option bytes := match p with PDefault | PDangling => None | PNamed n => Some n end.

(* Binding, src/lib/xmlparse.rs:862-873.  [b_uri] ends with the namespace separator if there is one.
   A binding is not changed while it is reachable, so the chain of previous bindings is a value; the list
   through nextTagBinding is a list of bindings. *)
Inductive binding := MkB (b_prefix : prefref) (b_att : option bytes) (b_uri : bytes) (b_prev : option binding).
Definition b_prefix (b : binding) := match b with MkB p _ _ _ => p end.
Definition b_att (b : binding) := match b with MkB _ a _ _ => a end.
Definition b_uri (b : binding) := match b with MkB _ _ u _ => u end.
Definition b_prev (b : binding) := match b with MkB _ _ _ p => p end.

(* AttributeType, src/lib/xmlparse.rs:905-950 *)
Inductive atype := Unset | Normal | Prefixed.
Definition is_set (t : atype) : bool := match t with Unset => false | _ => true end.

(* AttributeId, src/lib/xmlparse.rs:875-903 *)
Record attid := {
  ai_prefix : option prefref;
  ai_xmlns : bool;
  ai_maybe : bool;  (* maybeTokenized *)
  ai_type : atype;  (* the byte before the name *)
}.
Definition set_ai_prefix (v : option prefref) (s : attid) : attid :=
  {| ai_prefix := v; ai_xmlns := ai_xmlns s; ai_maybe := ai_maybe s; ai_type := ai_type s |}.
Definition set_ai_xmlns (v : bool) (s : attid) : attid :=
  {| ai_prefix := ai_prefix s; ai_xmlns := v; ai_maybe := ai_maybe s; ai_type := ai_type s |}.
Definition set_ai_maybe (v : bool) (s : attid) : attid :=
  {| ai_prefix := ai_prefix s; ai_xmlns := ai_xmlns s; ai_maybe := v; ai_type := ai_type s |}.
Definition set_ai_type (v : atype) (s : attid) : attid :=
  {| ai_prefix := ai_prefix s; ai_xmlns := ai_xmlns s; ai_maybe := ai_maybe s; ai_type := v |}.

(* DefaultAttribute, src/lib/xmlparse.rs:1386-1392 *)
Record defatt := { da_id : bytes; da_cdata : bool; da_value : option bytes }.

(* ElementType, src/lib/xmlparse.rs:1365-1384 *)
Record elemtype := {
  et_prefix : option prefref;
  et_idAtt : option bytes;
  et_defaults : list defatt;
}.
Definition set_et_prefix (v : option prefref) (s : elemtype) : elemtype :=
  {| et_prefix := v; et_idAtt := et_idAtt s; et_defaults := et_defaults s |}.
Definition set_et_idAtt (v : option bytes) (s : elemtype) : elemtype :=
  {| et_prefix := et_prefix s; et_idAtt := v; et_defaults := et_defaults s |}.
Definition set_et_defaults (v : list defatt) (s : elemtype) : elemtype :=
  {| et_prefix := et_prefix s; et_idAtt := et_idAtt s; et_defaults := v |}.

(* Entity, src/lib/xmlparse.rs:1394-1408; the key holds the name *)
Record entity := {
  e_text : option bytes;  (* textPtr, textLen *)
  e_processed : nat;
  e_sys : option bytes;
  e_base : option bytes;
  e_pub : option bytes;
  e_notation : option bytes;
  e_open : bool;
  e_is_param : bool;
  e_is_internal : bool;
}.
Definition set_e_text (v : option bytes) (s : entity) : entity :=
  {| e_text := v; e_processed := e_processed s; e_sys := e_sys s; e_base := e_base s; e_pub := e_pub s; e_notation := e_notation s; e_open := e_open s; e_is_param := e_is_param s; e_is_internal := e_is_internal s |}.
Definition set_e_processed (v : nat) (s : entity) : entity :=
  {| e_text := e_text s; e_processed := v; e_sys := e_sys s; e_base := e_base s; e_pub := e_pub s; e_notation := e_notation s; e_open := e_open s; e_is_param := e_is_param s; e_is_internal := e_is_internal s |}.
Definition set_e_sys (v : option bytes) (s : entity) : entity :=
  {| e_text := e_text s; e_processed := e_processed s; e_sys := v; e_base := e_base s; e_pub := e_pub s; e_notation := e_notation s; e_open := e_open s; e_is_param := e_is_param s; e_is_internal := e_is_internal s |}.
Definition set_e_base (v : option bytes) (s : entity) : entity :=
  {| e_text := e_text s; e_processed := e_processed s; e_sys := e_sys s; e_base := v; e_pub := e_pub s; e_notation := e_notation s; e_open := e_open s; e_is_param := e_is_param s; e_is_internal := e_is_internal s |}.
Definition set_e_pub (v : option bytes) (s : entity) : entity :=
  {| e_text := e_text s; e_processed := e_processed s; e_sys := e_sys s; e_base := e_base s; e_pub := v; e_notation := e_notation s; e_open := e_open s; e_is_param := e_is_param s; e_is_internal := e_is_internal s |}.
Definition set_e_notation (v : option bytes) (s : entity) : entity :=
  {| e_text := e_text s; e_processed := e_processed s; e_sys := e_sys s; e_base := e_base s; e_pub := e_pub s; e_notation := v; e_open := e_open s; e_is_param := e_is_param s; e_is_internal := e_is_internal s |}.
Definition set_e_open (v : bool) (s : entity) : entity :=
  {| e_text := e_text s; e_processed := e_processed s; e_sys := e_sys s; e_base := e_base s; e_pub := e_pub s; e_notation := e_notation s; e_open := v; e_is_param := e_is_param s; e_is_internal := e_is_internal s |}.
Definition set_e_is_param (v : bool) (s : entity) : entity :=
  {| e_text := e_text s; e_processed := e_processed s; e_sys := e_sys s; e_base := e_base s; e_pub := e_pub s; e_notation := e_notation s; e_open := e_open s; e_is_param := v; e_is_internal := e_is_internal s |}.
Definition set_e_is_internal (v : bool) (s : entity) : entity :=
  {| e_text := e_text s; e_processed := e_processed s; e_sys := e_sys s; e_base := e_base s; e_pub := e_pub s; e_notation := e_notation s; e_open := e_open s; e_is_param := e_is_param s; e_is_internal := v |}.
Definition entity0 : entity :=
  {| e_text := None; e_processed := 0; e_sys := None; e_base := None; e_pub := None; e_notation := None;
     e_open := false; e_is_param := false; e_is_internal := false |}.

(* an entity, as a pointer: is it a parameter entity, and its name *)
Definition entref := (bool * bytes)%type.

(* XML_Content_Type, XML_Content_Quant, src/expat_h.rs; ContentScaffold, src/lib/xmlparse.rs:1341-1351.
   [CT_ZERO] is the zeroed value of a part whose type has not been stored yet. *)
Inductive ctype := CT_ZERO | CT_EMPTY | CT_ANY | CT_MIXED | CT_NAME | CT_CHOICE | CT_SEQ.
Inductive cquant := Q_NONE | Q_OPT | Q_REP | Q_PLUS.
Record scafnode := { sn_type : ctype; sn_quant : cquant; sn_name : option bytes;
  sn_first : nat; sn_last : nat; sn_count : nat; sn_next : nat }.
(* XML_Content, src/expat_h.rs: numchildren is the length of the list *)
Inductive model := Model (m_type : ctype) (m_quant : cquant) (m_name : option bytes) (m_children : list model).

(* DTD, src/lib/xmlparse.rs:1087-1127 *)
Record dtd := {
  d_gents : list (bytes * entity);  (* generalEntities *)
  d_pents : list (bytes * entity);  (* paramEntities *)
  d_elems : list (bytes * elemtype);  (* elementTypes *)
  d_attids : list (bytes * attid);  (* attributeIds *)
  d_prefixes : list (bytes * option binding);  (* prefixes, with Prefix::binding *)
  d_default : option binding;  (* defaultPrefix.binding *)
  d_keep : bool;  (* keepProcessing *)
  d_hasPE : bool;  (* hasParamEntityRefs *)
  d_standalone : bool;
  d_peRead : bool;  (* paramEntityRead *)
  d_scaf : list scafnode;  (* scaffold.scaffold *)
  d_index : list nat;  (* scaffold.index, last first *)
  d_inEldecl : bool;
  d_cslen : nat;  (* contentStringLen *)
  d_ev : bytes;  (* the unfinished string in entityValuePool *)
}.
Definition set_d_gents (v : list (bytes * entity)) (s : dtd) : dtd :=
  {| d_gents := v; d_pents := d_pents s; d_elems := d_elems s; d_attids := d_attids s; d_prefixes := d_prefixes s; d_default := d_default s; d_keep := d_keep s; d_hasPE := d_hasPE s; d_standalone := d_standalone s; d_peRead := d_peRead s; d_scaf := d_scaf s; d_index := d_index s; d_inEldecl := d_inEldecl s; d_cslen := d_cslen s; d_ev := d_ev s |}.
Definition set_d_pents (v : list (bytes * entity)) (s : dtd) : dtd :=
  {| d_gents := d_gents s; d_pents := v; d_elems := d_elems s; d_attids := d_attids s; d_prefixes := d_prefixes s; d_default := d_default s; d_keep := d_keep s; d_hasPE := d_hasPE s; d_standalone := d_standalone s; d_peRead := d_peRead s; d_scaf := d_scaf s; d_index := d_index s; d_inEldecl := d_inEldecl s; d_cslen := d_cslen s; d_ev := d_ev s |}.
Definition set_d_elems (v : list (bytes * elemtype)) (s : dtd) : dtd :=
  {| d_gents := d_gents s; d_pents := d_pents s; d_elems := v; d_attids := d_attids s; d_prefixes := d_prefixes s; d_default := d_default s; d_keep := d_keep s; d_hasPE := d_hasPE s; d_standalone := d_standalone s; d_peRead := d_peRead s; d_scaf := d_scaf s; d_index := d_index s; d_inEldecl := d_inEldecl s; d_cslen := d_cslen s; d_ev := d_ev s |}.
Definition set_d_attids (v : list (bytes * attid)) (s : dtd) : dtd :=
  {| d_gents := d_gents s; d_pents := d_pents s; d_elems := d_elems s; d_attids := v; d_prefixes := d_prefixes s; d_default := d_default s; d_keep := d_keep s; d_hasPE := d_hasPE s; d_standalone := d_standalone s; d_peRead := d_peRead s; d_scaf := d_scaf s; d_index := d_index s; d_inEldecl := d_inEldecl s; d_cslen := d_cslen s; d_ev := d_ev s |}.
Definition set_d_prefixes (v : list (bytes * option binding)) (s : dtd) : dtd :=
  {| d_gents := d_gents s; d_pents := d_pents s; d_elems := d_elems s; d_attids := d_attids s; d_prefixes := v; d_default := d_default s; d_keep := d_keep s; d_hasPE := d_hasPE s; d_standalone := d_standalone s; d_peRead := d_peRead s; d_scaf := d_scaf s; d_index := d_index s; d_inEldecl := d_inEldecl s; d_cslen := d_cslen s; d_ev := d_ev s |}.
Definition set_d_default (v : option binding) (s : dtd) : dtd :=
  {| d_gents := d_gents s; d_pents := d_pents s; d_elems := d_elems s; d_attids := d_attids s; d_prefixes := d_prefixes s; d_default := v; d_keep := d_keep s; d_hasPE := d_hasPE s; d_standalone := d_standalone s; d_peRead := d_peRead s; d_scaf := d_scaf s; d_index := d_index s; d_inEldecl := d_inEldecl s; d_cslen := d_cslen s; d_ev := d_ev s |}.
Definition set_d_keep (v : bool) (s : dtd) : dtd :=
  {| d_gents := d_gents s; d_pents := d_pents s; d_elems := d_elems s; d_attids := d_attids s; d_prefixes := d_prefixes s; d_default := d_default s; d_keep := v; d_hasPE := d_hasPE s; d_standalone := d_standalone s; d_peRead := d_peRead s; d_scaf := d_scaf s; d_index := d_index s; d_inEldecl := d_inEldecl s; d_cslen := d_cslen s; d_ev := d_ev s |}.
Definition set_d_hasPE (v : bool) (s : dtd) : dtd :=
  {| d_gents := d_gents s; d_pents := d_pents s; d_elems := d_elems s; d_attids := d_attids s; d_prefixes := d_prefixes s; d_default := d_default s; d_keep := d_keep s; d_hasPE := v; d_standalone := d_standalone s; d_peRead := d_peRead s; d_scaf := d_scaf s; d_index := d_index s; d_inEldecl := d_inEldecl s; d_cslen := d_cslen s; d_ev := d_ev s |}.
Definition set_d_standalone (v : bool) (s : dtd) : dtd :=
  {| d_gents := d_gents s; d_pents := d_pents s; d_elems := d_elems s; d_attids := d_attids s; d_prefixes := d_prefixes s; d_default := d_default s; d_keep := d_keep s; d_hasPE := d_hasPE s; d_standalone := v; d_peRead := d_peRead s; d_scaf := d_scaf s; d_index := d_index s; d_inEldecl := d_inEldecl s; d_cslen := d_cslen s; d_ev := d_ev s |}.
Definition set_d_peRead (v : bool) (s : dtd) : dtd :=
  {| d_gents := d_gents s; d_pents := d_pents s; d_elems := d_elems s; d_attids := d_attids s; d_prefixes := d_prefixes s; d_default := d_default s; d_keep := d_keep s; d_hasPE := d_hasPE s; d_standalone := d_standalone s; d_peRead := v; d_scaf := d_scaf s; d_index := d_index s; d_inEldecl := d_inEldecl s; d_cslen := d_cslen s; d_ev := d_ev s |}.
Definition set_d_scaf (v : list scafnode) (s : dtd) : dtd :=
  {| d_gents := d_gents s; d_pents := d_pents s; d_elems := d_elems s; d_attids := d_attids s; d_prefixes := d_prefixes s; d_default := d_default s; d_keep := d_keep s; d_hasPE := d_hasPE s; d_standalone := d_standalone s; d_peRead := d_peRead s; d_scaf := v; d_index := d_index s; d_inEldecl := d_inEldecl s; d_cslen := d_cslen s; d_ev := d_ev s |}.
Definition set_d_index (v : list nat) (s : dtd) : dtd :=
  {| d_gents := d_gents s; d_pents := d_pents s; d_elems := d_elems s; d_attids := d_attids s; d_prefixes := d_prefixes s; d_default := d_default s; d_keep := d_keep s; d_hasPE := d_hasPE s; d_standalone := d_standalone s; d_peRead := d_peRead s; d_scaf := d_scaf s; d_index := v; d_inEldecl := d_inEldecl s; d_cslen := d_cslen s; d_ev := d_ev s |}.
Definition set_d_inEldecl (v : bool) (s : dtd) : dtd :=
  {| d_gents := d_gents s; d_pents := d_pents s; d_elems := d_elems s; d_attids := d_attids s; d_prefixes := d_prefixes s; d_default := d_default s; d_keep := d_keep s; d_hasPE := d_hasPE s; d_standalone := d_standalone s; d_peRead := d_peRead s; d_scaf := d_scaf s; d_index := d_index s; d_inEldecl := v; d_cslen := d_cslen s; d_ev := d_ev s |}.
Definition set_d_cslen (v : nat) (s : dtd) : dtd :=
  {| d_gents := d_gents s; d_pents := d_pents s; d_elems := d_elems s; d_attids := d_attids s; d_prefixes := d_prefixes s; d_default := d_default s; d_keep := d_keep s; d_hasPE := d_hasPE s; d_standalone := d_standalone s; d_peRead := d_peRead s; d_scaf := d_scaf s; d_index := d_index s; d_inEldecl := d_inEldecl s; d_cslen := v; d_ev := d_ev s |}.
Definition set_d_ev (v : bytes) (s : dtd) : dtd :=
  {| d_gents := d_gents s; d_pents := d_pents s; d_elems := d_elems s; d_attids := d_attids s; d_prefixes := d_prefixes s; d_default := d_default s; d_keep := d_keep s; d_hasPE := d_hasPE s; d_standalone := d_standalone s; d_peRead := d_peRead s; d_scaf := d_scaf s; d_index := d_index s; d_inEldecl := d_inEldecl s; d_cslen := d_cslen s; d_ev := v |}.
(* DTD::try_new, src/lib/xmlparse.rs:1116-1131 *)
Definition dtd0 : dtd :=
  {| d_gents := []; d_pents := []; d_elems := []; d_attids := []; d_prefixes := []; d_default := None;
     d_keep := true; d_hasPE := false; d_standalone := false; d_peRead := false;
     d_scaf := []; d_index := []; d_inEldecl := false; d_cslen := 0; d_ev := [] |}.

(* Handler calls with their arguments; [None] is a null pointer *)
Inductive event :=
| EvStartElement (name : bytes) (atts : list (bytes * bytes)) (specified : nat) (idIndex : Z)
| EvEndElement (name : bytes)
| EvCharData (s : bytes)
| EvPI (target data : bytes)
| EvComment (s : bytes)
| EvStartCdata
| EvEndCdata
| EvDefault (s : bytes)
| EvStartNs (prefix uri : option bytes)
| EvEndNs (prefix : option bytes)
| EvExternalEntityRef (context base sysid pubid : option bytes)
| EvSkippedEntity (name : bytes) (is_param : bool)
| EvStartDoctype (name : bytes) (sysid pubid : option bytes) (internal : bool)
| EvEndDoctype
| EvElementDecl (name : bytes) (m : model)
| EvAttlistDecl (elname attname atttype : bytes) (dflt : option bytes) (required : bool)
| EvEntityDecl (name : bytes) (is_param : bool) (value base sysid pubid notation : option bytes)
| EvUnparsedEntityDecl (name : bytes) (base sysid pubid notation : option bytes)
| EvNotationDecl (name : bytes) (base sysid pubid : option bytes)
| EvXmlDecl (version encoding : option bytes) (standalone : Z)
| EvNotStandalone
| EvUnknownEncoding (name : bytes).

(* which handlers are set: CXmlHandlers, src/lib/xmlparse.rs:288-322 *)
Record handlers := {
  h_startElement : bool; h_endElement : bool; h_charData : bool; h_pi : bool; h_comment : bool;
  h_startCdata : bool; h_endCdata : bool; h_default : bool; h_startDoctype : bool; h_endDoctype : bool;
  h_unparsed : bool; h_notation : bool; h_startNs : bool; h_endNs : bool; h_notStandalone : bool;
  h_external : bool; h_skipped : bool; h_unknown : bool; h_elementDecl : bool; h_attlist : bool;
  h_entityDecl : bool; h_xmlDecl : bool
}.

(* What the application does when a handler is called.
   [stop]: calls XML_StopParser with this "resumable" argument.
   [child_plan]: in the external entity handler, creates a parser for the entity with this encoding
   name and passes it these chunks, up to the first one that is not answered with XML_STATUS_OK.
   [answer]: is the int it returns nonzero, given the statuses the child parser answered.
   [encmap]: in the unknown encoding handler, the map and conversion function it supplies. *)
Record reaction := {
  stop : option bool;
  child_plan : option (option bytes * list (bytes * bool));
  answer : list XML_Status -> bool;
  encmap : option (list Z * option (bytes -> Z))
}.

(* settings that stay fixed while a document is parsed.  The application sees all handler calls so
   far, latest first, each with the parser that made it. *)
Record config := {
  c_ns : bool;          (* m_ns *)
  c_sep : N;            (* m_namespaceSeparator, 0 for none *)
  c_triplets : bool;    (* m_ns_triplets *)
  c_expand : bool;      (* m_defaultExpandInternalEntities *)
  c_h : handlers;
  c_app : list (nat * event) -> reaction
}.

Inductive pe_parsing := PEP_NEVER | PEP_UNLESS_STANDALONE | PEP_ALWAYS.

(* m_encoding: an InitEncoding with its index, or the encoding it was replaced by *)
Inductive encstate := EInit (idx : N) | EKnown (e : EncImpl).

(* m_processor *)
Inductive processor :=
| PrPrologInit | PrProlog | PrContent | PrCdata | PrEpilog | PrInternalEntity | PrIgnore
| PrExtEntInit | PrExtEntInit2 | PrExtEntInit3 | PrExtEntContent
| PrParEntInit | PrParEnt | PrEVInit | PrEV.

(* OpenInternalEntity, src/lib/xmlparse.rs:1410-1419.  The internal event pointers are not modelled. *)
Record openent := { oe_ent : entref; oe_level : nat; oe_between : bool }.

(* Tag and TagName, src/lib/xmlparse.rs:975-1015.  [t_raw] is the raw name; that storeRawNames keeps a
   copy of it is not modelled.  [t_name] is the name passed to the handlers, which the code rebuilds at the
   end tag from the binding and the local part (3984-4017). *)
Record tag := { t_raw : bytes; t_name : bytes; t_bindings : list binding }.

(* XML_ParserStruct, src/lib/xmlparse.rs:768-839; the fields used by Api.v are there *)
Record st := {
  s_cfg : config;
  s_pid : nat;  (* identifies the parser in the log *)
  s_child : bool;  (* is_child_parser *)
  s_isParam : bool;  (* m_isParamEntity *)
  s_pep : pe_parsing;  (* m_paramEntityParsing *)
  s_foreign : bool;  (* m_useForeignDTD *)
  s_protocol : option bytes;  (* m_protocolEncodingName *)
  s_enc : encstate;  (* m_encoding *)
  s_processor : processor;
  s_role : pstate;  (* m_prologState *)
  s_inEV : bool;  (* m_prologState.inEntityValue *)
  s_dtd : dtd;
  s_open : list openent;  (* m_openInternalEntities, innermost first *)
  s_tagLevel : nat;
  s_tags : list tag;  (* m_tagStack, innermost first *)
  s_inherited : list binding;  (* m_inheritedBindings *)
  s_bindings : list binding;  (* bindings of the tag at hand *)
  s_base : option bytes;  (* m_curBase *)
  s_doctypeName : option bytes;
  s_doctypeSysid : option bytes;
  s_doctypePubid : option bytes;
  s_declEntity : option entref;
  s_declElement : option bytes;
  s_declAttId : option bytes;
  s_declAttType : option bytes;
  s_declCdata : bool;
  s_declIsId : bool;
  s_notName : option bytes;
  s_notPub : option bytes;
  s_group : list (N * N);  (* m_groupConnector, by level *)
  s_idIx : Z;  (* m_idAttIndex *)
  s_parsing : XML_Parsing;
  s_final : bool;  (* m_parsingStatus.finalBuffer *)
  s_ev : option nat;  (* m_eventPtr: bytes from it to the end of the buffer *)
  s_evEnd : option nat;  (* m_eventEndPtr, likewise *)
  s_log : list (nat * event);  (* handler calls, latest first *)
}.
Definition set_cfg (v : config) (s : st) : st :=
  {| s_cfg := v; s_pid := s_pid s; s_child := s_child s; s_isParam := s_isParam s; s_pep := s_pep s; s_foreign := s_foreign s; s_protocol := s_protocol s; s_enc := s_enc s; s_processor := s_processor s; s_role := s_role s; s_inEV := s_inEV s; s_dtd := s_dtd s; s_open := s_open s; s_tagLevel := s_tagLevel s; s_tags := s_tags s; s_inherited := s_inherited s; s_bindings := s_bindings s; s_base := s_base s; s_doctypeName := s_doctypeName s; s_doctypeSysid := s_doctypeSysid s; s_doctypePubid := s_doctypePubid s; s_declEntity := s_declEntity s; s_declElement := s_declElement s; s_declAttId := s_declAttId s; s_declAttType := s_declAttType s; s_declCdata := s_declCdata s; s_declIsId := s_declIsId s; s_notName := s_notName s; s_notPub := s_notPub s; s_group := s_group s; s_idIx := s_idIx s; s_parsing := s_parsing s; s_final := s_final s; s_ev := s_ev s; s_evEnd := s_evEnd s; s_log := s_log s |}.
Definition set_pid (v : nat) (s : st) : st :=
  {| s_cfg := s_cfg s; s_pid := v; s_child := s_child s; s_isParam := s_isParam s; s_pep := s_pep s; s_foreign := s_foreign s; s_protocol := s_protocol s; s_enc := s_enc s; s_processor := s_processor s; s_role := s_role s; s_inEV := s_inEV s; s_dtd := s_dtd s; s_open := s_open s; s_tagLevel := s_tagLevel s; s_tags := s_tags s; s_inherited := s_inherited s; s_bindings := s_bindings s; s_base := s_base s; s_doctypeName := s_doctypeName s; s_doctypeSysid := s_doctypeSysid s; s_doctypePubid := s_doctypePubid s; s_declEntity := s_declEntity s; s_declElement := s_declElement s; s_declAttId := s_declAttId s; s_declAttType := s_declAttType s; s_declCdata := s_declCdata s; s_declIsId := s_declIsId s; s_notName := s_notName s; s_notPub := s_notPub s; s_group := s_group s; s_idIx := s_idIx s; s_parsing := s_parsing s; s_final := s_final s; s_ev := s_ev s; s_evEnd := s_evEnd s; s_log := s_log s |}.
Definition set_child (v : bool) (s : st) : st :=
  {| s_cfg := s_cfg s; s_pid := s_pid s; s_child := v; s_isParam := s_isParam s; s_pep := s_pep s; s_foreign := s_foreign s; s_protocol := s_protocol s; s_enc := s_enc s; s_processor := s_processor s; s_role := s_role s; s_inEV := s_inEV s; s_dtd := s_dtd s; s_open := s_open s; s_tagLevel := s_tagLevel s; s_tags := s_tags s; s_inherited := s_inherited s; s_bindings := s_bindings s; s_base := s_base s; s_doctypeName := s_doctypeName s; s_doctypeSysid := s_doctypeSysid s; s_doctypePubid := s_doctypePubid s; s_declEntity := s_declEntity s; s_declElement := s_declElement s; s_declAttId := s_declAttId s; s_declAttType := s_declAttType s; s_declCdata := s_declCdata s; s_declIsId := s_declIsId s; s_notName := s_notName s; s_notPub := s_notPub s; s_group := s_group s; s_idIx := s_idIx s; s_parsing := s_parsing s; s_final := s_final s; s_ev := s_ev s; s_evEnd := s_evEnd s; s_log := s_log s |}.
Definition set_isParam (v : bool) (s : st) : st :=
  {| s_cfg := s_cfg s; s_pid := s_pid s; s_child := s_child s; s_isParam := v; s_pep := s_pep s; s_foreign := s_foreign s; s_protocol := s_protocol s; s_enc := s_enc s; s_processor := s_processor s; s_role := s_role s; s_inEV := s_inEV s; s_dtd := s_dtd s; s_open := s_open s; s_tagLevel := s_tagLevel s; s_tags := s_tags s; s_inherited := s_inherited s; s_bindings := s_bindings s; s_base := s_base s; s_doctypeName := s_doctypeName s; s_doctypeSysid := s_doctypeSysid s; s_doctypePubid := s_doctypePubid s; s_declEntity := s_declEntity s; s_declElement := s_declElement s; s_declAttId := s_declAttId s; s_declAttType := s_declAttType s; s_declCdata := s_declCdata s; s_declIsId := s_declIsId s; s_notName := s_notName s; s_notPub := s_notPub s; s_group := s_group s; s_idIx := s_idIx s; s_parsing := s_parsing s; s_final := s_final s; s_ev := s_ev s; s_evEnd := s_evEnd s; s_log := s_log s |}.
Definition set_pep (v : pe_parsing) (s : st) : st :=
  {| s_cfg := s_cfg s; s_pid := s_pid s; s_child := s_child s; s_isParam := s_isParam s; s_pep := v; s_foreign := s_foreign s; s_protocol := s_protocol s; s_enc := s_enc s; s_processor := s_processor s; s_role := s_role s; s_inEV := s_inEV s; s_dtd := s_dtd s; s_open := s_open s; s_tagLevel := s_tagLevel s; s_tags := s_tags s; s_inherited := s_inherited s; s_bindings := s_bindings s; s_base := s_base s; s_doctypeName := s_doctypeName s; s_doctypeSysid := s_doctypeSysid s; s_doctypePubid := s_doctypePubid s; s_declEntity := s_declEntity s; s_declElement := s_declElement s; s_declAttId := s_declAttId s; s_declAttType := s_declAttType s; s_declCdata := s_declCdata s; s_declIsId := s_declIsId s; s_notName := s_notName s; s_notPub := s_notPub s; s_group := s_group s; s_idIx := s_idIx s; s_parsing := s_parsing s; s_final := s_final s; s_ev := s_ev s; s_evEnd := s_evEnd s; s_log := s_log s |}.
Definition set_foreign (v : bool) (s : st) : st :=
  {| s_cfg := s_cfg s; s_pid := s_pid s; s_child := s_child s; s_isParam := s_isParam s; s_pep := s_pep s; s_foreign := v; s_protocol := s_protocol s; s_enc := s_enc s; s_processor := s_processor s; s_role := s_role s; s_inEV := s_inEV s; s_dtd := s_dtd s; s_open := s_open s; s_tagLevel := s_tagLevel s; s_tags := s_tags s; s_inherited := s_inherited s; s_bindings := s_bindings s; s_base := s_base s; s_doctypeName := s_doctypeName s; s_doctypeSysid := s_doctypeSysid s; s_doctypePubid := s_doctypePubid s; s_declEntity := s_declEntity s; s_declElement := s_declElement s; s_declAttId := s_declAttId s; s_declAttType := s_declAttType s; s_declCdata := s_declCdata s; s_declIsId := s_declIsId s; s_notName := s_notName s; s_notPub := s_notPub s; s_group := s_group s; s_idIx := s_idIx s; s_parsing := s_parsing s; s_final := s_final s; s_ev := s_ev s; s_evEnd := s_evEnd s; s_log := s_log s |}.
Definition set_protocol (v : option bytes) (s : st) : st :=
  {| s_cfg := s_cfg s; s_pid := s_pid s; s_child := s_child s; s_isParam := s_isParam s; s_pep := s_pep s; s_foreign := s_foreign s; s_protocol := v; s_enc := s_enc s; s_processor := s_processor s; s_role := s_role s; s_inEV := s_inEV s; s_dtd := s_dtd s; s_open := s_open s; s_tagLevel := s_tagLevel s; s_tags := s_tags s; s_inherited := s_inherited s; s_bindings := s_bindings s; s_base := s_base s; s_doctypeName := s_doctypeName s; s_doctypeSysid := s_doctypeSysid s; s_doctypePubid := s_doctypePubid s; s_declEntity := s_declEntity s; s_declElement := s_declElement s; s_declAttId := s_declAttId s; s_declAttType := s_declAttType s; s_declCdata := s_declCdata s; s_declIsId := s_declIsId s; s_notName := s_notName s; s_notPub := s_notPub s; s_group := s_group s; s_idIx := s_idIx s; s_parsing := s_parsing s; s_final := s_final s; s_ev := s_ev s; s_evEnd := s_evEnd s; s_log := s_log s |}.
Definition set_enc (v : encstate) (s : st) : st :=
  {| s_cfg := s_cfg s; s_pid := s_pid s; s_child := s_child s; s_isParam := s_isParam s; s_pep := s_pep s; s_foreign := s_foreign s; s_protocol := s_protocol s; s_enc := v; s_processor := s_processor s; s_role := s_role s; s_inEV := s_inEV s; s_dtd := s_dtd s; s_open := s_open s; s_tagLevel := s_tagLevel s; s_tags := s_tags s; s_inherited := s_inherited s; s_bindings := s_bindings s; s_base := s_base s; s_doctypeName := s_doctypeName s; s_doctypeSysid := s_doctypeSysid s; s_doctypePubid := s_doctypePubid s; s_declEntity := s_declEntity s; s_declElement := s_declElement s; s_declAttId := s_declAttId s; s_declAttType := s_declAttType s; s_declCdata := s_declCdata s; s_declIsId := s_declIsId s; s_notName := s_notName s; s_notPub := s_notPub s; s_group := s_group s; s_idIx := s_idIx s; s_parsing := s_parsing s; s_final := s_final s; s_ev := s_ev s; s_evEnd := s_evEnd s; s_log := s_log s |}.
Definition set_processor (v : processor) (s : st) : st :=
  {| s_cfg := s_cfg s; s_pid := s_pid s; s_child := s_child s; s_isParam := s_isParam s; s_pep := s_pep s; s_foreign := s_foreign s; s_protocol := s_protocol s; s_enc := s_enc s; s_processor := v; s_role := s_role s; s_inEV := s_inEV s; s_dtd := s_dtd s; s_open := s_open s; s_tagLevel := s_tagLevel s; s_tags := s_tags s; s_inherited := s_inherited s; s_bindings := s_bindings s; s_base := s_base s; s_doctypeName := s_doctypeName s; s_doctypeSysid := s_doctypeSysid s; s_doctypePubid := s_doctypePubid s; s_declEntity := s_declEntity s; s_declElement := s_declElement s; s_declAttId := s_declAttId s; s_declAttType := s_declAttType s; s_declCdata := s_declCdata s; s_declIsId := s_declIsId s; s_notName := s_notName s; s_notPub := s_notPub s; s_group := s_group s; s_idIx := s_idIx s; s_parsing := s_parsing s; s_final := s_final s; s_ev := s_ev s; s_evEnd := s_evEnd s; s_log := s_log s |}.
Definition set_role (v : pstate) (s : st) : st :=
  {| s_cfg := s_cfg s; s_pid := s_pid s; s_child := s_child s; s_isParam := s_isParam s; s_pep := s_pep s; s_foreign := s_foreign s; s_protocol := s_protocol s; s_enc := s_enc s; s_processor := s_processor s; s_role := v; s_inEV := s_inEV s; s_dtd := s_dtd s; s_open := s_open s; s_tagLevel := s_tagLevel s; s_tags := s_tags s; s_inherited := s_inherited s; s_bindings := s_bindings s; s_base := s_base s; s_doctypeName := s_doctypeName s; s_doctypeSysid := s_doctypeSysid s; s_doctypePubid := s_doctypePubid s; s_declEntity := s_declEntity s; s_declElement := s_declElement s; s_declAttId := s_declAttId s; s_declAttType := s_declAttType s; s_declCdata := s_declCdata s; s_declIsId := s_declIsId s; s_notName := s_notName s; s_notPub := s_notPub s; s_group := s_group s; s_idIx := s_idIx s; s_parsing := s_parsing s; s_final := s_final s; s_ev := s_ev s; s_evEnd := s_evEnd s; s_log := s_log s |}.
Definition set_inEV (v : bool) (s : st) : st :=
  {| s_cfg := s_cfg s; s_pid := s_pid s; s_child := s_child s; s_isParam := s_isParam s; s_pep := s_pep s; s_foreign := s_foreign s; s_protocol := s_protocol s; s_enc := s_enc s; s_processor := s_processor s; s_role := s_role s; s_inEV := v; s_dtd := s_dtd s; s_open := s_open s; s_tagLevel := s_tagLevel s; s_tags := s_tags s; s_inherited := s_inherited s; s_bindings := s_bindings s; s_base := s_base s; s_doctypeName := s_doctypeName s; s_doctypeSysid := s_doctypeSysid s; s_doctypePubid := s_doctypePubid s; s_declEntity := s_declEntity s; s_declElement := s_declElement s; s_declAttId := s_declAttId s; s_declAttType := s_declAttType s; s_declCdata := s_declCdata s; s_declIsId := s_declIsId s; s_notName := s_notName s; s_notPub := s_notPub s; s_group := s_group s; s_idIx := s_idIx s; s_parsing := s_parsing s; s_final := s_final s; s_ev := s_ev s; s_evEnd := s_evEnd s; s_log := s_log s |}.
Definition set_dtd (v : dtd) (s : st) : st :=
  {| s_cfg := s_cfg s; s_pid := s_pid s; s_child := s_child s; s_isParam := s_isParam s; s_pep := s_pep s; s_foreign := s_foreign s; s_protocol := s_protocol s; s_enc := s_enc s; s_processor := s_processor s; s_role := s_role s; s_inEV := s_inEV s; s_dtd := v; s_open := s_open s; s_tagLevel := s_tagLevel s; s_tags := s_tags s; s_inherited := s_inherited s; s_bindings := s_bindings s; s_base := s_base s; s_doctypeName := s_doctypeName s; s_doctypeSysid := s_doctypeSysid s; s_doctypePubid := s_doctypePubid s; s_declEntity := s_declEntity s; s_declElement := s_declElement s; s_declAttId := s_declAttId s; s_declAttType := s_declAttType s; s_declCdata := s_declCdata s; s_declIsId := s_declIsId s; s_notName := s_notName s; s_notPub := s_notPub s; s_group := s_group s; s_idIx := s_idIx s; s_parsing := s_parsing s; s_final := s_final s; s_ev := s_ev s; s_evEnd := s_evEnd s; s_log := s_log s |}.
Definition set_open (v : list openent) (s : st) : st :=
  {| s_cfg := s_cfg s; s_pid := s_pid s; s_child := s_child s; s_isParam := s_isParam s; s_pep := s_pep s; s_foreign := s_foreign s; s_protocol := s_protocol s; s_enc := s_enc s; s_processor := s_processor s; s_role := s_role s; s_inEV := s_inEV s; s_dtd := s_dtd s; s_open := v; s_tagLevel := s_tagLevel s; s_tags := s_tags s; s_inherited := s_inherited s; s_bindings := s_bindings s; s_base := s_base s; s_doctypeName := s_doctypeName s; s_doctypeSysid := s_doctypeSysid s; s_doctypePubid := s_doctypePubid s; s_declEntity := s_declEntity s; s_declElement := s_declElement s; s_declAttId := s_declAttId s; s_declAttType := s_declAttType s; s_declCdata := s_declCdata s; s_declIsId := s_declIsId s; s_notName := s_notName s; s_notPub := s_notPub s; s_group := s_group s; s_idIx := s_idIx s; s_parsing := s_parsing s; s_final := s_final s; s_ev := s_ev s; s_evEnd := s_evEnd s; s_log := s_log s |}.
Definition set_tagLevel (v : nat) (s : st) : st :=
  {| s_cfg := s_cfg s; s_pid := s_pid s; s_child := s_child s; s_isParam := s_isParam s; s_pep := s_pep s; s_foreign := s_foreign s; s_protocol := s_protocol s; s_enc := s_enc s; s_processor := s_processor s; s_role := s_role s; s_inEV := s_inEV s; s_dtd := s_dtd s; s_open := s_open s; s_tagLevel := v; s_tags := s_tags s; s_inherited := s_inherited s; s_bindings := s_bindings s; s_base := s_base s; s_doctypeName := s_doctypeName s; s_doctypeSysid := s_doctypeSysid s; s_doctypePubid := s_doctypePubid s; s_declEntity := s_declEntity s; s_declElement := s_declElement s; s_declAttId := s_declAttId s; s_declAttType := s_declAttType s; s_declCdata := s_declCdata s; s_declIsId := s_declIsId s; s_notName := s_notName s; s_notPub := s_notPub s; s_group := s_group s; s_idIx := s_idIx s; s_parsing := s_parsing s; s_final := s_final s; s_ev := s_ev s; s_evEnd := s_evEnd s; s_log := s_log s |}.
Definition set_tags (v : list tag) (s : st) : st :=
  {| s_cfg := s_cfg s; s_pid := s_pid s; s_child := s_child s; s_isParam := s_isParam s; s_pep := s_pep s; s_foreign := s_foreign s; s_protocol := s_protocol s; s_enc := s_enc s; s_processor := s_processor s; s_role := s_role s; s_inEV := s_inEV s; s_dtd := s_dtd s; s_open := s_open s; s_tagLevel := s_tagLevel s; s_tags := v; s_inherited := s_inherited s; s_bindings := s_bindings s; s_base := s_base s; s_doctypeName := s_doctypeName s; s_doctypeSysid := s_doctypeSysid s; s_doctypePubid := s_doctypePubid s; s_declEntity := s_declEntity s; s_declElement := s_declElement s; s_declAttId := s_declAttId s; s_declAttType := s_declAttType s; s_declCdata := s_declCdata s; s_declIsId := s_declIsId s; s_notName := s_notName s; s_notPub := s_notPub s; s_group := s_group s; s_idIx := s_idIx s; s_parsing := s_parsing s; s_final := s_final s; s_ev := s_ev s; s_evEnd := s_evEnd s; s_log := s_log s |}.
Definition set_inherited (v : list binding) (s : st) : st :=
  {| s_cfg := s_cfg s; s_pid := s_pid s; s_child := s_child s; s_isParam := s_isParam s; s_pep := s_pep s; s_foreign := s_foreign s; s_protocol := s_protocol s; s_enc := s_enc s; s_processor := s_processor s; s_role := s_role s; s_inEV := s_inEV s; s_dtd := s_dtd s; s_open := s_open s; s_tagLevel := s_tagLevel s; s_tags := s_tags s; s_inherited := v; s_bindings := s_bindings s; s_base := s_base s; s_doctypeName := s_doctypeName s; s_doctypeSysid := s_doctypeSysid s; s_doctypePubid := s_doctypePubid s; s_declEntity := s_declEntity s; s_declElement := s_declElement s; s_declAttId := s_declAttId s; s_declAttType := s_declAttType s; s_declCdata := s_declCdata s; s_declIsId := s_declIsId s; s_notName := s_notName s; s_notPub := s_notPub s; s_group := s_group s; s_idIx := s_idIx s; s_parsing := s_parsing s; s_final := s_final s; s_ev := s_ev s; s_evEnd := s_evEnd s; s_log := s_log s |}.
Definition set_bindings (v : list binding) (s : st) : st :=
  {| s_cfg := s_cfg s; s_pid := s_pid s; s_child := s_child s; s_isParam := s_isParam s; s_pep := s_pep s; s_foreign := s_foreign s; s_protocol := s_protocol s; s_enc := s_enc s; s_processor := s_processor s; s_role := s_role s; s_inEV := s_inEV s; s_dtd := s_dtd s; s_open := s_open s; s_tagLevel := s_tagLevel s; s_tags := s_tags s; s_inherited := s_inherited s; s_bindings := v; s_base := s_base s; s_doctypeName := s_doctypeName s; s_doctypeSysid := s_doctypeSysid s; s_doctypePubid := s_doctypePubid s; s_declEntity := s_declEntity s; s_declElement := s_declElement s; s_declAttId := s_declAttId s; s_declAttType := s_declAttType s; s_declCdata := s_declCdata s; s_declIsId := s_declIsId s; s_notName := s_notName s; s_notPub := s_notPub s; s_group := s_group s; s_idIx := s_idIx s; s_parsing := s_parsing s; s_final := s_final s; s_ev := s_ev s; s_evEnd := s_evEnd s; s_log := s_log s |}.
Definition set_base (v : option bytes) (s : st) : st :=
  {| s_cfg := s_cfg s; s_pid := s_pid s; s_child := s_child s; s_isParam := s_isParam s; s_pep := s_pep s; s_foreign := s_foreign s; s_protocol := s_protocol s; s_enc := s_enc s; s_processor := s_processor s; s_role := s_role s; s_inEV := s_inEV s; s_dtd := s_dtd s; s_open := s_open s; s_tagLevel := s_tagLevel s; s_tags := s_tags s; s_inherited := s_inherited s; s_bindings := s_bindings s; s_base := v; s_doctypeName := s_doctypeName s; s_doctypeSysid := s_doctypeSysid s; s_doctypePubid := s_doctypePubid s; s_declEntity := s_declEntity s; s_declElement := s_declElement s; s_declAttId := s_declAttId s; s_declAttType := s_declAttType s; s_declCdata := s_declCdata s; s_declIsId := s_declIsId s; s_notName := s_notName s; s_notPub := s_notPub s; s_group := s_group s; s_idIx := s_idIx s; s_parsing := s_parsing s; s_final := s_final s; s_ev := s_ev s; s_evEnd := s_evEnd s; s_log := s_log s |}.
Definition set_doctypeName (v : option bytes) (s : st) : st :=
  {| s_cfg := s_cfg s; s_pid := s_pid s; s_child := s_child s; s_isParam := s_isParam s; s_pep := s_pep s; s_foreign := s_foreign s; s_protocol := s_protocol s; s_enc := s_enc s; s_processor := s_processor s; s_role := s_role s; s_inEV := s_inEV s; s_dtd := s_dtd s; s_open := s_open s; s_tagLevel := s_tagLevel s; s_tags := s_tags s; s_inherited := s_inherited s; s_bindings := s_bindings s; s_base := s_base s; s_doctypeName := v; s_doctypeSysid := s_doctypeSysid s; s_doctypePubid := s_doctypePubid s; s_declEntity := s_declEntity s; s_declElement := s_declElement s; s_declAttId := s_declAttId s; s_declAttType := s_declAttType s; s_declCdata := s_declCdata s; s_declIsId := s_declIsId s; s_notName := s_notName s; s_notPub := s_notPub s; s_group := s_group s; s_idIx := s_idIx s; s_parsing := s_parsing s; s_final := s_final s; s_ev := s_ev s; s_evEnd := s_evEnd s; s_log := s_log s |}.
Definition set_doctypeSysid (v : option bytes) (s : st) : st :=
  {| s_cfg := s_cfg s; s_pid := s_pid s; s_child := s_child s; s_isParam := s_isParam s; s_pep := s_pep s; s_foreign := s_foreign s; s_protocol := s_protocol s; s_enc := s_enc s; s_processor := s_processor s; s_role := s_role s; s_inEV := s_inEV s; s_dtd := s_dtd s; s_open := s_open s; s_tagLevel := s_tagLevel s; s_tags := s_tags s; s_inherited := s_inherited s; s_bindings := s_bindings s; s_base := s_base s; s_doctypeName := s_doctypeName s; s_doctypeSysid := v; s_doctypePubid := s_doctypePubid s; s_declEntity := s_declEntity s; s_declElement := s_declElement s; s_declAttId := s_declAttId s; s_declAttType := s_declAttType s; s_declCdata := s_declCdata s; s_declIsId := s_declIsId s; s_notName := s_notName s; s_notPub := s_notPub s; s_group := s_group s; s_idIx := s_idIx s; s_parsing := s_parsing s; s_final := s_final s; s_ev := s_ev s; s_evEnd := s_evEnd s; s_log := s_log s |}.
Definition set_doctypePubid (v : option bytes) (s : st) : st :=
  {| s_cfg := s_cfg s; s_pid := s_pid s; s_child := s_child s; s_isParam := s_isParam s; s_pep := s_pep s; s_foreign := s_foreign s; s_protocol := s_protocol s; s_enc := s_enc s; s_processor := s_processor s; s_role := s_role s; s_inEV := s_inEV s; s_dtd := s_dtd s; s_open := s_open s; s_tagLevel := s_tagLevel s; s_tags := s_tags s; s_inherited := s_inherited s; s_bindings := s_bindings s; s_base := s_base s; s_doctypeName := s_doctypeName s; s_doctypeSysid := s_doctypeSysid s; s_doctypePubid := v; s_declEntity := s_declEntity s; s_declElement := s_declElement s; s_declAttId := s_declAttId s; s_declAttType := s_declAttType s; s_declCdata := s_declCdata s; s_declIsId := s_declIsId s; s_notName := s_notName s; s_notPub := s_notPub s; s_group := s_group s; s_idIx := s_idIx s; s_parsing := s_parsing s; s_final := s_final s; s_ev := s_ev s; s_evEnd := s_evEnd s; s_log := s_log s |}.
Definition set_declEntity (v : option entref) (s : st) : st :=
  {| s_cfg := s_cfg s; s_pid := s_pid s; s_child := s_child s; s_isParam := s_isParam s; s_pep := s_pep s; s_foreign := s_foreign s; s_protocol := s_protocol s; s_enc := s_enc s; s_processor := s_processor s; s_role := s_role s; s_inEV := s_inEV s; s_dtd := s_dtd s; s_open := s_open s; s_tagLevel := s_tagLevel s; s_tags := s_tags s; s_inherited := s_inherited s; s_bindings := s_bindings s; s_base := s_base s; s_doctypeName := s_doctypeName s; s_doctypeSysid := s_doctypeSysid s; s_doctypePubid := s_doctypePubid s; s_declEntity := v; s_declElement := s_declElement s; s_declAttId := s_declAttId s; s_declAttType := s_declAttType s; s_declCdata := s_declCdata s; s_declIsId := s_declIsId s; s_notName := s_notName s; s_notPub := s_notPub s; s_group := s_group s; s_idIx := s_idIx s; s_parsing := s_parsing s; s_final := s_final s; s_ev := s_ev s; s_evEnd := s_evEnd s; s_log := s_log s |}.
Definition set_declElement (v : option bytes) (s : st) : st :=
  {| s_cfg := s_cfg s; s_pid := s_pid s; s_child := s_child s; s_isParam := s_isParam s; s_pep := s_pep s; s_foreign := s_foreign s; s_protocol := s_protocol s; s_enc := s_enc s; s_processor := s_processor s; s_role := s_role s; s_inEV := s_inEV s; s_dtd := s_dtd s; s_open := s_open s; s_tagLevel := s_tagLevel s; s_tags := s_tags s; s_inherited := s_inherited s; s_bindings := s_bindings s; s_base := s_base s; s_doctypeName := s_doctypeName s; s_doctypeSysid := s_doctypeSysid s; s_doctypePubid := s_doctypePubid s; s_declEntity := s_declEntity s; s_declElement := v; s_declAttId := s_declAttId s; s_declAttType := s_declAttType s; s_declCdata := s_declCdata s; s_declIsId := s_declIsId s; s_notName := s_notName s; s_notPub := s_notPub s; s_group := s_group s; s_idIx := s_idIx s; s_parsing := s_parsing s; s_final := s_final s; s_ev := s_ev s; s_evEnd := s_evEnd s; s_log := s_log s |}.
Definition set_declAttId (v : option bytes) (s : st) : st :=
  {| s_cfg := s_cfg s; s_pid := s_pid s; s_child := s_child s; s_isParam := s_isParam s; s_pep := s_pep s; s_foreign := s_foreign s; s_protocol := s_protocol s; s_enc := s_enc s; s_processor := s_processor s; s_role := s_role s; s_inEV := s_inEV s; s_dtd := s_dtd s; s_open := s_open s; s_tagLevel := s_tagLevel s; s_tags := s_tags s; s_inherited := s_inherited s; s_bindings := s_bindings s; s_base := s_base s; s_doctypeName := s_doctypeName s; s_doctypeSysid := s_doctypeSysid s; s_doctypePubid := s_doctypePubid s; s_declEntity := s_declEntity s; s_declElement := s_declElement s; s_declAttId := v; s_declAttType := s_declAttType s; s_declCdata := s_declCdata s; s_declIsId := s_declIsId s; s_notName := s_notName s; s_notPub := s_notPub s; s_group := s_group s; s_idIx := s_idIx s; s_parsing := s_parsing s; s_final := s_final s; s_ev := s_ev s; s_evEnd := s_evEnd s; s_log := s_log s |}.
Definition set_declAttType (v : option bytes) (s : st) : st :=
  {| s_cfg := s_cfg s; s_pid := s_pid s; s_child := s_child s; s_isParam := s_isParam s; s_pep := s_pep s; s_foreign := s_foreign s; s_protocol := s_protocol s; s_enc := s_enc s; s_processor := s_processor s; s_role := s_role s; s_inEV := s_inEV s; s_dtd := s_dtd s; s_open := s_open s; s_tagLevel := s_tagLevel s; s_tags := s_tags s; s_inherited := s_inherited s; s_bindings := s_bindings s; s_base := s_base s; s_doctypeName := s_doctypeName s; s_doctypeSysid := s_doctypeSysid s; s_doctypePubid := s_doctypePubid s; s_declEntity := s_declEntity s; s_declElement := s_declElement s; s_declAttId := s_declAttId s; s_declAttType := v; s_declCdata := s_declCdata s; s_declIsId := s_declIsId s; s_notName := s_notName s; s_notPub := s_notPub s; s_group := s_group s; s_idIx := s_idIx s; s_parsing := s_parsing s; s_final := s_final s; s_ev := s_ev s; s_evEnd := s_evEnd s; s_log := s_log s |}.
Definition set_declCdata (v : bool) (s : st) : st :=
  {| s_cfg := s_cfg s; s_pid := s_pid s; s_child := s_child s; s_isParam := s_isParam s; s_pep := s_pep s; s_foreign := s_foreign s; s_protocol := s_protocol s; s_enc := s_enc s; s_processor := s_processor s; s_role := s_role s; s_inEV := s_inEV s; s_dtd := s_dtd s; s_open := s_open s; s_tagLevel := s_tagLevel s; s_tags := s_tags s; s_inherited := s_inherited s; s_bindings := s_bindings s; s_base := s_base s; s_doctypeName := s_doctypeName s; s_doctypeSysid := s_doctypeSysid s; s_doctypePubid := s_doctypePubid s; s_declEntity := s_declEntity s; s_declElement := s_declElement s; s_declAttId := s_declAttId s; s_declAttType := s_declAttType s; s_declCdata := v; s_declIsId := s_declIsId s; s_notName := s_notName s; s_notPub := s_notPub s; s_group := s_group s; s_idIx := s_idIx s; s_parsing := s_parsing s; s_final := s_final s; s_ev := s_ev s; s_evEnd := s_evEnd s; s_log := s_log s |}.
Definition set_declIsId (v : bool) (s : st) : st :=
  {| s_cfg := s_cfg s; s_pid := s_pid s; s_child := s_child s; s_isParam := s_isParam s; s_pep := s_pep s; s_foreign := s_foreign s; s_protocol := s_protocol s; s_enc := s_enc s; s_processor := s_processor s; s_role := s_role s; s_inEV := s_inEV s; s_dtd := s_dtd s; s_open := s_open s; s_tagLevel := s_tagLevel s; s_tags := s_tags s; s_inherited := s_inherited s; s_bindings := s_bindings s; s_base := s_base s; s_doctypeName := s_doctypeName s; s_doctypeSysid := s_doctypeSysid s; s_doctypePubid := s_doctypePubid s; s_declEntity := s_declEntity s; s_declElement := s_declElement s; s_declAttId := s_declAttId s; s_declAttType := s_declAttType s; s_declCdata := s_declCdata s; s_declIsId := v; s_notName := s_notName s; s_notPub := s_notPub s; s_group := s_group s; s_idIx := s_idIx s; s_parsing := s_parsing s; s_final := s_final s; s_ev := s_ev s; s_evEnd := s_evEnd s; s_log := s_log s |}.
Definition set_notName (v : option bytes) (s : st) : st :=
  {| s_cfg := s_cfg s; s_pid := s_pid s; s_child := s_child s; s_isParam := s_isParam s; s_pep := s_pep s; s_foreign := s_foreign s; s_protocol := s_protocol s; s_enc := s_enc s; s_processor := s_processor s; s_role := s_role s; s_inEV := s_inEV s; s_dtd := s_dtd s; s_open := s_open s; s_tagLevel := s_tagLevel s; s_tags := s_tags s; s_inherited := s_inherited s; s_bindings := s_bindings s; s_base := s_base s; s_doctypeName := s_doctypeName s; s_doctypeSysid := s_doctypeSysid s; s_doctypePubid := s_doctypePubid s; s_declEntity := s_declEntity s; s_declElement := s_declElement s; s_declAttId := s_declAttId s; s_declAttType := s_declAttType s; s_declCdata := s_declCdata s; s_declIsId := s_declIsId s; s_notName := v; s_notPub := s_notPub s; s_group := s_group s; s_idIx := s_idIx s; s_parsing := s_parsing s; s_final := s_final s; s_ev := s_ev s; s_evEnd := s_evEnd s; s_log := s_log s |}.
Definition set_notPub (v : option bytes) (s : st) : st :=
  {| s_cfg := s_cfg s; s_pid := s_pid s; s_child := s_child s; s_isParam := s_isParam s; s_pep := s_pep s; s_foreign := s_foreign s; s_protocol := s_protocol s; s_enc := s_enc s; s_processor := s_processor s; s_role := s_role s; s_inEV := s_inEV s; s_dtd := s_dtd s; s_open := s_open s; s_tagLevel := s_tagLevel s; s_tags := s_tags s; s_inherited := s_inherited s; s_bindings := s_bindings s; s_base := s_base s; s_doctypeName := s_doctypeName s; s_doctypeSysid := s_doctypeSysid s; s_doctypePubid := s_doctypePubid s; s_declEntity := s_declEntity s; s_declElement := s_declElement s; s_declAttId := s_declAttId s; s_declAttType := s_declAttType s; s_declCdata := s_declCdata s; s_declIsId := s_declIsId s; s_notName := s_notName s; s_notPub := v; s_group := s_group s; s_idIx := s_idIx s; s_parsing := s_parsing s; s_final := s_final s; s_ev := s_ev s; s_evEnd := s_evEnd s; s_log := s_log s |}.
Definition set_group (v : list (N * N)) (s : st) : st :=
  {| s_cfg := s_cfg s; s_pid := s_pid s; s_child := s_child s; s_isParam := s_isParam s; s_pep := s_pep s; s_foreign := s_foreign s; s_protocol := s_protocol s; s_enc := s_enc s; s_processor := s_processor s; s_role := s_role s; s_inEV := s_inEV s; s_dtd := s_dtd s; s_open := s_open s; s_tagLevel := s_tagLevel s; s_tags := s_tags s; s_inherited := s_inherited s; s_bindings := s_bindings s; s_base := s_base s; s_doctypeName := s_doctypeName s; s_doctypeSysid := s_doctypeSysid s; s_doctypePubid := s_doctypePubid s; s_declEntity := s_declEntity s; s_declElement := s_declElement s; s_declAttId := s_declAttId s; s_declAttType := s_declAttType s; s_declCdata := s_declCdata s; s_declIsId := s_declIsId s; s_notName := s_notName s; s_notPub := s_notPub s; s_group := v; s_idIx := s_idIx s; s_parsing := s_parsing s; s_final := s_final s; s_ev := s_ev s; s_evEnd := s_evEnd s; s_log := s_log s |}.
Definition set_idIx (v : Z) (s : st) : st :=
  {| s_cfg := s_cfg s; s_pid := s_pid s; s_child := s_child s; s_isParam := s_isParam s; s_pep := s_pep s; s_foreign := s_foreign s; s_protocol := s_protocol s; s_enc := s_enc s; s_processor := s_processor s; s_role := s_role s; s_inEV := s_inEV s; s_dtd := s_dtd s; s_open := s_open s; s_tagLevel := s_tagLevel s; s_tags := s_tags s; s_inherited := s_inherited s; s_bindings := s_bindings s; s_base := s_base s; s_doctypeName := s_doctypeName s; s_doctypeSysid := s_doctypeSysid s; s_doctypePubid := s_doctypePubid s; s_declEntity := s_declEntity s; s_declElement := s_declElement s; s_declAttId := s_declAttId s; s_declAttType := s_declAttType s; s_declCdata := s_declCdata s; s_declIsId := s_declIsId s; s_notName := s_notName s; s_notPub := s_notPub s; s_group := s_group s; s_idIx := v; s_parsing := s_parsing s; s_final := s_final s; s_ev := s_ev s; s_evEnd := s_evEnd s; s_log := s_log s |}.
Definition set_parsing (v : XML_Parsing) (s : st) : st :=
  {| s_cfg := s_cfg s; s_pid := s_pid s; s_child := s_child s; s_isParam := s_isParam s; s_pep := s_pep s; s_foreign := s_foreign s; s_protocol := s_protocol s; s_enc := s_enc s; s_processor := s_processor s; s_role := s_role s; s_inEV := s_inEV s; s_dtd := s_dtd s; s_open := s_open s; s_tagLevel := s_tagLevel s; s_tags := s_tags s; s_inherited := s_inherited s; s_bindings := s_bindings s; s_base := s_base s; s_doctypeName := s_doctypeName s; s_doctypeSysid := s_doctypeSysid s; s_doctypePubid := s_doctypePubid s; s_declEntity := s_declEntity s; s_declElement := s_declElement s; s_declAttId := s_declAttId s; s_declAttType := s_declAttType s; s_declCdata := s_declCdata s; s_declIsId := s_declIsId s; s_notName := s_notName s; s_notPub := s_notPub s; s_group := s_group s; s_idIx := s_idIx s; s_parsing := v; s_final := s_final s; s_ev := s_ev s; s_evEnd := s_evEnd s; s_log := s_log s |}.
Definition set_final (v : bool) (s : st) : st :=
  {| s_cfg := s_cfg s; s_pid := s_pid s; s_child := s_child s; s_isParam := s_isParam s; s_pep := s_pep s; s_foreign := s_foreign s; s_protocol := s_protocol s; s_enc := s_enc s; s_processor := s_processor s; s_role := s_role s; s_inEV := s_inEV s; s_dtd := s_dtd s; s_open := s_open s; s_tagLevel := s_tagLevel s; s_tags := s_tags s; s_inherited := s_inherited s; s_bindings := s_bindings s; s_base := s_base s; s_doctypeName := s_doctypeName s; s_doctypeSysid := s_doctypeSysid s; s_doctypePubid := s_doctypePubid s; s_declEntity := s_declEntity s; s_declElement := s_declElement s; s_declAttId := s_declAttId s; s_declAttType := s_declAttType s; s_declCdata := s_declCdata s; s_declIsId := s_declIsId s; s_notName := s_notName s; s_notPub := s_notPub s; s_group := s_group s; s_idIx := s_idIx s; s_parsing := s_parsing s; s_final := v; s_ev := s_ev s; s_evEnd := s_evEnd s; s_log := s_log s |}.
Definition set_ev (v : option nat) (s : st) : st :=
  {| s_cfg := s_cfg s; s_pid := s_pid s; s_child := s_child s; s_isParam := s_isParam s; s_pep := s_pep s; s_foreign := s_foreign s; s_protocol := s_protocol s; s_enc := s_enc s; s_processor := s_processor s; s_role := s_role s; s_inEV := s_inEV s; s_dtd := s_dtd s; s_open := s_open s; s_tagLevel := s_tagLevel s; s_tags := s_tags s; s_inherited := s_inherited s; s_bindings := s_bindings s; s_base := s_base s; s_doctypeName := s_doctypeName s; s_doctypeSysid := s_doctypeSysid s; s_doctypePubid := s_doctypePubid s; s_declEntity := s_declEntity s; s_declElement := s_declElement s; s_declAttId := s_declAttId s; s_declAttType := s_declAttType s; s_declCdata := s_declCdata s; s_declIsId := s_declIsId s; s_notName := s_notName s; s_notPub := s_notPub s; s_group := s_group s; s_idIx := s_idIx s; s_parsing := s_parsing s; s_final := s_final s; s_ev := v; s_evEnd := s_evEnd s; s_log := s_log s |}.
Definition set_evEnd (v : option nat) (s : st) : st :=
  {| s_cfg := s_cfg s; s_pid := s_pid s; s_child := s_child s; s_isParam := s_isParam s; s_pep := s_pep s; s_foreign := s_foreign s; s_protocol := s_protocol s; s_enc := s_enc s; s_processor := s_processor s; s_role := s_role s; s_inEV := s_inEV s; s_dtd := s_dtd s; s_open := s_open s; s_tagLevel := s_tagLevel s; s_tags := s_tags s; s_inherited := s_inherited s; s_bindings := s_bindings s; s_base := s_base s; s_doctypeName := s_doctypeName s; s_doctypeSysid := s_doctypeSysid s; s_doctypePubid := s_doctypePubid s; s_declEntity := s_declEntity s; s_declElement := s_declElement s; s_declAttId := s_declAttId s; s_declAttType := s_declAttType s; s_declCdata := s_declCdata s; s_declIsId := s_declIsId s; s_notName := s_notName s; s_notPub := s_notPub s; s_group := s_group s; s_idIx := s_idIx s; s_parsing := s_parsing s; s_final := s_final s; s_ev := s_ev s; s_evEnd := v; s_log := s_log s |}.
Definition set_log (v : list (nat * event)) (s : st) : st :=
  {| s_cfg := s_cfg s; s_pid := s_pid s; s_child := s_child s; s_isParam := s_isParam s; s_pep := s_pep s; s_foreign := s_foreign s; s_protocol := s_protocol s; s_enc := s_enc s; s_processor := s_processor s; s_role := s_role s; s_inEV := s_inEV s; s_dtd := s_dtd s; s_open := s_open s; s_tagLevel := s_tagLevel s; s_tags := s_tags s; s_inherited := s_inherited s; s_bindings := s_bindings s; s_base := s_base s; s_doctypeName := s_doctypeName s; s_doctypeSysid := s_doctypeSysid s; s_doctypePubid := s_doctypePubid s; s_declEntity := s_declEntity s; s_declElement := s_declElement s; s_declAttId := s_declAttId s; s_declAttType := s_declAttType s; s_declCdata := s_declCdata s; s_declIsId := s_declIsId s; s_notName := s_notName s; s_notPub := s_notPub s; s_group := s_group s; s_idIx := s_idIx s; s_parsing := s_parsing s; s_final := s_final s; s_ev := s_ev s; s_evEnd := s_evEnd s; s_log := v |}.

(* Functions that return XML_Error: [Fail] is the early return of an error code, [Die] a panic. *)
Inductive out (A : Type) := Ret (a : A) (s : st) | Fail (e : XML_Error) (s : st) | Die (e : err).
Arguments Ret {A}. Arguments Fail {A}. Arguments Die {A}.
Definition P (A : Type) := st -> out A.
Definition pret {A} (a : A) : P A := fun s => Ret a s.
Definition pbind {A B} (m : P A) (k : A -> P B) : P B := fun s =>
  match m s with Ret a s => k a s | Fail e s => Fail e s | Die e => Die e end.
Notation "'do' x '<-' m ';' k" := (pbind m (fun x => k))
  (at level 200, x pattern, m at level 100, k at level 200, right associativity).
Notation "m ';;;' k" := (pbind m (fun _ => k)) (at level 199, k at level 200, right associativity).
Definition fail {A} (e : XML_Error) : P A := fun s => Fail e s.
Definition die {A} (e : err) : P A := fun _ => Die e.
Definition get {A} (f : st -> A) : P A := fun s => Ret (f s) s.
Definition upd (f : st -> st) : P unit := fun s => Ret tt (f s).
Definition lift {A} (r : res A) : P A := fun s => match r with Ok a => Ret a s | Err e => Die e end.
Definition upd_dtd (f : dtd -> dtd) : P unit := upd (fun s => set_dtd (f (s_dtd s)) s).
Definition getd {A} (f : dtd -> A) : P A := get (fun s => f (s_dtd s)).
Definition handler (f : handlers -> bool) : P bool := get (fun s => f (c_h (s_cfg s))).
(* the code of an error, XML_ERROR_NONE if there is none; the state is kept *)
Definition try {A} (m : P A) : P (XML_Error + A) := fun s =>
  match m s with Ret a s => Ret (inr a) s | Fail e s => Ret (inl e) s | Die e => Die e end.

(* XML_StopParser called from a handler, src/lib/xmlparse.rs:2847-2889 (Api.v): the parser is PARSING,
   or SUSPENDED or FINISHED by an earlier call; a parameter entity parser cannot be suspended *)
Definition stopped (r : reaction) (isParam : bool) (p : XML_Parsing) : XML_Parsing :=
  match stop r with
  | None => p
  | Some resumable =>
      match p with
      | FINISHED => FINISHED
      | SUSPENDED => if resumable then SUSPENDED else FINISHED
      | _ => if resumable then if isParam then p else SUSPENDED else FINISHED
      end
  end.

(* a call of a handler that is set *)
Definition call (ev : event) : P reaction := fun s =>
  let log := (s_pid s, ev) :: s_log s in
  let r := c_app (s_cfg s) log in
  Ret r (set_parsing (stopped r (s_isParam s) (s_parsing s)) (set_log log s)).
(* handler wrappers, src/lib/xmlparse.rs:445-640: was the handler set? *)
Definition emit (h : handlers -> bool) (ev : event) : P bool :=
  do on <- handler h;
  if on then call ev ;;; pret true else pret false.

(* EncodingType, XML_ParserStruct::encoding, src/lib/xmlparse.rs:841-847, 358-371.  An InitEncoding is asked
   for nothing but tokens until it has been replaced; it has the properties of UTF-8. *)
Inductive enctype := ENormal | EInternal.
Definition is_internal (t : enctype) : bool := match t with EInternal => true | ENormal => false end.
Definition known (ns : bool) (e : encstate) : EncImpl :=
  match e with EKnown e => e | EInit _ => if ns then utf8_encoding_ns else utf8_encoding end.
Definition encoding (t : enctype) : P EncImpl := fun s =>
  let ns := c_ns (s_cfg s) in
  Ret (match t with
       | ENormal => known ns (s_enc s)
       | EInternal => if ns then internal_utf8_encoding_ns else internal_utf8_encoding
       end) s.

(* m_eventPtr / m_eventEndPtr := start of [buf]; the pointers into entity text are not modelled *)
Definition set_event (t : enctype) (buf : bytes) : P unit :=
  if is_internal t then pret tt else upd (set_ev (Some (length buf))).
Definition set_event_end (t : enctype) (buf : bytes) : P unit :=
  if is_internal t then pret tt else upd (set_evEnd (Some (length buf))).

(* what StringPool::append adds to the string for [buf] (src/string_pool.rs): see Pool.v, where the
   pool's conversions in pieces are shown to give the same text *)
Definition conv (e : EncImpl) (buf : bytes) : res bytes :=
  let* (r, out, rest) := utf8Convert e buf (4 * length buf + 4) in Ok out.
Definition store (t : enctype) (buf : bytes) : P bytes :=
  do e <- encoding t;
  lift (conv e buf).

(* buf.with_end(rest): the part of [buf] before its suffix [rest] *)
Definition before (buf rest : bytes) : bytes := firstn (length buf - length rest) buf.
Definition inc (n : nat) (buf : bytes) : P bytes := lift (inc_start n buf).
(* buf.dec_end(n), src/lib/xmlparse.rs:124-129 *)
Definition dec (n : nat) (buf : bytes) : P bytes :=
  if (n <=? length buf)%nat then pret (firstn (length buf - n) buf) else die EPanic.
(* the rest of [buf] after a token: [None] is a next pointer the tokeniser has not written, which the caller
   initialised with the start of the buffer *)
Definition rest_after (buf : bytes) (n : option nat) : P bytes :=
  match n with Some n => inc n buf | None => pret buf end.

(* parser.m_dtd.prefixes / defaultPrefix: the binding of a prefix *)
Definition binding_of (p : prefref) (d : dtd) : option binding :=
  match p with
  | PDefault => d_default d
  | PNamed n => match look n (d_prefixes d) with Some b => b | None => None end
  | PDangling => None
  end.
Definition bind_prefix (p : prefref) (b : option binding) (d : dtd) : dtd :=
  match p with
  | PDefault => set_d_default b d
  | PNamed n => set_d_prefixes (put n b (d_prefixes d)) d
  | PDangling => d
  end.

Definition entity_table (is_param : bool) (d : dtd) : list (bytes * entity) := if is_param then d_pents d else d_gents d.
Definition look_entity (r : entref) (d : dtd) : option entity := look (snd r) (entity_table (fst r) d).
Definition put_entity (r : entref) (e : entity) (d : dtd) : dtd :=
  if fst r then set_d_pents (put (snd r) e (d_pents d)) d else set_d_gents (put (snd r) e (d_gents d)) d.
(* an update through a pointer to an entity *)
Definition upd_entity (r : entref) (f : entity -> entity) : P unit :=
  upd_dtd (fun d => match look_entity r d with Some e => put_entity r (f e) d | None => d end).

Definition when (b : bool) (m : P unit) : P unit := if b then m else pret tt.
