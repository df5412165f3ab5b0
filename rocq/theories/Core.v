(* The whole parser: the mutual recursion of Content.v and Prolog.v closed over fuel, parsers for external
   entities, and the processors behind the calling interface of Api.v.  src/lib/xmlparse.rs:1155-1293,
   1597-1610, 1644-1865, 1939-2035, 8141-8208. *)
From Coq Require Import List NArith ZArith Bool.
From Verif Require Import Base Encoding TokMisc XmlDecl Status Role State AttVal Bind Atts Scaf Content Prolog.
From Verif Require Api.
Import ListNotations.
Local Open Scope nat_scope.

(* copyEntityTable, src/lib/xmlparse.rs:8143-8208 *)
Definition clone_entity (e : entity) : entity :=
  match e_sys e with
  | Some _ =>
      {| e_text := None; e_processed := 0; e_sys := e_sys e; e_base := e_base e; e_pub := e_pub e; e_notation := e_notation e;
         e_open := false; e_is_param := e_is_param e; e_is_internal := e_is_internal e |}
  | None =>
      {| e_text := Some (match e_text e with Some s => s | None => [] end); e_processed := 0; e_sys := None; e_base := None;
         e_pub := None; e_notation := e_notation e; e_open := false; e_is_param := e_is_param e;
         e_is_internal := e_is_internal e |}
  end.

(* DTD::try_clone, src/lib/xmlparse.rs:1158-1293.  The new DTD is a local variable that the function returns by
   value and the caller moves to the heap: the pointers to its default prefix do not follow. *)
Definition clone_attid (a : attid) : attid :=
  {| ai_prefix := match ai_prefix a with Some PDefault => Some PDangling | p => p end;
     ai_xmlns := match ai_prefix a with Some _ => ai_xmlns a | None => false end;
     ai_maybe := ai_maybe a; ai_type := Unset |}.
Definition dangling (a : attid) : bool := match ai_prefix a with Some PDangling => true | _ => false end.
Definition clone_dtd (d : dtd) : res dtd :=
  if existsb (fun '(_, a) => dangling a) (d_attids d) then Err EOob
  else Ok
    {| d_gents := map (fun '(n, e) => (n, clone_entity e)) (d_gents d);
       d_pents := map (fun '(n, e) => (n, clone_entity e)) (d_pents d);
       d_elems := d_elems d;
       d_attids := map (fun '(n, a) => (n, clone_attid a)) (d_attids d);
       d_prefixes := map (fun '(n, _) => (n, None)) (d_prefixes d);
       d_default := None;
       d_keep := d_keep d; d_hasPE := d_hasPE d; d_standalone := d_standalone d; d_peRead := d_peRead d;
       d_scaf := d_scaf d; d_index := d_index d; d_inEldecl := d_inEldecl d; d_cslen := d_cslen d; d_ev := [] |}.

(* XML_ParserStruct::try_new and init, src/lib/xmlparse.rs:1644-1805.  The handlers are set by the application
   before it parses. *)
Definition new_state (cfg : config) (enc : option bytes) (d : dtd) : st :=
  {| s_cfg := cfg; s_pid := 0; s_child := false; s_isParam := false; s_pep := PEP_NEVER; s_foreign := false;
     s_protocol := enc; s_enc := EInit NO_ENC; s_processor := PrPrologInit; s_role := prolog_init prolog_default;
     s_inEV := false; s_dtd := d; s_open := []; s_tagLevel := 0; s_tags := []; s_inherited := []; s_bindings := [];
     s_base := None; s_doctypeName := None; s_doctypeSysid := None; s_doctypePubid := None; s_declEntity := None;
     s_declElement := None; s_declAttId := None; s_declAttType := None; s_declCdata := false; s_declIsId := false;
     s_notName := None; s_notPub := None; s_group := []; s_idIx := (-1)%Z; s_parsing := INITIALIZED; s_final := false;
     s_ev := None; s_evEnd := None; s_log := [] |}.

(* the handlers a parser for an external entity takes over, src/lib/xmlparse.rs:1981-2002 *)
Definition child_handlers (h : handlers) : handlers :=
  {| h_startElement := h_startElement h; h_endElement := h_endElement h; h_charData := h_charData h; h_pi := h_pi h;
     h_comment := h_comment h; h_startCdata := h_startCdata h; h_endCdata := h_endCdata h; h_default := h_default h;
     h_startDoctype := false; h_endDoctype := false; h_unparsed := h_unparsed h; h_notation := h_notation h;
     h_startNs := h_startNs h; h_endNs := h_endNs h; h_notStandalone := h_notStandalone h; h_external := h_external h;
     h_skipped := h_skipped h; h_unknown := h_unknown h; h_elementDecl := h_elementDecl h; h_attlist := h_attlist h;
     h_entityDecl := h_entityDecl h; h_xmlDecl := h_xmlDecl h |}.
Definition child_config (c : config) : config :=
  {| c_ns := c_ns c; c_sep := c_sep c; c_triplets := c_triplets c; c_expand := c_expand c; c_h := child_handlers (c_h c);
     c_app := c_app c |}.

(* XML_ExternalEntityParserCreate, src/lib/xmlparse.rs:1939-2035, called from a handler of [s]; [None]: a null
   pointer.  The DTD of a parser for a parameter entity is the one of [s] (Rc::clone): [ext] below hands it
   back.  The log goes on. *)
Definition child_parser (context enc : option bytes) (s : st) : res (option st) :=
  let make d :=
    set_log (s_log s) (set_pid (length (s_log s)) (set_declElement (s_declElement s) (set_child true
      (set_pep (s_pep s) (set_inEV (s_inEV s) (new_state (child_config (s_cfg s)) enc d)))))) in
  match context with
  | None =>
      Ok (Some (set_processor PrParEntInit (set_isParam true (let c := make (s_dtd s) in set_role (external_init (s_role c)) c))))
  | Some ctx =>
      let* d := clone_dtd (s_dtd s) in
      match setContext ctx (make d) with
      | Ret true c => Ok (Some (set_processor PrExtEntInit c))
      | Ret false _ | Fail _ _ => Ok None
      | Die e => Err e
      end
  end.

(* m_processor behind the interface of Api.v.  The event pointers are unchanged if the processor has stored
   none; *nextPtr is only read if there is no error. *)
Definition run (r : recs) (c : st) (p : XML_Parsing) (final : bool) (buf : bytes) : res (Api.prun st) :=
  let ev x := match x with Some n => Some (length buf - n) | None => None end in
  match process r buf (set_evEnd None (set_ev None (set_final final (set_parsing p c)))) with
  | Die e => Err e
  | Fail e s =>
      Ok {| Api.r_core := s; Api.r_err := e; Api.r_next := 0; Api.r_event := ev (s_ev s); Api.r_event_end := ev (s_evEnd s);
            Api.r_parsing := s_parsing s |}
  | Ret rest s =>
      Ok {| Api.r_core := s; Api.r_err := XE_NONE; Api.r_next := length buf - length rest; Api.r_event := ev (s_ev s);
            Api.r_event_end := ev (s_evEnd s); Api.r_parsing := s_parsing s |}
  end.

(* startParsing, src/lib/xmlparse.rs:1597-1610 *)
Definition start (c : st) : res (option st) :=
  if c_ns (s_cfg c) then
    match setContext implicitContext c with
    | Ret true c => Ok (Some c)
    | Ret false _ | Fail _ _ => Ok None
    | Die e => Err e
    end
  else Ok (Some c).

(* m_encoding.updatePosition *)
Definition position (c : st) (buf : bytes) (p : Position) : res Position :=
  updatePosition (known (c_ns (s_cfg c)) (s_enc c)) buf p.

(* what lies behind a parser the application has just created: with encoding [enc] if it is given, after
   XML_SetParamEntityParsing, XML_UseForeignDTD and XML_SetBase, src/lib/xmlparse.rs:1380-1440, 2117-2140, 2181-2196,
   2542-2560.  The handlers and other settings are in the configuration. *)
Definition root (cfg : config) (enc : option bytes) (pep : pe_parsing) (foreign : bool) (base : option bytes) : st :=
  set_base base (set_foreign foreign (set_pep pep (new_state cfg enc dtd0))).

(* a new XML_Parser; init, src/lib/xmlparse.rs:1755-1805 *)
Definition new_parser (c : st) : Api.api st :=
  {| Api.buffer := []; Api.bufferStart := 0; Api.bufferEnd := 0; Api.parseEndByteIndex := 0; Api.parseEndIdx := 0;
     Api.eventPtr := None; Api.eventEndPtr := None; Api.positionIdx := Some 0;
     Api.position := {| pos_line := 0; pos_col := 0 |}; Api.errorCode := XE_NONE; Api.parsing := INITIALIZED;
     Api.finalBuffer := false; Api.child := s_child c; Api.param_entity := s_isParam c; Api.failed := false; Api.core := c |}.

(* calls of XML_Parse with these chunks, each with isFinal, up to the first that does not answer XML_STATUS_OK *)
Fixpoint parse_all (r : recs) (chunks : list (bytes * bool)) (a : Api.api st) : res (Api.api st * list XML_Status) :=
  match chunks with
  | [] => Ok (a, [])
  | (b, final) :: chunks =>
      let* (a, s) := Api.parse (run r) start position b final true a in
      match s with
      | ST_OK => let* (a, l) := parse_all r chunks a in Ok (a, s :: l)
      | _ => Ok (a, [s])
      end
  end.

(* the external entity handler: the application may parse the entity there *)
Definition ext (r : recs) (context base sysid pubid : option bytes) : P bool :=
  do re <- call (EvExternalEntityRef context base sysid pubid);
  match child_plan re with
  | None => pret (answer re [])
  | Some (enc, chunks) =>
      fun s =>
        match child_parser context enc s with
        | Err e => Die e
        | Ok None => Ret (answer re [ST_ERROR]) s
        | Ok (Some c) =>
            match parse_all r chunks (new_parser c) with
            | Err e => Die e
            | Ok (a, l) =>
                let c := Api.core a in
                let s := set_log (s_log c) s in
                Ret (answer re l) (match context with None => set_dtd (s_dtd c) s | Some _ => s end)
            end
        end
  end.

(* the recursion closed: [n] levels of calls, counting one for each token *)
Fixpoint knot (n : nat) : recs :=
  match n with
  | O => {| rc_fuel := 0; rc_content := fun _ _ _ _ => die EFuel; rc_prolog := fun _ _ _ _ _ _ => die EFuel;
            rc_ext := fun _ _ _ _ => die EFuel |}
  | S n =>
      let r := knot n in
      {| rc_fuel := S n; rc_content := doContent r; rc_prolog := doProlog r; rc_ext := ext r |}
  end.

(* XML_Parse and XML_ResumeParser on a whole parser, with fuel *)
Definition XML_Parse (n : nat) (b : bytes) (final : bool) (a : Api.api st) : res (Api.api st * XML_Status) :=
  Api.parse (run (knot n)) start position b final true a.
Definition XML_ResumeParser (n : nat) (a : Api.api st) : res (Api.api st * XML_Status) :=
  Api.resumeParser (run (knot n)) position a.

(* XML_ParserReset, src/lib/xmlparse.rs:1829-1865.  [shared]: there is another reference to the DTD, that of a
   parser for a parameter entity that has not been freed.  All handlers are cleared, by init.  What init does
   not mention stays: finalBuffer, the buffer, [level] and [role_none], m_idAttIndex, m_groupConnector. *)
Definition no_handlers : handlers :=
  {| h_startElement := false; h_endElement := false; h_charData := false; h_pi := false; h_comment := false;
     h_startCdata := false; h_endCdata := false; h_default := false; h_startDoctype := false; h_endDoctype := false;
     h_unparsed := false; h_notation := false; h_startNs := false; h_endNs := false; h_notStandalone := false;
     h_external := false; h_skipped := false; h_unknown := false; h_elementDecl := false; h_attlist := false;
     h_entityDecl := false; h_xmlDecl := false |}.
Definition reset (shared : bool) (enc : option bytes) (a : Api.api st) : res (Api.api st * bool) :=
  let s := Api.core a in
  if s_child s then Ok (a, false)
  else if shared then Err EPanic
  else
    let cfg := {| c_ns := c_ns (s_cfg s); c_sep := c_sep (s_cfg s); c_triplets := c_triplets (s_cfg s); c_expand := true;
                  c_h := no_handlers; c_app := c_app (s_cfg s) |} in
    let c := set_log (s_log s) (set_pid (s_pid s) (set_group (s_group s) (set_idIx (s_idIx s)
               (set_role (prolog_init (s_role s)) (new_state cfg enc dtd0))))) in
    Ok ({| Api.buffer := Api.buffer a; Api.bufferStart := 0; Api.bufferEnd := 0; Api.parseEndByteIndex := 0;
           Api.parseEndIdx := 0; Api.eventPtr := None; Api.eventEndPtr := None; Api.positionIdx := Some 0;
           Api.position := {| pos_line := 0; pos_col := 0 |}; Api.errorCode := XE_NONE; Api.parsing := INITIALIZED;
           Api.finalBuffer := Api.finalBuffer a; Api.child := false; Api.param_entity := false; Api.failed := false;
           Api.core := c |}, true).
