(* Model of the prolog: doProlog with everything it calls, src/lib/xmlparse.rs:5058-5391, 5588-6875.
   The string under construction in m_tempPool that becomes an enumerated attribute type is part of
   [s_declAttType]; that a type left unfinished there would be a prefix of a later string is not modelled. *)
From Coq Require Import String List NArith ZArith Bool.
From Verif Require Import Base Encoding Tok TokMisc Norm XmlDecl Status Role State AttVal Bind Atts Scaf Content.
Import ListNotations.
Local Open Scope nat_scope.

(* CXmlHandlers::handleUnknownEncoding, src/lib/xmlparse.rs:5336-5391 *)
Definition handleUnknownEncoding (name : bytes) : P unit :=
  do on <- handler h_unknown;
  if negb on then fail XE_UNKNOWN_ENCODING
  else
    do r <- call (EvUnknownEncoding name);
    if negb (answer r []) then fail XE_UNKNOWN_ENCODING
    else
      let '(map, cv) := match encmap r with Some x => x | None => (repeat (-1)%Z 256, None) end in
      do ns <- get (fun s => c_ns (s_cfg s));
      do u <- lift (unknown_initialize map cv ns);
      match u with
      | None => fail XE_UNKNOWN_ENCODING
      | Some u => upd (set_enc (EKnown (unknown_enc u)))
      end.

(* initializeEncoding, src/lib/xmlparse.rs:5172-5215 *)
Definition initializeEncoding : P unit :=
  do name <- get s_protocol;
  do idx <- lift (getEncodingIndex (match name with Some s => Some (s ++ [0%N]) | None => None end));
  match idx, name with
  | Some idx, _ => upd (set_enc (EInit idx))
  | None, Some name => handleUnknownEncoding name
  | None, None => die EPanic
  end.

(* ptr::eq on two of the four UTF-16 encodings, given that both are of the same parser *)
Definition big_endian (e : EncImpl) : bool :=
  match byte_to_ascii e [0%N; 65%N] with Ok c => (c =? 65)%N | Err _ => false end.

(* processXmlDecl, src/lib/xmlparse.rs:5217-5332.  [after] bytes follow the declaration [buf].  The encoding
   name and the version are stored one after the other in m_temp2Pool without finishing the first string, so
   both pointers are the start of the first one.  That the second may move the block is not modelled. *)
Definition processXmlDecl (general : bool) (buf : bytes) (after : nat) : P unit :=
  do e <- encoding ENormal;
  do ns <- get (fun s => c_ns (s_cfg s));
  do r <- lift (doParseXmlDecl e ns general buf);
  match r with
  | inl bad => set_event_n ENormal (length bad + after) ;;; fail (if general then XE_TEXT_DECL else XE_XML_DECL)
  | inr r =>
      when (negb general && (dr_standalone r =? 1)%Z)
        (upd_dtd (set_d_standalone true) ;;;
         upd (fun s => match s_pep s with PEP_UNLESS_STANDALONE => set_pep PEP_NEVER s | _ => s end)) ;;;
      do encName <- (match dr_enc_name r with
                     | None => pret None
                     | Some b => do n <- lift (nameLength e b); do b <- lift (with_len n b); do x <- lift (conv e b); pret (Some x)
                     end);
      do version <- (match dr_version r with
                     | None => pret None
                     | Some b => do x <- lift (conv e b); pret (Some (c_str x))
                     end);
      do on <- handler h_xmlDecl;
      (if on then
         call (EvXmlDecl (match version, encName with Some v, None => Some v | Some _, Some n => Some n | None, _ => None end)
                         encName (dr_standalone r)) ;;; pret tt
       else reportDefault ENormal buf after) ;;;
      do protocol <- get s_protocol;
      match protocol, dr_encoding r, dr_enc_name r, encName with
      | Some _, _, _, _ => pret tt
      | None, Some e', Some b, _ =>
          if negb (minbpc e' =? minbpc e) || (minbpc e' =? 2) && negb (Bool.eqb (big_endian e') (big_endian e))
          then set_event_n ENormal (length b + after) ;;; fail XE_INCORRECT_ENCODING
          else upd (set_enc (EKnown e'))
      | None, None, Some b, Some n =>
          do x <- try (handleUnknownEncoding n);
          match x with
          | inl err => set_event_n ENormal (length b + after) ;;; fail err
          | inr _ => pret tt
          end
      | _, _, _, _ => pret tt
      end
  end.

(* doIgnoreSection, src/lib/xmlparse.rs:5084-5165: [inl]: not closed *)
Definition doIgnoreSection (t : enctype) (buf : bytes) (haveMore : bool) : P (bytes + bytes) :=
  set_event t buf ;;;
  do e <- encoding t;
  do (tok, n) <- lift (ignoreSectionTok e buf);
  set_event_end_tok t true buf n ;;;
  match tok with
  | T_IGNORE_SECT =>
      do n <- need n;
      reportDefault t (firstn n buf) (length buf - n) ;;;
      do rest <- inc n buf;
      do p <- get s_parsing;
      match p with FINISHED => fail XE_ABORTED | _ => pret (inr rest) end
  | T_INVALID => set_event_opt t buf n ;;; fail XE_INVALID_TOKEN
  | T_PARTIAL_CHAR => if haveMore then pret (inl buf) else fail XE_PARTIAL_CHAR
  | T_PARTIAL | T_NONE => if haveMore then pret (inl buf) else fail XE_SYNTAX
  | _ => set_event_opt t buf n ;;; fail XE_UNEXPECTED_STATE
  end.

(* !standalone && notStandalone() == Ok(0) *)
Definition check_standalone : P unit :=
  do standalone <- getd d_standalone;
  do on <- handler h_notStandalone;
  if negb standalone && on then
    do r <- call EvNotStandalone;
    if answer r [] then pret tt else fail XE_NOT_STANDALONE
  else pret tt.

(* keepProcessing := standalone *)
Definition keep_if_standalone : P unit := upd_dtd (fun d => set_d_keep (d_standalone d) d).

(* externalSubsetName and the insertion of its entity *)
Definition subset : entref := (true, [35%N]).
Definition insert_subset : P unit :=
  upd_dtd (fun d => match look_entity subset d with Some _ => d | None => put_entity subset entity0 d end).

(* a declared entity of the DTD by its reference; the pointers are never dangling *)
Definition entity_at (ent : entref) : P entity :=
  do d <- get s_dtd;
  match look_entity ent d with Some x => pret x | None => die EPanic end.

(* m_groupConnector[m_prologState.level] *)
Definition connector (s : st) : N :=
  match find (fun p => (fst p =? level (s_role s))%N) (s_group s) with Some p => snd p | None => 0%N end.
Definition set_connector (c : N) (s : st) : st :=
  set_group ((level (s_role s), c) :: filter (fun p => negb (fst p =? level (s_role s))%N) (s_group s)) s.

(* the next step of the loop: the default handler may get the token, the rest of the buffer follows;
   or return XML_ERROR_NONE with this at *nextPtr *)
Inductive step := Next (handleDefault : bool) (rest : bytes) | Return (rest : bytes).

Definition no_open (l : list openent) : bool := match l with [] => true | _ => false end.

Section Prolog.
Variable r : recs.

(* doPrologHandleEntityRef, src/lib/xmlparse.rs:5588-5642; the result is handleDefault *)
Definition handleEntityRef (ent : entref) (between : bool) : P bool :=
  do x <- entity_at ent;
  if e_open x then fail XE_RECURSIVE_ENTITY_REF
  else
    match e_text x with
    | Some text => processInternalEntity r ent text between ;;; pret false
    | None =>
        do on <- handler h_external;
        if on then
          upd_dtd (set_d_peRead false) ;;;
          upd_entity ent (set_e_open true) ;;;
          do ok <- rc_ext r None (e_base x) (e_sys x) (e_pub x);
          upd_entity ent (set_e_open false) ;;;
          if negb ok then fail XE_EXTERNAL_ENTITY_HANDLING
          else
            do read <- getd d_peRead;
            (if read then check_standalone else keep_if_standalone) ;;;
            pret false
        else keep_if_standalone ;;; pret true
    end.

(* the external subset, or the DTD the application supplies: DOCTYPE_CLOSE 5836-5879, INSTANCE_START 5889-5926 *)
Definition external_subset (foreign keep_flag : bool) : P unit :=
  do had <- getd d_hasPE;
  upd_dtd (set_d_hasPE true) ;;;
  do pep <- get s_pep;
  do on <- handler h_external;
  match pep, on with
  | PEP_NEVER, _ | _, false => pret tt
  | _, true =>
      insert_subset ;;;
      do base <- get s_base;
      when foreign (upd_entity subset (set_e_base base)) ;;;
      do x <- entity_at subset;
      upd_dtd (set_d_peRead false) ;;;
      do ok <- rc_ext r None (e_base x) (e_sys x) (e_pub x);
      if negb ok then fail XE_EXTERNAL_ENTITY_HANDLING
      else
        do read <- getd d_peRead;
        if read then check_standalone
        else when keep_flag (upd_dtd (set_d_hasPE had))
  end.

(* the text of a literal token without its quotes *)
Definition literal (e : EncImpl) (tok : bytes) : P bytes :=
  do b <- inc (minbpc e) tok;
  do b <- dec (minbpc e) b;
  lift (conv e b).
Definition public_id (e : EncImpl) (tok : bytes) : P bytes :=
  do x <- literal e tok;
  do x <- lift (normalizePublicId (x ++ [0%N]));
  pret (c_str x).
Definition check_public_id (t : enctype) (e : EncImpl) (tok : bytes) (after : nat) : P unit :=
  do bad <- lift (isPublicId e tok);
  match bad with
  | Some k => set_event_n t (length tok + after - k) ;;; fail XE_PUBLICID
  | None => pret tt
  end.

(* an element type name and an attribute name at hand *)
Definition some {A} (x : option A) : P A := match x with Some a => pret a | None => die EPanic end.

(* the end of the declaration of an attribute, 6011-6099; [req]: the last argument of the handler *)
Definition end_attribute (isId : bool) (value : option bytes) (req : bool) : P bool :=
  do el <- get s_declElement; do el <- some el;
  do id <- get s_declAttId; do id <- some id;
  do cd <- get s_declCdata;
  upd_dtd (defineAttribute el id cd isId value) ;;;
  do on <- handler h_attlist;
  do ty <- get s_declAttType;
  match on, ty with
  | true, Some ty =>
      let enum := match ty with
                  | c :: ty' => (c =? 40)%N || (c =? 78)%N && match ty' with c' :: _ => (c' =? 79)%N | [] => false end
                  | [] => false
                  end in
      let ty := if enum then ty ++ [41%N] else ty in
      upd (set_declAttType (Some ty)) ;;;
      call (EvAttlistDecl el id ty value req) ;;;
      pret false
  | _, _ => pret true
  end.

(* GENERAL_ENTITY_NAME, PARAM_ENTITY_NAME, 6226-6310 *)
Definition declare_entity (is_param : bool) (e : EncImpl) (tok : bytes) : P bool :=
  do keep <- getd d_keep;
  if keep then
    do name <- lift (conv e tok);
    do d <- get s_dtd;
    match look_entity (is_param, name) d with
    | Some _ => upd (set_declEntity None) ;;; pret true
    | None =>
        do child <- get s_child;
        do open <- get s_open;
        upd_dtd (put_entity (is_param, name)
                   (set_e_is_param is_param (set_e_is_internal (negb (child || negb (no_open open))) entity0))) ;;;
        upd (set_declEntity (Some (is_param, name))) ;;;
        do on <- handler h_entityDecl;
        pret (negb on)
    end
  else upd (set_declEntity None) ;;; pret true.

(* PARAM_ENTITY_REF, INNER_PARAM_ENTITY_REF, 6503-6592 *)
Definition param_entity_ref (inner : bool) (e : EncImpl) (tok : bytes) : P bool :=
  upd_dtd (set_d_hasPE true) ;;;
  do pep <- get s_pep;
  match pep with
  | PEP_NEVER => keep_if_standalone ;;; check_standalone ;;; pret true
  | _ =>
      do name <- literal e tok;
      do d <- get s_dtd;
      do dc <- get (fun s => doc (s_role s));
      do open <- get s_open;
      let check := dc && (if d_standalone d then no_open open else negb (d_hasPE d)) in
      let handle := do x <- handleEntityRef (true, name) (negb inner); check_standalone ;;; pret x in
      match look_entity (true, name) d with
      | None =>
          if check then fail XE_UNDEFINED_ENTITY
          else
            keep_if_standalone ;;;
            if inner then pret true
            else do on <- emit h_skipped (EvSkippedEntity name true); pret (negb on)
      | Some ent => if check && negb (e_is_internal ent) then fail XE_ENTITY_DECLARED_IN_PE else handle
      end
  end.

(* CONTENT_ELEMENT*, 6735-6775: the name without the character of the quantifier *)
Definition content_element (q : cquant) (t : enctype) (e : EncImpl) (tok : bytes) : P bool :=
  do on <- getd d_inEldecl;
  if on then
    do nm <- (match q with Q_NONE => pret tok | _ => dec (minbpc e) tok end);
    do name <- getElementType t nm;
    do d <- get s_dtd;
    do d <- lift (scaf_name q name d);
    upd (set_dtd d) ;;;
    do h <- handler h_elementDecl;
    pret (negb h)
  else pret true.

(* GROUP_CLOSE*, 6776-6800 *)
Definition group_close (q : cquant) : P bool :=
  do on <- getd d_inEldecl;
  if on then
    do h <- handler h_elementDecl;
    do d <- get s_dtd;
    do (d, last) <- lift (scaf_close q d);
    upd (set_dtd d) ;;;
    when last
      (when h
         (do el <- get s_declElement; do el <- some el;
          do m <- lift (build_model (d_scaf d) (d_cslen d));
          call (EvElementDecl el m) ;;; pret tt) ;;;
       upd_dtd scaf_end) ;;;
    pret (negb h)
  else pret true.

(* a role that only suppresses the default handler *)
Definition quiet (h : handlers -> bool) : P bool := do on <- handler h; pret (negb on).
Definition quiet_kept (h : handlers -> bool) : P bool :=
  do keep <- getd d_keep; do on <- handler h; pret (negb (keep && on)).

(* the two matches on the role, 5738-6835, for the roles that go on with the next token; the result is
   handleDefault.  [tok]: the text of the token; [after]: the bytes after it. *)
Definition role_action (role : ROLE) (k : XML_TOK) (t : enctype) (e : EncImpl) (allowClosing : bool)
  (tok : bytes) (after : nat) : P bool :=
  match role with
  | R_XML_DECL => processXmlDecl false tok after ;;; pret false
  | R_TEXT_DECL => processXmlDecl true tok after ;;; pret false
  | R_DOCTYPE_NAME =>
      do on <- handler h_startDoctype;
      (if on then do name <- lift (conv e tok); upd (fun s => set_doctypePubid None (set_doctypeName (Some name) s))
       else pret tt) ;;;
      upd (set_doctypeSysid None) ;;;
      pret (negb on)
  | R_DOCTYPE_INTERNAL_SUBSET =>
      do on <- handler h_startDoctype;
      if on then
        do name <- get s_doctypeName; do name <- some name;
        do sys <- get s_doctypeSysid;
        do pub <- get s_doctypePubid;
        call (EvStartDoctype name sys pub true) ;;;
        upd (set_doctypeName None) ;;;
        pret false
      else pret true
  | R_DOCTYPE_PUBLIC_ID =>
      upd (set_foreign false) ;;;
      insert_subset ;;;
      upd (set_declEntity (Some subset)) ;;;
      upd_dtd (set_d_hasPE true) ;;;
      do on <- handler h_startDoctype;
      check_public_id t e tok after ;;;
      (if on then do p <- public_id e tok; upd (set_doctypePubid (Some p)) else pret tt) ;;;
      do keep <- getd d_keep;
      (if keep then do p <- public_id e tok; upd_entity subset (set_e_pub (Some p)) else pret tt) ;;;
      pret (negb on)
  | R_ENTITY_PUBLIC_ID =>
      check_public_id t e tok after ;;;
      do keep <- getd d_keep;
      do ent <- get s_declEntity;
      match keep, ent with
      | true, Some ent =>
          do p <- public_id e tok;
          upd_entity ent (set_e_pub (Some p)) ;;;
          quiet h_entityDecl
      | _, _ => pret true
      end
  | R_DOCTYPE_CLOSE =>
      if negb allowClosing then fail XE_INVALID_TOKEN
      else
        do name <- get s_doctypeName;
        do sys <- get s_doctypeSysid;
        do pub <- get s_doctypePubid;
        do hd <- (match name with
                  | Some name => emit h_startDoctype (EvStartDoctype name sys pub false) ;;; pret false
                  | None => pret true
                  end);
        do foreign <- get s_foreign;
        when (match sys with Some _ => true | None => foreign end)
          (external_subset foreign (match sys with Some _ => false | None => true end) ;;;
           upd (set_foreign false)) ;;;
        do on <- emit h_endDoctype EvEndDoctype;
        pret (hd && negb on)
  | R_ATTLIST_ELEMENT_NAME =>
      do el <- getElementType t tok;
      upd (set_declElement (Some el)) ;;;
      quiet_kept h_attlist
  | R_ATTRIBUTE_NAME =>
      do id <- getAttributeId t tok;
      upd (fun s => set_declAttId (Some id) (set_declCdata false (set_declAttType None (set_declIsId false s)))) ;;;
      quiet_kept h_attlist
  | R_ATTRIBUTE_TYPE_CDATA =>
      upd (fun s => set_declCdata true (set_declAttType (Some (ascii "CDATA")) s)) ;;; quiet_kept h_attlist
  | R_ATTRIBUTE_TYPE_ID =>
      upd (fun s => set_declIsId true (set_declAttType (Some (ascii "ID")) s)) ;;; quiet_kept h_attlist
  | R_ATTRIBUTE_TYPE_IDREF => upd (set_declAttType (Some (ascii "IDREF"))) ;;; quiet_kept h_attlist
  | R_ATTRIBUTE_TYPE_IDREFS => upd (set_declAttType (Some (ascii "IDREFS"))) ;;; quiet_kept h_attlist
  | R_ATTRIBUTE_TYPE_ENTITY => upd (set_declAttType (Some (ascii "ENTITY"))) ;;; quiet_kept h_attlist
  | R_ATTRIBUTE_TYPE_ENTITIES => upd (set_declAttType (Some (ascii "ENTITIES"))) ;;; quiet_kept h_attlist
  | R_ATTRIBUTE_TYPE_NMTOKEN => upd (set_declAttType (Some (ascii "NMTOKEN"))) ;;; quiet_kept h_attlist
  | R_ATTRIBUTE_TYPE_NMTOKENS => upd (set_declAttType (Some (ascii "NMTOKENS"))) ;;; quiet_kept h_attlist
  | R_ATTRIBUTE_ENUM_VALUE | R_ATTRIBUTE_NOTATION_VALUE =>
      do keep <- getd d_keep;
      do on <- handler h_attlist;
      if keep && on then
        do ty <- get s_declAttType;
        do v <- lift (conv e tok);
        let prefix := match ty, role with
                      | Some s, _ => s ++ ascii "|"
                      | None, R_ATTRIBUTE_NOTATION_VALUE => ascii "NOTATION("
                      | None, _ => ascii "("
                      end in
        upd (set_declAttType (Some (prefix ++ v))) ;;;
        pret false
      else pret true
  | R_IMPLIED_ATTRIBUTE_VALUE | R_REQUIRED_ATTRIBUTE_VALUE =>
      do keep <- getd d_keep;
      if keep then
        do isId <- get s_declIsId;
        end_attribute isId None (match role with R_REQUIRED_ATTRIBUTE_VALUE => true | _ => false end)
      else pret true
  | R_DEFAULT_ATTRIBUTE_VALUE | R_FIXED_ATTRIBUTE_VALUE =>
      do keep <- getd d_keep;
      if keep then
        do cd <- get s_declCdata;
        do b <- inc (minbpc e) tok;
        do b <- dec (minbpc e) b;
        do v <- storeAttributeValue (rc_fuel r) true t cd b;
        end_attribute false (Some v) (match role with R_FIXED_ATTRIBUTE_VALUE => true | _ => false end)
      else pret true
  | R_ENTITY_VALUE =>
      do keep <- getd d_keep;
      if keep then
        do b <- inc (minbpc e) tok;
        do b <- dec (minbpc e) b;
        do x <- storeEntityValue (rc_ext r) (rc_fuel r) t b;
        do ent <- get s_declEntity;
        do v <- getd d_ev;
        upd_dtd (set_d_ev []) ;;;
        do hd <- (match ent with
                  | Some ent =>
                      upd_entity ent (set_e_text (Some v)) ;;;
                      do y <- entity_at ent;
                      do base <- get s_base;
                      do on <- emit h_entityDecl (EvEntityDecl (snd ent) (e_is_param y) (Some v) base None None None);
                      pret (negb on)
                  | None => pret true
                  end);
        match x with XE_NONE => pret hd | _ => fail x end
      else pret true
  | R_DOCTYPE_SYSTEM_ID =>
      upd (set_foreign false) ;;;
      upd_dtd (set_d_hasPE true) ;;;
      do on <- handler h_startDoctype;
      (if on then do x <- literal e tok; upd (set_doctypeSysid (Some x)) else upd (set_doctypeSysid (Some (snd subset)))) ;;;
      do pep <- get s_pep;
      match pep with PEP_NEVER => check_standalone | _ => pret tt end ;;;
      do ent <- get s_declEntity;
      match ent with
      | None =>
          insert_subset ;;;
          upd (set_declEntity (Some subset)) ;;;
          upd_entity subset (set_e_pub None)
      | Some _ => pret tt
      end ;;;
      do keep <- getd d_keep;
      do ent <- get s_declEntity;
      do base <- get s_base;
      match keep, ent with
      | true, Some ent => do x <- literal e tok; upd_entity ent (fun y => set_e_base base (set_e_sys (Some x) y))
      | _, _ => pret tt
      end ;;;
      pret (negb on)
  | R_ENTITY_SYSTEM_ID =>
      do keep <- getd d_keep;
      do ent <- get s_declEntity;
      do base <- get s_base;
      match keep, ent with
      | true, Some ent =>
          do x <- literal e tok;
          upd_entity ent (fun y => set_e_base base (set_e_sys (Some x) y)) ;;;
          quiet h_entityDecl
      | _, _ => pret true
      end
  | R_ENTITY_COMPLETE =>
      do keep <- getd d_keep;
      do ent <- get s_declEntity;
      match keep, ent with
      | true, Some ent =>
          do y <- entity_at ent;
          do on <- emit h_entityDecl (EvEntityDecl (snd ent) (e_is_param y) None (e_base y) (e_sys y) (e_pub y) None);
          pret (negb on)
      | _, _ => pret true
      end
  | R_ENTITY_NOTATION_NAME =>
      do keep <- getd d_keep;
      do ent <- get s_declEntity;
      match keep, ent with
      | true, Some ent =>
          do n <- lift (conv e tok);
          upd_entity ent (set_e_notation (Some n)) ;;;
          do y <- entity_at ent;
          do on <- emit h_unparsed (EvUnparsedEntityDecl (snd ent) (e_base y) (e_sys y) (e_pub y) (Some n));
          if on then pret false
          else do on <- emit h_entityDecl (EvEntityDecl (snd ent) false None (e_base y) (e_sys y) (e_pub y) (Some n)); pret (negb on)
      | _, _ => pret true
      end
  | R_GENERAL_ENTITY_NAME =>
      do ch <- lift (predefinedEntityName e tok);
      if negb (ch =? 0)%N then upd (set_declEntity None) ;;; pret true
      else declare_entity false e tok
  | R_PARAM_ENTITY_NAME => declare_entity true e tok
  | R_NOTATION_NAME =>
      upd (fun s => set_notPub None (set_notName None s)) ;;;
      do on <- handler h_notation;
      if on then do n <- lift (conv e tok); upd (set_notName (Some n)) ;;; pret false else pret true
  | R_NOTATION_PUBLIC_ID =>
      check_public_id t e tok after ;;;
      do name <- get s_notName;
      match name with
      | Some _ => do p <- public_id e tok; upd (set_notPub (Some p)) ;;; pret false
      | None => pret true
      end
  | R_NOTATION_SYSTEM_ID =>
      do name <- get s_notName;
      do base <- get s_base;
      do pub <- get s_notPub;
      match name with
      | Some n => do x <- literal e tok; do on <- emit h_notation (EvNotationDecl n base (Some x) pub); pret (negb on)
      | None => pret true
      end
  | R_NOTATION_NO_SYSTEM_ID =>
      do name <- get s_notName;
      do base <- get s_base;
      do pub <- get s_notPub;
      match name, pub with
      | Some n, Some p => do on <- emit h_notation (EvNotationDecl n base None (Some p)); pret (negb on)
      | _, _ => pret true
      end
  | R_ERROR =>
      match k with
      | T_PARAM_ENTITY_REF => fail XE_PARAM_ENTITY_REF
      | T_XML_DECL => fail XE_MISPLACED_XML_PI
      | _ => fail XE_SYNTAX
      end
  | R_GROUP_OPEN =>
      upd (set_connector 0) ;;;
      do on <- getd d_inEldecl;
      if on then
        do d <- get s_dtd;
        do d <- lift (scaf_open d);
        upd (set_dtd d) ;;;
        quiet h_elementDecl
      else pret true
  | R_GROUP_SEQUENCE =>
      do c <- get connector;
      if (c =? 124)%N then fail XE_SYNTAX
      else
        upd (set_connector 44) ;;;
        do on <- getd d_inEldecl;
        if on then quiet h_elementDecl else pret true
  | R_GROUP_CHOICE =>
      do c <- get connector;
      if (c =? 44)%N then fail XE_SYNTAX
      else
        do on <- getd d_inEldecl;
        do hd <- (if on && (c =? 0)%N then
                    do d <- get s_dtd;
                    do i <- some (hd_error (d_index d));
                    do n <- lift (nth_error_res (d_scaf d) i);
                    match sn_type n with
                    | CT_MIXED => pret true
                    | _ => do d <- lift (scaf_choice d); upd (set_dtd d) ;;; quiet h_elementDecl
                    end
                  else pret true);
        upd (set_connector 124) ;;;
        pret hd
  | R_PARAM_ENTITY_REF => param_entity_ref false e tok
  | R_INNER_PARAM_ENTITY_REF => param_entity_ref true e tok
  | R_ELEMENT_NAME =>
      do on <- handler h_elementDecl;
      if on then
        do el <- getElementType t tok;
        upd (set_declElement (Some el)) ;;;
        upd_dtd scaf_start ;;;
        pret false
      else pret true
  | R_CONTENT_ANY | R_CONTENT_EMPTY =>
      do on <- getd d_inEldecl;
      if on then
        do h <- handler h_elementDecl;
        when h (do el <- get s_declElement; do el <- some el;
                call (EvElementDecl el (Model (match role with R_CONTENT_ANY => CT_ANY | _ => CT_EMPTY end) Q_NONE None [])) ;;;
                pret tt) ;;;
        upd_dtd (set_d_inEldecl false) ;;;
        pret (negb h)
      else pret true
  | R_CONTENT_PCDATA =>
      do on <- getd d_inEldecl;
      if on then
        do d <- get s_dtd;
        do d <- lift (scaf_mixed d);
        upd (set_dtd d) ;;;
        quiet h_elementDecl
      else pret true
  | R_CONTENT_ELEMENT => content_element Q_NONE t e tok
  | R_CONTENT_ELEMENT_OPT => content_element Q_OPT t e tok
  | R_CONTENT_ELEMENT_REP => content_element Q_REP t e tok
  | R_CONTENT_ELEMENT_PLUS => content_element Q_PLUS t e tok
  | R_GROUP_CLOSE => group_close Q_NONE
  | R_GROUP_CLOSE_OPT => group_close Q_OPT
  | R_GROUP_CLOSE_REP => group_close Q_REP
  | R_GROUP_CLOSE_PLUS => group_close Q_PLUS
  | R_PI => reportPI t tok after ;;; pret false
  | R_COMMENT => reportComment t tok after ;;; pret false
  | R_NONE => pret (negb (tok_eqb k T_BOM))
  | R_DOCTYPE_NONE => quiet h_startDoctype
  | R_ENTITY_NONE => quiet_kept h_entityDecl
  | R_NOTATION_NONE => quiet h_notation
  | R_ATTLIST_NONE => quiet_kept h_attlist
  | R_ELEMENT_NONE => quiet h_elementDecl
  | R_INSTANCE_START | R_IGNORE_SECT => die EPanic   (* in [role_step] *)
  end.

(* with the two roles that leave the loop; [buf] starts with the token [tok], [rest] follows it *)
Definition role_step (role : ROLE) (k : XML_TOK) (t : enctype) (e : EncImpl) (haveMore allowClosing : bool)
  (buf tok rest : bytes) : P step :=
  match role with
  | R_INSTANCE_START =>
      do foreign <- get s_foreign;
      when foreign (external_subset true true) ;;;
      upd (set_processor PrContent) ;;;
      do x <- contentProcessor r buf;
      pret (Return x)
  | R_IGNORE_SECT =>
      reportDefault t tok (length rest) ;;;
      do x <- doIgnoreSection t rest haveMore;
      match x with
      | inl rest => upd (set_processor PrIgnore) ;;; pret (Return rest)
      | inr rest => pret (Next false rest)
      end
  | _ => do hd <- role_action role k t e allowClosing tok (length rest); pret (Next hd rest)
  end.

(* m_prologState.handler *)
Definition role_of (e : EncImpl) (k : XML_TOK) (tok : bytes) : P ROLE :=
  do p <- get s_role;
  do (p, role) <- lift (token_role e p k tok);
  upd (set_role p) ;;;
  pret role.

(* doProlog, src/lib/xmlparse.rs:5644-6875: the token [k] of [n] bytes at the start of [buf], then the rest *)
Definition doProlog (t : enctype) (buf : bytes) (k : XML_TOK) (n : option nat) (haveMore allowClosing : bool) : P bytes :=
  set_event t buf ;;;
  set_event_end_tok t false buf n ;;;
  do e <- encoding t;
  let go (k : XML_TOK) (rest : bytes) : P bytes :=
    let tok := before buf rest in
    do role <- role_of e k tok;
    do x <- role_step role k t e haveMore allowClosing buf tok rest;
    match x with
    | Return rest => pret rest
    | Next hd rest =>
        when hd (reportDefault t tok (length rest)) ;;;
        do p <- get s_parsing;
        match p with
        | SUSPENDED => pret rest
        | FINISHED => fail XE_ABORTED
        | _ =>
            do (k, n) <- scan_as t false rest;
            rc_prolog r t rest k n haveMore allowClosing
        end
    end in
  if tok_is_error k then
    if haveMore && negb (tok_eqb k T_INVALID) then pret buf
    else
      match k with
      | T_INVALID => do rest <- rest_after buf n; set_event t rest ;;; fail XE_INVALID_TOKEN
      | T_PARTIAL => fail XE_UNCLOSED_TOKEN
      | T_PARTIAL_CHAR => fail XE_PARTIAL_CHAR
      | T_PROLOG_S_NEG => do rest <- rest_after buf n; go T_PROLOG_S rest
      | T_NONE =>
          do open <- get s_open;
          do isParam <- get s_isParam;
          if is_internal t && negb (match open with oe :: _ => oe_between oe | [] => false end) then pret buf
          else if isParam || is_internal t then
            do role <- role_of e T_NONE [];
            match role with R_ERROR => fail XE_INCOMPLETE_PE | _ => pret buf end
          else fail XE_NO_ELEMENTS
      | _ => do k <- lift (tok_negate k); go k []
      end
  else do rest <- rest_after buf n; go k rest.

(* prologProcessor, src/lib/xmlparse.rs:5569-5585 *)
Definition prologProcessor (buf : bytes) : P bytes :=
  do (k, n) <- scan false buf;
  do final <- get s_final;
  rc_prolog r ENormal buf k n (negb final) true.

(* ignoreSectionProcessor, src/lib/xmlparse.rs:5058-5080 *)
Definition ignoreSectionProcessor (buf : bytes) : P bytes :=
  do final <- get s_final;
  do x <- doIgnoreSection ENormal buf (negb final);
  match x with
  | inl rest => pret rest
  | inr rest => upd (set_processor PrProlog) ;;; prologProcessor rest
  end.

(* prologInitProcessor, src/lib/xmlparse.rs:5394-5405 *)
Definition prologInitProcessor (buf : bytes) : P bytes :=
  initializeEncoding ;;;
  upd (set_processor PrProlog) ;;;
  prologProcessor buf.

(* tok <= 0 at the end of a parameter entity or its value: [Some]: the error; [None]: go on *)
Definition tok_end (k : XML_TOK) : option XML_Error :=
  match k with
  | T_INVALID => Some XE_INVALID_TOKEN
  | T_PARTIAL => Some XE_UNCLOSED_TOKEN
  | T_PARTIAL_CHAR => Some XE_PARTIAL_CHAR
  | _ => None
  end.

(* externalParEntProcessor, src/lib/xmlparse.rs:5502-5534 *)
Definition externalParEntProcessor (buf : bytes) : P bytes :=
  do (k, n) <- scan false buf;
  do final <- get s_final;
  let run buf k n := upd (set_processor PrProlog) ;;; rc_prolog r ENormal buf k n (negb final) true in
  if tok_is_error k then
    if negb final && negb (tok_eqb k T_INVALID) then pret buf
    else match tok_end k with Some x => fail x | None => run buf k n end
  else if tok_eqb k T_BOM then
    do rest <- rest_after buf n;
    do (k, n) <- scan false rest;
    run rest k n
  else run buf k n.

(* entityValueProcessor, src/lib/xmlparse.rs:5536-5567.  What is left at *nextPtr when the value has been stored
   is the start of the last call's buffer (the caller's initial value) and not used. *)
Fixpoint ev_loop (fuel : nat) (buf : bytes) : P bytes :=
  match fuel with
  | O => die EFuel
  | S fuel =>
      do (k, n) <- scan false buf;
      do final <- get s_final;
      if tok_is_error k then
        if negb final && negb (tok_eqb k T_INVALID) then pret buf
        else
          match tok_end k with
          | Some x => fail x
          | None =>
              do x <- storeEntityValue (rc_ext r) (rc_fuel r) ENormal buf;
              match x with XE_NONE => pret buf | _ => fail x end
          end
      else do rest <- rest_after buf n; ev_loop fuel rest
  end.

(* entityValueInitProcessor, src/lib/xmlparse.rs:5428-5500 *)
Fixpoint ev_init_loop (fuel : nat) (init buf : bytes) : P bytes :=
  match fuel with
  | O => die EFuel
  | S fuel =>
      set_event ENormal buf ;;;
      do (k, n) <- scan false buf;
      set_event_end_tok ENormal false buf n ;;;
      do final <- get s_final;
      if tok_is_error k then
        if negb final && negb (tok_eqb k T_INVALID) then pret buf
        else
          match tok_end k with
          | Some x => fail x
          | None =>
              do x <- storeEntityValue (rc_ext r) (rc_fuel r) ENormal init;
              match x with XE_NONE => pret init | _ => fail x end
          end
      else
        do rest <- rest_after buf n;
        match k with
        | T_XML_DECL =>
            processXmlDecl false (before buf rest) (length rest) ;;;
            do p <- get s_parsing;
            match p with
            | FINISHED => fail XE_ABORTED
            | _ => upd (set_processor PrEV) ;;; ev_loop (rc_fuel r) rest
            end
        | T_INSTANCE_START => fail XE_SYNTAX
        | _ =>
            if tok_eqb k T_BOM && is_nil rest && negb final then pret rest
            else ev_init_loop fuel init rest
        end
  end.
Definition entityValueInitProcessor (buf : bytes) : P bytes := ev_init_loop (rc_fuel r) buf buf.
Definition entityValueProcessor (buf : bytes) : P bytes := ev_loop (rc_fuel r) buf.

(* externalParEntInitProcessor, src/lib/xmlparse.rs:5407-5426 *)
Definition externalParEntInitProcessor (buf : bytes) : P bytes :=
  initializeEncoding ;;;
  upd_dtd (set_d_peRead true) ;;;
  do inEV <- get s_inEV;
  if inEV then upd (set_processor PrEVInit) ;;; entityValueInitProcessor buf
  else upd (set_processor PrParEnt) ;;; externalParEntProcessor buf.

(* externalEntityInitProcessor3, src/lib/xmlparse.rs:3511-3560 *)
Definition externalEntityInitProcessor3 (buf : bytes) : P bytes :=
  set_event ENormal buf ;;;
  do (k, n) <- scan true buf;
  set_event_end_tok ENormal false buf n ;;;
  do final <- get s_final;
  let run buf :=
    upd (set_processor PrExtEntContent) ;;;
    upd (set_tagLevel 1) ;;;
    externalEntityContentProcessor r buf in
  match k with
  | T_XML_DECL =>
      do rest <- rest_after buf n;
      processXmlDecl true (before buf rest) (length rest) ;;;
      do p <- get s_parsing;
      match p with
      | SUSPENDED => pret rest
      | FINISHED => fail XE_ABORTED
      | _ => run rest
      end
  | T_PARTIAL => if final then fail XE_UNCLOSED_TOKEN else pret buf
  | T_PARTIAL_CHAR => if final then fail XE_PARTIAL_CHAR else pret buf
  | _ => run buf
  end.

(* externalEntityInitProcessor2, src/lib/xmlparse.rs:3474-3509 *)
Definition externalEntityInitProcessor2 (buf : bytes) : P bytes :=
  do (k, n) <- scan true buf;
  do final <- get s_final;
  let run buf := upd (set_processor PrExtEntInit3) ;;; externalEntityInitProcessor3 buf in
  match k with
  | T_BOM =>
      do rest <- rest_after buf n;
      if is_nil rest && negb final then pret rest else run rest
  | T_PARTIAL => if final then set_event ENormal buf ;;; fail XE_UNCLOSED_TOKEN else pret buf
  | T_PARTIAL_CHAR => if final then set_event ENormal buf ;;; fail XE_PARTIAL_CHAR else pret buf
  | _ => run buf
  end.

(* externalEntityInitProcessor, src/lib/xmlparse.rs:3459-3472 *)
Definition externalEntityInitProcessor (buf : bytes) : P bytes :=
  initializeEncoding ;;;
  upd (set_processor PrExtEntInit2) ;;;
  externalEntityInitProcessor2 buf.

(* m_processor; errorProcessor is in Api.v: the sticky error code *)
Definition process (buf : bytes) : P bytes :=
  do p <- get s_processor;
  match p with
  | PrPrologInit => prologInitProcessor buf
  | PrProlog => prologProcessor buf
  | PrContent => contentProcessor r buf
  | PrCdata => cdataSectionProcessor r buf
  | PrEpilog => epilogProcessor (rc_fuel r) buf
  | PrInternalEntity => internalEntityProcessor r buf
  | PrIgnore => ignoreSectionProcessor buf
  | PrExtEntInit => externalEntityInitProcessor buf
  | PrExtEntInit2 => externalEntityInitProcessor2 buf
  | PrExtEntInit3 => externalEntityInitProcessor3 buf
  | PrExtEntContent => externalEntityContentProcessor r buf
  | PrParEntInit => externalParEntInitProcessor buf
  | PrParEnt => externalParEntProcessor buf
  | PrEVInit => entityValueInitProcessor buf
  | PrEV => entityValueProcessor buf
  end.
End Prolog.
