(* Model of element content: doContent, doCdataSection, epilogProcessor, the reports of data to handlers and
   the handling of internal general entities, src/lib/xmlparse.rs:3582-4210, 4922-5053, 6879-7132, 7612-7745. *)
From Coq Require Import List NArith ZArith Bool.
From Verif Require Import Base Encoding Tok TokMisc Norm XmlDecl Status Role State AttVal Bind Atts.
Import ListNotations.
Local Open Scope nat_scope.

(* The functions that call each other, as the callee sees them.
   [rc_fuel]: fuel for the loops that do not call back.
   [rc_content]: doContent; the result is what is left of the buffer at *nextPtr.
   [rc_prolog]: doProlog.
   [rc_ext]: the external entity handler with its context, base, system and public identifier; was the
   answer nonzero? *)
Record recs := {
  rc_fuel : nat;
  rc_content : nat -> enctype -> bytes -> bool -> P bytes;
  rc_prolog : enctype -> bytes -> XML_TOK -> option nat -> bool -> bool -> P bytes;
  rc_ext : option bytes -> option bytes -> option bytes -> option bytes -> P bool
}.

(* the current token of m_encoding in state PROLOG or CONTENT: an InitEncoding determines the encoding first *)
Definition scan (content : bool) (buf : bytes) : P (XML_TOK * option nat) := fun s =>
  match s_enc s with
  | EKnown e => lift (if content then contentTok e buf else prologTok e buf) s
  | EInit idx =>
      match initScan (c_ns (s_cfg s)) idx content buf with
      | Ok (t, n, Some e) => Ret (t, n) (set_enc (EKnown e) s)
      | Ok (t, n, None) => Ret (t, n) s
      | Err x => Die x
      end
  end.
Definition scan_as (t : enctype) (content : bool) (buf : bytes) : P (XML_TOK * option nat) :=
  match t with
  | ENormal => scan content buf
  | EInternal => do e <- encoding EInternal; lift (if content then contentTok e buf else prologTok e buf)
  end.

(* m_eventPtr / m_eventEndPtr: [n] bytes before the end of the buffer *)
Definition set_event_n (t : enctype) (n : nat) : P unit := if is_internal t then pret tt else upd (set_ev (Some n)).
Definition set_event_end_n (t : enctype) (n : nat) : P unit := if is_internal t then pret tt else upd (set_evEnd (Some n)).
(* *eventEndPP = next, where [None] is the null pointer or the unwritten start of the buffer *)
Definition set_event_end_tok (t : enctype) (null : bool) (buf : bytes) (n : option nat) : P unit :=
  if is_internal t then pret tt
  else match n with
       | Some n => upd (set_evEnd (Some (length buf - n)))
       | None => upd (set_evEnd (if null then None else Some (length buf)))
       end.

(* INIT_DATA_BUF_SIZE *)
Definition DATA_BUF : nat := 1024.

(* the conversion loop of the character data and default handlers, src/lib/xmlparse.rs:4144-4166, 4969-4991,
   7710-7733.  [after] bytes follow [buf] in the buffer. *)
Fixpoint send_chunks (fuel : nat) (mk : bytes -> event) (t : enctype) (e : EncImpl) (buf : bytes) (after : nat) : P unit :=
  match fuel with
  | O => die EFuel
  | S fuel =>
      do (r, out, rest) <- lift (utf8Convert e buf DATA_BUF);
      set_event_end_n t (length rest + after) ;;;
      call (mk out) ;;;
      set_event_n t (length rest + after) ;;;
      match r with
      | OUTPUT_EXHAUSTED => send_chunks fuel mk t e rest after
      | _ => pret tt
      end
  end.
(* a handler that gets text is called once with the text itself if the encoding is UTF-8 *)
Definition send (mk : bytes -> event) (t : enctype) (buf : bytes) (after : nat) : P unit :=
  do e <- encoding t;
  if isUtf8 e then call (mk buf) ;;; pret tt
  else send_chunks (S (length buf)) mk t e buf after.

(* reportDefault, src/lib/xmlparse.rs:7680-7745, where the handler is set *)
Definition reportDefault (t : enctype) (buf : bytes) (after : nat) : P unit :=
  do on <- handler h_default;
  when on (send EvDefault t buf after).

(* the C string at the start of an array *)
Fixpoint c_str (a : list N) : bytes :=
  match a with [] => [] | c :: a => if (c =? 0)%N then [] else c :: c_str a end.

(* reportProcessingInstruction, src/lib/xmlparse.rs:7612-7650 *)
Definition reportPI (t : enctype) (buf : bytes) (after : nat) : P unit :=
  do on <- handler h_pi;
  if negb on then reportDefault t buf after
  else
    do e <- encoding t;
    do b <- inc (minbpc e * 2) buf;
    do len <- lift (nameLength e b);
    do tem <- inc len b;
    do tb <- lift (with_len len b);
    do target <- lift (conv e tb);
    do d <- lift (skipS e tem);
    do d <- dec (minbpc e * 2) d;
    do data <- lift (conv e d);
    do data <- lift (normalizeLines (data ++ [0%N]));
    call (EvPI target (c_str data)) ;;; pret tt.

(* reportComment, src/lib/xmlparse.rs:7652-7678 *)
Definition reportComment (t : enctype) (buf : bytes) (after : nat) : P unit :=
  do on <- handler h_comment;
  if negb on then reportDefault t buf after
  else
    do e <- encoding t;
    do b <- inc (minbpc e * 4) buf;
    do b <- dec (minbpc e * 3) b;
    do data <- lift (conv e b);
    do data <- lift (normalizeLines (data ++ [0%N]));
    call (EvComment (c_str data)) ;;; pret tt.

(* character data from a token: the handler, or the default handler with the token itself *)
Definition char_data (t : enctype) (data buf : bytes) (after : nat) : P unit :=
  do on <- handler h_charData;
  if on then call (EvCharData data) ;;; pret tt else reportDefault t buf after.
(* text that is passed on as it is: DATA_CHARS *)
Definition char_data_text (t : enctype) (buf : bytes) (after : nat) : P unit :=
  do on <- handler h_charData;
  if on then send EvCharData t buf after else reportDefault t buf after.

(* what follows a token: "match m_parsingStatus.parsing" at the end of the loops.  [inl] is the early return. *)
Definition after_token (t : enctype) (rest : bytes) : P bool :=
  set_event t rest ;;;
  do p <- get s_parsing;
  match p with
  | SUSPENDED => pret true
  | FINISHED => fail XE_ABORTED
  | _ => pret false
  end.

(* doCdataSection, src/lib/xmlparse.rs:4922-5053.  [inl]: the section is not closed, with the rest at
   *nextPtr; [inr]: it is closed. *)
Fixpoint doCdataSection (fuel : nat) (t : enctype) (buf : bytes) (haveMore : bool) : P (bytes + bytes) :=
  match fuel with
  | O => die EFuel
  | S fuel =>
      set_event t buf ;;;
      do e <- encoding t;
      do (tok, n) <- lift (cdataSectionTok e buf);
      set_event_end_tok t true buf n ;;;
      let next (m : P unit) (n : nat) : P (bytes + bytes) :=
        m ;;;
        do rest <- inc n buf;
        do ret <- after_token t rest;
        if ret then pret (inl rest) else doCdataSection fuel t rest haveMore in
      match tok with
      | T_CDATA_SECT_CLOSE =>
          do n <- need n;
          do on <- emit h_endCdata EvEndCdata;
          when (negb on) (reportDefault t (firstn n buf) (length buf - n)) ;;;
          do rest <- inc n buf;
          do p <- get s_parsing;
          match p with FINISHED => fail XE_ABORTED | _ => pret (inr rest) end
      | T_DATA_NEWLINE => do n <- need n; next (char_data t [10%N] (firstn n buf) (length buf - n)) n
      | T_DATA_CHARS => do n <- need n; next (char_data_text t (firstn n buf) (length buf - n)) n
      | T_INVALID => set_event_opt t buf n ;;; fail XE_INVALID_TOKEN
      | T_PARTIAL_CHAR => if haveMore then pret (inl buf) else fail XE_PARTIAL_CHAR
      | T_PARTIAL | T_NONE => if haveMore then pret (inl buf) else fail XE_UNCLOSED_CDATA_SECTION
      | _ => set_event_opt t buf n ;;; fail XE_UNEXPECTED_STATE
      end
  end.

(* epilogProcessor, src/lib/xmlparse.rs:6879-6952 *)
Fixpoint epilog_loop (fuel : nat) (buf : bytes) : P bytes :=
  match fuel with
  | O => die EFuel
  | S fuel =>
      set_event ENormal buf ;;;
      do (tok, n) <- scan false buf;
      set_event_end_tok ENormal true buf n ;;;
      do final <- get s_final;
      let next (m : bytes -> nat -> P unit) : P bytes :=
        do n <- need n;
        m (firstn n buf) (length buf - n) ;;;
        do rest <- inc n buf;
        do ret <- after_token ENormal rest;
        if ret then pret rest else epilog_loop fuel rest in
      match tok with
      | T_PROLOG_S_NEG =>
          do n <- need n;
          reportDefault ENormal (firstn n buf) (length buf - n) ;;;
          do on <- handler h_default;
          do p <- get s_parsing;
          match on, p with
          | true, FINISHED => fail XE_ABORTED
          | _, _ => inc n buf
          end
      | T_NONE => pret buf
      | T_PROLOG_S => next (reportDefault ENormal)
      | T_PI => next (reportPI ENormal)
      | T_COMMENT => next (reportComment ENormal)
      | T_INVALID => set_event_opt ENormal buf n ;;; fail XE_INVALID_TOKEN
      | T_PARTIAL => if final then fail XE_UNCLOSED_TOKEN else pret buf
      | T_PARTIAL_CHAR => if final then fail XE_PARTIAL_CHAR else pret buf
      | _ => fail XE_JUNK_AFTER_DOC_ELEMENT
      end
  end.
Definition epilogProcessor (fuel : nat) (buf : bytes) : P bytes :=
  upd (set_processor PrEpilog) ;;; epilog_loop fuel buf.

Section Content.
Variable r : recs.

(* the end of processInternalEntity and internalEntityProcessor for an entity whose text has been parsed up to
   [rest]; [outer] is openEntity.next.  [true]: the entity stays open *)
Definition leave_entity (ent : entref) (outer : list openent) (text_len : nat) (rest : bytes) : P bool :=
  do p <- get s_parsing;
  if negb (is_nil rest) && parsing_eqb p SUSPENDED then
    upd_entity ent (set_e_processed (text_len - length rest)) ;;;
    pret true
  else
    upd_entity ent (set_e_open false) ;;;
    upd (set_open outer) ;;;
    pret false.

(* processInternalEntity, src/lib/xmlparse.rs:6955-7041 *)
Definition processInternalEntity (ent : entref) (text : bytes) (betweenDecl : bool) : P unit :=
  upd_entity ent (set_e_open true) ;;;
  upd_entity ent (set_e_processed 0) ;;;
  do outer <- get s_open;
  do level <- get s_tagLevel;
  upd (set_open ({| oe_ent := ent; oe_level := level; oe_between := betweenDecl |} :: outer)) ;;;
  do rest <- (if fst ent then
                do (tok, n) <- scan_as EInternal false text;
                rc_prolog r EInternal text tok n false false
              else rc_content r level EInternal text false);
  do suspended <- leave_entity ent outer (length text) rest;
  when suspended (upd (set_processor PrInternalEntity)).

(* a reference to a general entity, src/lib/xmlparse.rs:3666-3781 *)
Definition content_entity (t : enctype) (e : EncImpl) (buf : bytes) (n : nat) : P unit :=
  let tok := firstn n buf in
  let after := length buf - n in
  do name <- ref_name e buf n;
  do ch <- lift (predefinedEntityName e name);
  if negb (ch =? 0)%N then char_data t [ch] tok after
  else
    do name <- lift (conv e name);
    do d <- get s_dtd;
    let skip name := do on <- emit h_skipped (EvSkippedEntity name false); when (negb on) (reportDefault t tok after) in
    let check := negb (d_hasPE d) || d_standalone d in
    match look name (d_gents d) with
    | None => if check then fail XE_UNDEFINED_ENTITY else skip name
    | Some ent =>
        if check && negb (e_is_internal ent) then fail XE_ENTITY_DECLARED_IN_PE
        else if e_open ent then fail XE_RECURSIVE_ENTITY_REF
        else
          match e_notation ent with
          | Some _ => fail XE_BINARY_ENTITY_REF
          | None =>
              match e_text ent with
              | Some text =>
                  do expand <- get (fun s => c_expand (s_cfg s));
                  if expand then processInternalEntity (false, name) text false else skip name
              | None =>
                  do on <- handler h_external;
                  if on then
                    upd_entity (false, name) (set_e_open true) ;;;
                    do ctx <- get getContext;
                    upd_entity (false, name) (set_e_open false) ;;;
                    do ok <- rc_ext r (Some ctx) (e_base ent) (e_sys ent) (e_pub ent);
                    if ok then pret tt else fail XE_EXTERNAL_ENTITY_HANDLING
                  else reportDefault t tok after
              end
          end
    end.

(* after an empty element or an end tag: is the document element complete?  [None]: go on *)
Definition maybe_epilog (rest : bytes) : P (option bytes) :=
  do level <- get s_tagLevel;
  do p <- get s_parsing;
  if (level =? 0) && negb (parsing_eqb p FINISHED) then
    if parsing_eqb p SUSPENDED then upd (set_processor PrEpilog) ;;; pret None
    else do x <- epilogProcessor (rc_fuel r) rest; pret (Some x)
  else pret None.

(* the raw name of a tag after [k] characters of markup, src/lib/xmlparse.rs:3810-3813, 3870, 3931-3932 *)
Definition tag_raw (e : EncImpl) (k : nat) (buf : bytes) : P bytes :=
  do b <- inc (minbpc e * k) buf;
  do len <- lift (nameLength e b);
  lift (with_len len b).

(* src/lib/xmlparse.rs:3782-3866 *)
Definition start_tag (t : enctype) (e : EncImpl) (buf : bytes) (n : nat) : P unit :=
  do raw <- tag_raw e 1 buf;
  upd (fun s => set_tagLevel (S (s_tagLevel s)) s) ;;;
  do name <- lift (conv e raw);
  do so <- storeAtts (rc_fuel r) t buf name;
  do ix <- get s_idIx;
  do started <- emit h_startElement (EvStartElement (so_name so) (so_atts so) (so_spec so) ix);
  when (negb started) (reportDefault t (firstn n buf) (length buf - n)) ;;;
  upd (fun s => set_tags ({| t_raw := raw; t_name := so_name so; t_bindings := so_bindings so |} :: s_tags s) s).

(* src/lib/xmlparse.rs:3867-3922 *)
Definition empty_tag (t : enctype) (e : EncImpl) (buf : bytes) (n : nat) : P unit :=
  do raw <- tag_raw e 1 buf;
  do name <- lift (conv e raw);
  do x <- try (storeAtts (rc_fuel r) t buf name);
  match x with
  | inl err => do bs <- get s_bindings; freeBindings bs ;;; fail err
  | inr so =>
      do ix <- get s_idIx;
      do started <- emit h_startElement (EvStartElement (so_name so) (so_atts so) (so_spec so) ix);
      when started (set_event_n t (length buf - n)) ;;;
      do ended <- emit h_endElement (EvEndElement (so_name so));
      when (negb started && negb ended) (reportDefault t (firstn n buf) (length buf - n)) ;;;
      freeBindings (so_bindings so)
  end.

(* src/lib/xmlparse.rs:3923-4035 *)
Definition end_tag (t : enctype) (e : EncImpl) (buf : bytes) (n : nat) : P unit :=
  do tags <- get s_tags;
  match tags with
  | [] => die EPanic
  | tg :: tags =>
      upd (set_tags tags) ;;;
      do b <- inc (minbpc e * 2) buf;
      do raw <- tag_raw e 2 buf;
      if negb (beqb raw (t_raw tg)) then set_event t b ;;; fail XE_TAG_MISMATCH
      else
        upd (fun s => set_tagLevel (pred (s_tagLevel s)) s) ;;;
        do ended <- emit h_endElement (EvEndElement (t_name tg));
        when (negb ended) (reportDefault t (firstn n buf) (length buf - n)) ;;;
        freeBindings (t_bindings tg)
  end.

(* the end of the text of an entity or of the final buffer, src/lib/xmlparse.rs:3625-3632, 4129-4138 *)
Definition end_of_text (startTagLevel : nat) : P bytes :=
  if startTagLevel =? 0 then fail XE_NO_ELEMENTS
  else
    do level <- get s_tagLevel;
    if negb (level =? startTagLevel) then fail XE_ASYNC_ENTITY
    else pret [].

(* doContent, src/lib/xmlparse.rs:3582-4210: one token, then the rest *)
Definition doContent (startTagLevel : nat) (t : enctype) (buf : bytes) (haveMore : bool) : P bytes :=
  set_event t buf ;;;
  do e <- encoding t;
  do (tok, n) <- scan_as t true buf;
  set_event_end_tok t false buf n ;;;
  let continue (rest : bytes) : P bytes :=
    do ret <- after_token t rest;
    if ret then pret rest else rc_content r startTagLevel t rest haveMore in
  let next (m : P unit) (n : nat) : P bytes := m ;;; do rest <- inc n buf; continue rest in
  let closing (m : P unit) (n : nat) : P bytes :=
    m ;;;
    do rest <- inc n buf;
    do x <- maybe_epilog rest;
    match x with Some y => pret y | None => continue rest end in
  match tok with
  | T_TRAILING_CR =>
      if haveMore then pret buf
      else set_event_end_n t 0 ;;; char_data t [10%N] buf 0 ;;; end_of_text startTagLevel
  | T_NONE =>
      if haveMore then pret buf
      else if startTagLevel =? 0 then fail XE_NO_ELEMENTS
      else
        do level <- get s_tagLevel;
        if negb (level =? startTagLevel) then fail XE_ASYNC_ENTITY else pret buf
  | T_INVALID => (match n with Some n => set_event_n t (length buf - n) | None => set_event t buf end) ;;; fail XE_INVALID_TOKEN
  | T_PARTIAL => if haveMore then pret buf else fail XE_UNCLOSED_TOKEN
  | T_PARTIAL_CHAR => if haveMore then pret buf else fail XE_PARTIAL_CHAR
  | T_ENTITY_REF => do n <- need n; next (content_entity t e buf n) n
  | T_START_TAG_NO_ATTS | T_START_TAG_WITH_ATTS => do n <- need n; next (start_tag t e buf n) n
  | T_EMPTY_ELEMENT_NO_ATTS | T_EMPTY_ELEMENT_WITH_ATTS => do n <- need n; closing (empty_tag t e buf n) n
  | T_END_TAG =>
      do n <- need n;
      do level <- get s_tagLevel;
      if level =? startTagLevel then fail XE_ASYNC_ENTITY else closing (end_tag t e buf n) n
  | T_CHAR_REF =>
      do n <- need n;
      do c <- lift (charRefNumber e buf);
      if (c <? 0)%Z then fail XE_BAD_CHAR_REF
      else next (char_data t (XmlUtf8Encode c) (firstn n buf) (length buf - n)) n
  | T_XML_DECL => fail XE_MISPLACED_XML_PI
  | T_DATA_NEWLINE => do n <- need n; next (char_data t [10%N] (firstn n buf) (length buf - n)) n
  | T_CDATA_SECT_OPEN =>
      do n <- need n;
      do on <- emit h_startCdata EvStartCdata;
      when (negb on) (reportDefault t (firstn n buf) (length buf - n)) ;;;
      do rest <- inc n buf;
      do x <- doCdataSection (rc_fuel r) t rest haveMore;
      match x with
      | inl rest => upd (set_processor PrCdata) ;;; pret rest
      | inr rest => continue rest
      end
  | T_TRAILING_RSQB =>
      if haveMore then pret buf
      else
        (do on <- handler h_charData;
         if on then
           if isUtf8 e then call (EvCharData buf) ;;; pret tt
           else do (_, out, _) <- lift (utf8Convert e buf DATA_BUF); call (EvCharData out) ;;; pret tt
         else reportDefault t buf 0) ;;;
        (if startTagLevel =? 0 then set_event_n t 0
         else do level <- get s_tagLevel; when (negb (level =? startTagLevel)) (set_event_n t 0)) ;;;
        end_of_text startTagLevel
  | T_DATA_CHARS => do n <- need n; next (char_data_text t (firstn n buf) (length buf - n)) n
  | T_PI => do n <- need n; next (reportPI t (firstn n buf) (length buf - n)) n
  | T_COMMENT => do n <- need n; next (reportComment t (firstn n buf) (length buf - n)) n
  | _ => do rest <- rest_after buf n; next (reportDefault t (before buf rest) (length rest)) (length buf - length rest)
  end.

(* contentProcessor and externalEntityContentProcessor, src/lib/xmlparse.rs:3437-3455, 3562-3580; storeRawNames
   changes nothing in the model *)
Definition contentProcessor (buf : bytes) : P bytes :=
  do final <- get s_final; rc_content r 0 ENormal buf (negb final).
Definition externalEntityContentProcessor (buf : bytes) : P bytes :=
  do final <- get s_final; rc_content r 1 ENormal buf (negb final).

(* cdataSectionProcessor, src/lib/xmlparse.rs:4891-4917 *)
Definition cdataSectionProcessor (buf : bytes) : P bytes :=
  do final <- get s_final;
  do x <- doCdataSection (rc_fuel r) ENormal buf (negb final);
  match x with
  | inl rest => pret rest
  | inr rest =>
      do child <- get s_child;
      if child then upd (set_processor PrExtEntContent) ;;; externalEntityContentProcessor rest
      else upd (set_processor PrContent) ;;; contentProcessor rest
  end.

(* internalEntityProcessor, src/lib/xmlparse.rs:7043-7132 *)
Definition internalEntityProcessor (buf : bytes) : P bytes :=
  do open <- get s_open;
  match open with
  | [] => fail XE_UNEXPECTED_STATE
  | oe :: outer =>
      let ent := oe_ent oe in
      do d <- get s_dtd;
      match look_entity ent d with
      | None => die EPanic
      | Some x =>
          let text := match e_text x with Some s => s | None => [] end in
          do tb <- inc (e_processed x) text;
          do rest <- (if fst ent then
                        do (tok, n) <- scan_as EInternal false tb;
                        rc_prolog r EInternal tb tok n false true
                      else rc_content r (oe_level oe) EInternal tb false);
          do suspended <- leave_entity ent outer (length text) rest;
          if suspended then pret buf
          else
            do final <- get s_final;
            if fst ent then
              upd (set_processor PrProlog) ;;;
              do (tok, n) <- scan false buf;
              rc_prolog r ENormal buf tok n (negb final) true
            else
              upd (set_processor PrContent) ;;;
              do child <- get s_child;
              rc_content r (if child then 1 else 0) ENormal buf (negb final)
      end
  end.
End Content.
