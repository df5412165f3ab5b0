(* Properties of the whole parser that turn out to be false of the code, stated as propositions.  An application is a
   configuration with a function from the log of handler calls (latest first) to the reaction of the last one. *)
From Coq Require Import List NArith ZArith Bool.
From Verif Require Import Base Encoding Status Role State Core.
From Verif Require Api.
Import ListNotations.

(* XML_ResumeParser as long as the parser is suspended, at most [k] times *)
Fixpoint resume_all (n k : nat) (a : Api.api st) (s : XML_Status) : res (Api.api st * XML_Status) :=
  match k, s with
  | S k, ST_SUSPENDED => let* (a, s) := XML_ResumeParser n a in resume_all n k a s
  | _, _ => Ok (a, s)
  end.
(* XML_Parse with these chunks, the last one final, resuming whenever the parser is suspended: the events, first one
   first, if everything succeeds *)
Fixpoint feed (n k : nat) (chunks : list bytes) (a : Api.api st) : res (option (list (nat * event))) :=
  match chunks with
  | [] => Ok (Some (rev (s_log (Api.core a))))
  | b :: chunks =>
      let* (a, s) := XML_Parse n b (match chunks with [] => true | _ => false end) a in
      let* (a, s) := resume_all n k a s in
      match s with ST_OK => feed n k chunks a | _ => Ok None end
  end.
Definition reaction0 : reaction := {| stop := None; child_plan := None; answer := fun _ => true; encmap := None |}.
Definition pausing (pause : list (nat * event) -> bool) (log : list (nat * event)) : reaction :=
  {| stop := if pause log then Some true else None; child_plan := None; answer := fun _ => true; encmap := None |}.
Definition with_app (app : list (nat * event) -> reaction) (c : config) : config :=
  {| c_ns := c_ns c; c_sep := c_sep c; c_triplets := c_triplets c; c_expand := c_expand c; c_h := c_h c; c_app := app |}.
Definition new (c : config) : Api.api st := new_parser (root c None PEP_NEVER false None).

(* C29: pausing and resuming does not change the events *)
Definition resume_is_transparent : Prop := forall n k c pause chunks l1 l2,
  feed n k chunks (new (with_app (pausing pause) c)) = Ok (Some l1) ->
  feed n k chunks (new (with_app (fun _ => reaction0) c)) = Ok (Some l2) -> l1 = l2.
(* C41: the same for documents given in one piece; there the suspension points that go wrong are inside entities *)
Definition resume_is_transparent_in_one_piece : Prop := forall n k c pause text l1 l2,
  feed n k [text] (new (with_app (pausing pause) c)) = Ok (Some l1) ->
  feed n k [text] (new (with_app (fun _ => reaction0) c)) = Ok (Some l2) -> l1 = l2.

(* C42: an XML declaration with version [v], and encoding [e] if there is one *)
Definition xml_declaration (v : bytes) (e : option bytes) : bytes :=
  [60; 63; 120; 109; 108; 32; 118; 101; 114; 115; 105; 111; 110; 61; 39]%N ++ v ++ [39]%N ++
  (match e with Some e => [32; 101; 110; 99; 111; 100; 105; 110; 103; 61; 39]%N ++ e ++ [39]%N | None => [] end) ++ [63; 62]%N.
Definition version_argument_is_right : Prop := forall n k c v e rest l v' e' sa,
  feed n k [xml_declaration v e ++ rest] (new c) = Ok (Some l) -> In (0, EvXmlDecl v' e' sa) l -> v' = Some v.

(* applications for external entities: the entity with system identifier [sys] is parsed from the text [texts sys] *)
Definition reading (texts : bytes -> option bytes) (log : list (nat * event)) : reaction :=
  match log with
  | (_, EvExternalEntityRef _ _ (Some sys) _) :: _ =>
      {| stop := None; encmap := None;
         child_plan := match texts sys with Some t => Some (None, [(t, true)]) | None => None end;
         answer := fun l => forallb (fun s => match s with ST_OK => true | _ => false end) l |}
  | _ => reaction0
  end.
Definition new_pe (c : config) : Api.api st := new_parser (root c None PEP_ALWAYS false None).

(* C52: an entity value with a reference to an external parameter entity whose text is a text declaration followed by
   [t]: the value does not depend on the text declaration *)
Definition text_declaration : bytes :=   (* <?xml encoding='utf-8'?> *)
  [60; 63; 120; 109; 108; 32; 101; 110; 99; 111; 100; 105; 110; 103; 61; 39; 117; 116; 102; 45; 56; 39; 63; 62]%N.
Definition text_declaration_is_removed : Prop := forall n k c texts sys t doc l,
  texts sys = Some t ->
  feed n k [doc] (new_pe (with_app (reading texts) c)) = Ok (Some l) ->
  feed n k [doc] (new_pe (with_app (reading (fun x => if beqb x sys then Some (text_declaration ++ t) else texts x)) c)) = Ok (Some l).

(* C53: the application reads no external entity and the document type declaration names no external subset: the
   not-standalone handler is not called *)
Definition notstandalone_only_if_read : Prop := forall n k c doc l,
  (forall log, child_plan (c_app c log) = None) ->
  feed n k [doc] (new_pe c) = Ok (Some l) ->
  (forall name sys pub internal, In (0, EvStartDoctype name sys pub internal) l -> sys = None) ->
  ~ In (0, EvNotStandalone) l.

(* C54: XML_ParserReset keeps the unknown-encoding handler *)
Definition reset_keeps_unknown_encoding_handler : Prop := forall a enc a',
  reset false enc a = Ok (a', true) -> h_unknown (c_h (s_cfg (Api.core a'))) = h_unknown (c_h (s_cfg (Api.core a))).

(* C36: two attributes of a start tag have different namespace name and local part.  With triplets a name is namespace,
   separator, local part, separator, prefix. *)
Fixpoint upto (sep : N) (s : bytes) : bytes * bytes :=
  match s with
  | [] => ([], [])
  | c :: s => if (c =? sep)%N then ([], s) else let (a, b) := upto sep s in (c :: a, b)
  end.
Definition expanded (sep : N) (name : bytes) : bytes * bytes := let (u, r) := upto sep name in (u, fst (upto sep r)).
Definition distinct_expanded_names : Prop := forall n k c doc l name atts spec ix,
  c_ns c = true -> feed n k [doc] (new c) = Ok (Some l) -> In (0, EvStartElement name atts spec ix) l ->
  NoDup (map (fun a => expanded (c_sep c) (fst a)) (filter (fun a => existsb (N.eqb (c_sep c)) (fst a)) atts)).

(* C59: parsing uses no dangling pointer, whatever namespaces an external entity declares *)
Definition external_entities_are_memory_safe : Prop := forall n k c texts doc,
  feed n k [doc] (new (with_app (reading texts) c)) <> Err EOob.

(* C61: every call returns: after any calls on a new parser, there is a number of nested steps that is enough for the next *)
Definition every_call_returns : Prop := forall m c os a l o,
  Api.steps (run (knot m)) start position os (new_pe c) = Ok (a, l) ->
  exists n, Api.step (run (knot n)) start position o a <> Err EFuel.
