(* Applications and documents for the examples beside the theorems about the whole parser. *)
From Coq Require Import String List NArith ZArith Bool.
From Verif Require Import Base Encoding Status Role State Bind Core.
From Verif Require Api.
From Coq Require Import List.
Import ListNotations.
Local Open Scope N_scope.

Definition all_handlers : handlers :=
  {| h_startElement := true; h_endElement := true; h_charData := true; h_pi := true; h_comment := true;
     h_startCdata := true; h_endCdata := true; h_default := true; h_startDoctype := true; h_endDoctype := true;
     h_unparsed := true; h_notation := true; h_startNs := true; h_endNs := true; h_notStandalone := true;
     h_external := true; h_skipped := true; h_unknown := true; h_elementDecl := true; h_attlist := true;
     h_entityDecl := true; h_xmlDecl := true |}.
(* an application whose handlers do nothing *)
Definition idle : reaction := {| stop := None; child_plan := None; answer := fun _ => true; encmap := None |}.
Definition halt (resumable : bool) : reaction :=
  {| stop := Some resumable; child_plan := None; answer := fun _ => true; encmap := None |}.
(* external entities are parsed from this text *)
Definition entity_text (s : bytes) : reaction :=
  {| stop := None; child_plan := Some (None, [(s, true)]); encmap := None;
     answer := fun l => forallb (fun s => match s with ST_OK => true | _ => false end) l |}.
Definition config_of (ns : bool) (h : handlers) (app : list (nat * event) -> reaction) : config :=
  {| c_ns := ns; c_sep := 124; c_triplets := false; c_expand := true; c_h := h; c_app := app |}.
Definition parser_of (ns : bool) (h : handlers) (app : list (nat * event) -> reaction) : st :=
  root (config_of ns h app) None PEP_ALWAYS false None.
Definition only_elements : handlers :=
  {| h_startElement := true; h_endElement := true; h_charData := false; h_pi := false; h_comment := false;
     h_startCdata := false; h_endCdata := false; h_default := false; h_startDoctype := false; h_endDoctype := false;
     h_unparsed := false; h_notation := false; h_startNs := false; h_endNs := false; h_notStandalone := false;
     h_external := true; h_skipped := false; h_unknown := false; h_elementDecl := false; h_attlist := false;
     h_entityDecl := false; h_xmlDecl := false |}.

(* a history of calls: the answers, the error code and the events, first one first *)
Definition history (n : nat) (c : st) (os : list (Api.op (C := st))) : res (list Api.answer * XML_Error * list (nat * event)) :=
  let* (a, l) := Api.steps (run (knot n)) start position os (new_parser c) in
  Ok (l, Api.errorCode a, rev (s_log (Api.core a))).
Definition parse_op (s : string) (final : bool) : Api.op (C := st) := Api.OpParse (ascii s) final true.
