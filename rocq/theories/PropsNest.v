(* C27: start and end element events. *)
From Coq Require Import String List NArith ZArith Bool.
From Verif Require Import Base Encoding Status Role State Bind Core.
From Verif Require Import SpecNest Nest NestTop PhaseTop Demo.
From Verif Require Api ApiInv SpecApi.
From Coq Require Import List.
Import ListNotations.

(* C27.  For every configuration, application, document, chunking and history of parse, buffer, stop, resume and
   position calls, the start and end element events each parser has delivered form the beginning of a properly nested
   sequence, in which every end event carries the name of its start event.  [q] is any parser: the first one is
   number 0, those made in the external entity handler have higher numbers.  [run (knot n)] is the parser with enough
   fuel for what it did ([= Ok]). *)
Theorem C27_nested : forall cfg enc pep foreign base n os a l,
  h_startElement (c_h cfg) = true -> h_endElement (c_h cfg) = true -> Forall ApiInv.plain os ->
  Api.steps (run (knot n)) start position os (new_parser (root cfg enc pep foreign base)) = Ok (a, l) ->
  forall q, nested_so_far (elements q (s_log (Api.core a))).
Proof. exact (fun cfg enc pep foreign base n os a l H1 H2 => NestTop.nested n os _ a l (root_inv cfg enc pep foreign base H1 H2)). Qed.
Print Assumptions C27_nested.

Example C27_example :
  match Api.steps (run (knot 200)) start position
    [parse_op "<!DOCTYPE a [<!ENTITY e '<b>x</b>'><!ENTITY f SYSTEM 'f'>]><a>&e;" false; parse_op "<c k='1'/>&f;<d" false; Api.OpStop true; Api.OpResume; parse_op ">" false]
    (new_parser (parser_of true only_elements (fun log => match log with (_, EvExternalEntityRef _ _ _ _) :: _ => entity_text (ascii "<x><y/></x>") | _ => idle end))) with
  | Err _ => False
  | Ok (a, l) =>
  elements 0 (s_log (Api.core a)) =
    [Open (ascii "a"); Open (ascii "b"); Close (ascii "b"); Open (ascii "c"); Close (ascii "c"); Open (ascii "d")] /\
  elements 6 (s_log (Api.core a)) = [Open (ascii "x"); Open (ascii "y"); Close (ascii "y"); Close (ascii "x")]
  end.
Proof. vm_compute. auto. Qed.

(* The call that hands over the last piece of the document answers XML_STATUS_OK only if the parser has delivered
   the events of exactly one complete element: one root, closed, and nothing beside it.  For every configuration
   and application, document and chunking, also through XML_GetBuffer and XML_ParseBuffer, and whatever entities the
   document uses.  Missing: histories in which the application suspends the parser and calls XML_ResumeParser. *)
Theorem C27_complete_partial : forall cfg enc pep foreign base n os o a l,
  h_startElement (c_h cfg) = true -> h_endElement (c_h cfg) = true ->
  Forall ApiInv.plain (os ++ [o]) -> Forall SpecApi.small (os ++ [o]) ->
  Api.steps (run (knot n)) start position (os ++ [o]) (new_parser (root cfg enc pep foreign base)) = Ok (a, l ++ [Api.A_status ST_OK]) ->
  SpecApi.disciplined 0 0 (os ++ [o]) (l ++ [Api.A_status ST_OK]) ->
  match o with Api.OpParse _ true _ | Api.OpParseBuffer _ true => True | _ => False end ->
  one_element (elements 0 (s_log (Api.core a))).
Proof. exact complete. Qed.
Print Assumptions C27_complete_partial.

Definition C27_document : list (Api.op (C := st)) :=
  [parse_op "<!DOCTYPE a [<!ENTITY e '<b>x</b>'>]><a>&e;<![CDA" false; parse_op "TA[y" false; Api.OpGetBuffer 30 true;
   Api.OpFill (ascii "]]></a"); Api.OpParseBuffer 6 false].
Example C27_complete_example :
  match Api.steps (run (knot 200)) start position (C27_document ++ [parse_op "><!--z-->" true])
    (new_parser (parser_of true only_elements (fun _ => idle))) with
  | Err _ => False
  | Ok (a, l) =>
      Forall ApiInv.plain (C27_document ++ [parse_op "><!--z-->" true]) /\
      (exists l', l = l' ++ [Api.A_status ST_OK]) /\ SpecApi.disciplined 0 0 (C27_document ++ [parse_op "><!--z-->" true]) l /\
      elements 0 (s_log (Api.core a)) = [Open (ascii "a"); Open (ascii "b"); Close (ascii "b"); Close (ascii "a")]
  end.
Proof.
  vm_compute. split; [repeat constructor|]. split; [eexists [_; _; _; _; _]; reflexivity|]. split; [repeat constructor|reflexivity].
Qed.
