(* C50: the default handler alone. *)
From Coq Require Import String List NArith ZArith Bool Lia.
From Verif Require Import Base Status State Bind Core Demo SpecPass PassRun.
From Verif Require Api.
From Coq Require Import List.
Import ListNotations.
Local Open Scope N_scope.

(* C50, in part.  The application sets the default handler and no other, says that the document is in UTF-8, and hands it
   over in chunks, stopping when a call does not answer XML_STATUS_OK.  What the default handler has got, in one piece, is
   always an initial part of the document.  When the call with the last chunk answers XML_STATUS_OK it is the document.
   This is so whatever the document is, with or without DTD, and whatever the handler does.
   Missing: XML_ResumeParser, and documents whose encoding is left to the XML declaration. *)
Theorem C50_passthrough_partial : forall c foreign base n chunks a l,
  defaults_only c -> not_utf16 (flat_map fst chunks) -> Forall (fun x => (Z.of_nat (length (fst x)) <= 2147483647)%Z) chunks ->
  parse_all (knot n) chunks (new_parser (root c (Some (ascii "UTF-8")) PEP_NEVER foreign base)) = Ok (a, l) ->
  (exists rest, without_bom (flat_map fst chunks) = passed (s_log (Api.core a)) ++ rest) /\
  (l = map (fun _ => ST_OK) chunks -> last (map snd chunks) false = true -> passed (s_log (Api.core a)) = without_bom (flat_map fst chunks)).
Proof. exact passthrough. Qed.
Print Assumptions C50_passthrough_partial.

(* a document with a DTD, entities, a CDATA section, a comment, an instruction and namespaces, byte by byte; then one that
   is not well-formed *)
Definition quiet_app : config :=
  {| c_ns := true; c_sep := 124; c_triplets := false; c_expand := false; c_h := only_default; c_app := fun _ => idle |}.
Definition with_mark (s : string) : bytes := [239; 187; 191] ++ ascii s.
Definition bytewise (b : bytes) : list (bytes * bool) := map (fun x => ([x], false)) b ++ [([], true)].
Definition got (chunks : list (bytes * bool)) : option (list XML_Status * bytes) :=
  match parse_all (knot 400) chunks (new_parser (root quiet_app (Some (ascii "UTF-8")) PEP_NEVER false None)) with
  | Ok (a, l) => Some (l, passed (s_log (Api.core a)))
  | Err _ => None
  end.
Definition some_text : string :=
  "<?xml version='1.0'?><!DOCTYPE a [<!ENTITY e 'x<b/>'> <!ATTLIST a q CDATA 'z'> %p; <!-- c -->]> <a xmlns:n='u'>t&e;&amp;<![CDATA[<]]><n:b k='&#65;'/><?p d?></a> <!--end-->".
Example C50_case : defaults_only quiet_app /\ not_utf16 (with_mark some_text) /\
  got (bytewise (with_mark some_text)) = Some (map (fun _ => ST_OK) (bytewise (with_mark some_text)), ascii some_text) /\
  got [(with_mark some_text, true)] = Some ([ST_OK], ascii some_text).
Proof.
  split; [split; reflexivity|]. split; [repeat split; try discriminate; intros [H _]; discriminate H|]. split; vm_compute; reflexivity.
Qed.
Example C50_broken : got [(ascii "<a>x", false); (ascii "y</b>z", true)] = Some ([ST_OK; ST_ERROR], ascii "<a>xy").
Proof. vm_compute. reflexivity. Qed.
