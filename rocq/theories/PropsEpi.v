(* C73: nothing but comments, processing instructions and white space is accepted after the root element. *)
From Coq Require Import String List NArith ZArith Bool.
From Verif Require Import Base Encoding SpecText SpecUnicode SpecNames SpecLex SpecMisc Tok Status State Bind Content Prolog SpecRef SpecDoc SpecNote SpecEpi EpiTop Core Demo.
From Verif Require Api.
From Coq Require Import List.
Import ListNotations.
Local Open Scope N_scope.

(* A piece of text after the root element, in any encoding and whatever the application does in its handlers: if there is
   no error, then what has been read is Misc*, and of the last piece nothing is left unless parsing was suspended. *)
Theorem C73_accepted : forall e enc dom lat ns, text_encoding e enc dom lat ns -> forall r c p final cs out,
  s_processor c = PrEpilog -> s_enc c = EKnown e -> all_in dom cs -> (forall x, In x cs -> 128 <= x -> is_xml_char x = true) ->
  run r c p final (flat_map enc cs) = Ok out -> Api.r_err out = XE_NONE ->
  exists read left, cs = read ++ left /\ misc lat ns read /\ Api.r_next out = length (flat_map enc read) /\
    (final = true -> Api.r_parsing out <> SUSPENDED -> left = []).
Proof. exact piece_accepted. Qed.
Print Assumptions C73_accepted.
(* Any bytes after the root element, with or without an error: only comments, processing instructions and text without a
   handler are reported, and the parser never goes back to reading elements. *)
Theorem C73_reports : forall r c p final buf out, s_processor c = PrEpilog -> run r c p final buf = Ok out ->
  s_processor (Api.r_core out) = PrEpilog /\
  exists evs, s_log (Api.r_core out) = evs ++ s_log c /\ Forall (fun x => misc_event (snd x)) evs.
Proof. exact piece_reports. Qed.
Print Assumptions C73_reports.

(* whole documents *)
Definition ends_in (doc : string) : option (XML_Error * list event) :=
  match history 300 (parser_of false all_handlers (fun _ => idle)) [parse_op doc true] with
  | Ok (_, x, log) => Some (x, skipn 2 (map snd log))
  | Err _ => None
  end.
Example C73_case :
  ends_in "<d/><!--x--> <?p q?>" = Some (XE_NONE, [EvComment (ascii "x"); EvDefault (ascii " "); EvPI (ascii "p") (ascii "q")]) /\
  ends_in "<d/><!--x-->y" = Some (XE_JUNK_AFTER_DOC_ELEMENT, [EvComment (ascii "x")]) /\
  ends_in "<d/><e/>" = Some (XE_JUNK_AFTER_DOC_ELEMENT, []) /\
  ends_in "<d/>&#32;" = Some (XE_INVALID_TOKEN, []) /\
  ends_in "<d/></d>" = Some (XE_INVALID_TOKEN, []) /\
  ends_in "<d/><![CDATA[ ]]>" = Some (XE_JUNK_AFTER_DOC_ELEMENT, []).
Proof. repeat split; vm_compute; reflexivity. Qed.
(* after the first piece "<d/>" of a document the parser meets the hypotheses, and reads the next piece without an error *)
Example C73_reached :
  match Api.steps (run (knot 300)) start position [parse_op "<d/>" false] (new_parser (parser_of false all_handlers (fun _ => idle))) with
  | Ok (a, _) =>
      s_processor (Api.core a) = PrEpilog /\ match s_enc (Api.core a) with EKnown e => minbpc e = 1%nat /\ isUtf8 e = true | EInit _ => False end /\
      match run (knot 300) (Api.core a) PARSING true (flat_map utf8_encode (txt "<!--x--> ")) with
      | Ok out => Api.r_err out = XE_NONE /\ Api.r_next out = 9%nat /\ Api.r_parsing out = PARSING
      | Err _ => False
      end
  | Err _ => False
  end.
Proof. vm_compute. repeat split. Qed.
Example C73_case_hypotheses :
  let c := set_processor PrEpilog (set_enc (EKnown utf8_encoding) (parser_of false all_handlers (fun _ => idle))) in
  text_encoding utf8_encoding utf8_encode is_scalar false false /\ s_processor c = PrEpilog /\ s_enc c = EKnown utf8_encoding /\
  all_in is_scalar [60; 33; 45; 45; 8364; 45; 45; 62; 10] /\
  match run (knot 300) c PARSING true (flat_map utf8_encode [60; 33; 45; 45; 8364; 45; 45; 62; 10]) with
  | Ok out => Api.r_err out = XE_NONE /\ Api.r_next out = 11%nat /\ Api.r_parsing out = PARSING
  | Err _ => False
  end.
Proof.
  cbv zeta. split; [constructor|]. split; [reflexivity|]. split; [reflexivity|]. split; [repeat constructor|]. vm_compute. repeat split.
Qed.
