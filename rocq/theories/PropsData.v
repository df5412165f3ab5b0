(* C70: character data and CDATA sections are delivered completely, in every encoding. *)
From Coq Require Import String List NArith ZArith Bool.
From Verif Require Import Base Encoding SpecText SpecUnicode SpecNames SpecLex SpecMisc Tok Status State Bind Content SpecRef SpecData DataLaws Core Demo.
From Verif Require Api.
From Coq Require Import List.
Import ListNotations.
Local Open Scope N_scope.

(* The text up to the next tag or reference: it is told in some number of parts, which are together the text, in UTF-8 and
   with every line end as one LF. Then the rest of the content follows, and nothing but the positions has changed. *)
Theorem C70_text : forall e enc dom lat ns, text_encoding e enc dom lat ns -> forall level more text rest k s,
  chars text -> at_markup rest -> all_in dom (text ++ rest) ->
  s_enc s = EKnown e -> never_stops s -> s_parsing s = PARSING -> h_charData (c_h (s_cfg s)) = true -> (length text <= k)%nat ->
  exists parts k' s', told (map EvCharData parts) s s' /\ concat parts = utf8 (norm_eol text) /\ (k' <= k <= k' + length text)%nat /\
    doContent (knot k) level ENormal (flat_map enc (text ++ rest)) more s = doContent (knot k') level ENormal (flat_map enc rest) more s'.
Proof.
  intros e enc dom lat ns TE level more text rest k s H1 H2 H3 H4 H5 H6 H7 H8.
  exact (data_delivered e enc dom lat ns TE level more (length text) text rest k s (le_n _) H1 H2 H3 (Build_quiet e s H4 H5 H6 H7) H8).
Qed.
Print Assumptions C70_text.
(* A CDATA section: its beginning, its text, in which nothing is markup, and its end. *)
Theorem C70_section : forall e enc dom lat ns, text_encoding e enc dom lat ns -> forall level more body rest k s,
  section_body body -> all_in dom (txt "<![CDATA[" ++ body ++ txt "]]>" ++ rest) ->
  s_enc s = EKnown e -> never_stops s -> s_parsing s = PARSING -> h_charData (c_h (s_cfg s)) = true ->
  h_startCdata (c_h (s_cfg s)) = true -> h_endCdata (c_h (s_cfg s)) = true -> (length body <= k)%nat ->
  exists parts s', told (EvStartCdata :: map EvCharData parts ++ [EvEndCdata]) s s' /\ concat parts = utf8 (norm_eol body) /\
    doContent (knot (S k)) level ENormal (flat_map enc (txt "<![CDATA[" ++ body ++ txt "]]>" ++ rest)) more s = doContent (knot k) level ENormal (flat_map enc rest) more s'.
Proof.
  intros e enc dom lat ns TE level more body rest k s H1 H2 H3 H4 H5 H6.
  exact (section_delivered e enc dom lat ns TE level more body rest k s H1 H2 (Build_quiet e s H3 H4 H5 H6)).
Qed.
Print Assumptions C70_section.

(* a whole document, in UTF-16 *)
Example C70_case :
  match history 300 (parser_of false all_handlers (fun _ => idle)) [Api.OpParse ([255; 254] ++ utf16le (txt "<d>a" ++ [13; 10; 8364] ++ txt "]]<![CDATA[<b>]]]]>z</d>")) true true] with
  | Ok (_, x, log) => x = XE_NONE /\ filter (fun x => match x with EvCharData _ | EvStartCdata | EvEndCdata => true | _ => false end) (map snd log) =
      [EvCharData (ascii "a"); EvCharData [10]; EvCharData ([226; 130; 172] ++ ascii "]]"); EvStartCdata; EvCharData (ascii "<b>"); EvCharData (ascii "]"); EvCharData (ascii "]"); EvEndCdata; EvCharData (ascii "z")]
  | Err _ => False
  end.
Proof. vm_compute. split; reflexivity. Qed.
(* a state inside an element meets the hypotheses *)
Example C70_case_hypotheses :
  let s := set_tagLevel 1 (set_parsing PARSING (set_enc (EKnown little2_encoding) (parser_of false all_handlers (fun _ => idle)))) in
  text_encoding little2_encoding utf16le_encode is_scalar true false /\
  chars (txt "a" ++ [13; 10; 8364] ++ txt "]]") /\ at_markup (txt "</d>") /\ section_body (txt "<b>]]") /\
  all_in is_scalar (txt "a" ++ [13; 10; 8364] ++ txt "]]" ++ txt "</d>") /\
  s_enc s = EKnown little2_encoding /\ never_stops s /\ s_parsing s = PARSING /\ h_charData (c_h (s_cfg s)) = true /\
  h_startCdata (c_h (s_cfg s)) = true /\ h_endCdata (c_h (s_cfg s)) = true.
Proof.
  cbv zeta. repeat match goal with |- _ /\ _ => split end; try reflexivity.
  - constructor.
  - split; [repeat constructor|]. intros [a [b E]]. do 8 (destruct a as [|? a]; [discriminate E|]; try discriminate E; injection E; clear E; intros E _).
  - eexists _, _. split; [reflexivity|left; reflexivity].
  - split; [repeat constructor|]. intros [a [b E]]. do 9 (destruct a as [|? a]; [discriminate E|]; try discriminate E; injection E; clear E; intros E _).
  - repeat constructor.
  - intros log. reflexivity.
Qed.
