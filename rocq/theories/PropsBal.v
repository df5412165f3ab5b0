(* C72: an element begins and ends in the same entity. *)
From Coq Require Import String List NArith ZArith Bool.
From Verif Require Import Base Encoding SpecText SpecUnicode SpecNames SpecLex SpecMisc Tok Status State Bind Content Core SpecAtts SpecDoc SpecNest SpecBal BalTop Demo PropsFind.
From Verif Require Api ApiInv.
From Coq Require Import List.
Import ListNotations.
Local Open Scope N_scope.

(* Replacing a reference by the text of an entity, whatever the text is and whatever the application does in its handlers:
   no element that was open before is closed, and unless parsing was suspended in the text, no element remains open. *)
Theorem C72_entity : forall k name text between s s',
  processInternalEntity (knot k) (false, name) text between s = Ret tt s' ->
  still_open s s' /\ (s_parsing s' <> SUSPENDED -> same_elements s s').
Proof. exact entity_leaves. Qed.
Print Assumptions C72_entity.
(* The same for every reference in content, to internal, external and predefined entities, wherever it is written. *)
Theorem C72_reference : forall k t e buf n s s',
  content_entity (knot k) t e buf n s = Ret tt s' ->
  still_open s s' /\ (s_parsing s' <> SUSPENDED -> same_elements s s').
Proof. exact reference_leaves. Qed.
Print Assumptions C72_reference.
(* The same for any text that is read as content from the elements now open: its complete text leaves them as they are. *)
Theorem C72_text : forall k t buf more s rest s',
  doContent (knot k) (s_tagLevel s) t buf more s = Ret rest s' ->
  still_open s s' /\ (more = false -> s_parsing s' <> SUSPENDED -> same_elements s s').
Proof. exact text_leaves. Qed.
Print Assumptions C72_text.
(* The same for a text that began in the state s0 and is continued in s, in the next piece or after a pause. *)
Theorem C72_continued : forall k t buf more s0 s rest s',
  still_open s0 s -> doContent (knot k) (s_tagLevel s0) t buf more s = Ret rest s' ->
  still_open s0 s' /\ (more = false -> s_parsing s' <> SUSPENDED -> same_elements s0 s').
Proof. exact text_continued. Qed.
Print Assumptions C72_continued.
(* After every history of calls that has not failed the application follows the parser: it has heard of exactly the
   elements now open. *)
Theorem C72_reached : forall n os cfg enc pep foreign base a l,
  h_startElement (c_h cfg) = true -> h_endElement (c_h cfg) = true -> Forall ApiInv.plain os ->
  Api.steps (run (knot n)) start position os (new_parser (root cfg enc pep foreign base)) = Ok (a, l) -> Api.failed a = false ->
  follows (Api.core a).
Proof. exact follows_reached. Qed.
Print Assumptions C72_reached.
(* What the application hears in the meantime: the starts and ends of the elements of the text are nested by themselves,
   none is the end of an element that began before, and at the end of the text each start has had its end. *)
Theorem C72_entity_heard : forall k name text between s s',
  follows s -> processInternalEntity (knot k) (false, name) text between s = Ret tt s' ->
  heard_between s s' (s_parsing s' <> SUSPENDED).
Proof. exact entity_heard. Qed.
Print Assumptions C72_entity_heard.
Theorem C72_reference_heard : forall k t e buf n s s',
  follows s -> content_entity (knot k) t e buf n s = Ret tt s' ->
  heard_between s s' (s_parsing s' <> SUSPENDED).
Proof. exact reference_heard. Qed.
Print Assumptions C72_reference_heard.
Theorem C72_text_heard : forall k t buf more s rest s',
  follows s -> doContent (knot k) (s_tagLevel s) t buf more s = Ret rest s' ->
  heard_between s s' (more = false /\ s_parsing s' <> SUSPENDED).
Proof. exact text_heard. Qed.
Print Assumptions C72_text_heard.
(* An end tag where the text has no element open is refused, and nothing is reported. *)
Theorem C72_end_tag : forall k level t e buf more s n,
  read_in t s e -> s_tagLevel s = level -> contentTok e buf = Ok (T_END_TAG, Some n) ->
  exists s', doContent (knot k) level t buf more s = Fail XE_ASYNC_ENTITY s' /\ s_log s' = s_log s.
Proof. exact end_refused. Qed.
Print Assumptions C72_end_tag.
Theorem C72_end_tag_written : forall e enc dom lat ns, text_encoding e enc dom lat ns -> forall k level more s name sp rest,
  s_enc s = EKnown e -> s_tagLevel s = level -> etag_ok lat ns name sp -> all_in dom (etag_text name sp ++ rest) ->
  exists s', doContent (knot k) level ENormal (flat_map enc (etag_text name sp ++ rest)) more s = Fail XE_ASYNC_ENTITY s' /\ s_log s' = s_log s.
Proof. exact end_refused_text. Qed.
Print Assumptions C72_end_tag_written.
(* The end of the text of an entity is refused while an element of the text is open. *)
Theorem C72_unclosed : forall k level t e s,
  read_in t s e -> level <> 0%nat -> s_tagLevel s <> level ->
  exists s', doContent (knot k) level t [] false s = Fail XE_ASYNC_ENTITY s' /\ s_log s' = s_log s.
Proof. exact rest_refused. Qed.
Print Assumptions C72_unclosed.

(* After a pause in the handler of the last tag of an entity's text the check at its end is left out, and the parser goes
   on behind the reference: the element b, begun in the entity e, is then ended outside it, and the document is accepted. *)
Theorem C72_paused_refuted : ~ pauses_hide_no_error.
Proof.
  intros H.
  pose proof (H 200%nat 5%nat (config_of false only_elements (fun _ => idle)) (at_start_of (ascii "b")) (ascii "<!DOCTYPE d [<!ENTITY e '<b>'>]><d>&e;</b></d>")) as X.
  vm_compute in X. exact (X _ eq_refl eq_refl).
Qed.
Print Assumptions C72_paused_refuted.

(* entities with elements in them, and with parts of elements *)
Definition told_of (doc : string) : option (list report * XML_Error) :=
  match history 400 (parser_of false all_handlers (fun _ => idle)) [parse_op doc true] with
  | Ok (_, x, log) => Some (merged (flat_map (fun x => heard (snd x)) log), x)
  | Err _ => None
  end.
Example C72_case :
  told_of "<!DOCTYPE d [<!ENTITY f '<c/>'><!ENTITY e '<b>&f;</b>'>]><d>&e;</d>" =
    Some ([Begins (txt "d") []; Begins (txt "b") []; Begins (txt "c") []; Ends (txt "c"); Ends (txt "b"); Ends (txt "d")], XE_NONE) /\
  told_of "<!DOCTYPE d [<!ENTITY e '<b>'>]><d>&e;</b></d>" = Some ([Begins (txt "d") []; Begins (txt "b") []], XE_ASYNC_ENTITY) /\
  told_of "<!DOCTYPE d [<!ENTITY e '</d>'>]><d>&e;" = Some ([Begins (txt "d") []], XE_ASYNC_ENTITY) /\
  told_of "<!DOCTYPE d [<!ENTITY e '</d><d>'>]><d>&e;</d>" = Some ([Begins (txt "d") []], XE_ASYNC_ENTITY).
Proof. repeat split; vm_compute; reflexivity. Qed.
Example C72_reached_case :
  match Api.steps (run (knot 200)) start position [parse_op "<!DOCTYPE a [<!ENTITY e '<b/><c>x</c>'>]><a>&e;<d>" false] (new_parser (parser_of false only_elements (fun _ => idle))) with
  | Ok (a, l) => Api.failed a = false /\ map t_name (s_tags (Api.core a)) = [ascii "d"; ascii "a"] /\
      elements 0 (s_log (Api.core a)) = [Open (ascii "a"); Open (ascii "b"); Close (ascii "b"); Open (ascii "c"); Close (ascii "c"); Open (ascii "d")]
  | Err _ => False
  end.
Proof. vm_compute. auto. Qed.
(* a state inside an element, with an entity that consists of an element *)
Definition b_entity : entity :=
  {| e_text := Some (txt "<b>x</b>"); e_processed := 0; e_sys := None; e_base := None; e_pub := None; e_notation := None;
     e_open := false; e_is_param := false; e_is_internal := true |}.
Definition in_d : st :=
  let s := parser_of false all_handlers (fun _ => idle) in
  set_tagLevel 1 (set_parsing PARSING (set_enc (EKnown utf8_encoding) (set_dtd (set_d_gents [(txt "e", b_entity)] (s_dtd s)) s))).
Example C72_case_hypotheses :
  match processInternalEntity (knot 9) (false, txt "e") (txt "<b>x</b>") false in_d with Ret _ s' => s_parsing s' = PARSING /\ length (s_log s') = 3%nat | _ => False end /\
  match content_entity (knot 9) ENormal utf8_encoding (txt "&e;</d>") 3 in_d with Ret _ s' => s_parsing s' = PARSING /\ length (s_log s') = 3%nat | _ => False end /\
  match doContent (knot 9) 1 ENormal (txt "<b>x</b>&e;") false in_d with Ret rest s' => s_parsing s' = PARSING /\ rest = [] | _ => False end /\
  match doContent (knot 9) 1 ENormal (txt "<b>x") true in_d with Ret rest s' => length (s_tags s') = 1%nat /\ s_tagLevel s' = 2%nat | _ => False end /\
  read_in EInternal in_d internal_utf8_encoding /\ contentTok internal_utf8_encoding (txt "</d>") = Ok (T_END_TAG, Some 4%nat) /\
  s_tagLevel in_d = 1%nat /\ etag_ok false false (txt "d") [] /\ all_in is_scalar (etag_text (txt "d") [] ++ txt "x") /\
  s_tagLevel (set_tagLevel 2 in_d) <> 1%nat /\ follows in_d.
Proof.
  do 4 (split; [vm_compute; split; reflexivity|]).
  do 3 (split; [reflexivity|]). split; [|split; [repeat constructor|split; [discriminate|]]].
  2: { split; try reflexivity; [split; [apply le_n|contradiction]|intros q; exists []; constructor|constructor]. }
  split; [|constructor]. eexists _, _. split; [reflexivity|]. split; [reflexivity|constructor].
Qed.
