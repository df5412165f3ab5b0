(* C71: elements and their content are reported as they were written, in every encoding. *)
From Coq Require Import String List NArith ZArith Bool.
From Verif Require Import Base Encoding SpecText SpecUnicode SpecNames SpecLex SpecMisc Tok Status State Bind Content Core SpecAtts SpecDoc SpecElem ElemTop Demo PropsDoc.
From Verif Require Api SpecData.
From Coq Require Import List.
Import ListNotations.
Local Open Scope N_scope.

(* An element, written in any encoding: given enough fuel K, parsing goes on right behind it, the application has been told
   the element and everything in it, and the same elements are open as before. *)
Theorem C71_element : forall e enc dom lat, text_encoding e enc dom lat false -> forall s level n,
  inside e level s -> good n -> is_element n = true ->
  exists K, forall k more rest, (K <= k)%nat -> all_in dom (source n ++ rest) ->
    exists k' s', (k <= k' + K)%nat /\
      doContent (knot k) level ENormal (flat_map enc (source n ++ rest)) more s = doContent (knot k') level ENormal (flat_map enc rest) more s' /\
      reported (reports n) s s' /\ inside e level s'.
Proof. exact node_told. Qed.
Print Assumptions C71_element.
(* A sequence of elements, text, references, sections, comments and processing instructions, up to a tag or a reference. *)
Theorem C71_content : forall e enc dom lat, text_encoding e enc dom lat false -> forall s level l,
  inside e level s -> Forall good l -> apart l ->
  exists K, forall k more rest, (K <= k)%nat -> all_in dom (flat_map source l ++ rest) -> SpecData.at_markup rest ->
    exists k' s', (k <= k' + K)%nat /\
      doContent (knot k) level ENormal (flat_map enc (flat_map source l ++ rest)) more s = doContent (knot k') level ENormal (flat_map enc rest) more s' /\
      reported (flat_map reports l) s s' /\ inside e level s'.
Proof. exact list_told. Qed.
Print Assumptions C71_content.
(* An end tag with another name than the start tag: the parser reports everything before it and refuses the end tag. *)
Theorem C71_mismatch : forall e enc dom lat, text_encoding e enc dom lat false -> forall s level name atts given sp l other sp',
  inside e level s -> tag_good name atts given sp -> Forall good l -> apart l -> is_name false false other -> spaces sp' -> other <> name ->
  exists K, forall k more rest, (K <= k)%nat -> all_in dom (tag_text name atts sp false ++ flat_map source l ++ etag_text other sp' ++ rest) ->
    exists s' rs',
      doContent (knot k) level ENormal (flat_map enc (tag_text name atts sp false ++ flat_map source l ++ etag_text other sp' ++ rest)) more s = Fail XE_TAG_MISMATCH s' /\
      flat_map (fun x => heard (snd x)) (rev (s_log s')) = flat_map (fun x => heard (snd x)) (rev (s_log s)) ++ rs' /\
      merged rs' = merged (begins name given :: flat_map reports l).
Proof. exact mismatch_refused. Qed.
Print Assumptions C71_mismatch.

(* the tree of C62 in UTF-16, inside another element, and what a wrong end tag does *)
Definition wide (cs : list N) : option (list report * XML_Error) :=
  match history 400 (parser_of false all_handlers (fun _ => idle)) [Api.OpParse ([255; 254] ++ utf16le cs) true true] with
  | Ok (_, x, log) => Some (merged (flat_map (fun x => heard (snd x)) log), x)
  | Err _ => None
  end.
Example C71_case : wide (txt "<d>" ++ source small ++ [8364] ++ txt "</d>") =
  Some ([Begins (txt "d") []] ++ merged (reports small) ++ [Text [226; 130; 172]; Ends (txt "d")], XE_NONE).
Proof. vm_compute. reflexivity. Qed.
Example C71_wrong : wide (txt "<d><e>x</f></d>") = Some ([Begins (txt "d") []; Begins (txt "e") []; Text (txt "x")], XE_TAG_MISMATCH).
Proof. vm_compute. reflexivity. Qed.
(* a state inside an element, and the tree, meet the hypotheses *)
Example C71_case_hypotheses :
  let s := set_tagLevel 1 (set_parsing PARSING (set_enc (EKnown little2_encoding) (parser_of false all_handlers (fun _ => idle)))) in
  text_encoding little2_encoding utf16le_encode is_scalar true false /\ inside little2_encoding 0 s /\ good small /\ is_element small = true /\
  all_in is_scalar (source small ++ [8364] ++ txt "</d>") /\ SpecData.at_markup (txt "</d>") /\
  is_name false false (txt "f") /\ txt "f" <> txt "a" /\ tag_good (txt "a") [att "b" "1&amp;"] [(txt "b", txt "1&")] [].
Proof.
  cbv zeta. split; [constructor|]. split.
  - constructor; try reflexivity; try (cbn; auto; fail).
    + repeat split.
    + constructor; cbn; try discriminate; try (intros; contradiction); auto. intros p b H. destruct p; discriminate H.
  - split; [exact small_good|]. split; [reflexivity|]. split; [chars|]. split; [eexists _, _; split; [reflexivity|left; reflexivity]|].
    split; [name|]. split; [discriminate|]. pose proof small_good as G. inversion G; assumption.
Qed.
