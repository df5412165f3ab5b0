(* C69: comments, processing instructions and character references are reported with their content, wherever they occur. *)
From Coq Require Import String List NArith ZArith Bool.
From Verif Require Import Base Encoding SpecText SpecUnicode SpecNames SpecLex SpecMisc Tok Status State Bind Content Prolog SpecRef SpecDoc SpecNote NoteLaws Core Demo.
From Verif Require Role.
From Coq Require Import List.
Import ListNotations.
Local Open Scope N_scope.

(* in the content of an element: one event, with the text, and then the rest *)
Theorem C69_content : forall e enc dom lat ns, text_encoding e enc dom lat ns -> forall r level more s cs ev rest,
  note lat ns cs ev -> s_enc s = EKnown e -> heard (c_h (s_cfg s)) ev = true -> all_in dom (cs ++ rest) ->
  exists s0 re s1, positions_only s s0 /\ call ev s0 = Ret re s1 /\
    doContent r level ENormal (flat_map enc (cs ++ rest)) more s = goes_on r level more (flat_map enc rest) s1.
Proof. exact note_in_content. Qed.
Print Assumptions C69_content.
(* before the document type declaration, inside its internal subset, after it, and in the external subset *)
Theorem C69_prolog : forall e enc dom lat ns, text_encoding e enc dom lat ns -> forall r more closing s cs ev rest,
  note lat ns cs ev -> s_enc s = EKnown e -> heard (c_h (s_cfg s)) ev = true -> all_in dom (cs ++ rest) ->
  (forall c, In c (cs ++ rest) -> 128 <= c -> is_xml_char c = true) -> between (s_role s) ->
  exists s0 re s1, between (no_longer_first (s_role s)) /\ positions_only (set_role (no_longer_first (s_role s)) s) s0 /\ call ev s0 = Ret re s1 /\
    (do (k, n) <- scan_as ENormal false (flat_map enc (cs ++ rest)); doProlog r ENormal (flat_map enc (cs ++ rest)) k n more closing) s =
    prolog_on r more closing (flat_map enc rest) s1.
Proof. exact note_in_prolog. Qed.
Print Assumptions C69_prolog.
(* after the root element *)
Theorem C69_epilog : forall e enc dom lat ns, text_encoding e enc dom lat ns -> forall fuel s cs ev rest,
  note lat ns cs ev -> s_enc s = EKnown e -> heard (c_h (s_cfg s)) ev = true -> all_in dom (cs ++ rest) ->
  (forall c, In c (cs ++ rest) -> 128 <= c -> is_xml_char c = true) ->
  exists s0 re s1, positions_only s s0 /\ call ev s0 = Ret re s1 /\
    epilog_loop (S fuel) (flat_map enc (cs ++ rest)) s = ends_with fuel (flat_map enc rest) s1.
Proof. exact note_in_epilog. Qed.
Print Assumptions C69_epilog.
(* A character reference is reported as the character with that number, or refused if XML has no such character. *)
Theorem C69_number : forall e enc dom lat ns, text_encoding e enc dom lat ns -> forall r level more s cs v rest,
  number cs v -> s_enc s = EKnown e -> all_in dom (cs ++ rest) ->
  exists s0, positions_only s s0 /\
    let run := doContent r level ENormal (flat_map enc (cs ++ rest)) more s in
    if is_xml_char v then h_charData (c_h (s_cfg s)) = true ->
      exists re s1, call (EvCharData (utf8 [v])) s0 = Ret re s1 /\ run = goes_on r level more (flat_map enc rest) s1
    else run = Fail XE_BAD_CHAR_REF s0.
Proof. exact number_in_content. Qed.
Print Assumptions C69_number.

(* whole documents *)
Definition noted (s : string) : option (XML_Error * list event) :=
  match history 300 (parser_of false all_handlers (fun _ => idle)) [parse_op s true] with
  | Ok (_, x, log) => Some (x, filter (fun x => match x with EvCharData _ | EvComment _ | EvPI _ _ => true | _ => false end) (map snd log))
  | Err _ => None
  end.
Example C69_case :
  noted "<!--a--><?p  x ?><!DOCTYPE d [<!--b-->]><!--c--><d><!--d--><?q?>&#60;&#x20AC;</d><!--e-->" =
    Some (XE_NONE, [EvComment (ascii "a"); EvPI (ascii "p") (ascii "x "); EvComment (ascii "b"); EvComment (ascii "c");
                    EvComment (ascii "d"); EvPI (ascii "q") []; EvCharData (ascii "<"); EvCharData [226; 130; 172]; EvComment (ascii "e")]) /\
  noted "<d>&#0;</d>" = Some (XE_BAD_CHAR_REF, []).
Proof. split; vm_compute; reflexivity. Qed.
(* a parser before the document meets the hypotheses *)
Example C69_case_hypotheses :
  let s := set_enc (EKnown utf8_encoding) (parser_of false all_handlers (fun _ => idle)) in
  text_encoding utf8_encoding utf8_encode is_scalar false false /\
  note false false (comment_text [97; 13; 10; 8364]) (EvComment [97; 10; 226; 130; 172]) /\
  note false false (pi_text (txt "p") (txt "  x ")) (EvPI (ascii "p") (ascii "x ")) /\
  s_enc s = EKnown utf8_encoding /\ heard (c_h (s_cfg s)) (EvComment []) = true /\ heard (c_h (s_cfg s)) (EvPI [] []) = true /\
  between (s_role s) /\ number (txt "&#x20AC;") 8364 /\ is_xml_char 8364 = true /\ h_charData (c_h (s_cfg s)) = true.
Proof.
  cbv zeta. repeat match goal with |- _ /\ _ => split end; try reflexivity.
  - constructor.
  - apply (note_comment false false [97; 13; 10; 8364]). split; [repeat constructor|].
    intros [a [b E]]. do 6 (destruct a as [|? a]; [discriminate E|]; try discriminate E; injection E; clear E; intros E _).
  - apply (note_pi false false (txt "p") (txt "  x ")).
    + eexists _, _; split; [reflexivity|split; [vm_compute; reflexivity|constructor]].
    + vm_compute. discriminate.
    + right. eexists _, _. split; [reflexivity|]. split; [reflexivity|]. split; [repeat constructor|].
      intros [a [b E]]. do 5 (destruct a as [|? a]; [discriminate E|]; try discriminate E; injection E; clear E; intros E _).
  - cbn. auto.
  - apply (num_hex (txt "20AC")); [discriminate|repeat constructor].
Qed.
