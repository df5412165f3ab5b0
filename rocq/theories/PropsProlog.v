(* The tokens of the prolog and of the DTD, over every built-in encoding (UTF-16BE without U+0080..U+00FF, see C08). *)
From Coq Require Import String List NArith Bool Arith.
From Verif Require Import Base Encoding SpecText SpecUnicode SpecNames SpecLex SpecProlog Tok CpDtd.
Import ListNotations.
Local Open Scope N_scope.

(* C60: every token of the prolog and of DTDs but the two below is recognised iff the text begins with it *)
Theorem C60_tokens : forall e enc dom lat ns cs t n, text_encoding e enc dom lat ns -> all_in dom cs ->
  (forall c, In c cs -> 128 <= c -> is_xml_char c = true) ->
  t <> T_INVALID -> t <> T_DECL_OPEN -> t <> T_INSTANCE_START ->
  (prologTok e (flat_map enc cs) = Ok (t, Some n) <->
   exists lexeme rest, cs = lexeme ++ rest /\ prolog_token lat ns t lexeme rest /\ n = List.length (flat_map enc lexeme)).
Proof. exact prologTok_tokens. Qed.
Print Assumptions C60_tokens.
(* what opens a declaration: necessary for all, sufficient for the declarations of XML, whose names are ASCII *)
Theorem C60_open : forall e enc dom lat ns cs n, text_encoding e enc dom lat ns -> all_in dom cs ->
  (forall c, In c cs -> 128 <= c -> is_xml_char c = true) ->
  prologTok e (flat_map enc cs) = Ok (T_DECL_OPEN, Some n) ->
  exists name rest, cs = (txt "<!" ++ name) ++ rest /\ decl_opened lat ns name rest /\ n = List.length (flat_map enc (txt "<!" ++ name)).
Proof. exact prologTok_open_sound. Qed.
Print Assumptions C60_open.
Theorem C60_opened : forall e enc dom lat ns name rest, text_encoding e enc dom lat ns -> all_in dom (txt "<!" ++ name ++ rest) ->
  (forall c, In c (txt "<!" ++ name ++ rest) -> 128 <= c -> is_xml_char c = true) ->
  decl_opened lat ns name rest -> (forall c, In c name -> c < 128) ->
  prologTok e (flat_map enc (txt "<!" ++ name ++ rest)) = Ok (T_DECL_OPEN, Some (List.length (flat_map enc (txt "<!" ++ name)))).
Proof. exact prologTok_open_complete. Qed.
Print Assumptions C60_opened.
(* the document element: whether the character after '<' may start a name is checked by the content tokeniser when it is not ASCII *)
Theorem C60_instance : forall e enc dom lat ns cs n, text_encoding e enc dom lat ns -> all_in dom cs ->
  (forall c, In c cs -> 128 <= c -> is_xml_char c = true) ->
  prologTok e (flat_map enc cs) = Ok (T_INSTANCE_START, Some n) ->
  n = 0%nat /\ exists c rest, cs = txt "<" ++ c :: rest /\ (start_char lat ns c = true \/ 128 <= c).
Proof. exact prologTok_instance. Qed.
Print Assumptions C60_instance.
Theorem C60_element : forall e enc dom lat ns c rest, text_encoding e enc dom lat ns -> all_in dom (txt "<" ++ c :: rest) ->
  (forall x, In x (txt "<" ++ c :: rest) -> 128 <= x -> is_xml_char x = true) ->
  start_char lat ns c = true -> prologTok e (flat_map enc (txt "<" ++ c :: rest)) = Ok (T_INSTANCE_START, Some 0%nat).
Proof. exact prologTok_instance_complete. Qed.
Print Assumptions C60_element.
Definition C60_text : list N := txt "p:" ++ [0xE9] ++ txt "* >".
Example C60_example : text_encoding utf8_encoding_ns utf8_encode is_scalar false true /\ all_in is_scalar C60_text /\
  (forall c, In c C60_text -> 128 <= c -> is_xml_char c = true) /\
  prolog_token false true T_NAME_ASTERISK (txt "p:" ++ [0xE9] ++ txt "*") (txt " >") /\
  prologTok utf8_encoding_ns (flat_map utf8_encode C60_text) = Ok (T_NAME_ASTERISK, Some 5%nat) /\
  prologTok utf8_encoding_ns (flat_map utf8_encode (txt "p:>")) = Ok (T_NMTOKEN, Some 2%nat) /\
  prologTok utf8_encoding_ns (flat_map utf8_encode (txt "'a'b")) = Ok (T_INVALID, Some 3%nat) /\
  decl_opened false true (txt "ELEMENT") (txt "%p;") /\
  prologTok utf8_encoding_ns (flat_map utf8_encode (txt "<!" ++ txt "ELEMENT" ++ txt "%p;")) = Ok (T_DECL_OPEN, Some 9%nat).
Proof.
  split; [constructor|]. split; [repeat (apply Forall_cons; [reflexivity|]); apply Forall_nil|]. split; [|split; [|split; [|split; [|split; [|split]]]]].
  - intros c. cbn. intros H H1. repeat (destruct H as [<-|H]; [reflexivity|]). destruct H.
  - apply (pt_name_ast false true (txt "p:" ++ [0xE9]) (txt " >")). right. split; [reflexivity|]. exists (txt "p"), [0xE9]. split; [reflexivity|]. split; [|split; [discriminate|]].
    + exists 0x70, []. split; [reflexivity|]. split; [reflexivity|constructor].
    + repeat (apply Forall_cons; [reflexivity|]); apply Forall_nil.
  - vm_compute; reflexivity.
  - vm_compute; reflexivity.
  - vm_compute; reflexivity.
  - split; [discriminate|]. split; [repeat (apply Forall_cons; [reflexivity|]); apply Forall_nil|]. right. exists 0x70, (txt ";"). split; reflexivity.
  - vm_compute; reflexivity.
Qed.
