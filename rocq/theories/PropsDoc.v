(* C62, C28: documents and what is reported for them. *)
From Coq Require Import String List NArith ZArith Bool Lia.
From Verif Require Import Base SpecText SpecUnicode SpecNames SpecLex SpecMisc SpecAttVal Status State Core Demo SpecDoc DocRun.
From Verif Require Api.
From Coq Require Import List.
Import ListNotations.
Local Open Scope N_scope.

(* C62.  A document that is the text of a tree, in UTF-8 and without namespaces, is accepted however it is cut into chunks,
   and what the handlers hear is the tree, up to the cutting of character data. *)
Theorem C62_round_trip : forall c pep base doc chunks,
  attentive c -> good doc -> is_element doc = true -> all_in is_scalar (source doc) ->
  chunks <> [] -> concat chunks = utf8 (source doc) -> (Z.of_nat (length (utf8 (source doc))) + 1024 <= 2 ^ 30)%Z ->
  exists n0, forall n, (n0 <= n)%nat -> exists a, give n chunks (new_parser (root c None pep false base)) = Ok (map (fun _ => ST_OK) chunks, a) /\
    Api.parsing a = FINISHED /\ merged (told a) = merged (reports doc).
Proof. exact round_trip. Qed.
Print Assumptions C62_round_trip.

(* C28, in part.  Two ways of cutting such a document into chunks: both are accepted, and the handlers hear the same.
   Missing: documents with a prolog or a DTD, other encodings, namespaces, and text that is not well-formed. *)
Theorem C28_chunks_partial : forall c pep base doc one two,
  attentive c -> good doc -> is_element doc = true -> all_in is_scalar (source doc) ->
  one <> [] -> two <> [] -> concat one = utf8 (source doc) -> concat two = concat one ->
  (Z.of_nat (length (utf8 (source doc))) + 1024 <= 2 ^ 30)%Z ->
  exists n0, forall n, (n0 <= n)%nat -> exists a b,
    give n one (new_parser (root c None pep false base)) = Ok (map (fun _ => ST_OK) one, a) /\
    give n two (new_parser (root c None pep false base)) = Ok (map (fun _ => ST_OK) two, b) /\
    Api.parsing a = Api.parsing b /\ merged (told a) = merged (told b).
Proof. exact chunking. Qed.
Print Assumptions C28_chunks_partial.

(* <a b='1&amp;'>x&#65;<![CDATA[<]]><!--c--><?p d?>CR LF<e /></a > *)
Definition att (n v : string) : att_src :=
  {| as_space := txt " "; as_name := txt n; as_eq1 := []; as_eq2 := []; as_quote := 39; as_value := txt v |}.
Definition small : node :=
  Element (txt "a") [att "b" "1&amp;"] [(txt "b", txt "1&")] []
    [Leaf (Chars (txt "x")); Leaf (Reference (txt "&#65;") 65); Leaf (Section (txt "<")); Leaf (Comment (txt "c"));
     Leaf (Instruction (txt "p") (txt " d")); Leaf (Chars [13; 10]); Leaf (Empty (txt "e") [] [] (txt " "))] (txt " ").
Ltac name := eexists; eexists; split; [reflexivity|]; split; [vm_compute; reflexivity|repeat (apply Forall_cons; [vm_compute; reflexivity|]); apply Forall_nil].
Ltac chars := repeat (apply Forall_cons; [vm_compute; reflexivity|]); apply Forall_nil.
Ltac nowhere := let u := fresh in let v := fresh in let E := fresh in
  intros (u & v & E); cbn in E; repeat (destruct u as [|? u]; [discriminate E|]; injection E as _ E); destruct u; discriminate E.
Lemma small_good : good small.
Proof.
  apply g_element.
  - split; [|split].
    + split; [left; name|]. split; [|apply Forall_nil]. apply Forall_cons; [|apply Forall_nil].
      split; [chars|]. split; [discriminate|]. split; [left; name|]. split; [chars|]. split; [chars|]. split; [right; reflexivity|].
      apply av_char; [vm_compute; reflexivity|discriminate|discriminate|discriminate|]. apply (av_ref _ _ _ (txt "&amp;") []); [|apply av_nil].
      left. exists (txt "amp"). split; [name|reflexivity].
    + constructor; [intros []|constructor].
    + apply Forall2_cons; [|apply Forall2_nil]. split; [reflexivity|].
      apply (av_literal _ _ _ _ _ 49 _ (Value (txt "&"))); [split; [vm_compute; intuition discriminate|reflexivity]|].
      apply (av_predefined _ _ _ _ _ (txt "amp") 38 [] (Value [])); [vm_compute; tauto|constructor].
  - chars.
  - repeat apply Forall_cons; try apply Forall_nil; apply g_leaf; cbn [piece_good].
    + split; [discriminate|]. split; [chars|nowhere].
    + apply (rf_decimal (txt "65")); [discriminate|chars|reflexivity].
    + split; [chars|nowhere].
    + split; [chars|nowhere].
    + split; [name|]. split; [discriminate|]. right. exists 32, (txt "d"). split; [reflexivity|]. split; [reflexivity|]. split; [chars|nowhere].
    + split; [discriminate|]. split; [chars|nowhere].
    + split; [|split; [constructor|constructor]]. split; [left; name|]. split; [constructor|chars].
  - cbn. tauto.
Qed.
Definition heard_all : config := config_of false all_handlers (fun _ => idle).
Example C62_case : attentive heard_all /\ good small /\ is_element small = true /\ all_in is_scalar (source small) /\
  source small = txt "<a b='1&amp;'>x&#65;<![CDATA[<]]><!--c--><?p d?>" ++ [13; 10] ++ txt "<e /></a >" /\
  merged (reports small) =
    [Begins (txt "a") [(txt "b", txt "1&")]; Text (txt "xA"); SectionBegins; Text (txt "<"); SectionEnds; Remark (txt "c");
     Order (txt "p") (txt "d"); Text [10]; Begins (txt "e") []; Ends (txt "e"); Ends (txt "a")].
Proof.
  split; [repeat split|]. split; [exact small_good|]. split; [reflexivity|]. split; [chars|]. split; reflexivity.
Qed.
(* the model run on it, byte by byte and in one call *)
Definition outcome_of (chunks : list bytes) : option (list XML_Status * list report) :=
  match give 400 chunks (new_parser (root heard_all None PEP_NEVER false None)) with Ok (l, a) => Some (l, merged (told a)) | Err _ => None end.
Example C62_run : outcome_of (map (fun b => [b]) (utf8 (source small))) = Some (map (fun _ => ST_OK) (utf8 (source small)), merged (reports small)) /\
  outcome_of [utf8 (source small)] = Some ([ST_OK], merged (reports small)).
Proof. split; vm_compute; reflexivity. Qed.
(* what is no such document is told apart *)
Example C62_other : outcome_of [txt "<a>"; txt "</b>"] = Some ([ST_OK; ST_ERROR], [Begins (txt "a") []]).
Proof. vm_compute. reflexivity. Qed.
