(* C48: content models. *)
From Coq Require Import String List NArith ZArith Bool Arith Lia.
From Verif Require Import Base Encoding Tok TokMisc Status Role SpecText SpecUnicode SpecLex SpecRole State Bind Core.
From Verif Require Import SpecModel ModelTop Demo.
From Verif Require Api.
From Coq Require Import List.
Import ListNotations.

(* C48.  Between two declarations of the internal or an external subset, let the tokens that follow be those of an
   element declaration, in whatever encoding and with white space anywhere.  Then the prolog goes on behind it, the
   handler has been called exactly once, with the name and the tree of the declaration, and the parser is between
   two declarations again.  (Building the tree stays inside its allocation: otherwise the model panics.) *)
Theorem C48_model : forall e enc t m c ts b rest s,
  ascii_writing e enc -> in_subset e t s -> listening s ->
  lexed e b ts rest -> (N.of_nat (length ts) < 4294967295)%N ->
  toks e ts = strip (s_decl enc (DElement m c)) ->
  content_agrees c = true -> content_names_ok e c -> readable e (spelt m) ->
  forall n more allow, exists s',
    prolog_from (length ts + n) t b more allow s = prolog_from n t rest more allow s' /\
    s_log s' = (s_pid s, EvElementDecl (utf8 e (spelt m)) (content_model e c)) :: s_log s /\
    in_subset e t s' /\ s_cfg s' = s_cfg s /\ s_pid s' = s_pid s.
Proof. exact model_ok. Qed.
Print Assumptions C48_model.

(* C48.  Different connectors in one group are an error, and the handler is not called. *)
Theorem C48_connectors : forall e enc t m c ts b rest s,
  ascii_writing e enc -> in_subset e t s -> listening s ->
  lexed e b ts rest -> (N.of_nat (length ts) < 4294967295)%N ->
  toks e ts = strip (s_decl enc (DElement m c)) ->
  content_agrees c = false -> content_names_ok e c -> readable e (spelt m) ->
  forall n more allow, exists s',
    prolog_from (length ts + n) t b more allow s = Fail XE_SYNTAX s' /\ s_log s' = s_log s.
Proof. exact model_mixed_connectors. Qed.
Print Assumptions C48_connectors.

(* The hypotheses are met in the internal subset by declarations with nested groups. *)
Definition declarations : handlers :=
  {| h_startElement := false; h_endElement := false; h_charData := false; h_pi := false; h_comment := false;
     h_startCdata := false; h_endCdata := false; h_default := false; h_startDoctype := false; h_endDoctype := false;
     h_unparsed := false; h_notation := false; h_startNs := false; h_endNs := false; h_notStandalone := false;
     h_external := false; h_skipped := false; h_unknown := false; h_elementDecl := true; h_attlist := false;
     h_entityDecl := false; h_xmlDecl := false |}.
Definition in_doctype : st :=
  set_role (Build_pstate H_internalSubset 0 R_DOCTYPE_NONE 0 true)
    (set_enc (EKnown utf8_encoding) (set_parsing PARSING (parser_of false declarations (fun _ => idle)))).
Definition nm (s : string) : qname := {| prefixed := false; spelt := ascii s |}.
Definition example_model (second : bool) : content :=
  Children (Leaf (nm "b") One) (And false (Group (Leaf (nm "c") One) (And true (Leaf (nm "d") One) Done) Rep)
    (And second (Leaf (nm "e?") Opt) Done)) Plus.
Ltac lex := repeat (eapply lex_token; [vm_compute; reflexivity|reflexivity|vm_compute; lia|]; cbv [skipn]); apply lex_none.
Example C48_place : in_subset utf8_encoding ENormal in_doctype /\ listening in_doctype.
Proof. repeat split. Qed.
Example C48_example : exists ts rest,
  ascii_writing utf8_encoding utf8_encode /\
  lexed utf8_encoding (ascii "<!ELEMENT a (b , (c|d)*, e?)+ >") ts rest /\ (N.of_nat (length ts) < 4294967295)%N /\
  toks utf8_encoding ts = strip (s_decl utf8_encode (DElement (nm "a") (example_model false))) /\
  content_agrees (example_model false) = true /\ content_names_ok utf8_encoding (example_model false) /\ readable utf8_encoding (ascii "a") /\
  content_model utf8_encoding (example_model false) =
    Model CT_SEQ Q_PLUS None [Model CT_NAME Q_NONE (Some (ascii "b")) [];
      Model CT_CHOICE Q_REP None [Model CT_NAME Q_NONE (Some (ascii "c")) []; Model CT_NAME Q_NONE (Some (ascii "d")) []];
      Model CT_NAME Q_OPT (Some (ascii "e")) []].
Proof.
  do 2 eexists. split; [eapply aw_text, te_utf8|]. split; [lex|].
  split; [reflexivity|]. split; [vm_compute; reflexivity|]. split; [reflexivity|].
  assert (L : forall n q, match conv utf8_encoding (element_name utf8_encoding n q) with Ok _ => true | Err _ => false end && (minbpc utf8_encoding <=? length (spelt n))%nat = true -> leaf_ok utf8_encoding n q).
  { intros n q H. apply andb_prop in H. destruct H as [H1 H2]. split; [|intros _; apply Nat.leb_le, H2].
    unfold readable. destruct (conv utf8_encoding (element_name utf8_encoding n q)) as [x|]; [exists x; reflexivity|discriminate]. }
  split; [split; [apply L; vm_compute; reflexivity|]; split; [split; [apply L; vm_compute; reflexivity|split; [apply L; vm_compute; reflexivity|exact I]]|];
    split; [apply L; vm_compute; reflexivity|exact I]|].
  split; [eexists; vm_compute; reflexivity|]. vm_compute. reflexivity.
Qed.
(* the whole way, from the document, and with connectors that differ *)
Example C48_history :
  history 60 (parser_of false declarations (fun _ => idle)) [parse_op "<!DOCTYPE a [<!ELEMENT a (b , (c|d)*, e?)+ >]><a/>" true] =
    Ok ([Api.A_status ST_OK], XE_NONE, [(0%nat, EvElementDecl (ascii "a") (content_model utf8_encoding (example_model false)))]) /\
  history 60 (parser_of false declarations (fun _ => idle)) [parse_op "<!DOCTYPE a [<!ELEMENT a (b , (c|d)*| e?)+ >]><a/>" true] =
    Ok ([Api.A_status ST_ERROR], XE_SYNTAX, []) /\ content_agrees (example_model true) = false.
Proof. vm_compute. auto. Qed.
