(* C35: attribute values. *)
From Coq Require Import String List NArith ZArith Bool Lia.
From Verif Require Import Base Tables Encoding SpecText SpecUnicode SpecNames SpecLex SpecMisc Tok TokMisc Status State Bind AttVal SpecAttVal AttTop Core Demo.
From Verif Require Api.
From Coq Require Import List.
Import ListNotations.
Local Open Scope N_scope.

(* C35.  The value of an attribute whose text is [cs], in a start tag or (if [default]) in a declaration, is the one
   section 3.3.3 of XML 1.0 gives, and reading it leaves the parser as it was. *)
Theorem C35_value : forall e enc dom lat ns default cdata s cs v,
  text_encoding e enc dom lat ns -> known (c_ns (s_cfg s)) (s_enc s) = e -> c_ns (s_cfg s) = ns -> all_in dom cs ->
  attval ns (must_be_declared default s) lat false (d_gents (s_dtd s)) cs (Value v) ->
  exists n0, forall fuel, (n0 <= fuel)%nat ->
    storeAttributeValue fuel default ENormal cdata (flat_map enc cs) s = Ret (utf8 (normalised cdata v)) s.
Proof. intros e enc dom lat ns default cdata s cs v TE He Hn Hd H. exact (value_delivered e enc dom lat ns default cdata s cs _ TE He Hn Hd H). Qed.
Print Assumptions C35_value.
(* C35.  A text with an error is rejected with that error. *)
Theorem C35_error : forall e enc dom lat ns default cdata s cs x,
  text_encoding e enc dom lat ns -> known (c_ns (s_cfg s)) (s_enc s) = e -> c_ns (s_cfg s) = ns -> all_in dom cs ->
  attval ns (must_be_declared default s) lat false (d_gents (s_dtd s)) cs (Error x) ->
  exists n0, forall fuel, (n0 <= fuel)%nat ->
    exists s', storeAttributeValue fuel default ENormal cdata (flat_map enc cs) s = Fail x s'.
Proof. intros e enc dom lat ns default cdata s cs x TE He Hn Hd H. exact (value_delivered e enc dom lat ns default cdata s cs _ TE He Hn Hd H). Qed.
Print Assumptions C35_error.
(* C35.  Every text has a value or an error, whatever the entities are, recursive ones included. *)
Theorem C35_total : forall ns strict lat inner g cs, entity_texts g -> exists o, attval ns strict lat inner g cs o.
Proof. exact value_exists. Qed.
Print Assumptions C35_total.

(* " a\r\n&e;&#9;&lt;&e;" where e is "\nb &f;" and f is "c" *)
Definition internal (s : list N) : entity :=
  {| e_text := Some s; e_processed := 0; e_sys := None; e_base := None; e_pub := None; e_notation := None;
     e_open := false; e_is_param := false; e_is_internal := true |}.
Definition with_entities : st :=
  set_dtd (set_d_gents [(ascii "f", internal (ascii "c")); (ascii "e", internal (10 :: ascii "b &f;"))] dtd0)
    (parser_of false all_handlers (fun _ => idle)).
Definition source : list N := txt " a" ++ [13; 10] ++ txt "&e;&#9;&lt;&e;".
Ltac name := eexists _, _; split; [reflexivity|split; [vm_compute; reflexivity|constructor]].
Ltac lit c o := apply (av_literal _ _ _ _ _ c _ o); [split; [vm_compute; intuition discriminate|reflexivity]|].
Ltac unpredefined := let x := fresh in intros x; vm_compute; intuition discriminate.
Lemma c_value o : o = Value (txt "c") -> forall g, attval false true false true g (txt "c") o.
Proof. intros -> g. lit 99 (Value []). constructor. Qed.
Lemma e_value g o : look (ascii "f") g = Some (internal (ascii "c")) -> o = Value (txt " b c") ->
  attval false true false true g (10 :: txt "b &f;") o.
Proof.
  intros H ->. apply (av_space _ _ _ _ _ 10 _ (Value (txt "b c"))); [reflexivity|discriminate|]. lit 98 (Value (txt " c")).
  apply (av_space _ _ _ _ _ 32 _ (Value (txt "c"))); [reflexivity|discriminate|].
  apply (av_entity _ _ _ _ _ (txt "f") (internal (ascii "c")) (txt "c") (txt "c") [] (Value [])); try reflexivity; [name|unpredefined|exact H|repeat constructor|now apply c_value|constructor].
Qed.
Example C35_text : attval false (must_be_declared false with_entities) false false (d_gents (s_dtd with_entities)) source
    (Value (txt " a  b c" ++ [9] ++ txt "< b c")) /\
  text_encoding utf8_encoding utf8_encode is_scalar false false /\ all_in is_scalar source /\ entity_texts (d_gents (s_dtd with_entities)) /\
  storeAttributeValue 100 false ENormal true (utf8 source) with_entities = Ret (txt " a  b c" ++ [9] ++ txt "< b c") with_entities /\
  normalised false (txt " a  b c" ++ [9] ++ txt "< b c") = txt "a b c" ++ [9] ++ txt "< b c" /\
  storeAttributeValue 100 false ENormal false (utf8 source) with_entities = Ret (txt "a b c" ++ [9] ++ txt "< b c") with_entities.
Proof.
  split; [|split; [constructor|split; [unfold source; repeat (apply Forall_cons; [reflexivity|]); apply Forall_nil|split; [|split; [reflexivity|split; reflexivity]]]]].
  - change (must_be_declared false with_entities) with true. unfold source.
    apply (av_space _ _ _ _ _ 32 _ (Value (txt "a  b c" ++ [9] ++ txt "< b c"))); [reflexivity|discriminate|].
    lit 97 (Value (txt "  b c" ++ [9] ++ txt "< b c")).
    apply (av_crlf _ _ _ _ _ (Value (txt " b c" ++ [9] ++ txt "< b c"))).
    apply (av_entity _ _ _ _ _ (txt "e") (internal (10 :: ascii "b &f;")) (10 :: txt "b &f;") (txt " b c") (txt "&#9;&lt;&e;") (Value ([9] ++ txt "< b c")));
      try reflexivity; [name|unpredefined|repeat constructor|now apply e_value|].
    apply (av_decimal _ _ _ _ _ (txt "9") _ (Value (txt "< b c"))); [discriminate|repeat constructor|reflexivity|].
    apply (av_predefined _ _ _ _ _ (txt "lt") 60 _ (Value (txt " b c"))); [now left|].
    apply (av_entity _ _ _ _ _ (txt "e") (internal (10 :: ascii "b &f;")) (10 :: txt "b &f;") (txt " b c") [] (Value []));
      try reflexivity; [name|unpredefined|repeat constructor|now apply e_value|constructor].
  - intros n x b. unfold with_entities. change (d_gents (s_dtd (set_dtd (set_d_gents ?g dtd0) ?s))) with g. cbn [look].
    destruct (beqb n (ascii "f")); [intros E E2; injection E as <-; injection E2 as <-; exists (txt "c"); split; [repeat constructor|reflexivity]|].
    destruct (beqb n (ascii "e")); [|discriminate].
    intros E E2; injection E as <-; injection E2 as <-; exists (10 :: txt "b &f;"); split; [repeat constructor|reflexivity].
Qed.
(* the whole parser: the same text in a CDATA attribute, in an ID attribute and as a default *)
Definition attributes_of (l : list (nat * event)) : list (list (bytes * bytes)) :=
  flat_map (fun '(_, e) => match e with EvStartElement _ atts _ _ => [atts] | _ => [] end) l.
Example C35_parsed :
  match history 300 (parser_of false all_handlers (fun _ => idle))
    [parse_op "<!DOCTYPE a [<!ENTITY e ' z '><!ATTLIST a i ID #IMPLIED d NMTOKENS '  x &e; y '>]><a c=' &e; &amp;&#32;' i=' &e; &amp;&#32;'/>" true] with
  | Ok (l, e, log) => l = [Api.A_status ST_OK] /\ e = XE_NONE /\
      attributes_of log = [[(ascii "c", ascii "  z  & "); (ascii "i", ascii "z &"); (ascii "d", ascii "x z y")]]
  | Err _ => False
  end.
Proof. vm_compute. auto. Qed.
