(* The prolog grammar: C24, C25 and C26.  [token_roles e s ts] is what the machine reports for the
   tokens [ts], from one of its two initial states: [prolog_init] for a document, [external_init] for
   an external subset or external parameter entity.  The encoding [e] is any encoding a prolog can be
   written in; [enc] is how it writes a character. *)
From Coq Require Import String List NArith ZArith Bool.
From Verif Require Import Base Encoding SpecText SpecUnicode SpecLex Tok TokEmit Role SpecRole RoleLaws RoleRun.
Import ListNotations.
Local Open Scope N_scope.

(* C24: every token gets a role, without panic, in any state whatever *)
Theorem C24_total : forall e enc s ts, ascii_writing e enc -> Forall (token_ok e) ts ->
  exists rs s', token_roles e s ts = Ok (rs, s') /\ List.length rs = List.length ts.
Proof. intros e enc s ts AW OK. exact (roles_total e enc (ascii_shape e enc AW) ts s OK). Qed.
Print Assumptions C24_total.
(* [token_ok] holds of every token the tokeniser returns *)
Theorem C24_tokens : forall e buf t n, prologTok e buf = Ok (t, Some n) -> (n <= List.length buf)%nat -> token_ok e (t, firstn n buf).
Proof.
  intros e buf t n H L. pose proof (prolog_token e buf t n H) as P. unfold token_ok. cbn [fst snd].
  rewrite (firstn_length_le buf L). exact P.
Qed.
Print Assumptions C24_tokens.
(* ... and of the rest of the input when it ends in a name beginning with "#" *)
Theorem C24_tokens_end : forall e buf t, minbpc e = 1%nat \/ minbpc e = 2%nat -> prologTok e buf = Ok (t, None) ->
  t = T_NONE \/ t = T_PARTIAL \/ token_ok e (T_POUND_NAME, buf).
Proof.
  intros e buf t M H. destruct (prolog_token_end e buf t M H) as [A|[A|A]]; [now left|right; now left|right; right].
  split; [discriminate|intros _; exact A].
Qed.
Print Assumptions C24_tokens_end.
Theorem C24_error_is_final : forall e enc s0 ts a c s', ascii_writing e enc -> Forall (token_ok e) ts ->
  token_roles e (prolog_init s0) ts = Ok (a ++ R_ERROR :: c, s') \/ token_roles e (external_init s0) ts = Ok (a ++ R_ERROR :: c, s') ->
  Forall (eq R_NONE) c.
Proof.
  intros e enc s0 ts a c s' AW OK [H|H]; apply (error_final e enc (ascii_shape e enc AW)) in H; try exact OK; try exact H; intros X; discriminate X.
Qed.
Print Assumptions C24_error_is_final.
Definition T (t : XML_TOK) (s : string) : XML_TOK * bytes := (t, txt s).
Example C24_example :
  let ts := [T T_DECL_OPEN "<!DOCTYPE"; T T_PROLOG_S " "; T T_NAME "d"; T T_COMMA ","; T T_DECL_OPEN "<!ELEMENT"; T T_NAME "e"] in
  ascii_writing utf8_encoding utf8_encode /\ Forall (token_ok utf8_encoding) ts /\
  exists s', token_roles utf8_encoding (prolog_init prolog_default) ts =
    Ok ([R_DOCTYPE_NONE; R_DOCTYPE_NONE; R_DOCTYPE_NAME; R_ERROR; R_NONE; R_NONE], s').
Proof.
  split; [eapply aw_text; constructor|]. split.
  - repeat (apply Forall_cons; [vm_compute; split; intros H; first [discriminate H|repeat constructor]|]). apply Forall_nil.
  - eexists. vm_compute. reflexivity.
Qed.

(* C25: once the name of an element declaration has been reported, the tokens up to the next ">" are
   accepted exactly when they spell a content specification, and are reported as that specification
   says.  Fewer than 2^32 tokens: the nesting depth is counted in 32 bits. *)
Theorem C25_content : forall e enc s0 pre ts b rs1 rs s' (init : pstate -> pstate), ascii_writing e enc -> init = prolog_init \/ init = external_init ->
  Forall (token_ok e) pre -> Forall (token_ok e) ts -> Forall (fun x => fst x <> T_NONE /\ fst x <> T_DECL_CLOSE) ts ->
  N.of_nat (List.length ts) < 4294967290 -> List.length pre = S (List.length rs1) ->
  token_roles e (init s0) (pre ++ ts ++ [(T_DECL_CLOSE, b)]) = Ok (rs1 ++ R_ELEMENT_NAME :: rs, s') ->
  (~ In R_ERROR rs -> exists c rs2, wf_content c /\ rs = rs2 ++ [R_ELEMENT_NONE] /\ pieces e ts rs2 = s_content enc c) /\
  (forall c, wf_content c -> toks e ts = strip (s_content enc c) -> ~ In R_ERROR rs).
Proof.
  intros e enc s0 pre ts b rs1 rs s' init AW HI OK1 OK2 NN LB L H.
  assert (NO : none_ok (init s0)) by (destruct HI as [-> | ->]; intros X; discriminate X).
  destruct (named_run e enc (ascii_shape e enc AW) pre _ _ _ _ _ OK1 NO L H) as (s1 & E & R). split.
  - intros NE. exact (content_sound e enc (ascii_shape e enc AW) s1 ts b rs s' E OK2 NN LB R NE).
  - intros c W TK. exact (content_complete e enc (ascii_shape e enc AW) s1 ts b rs s' c E OK2 LB R W TK).
Qed.
Print Assumptions C25_content.
Example C25_example :
  let pre := [T T_DECL_OPEN "<!ELEMENT"; T T_PROLOG_S " "; T T_NAME "e"] in
  let ts := [T T_PROLOG_S " "; T T_OPEN_PAREN "("; T T_NAME "a"; T T_COMMA ","; T T_OPEN_PAREN "("; T T_NAME_PLUS "b+"; T T_OR "|"; T T_PREFIXED_NAME "x:c";
             T T_CLOSE_PAREN_QUESTION ")?"; T T_CLOSE_PAREN_ASTERISK ")*"] in
  let c := Children (Leaf {| prefixed := false; spelt := txt "a" |} One)
    (And false (Group (Leaf {| prefixed := false; spelt := txt "b+" |} Plus) (And true (Leaf {| prefixed := true; spelt := txt "x:c" |} One) Done) Opt) Done) Rep in
  wf_content c /\ toks utf8_encoding ts = strip (s_content utf8_encode c) /\
  (exists s' rs, token_roles utf8_encoding (external_init prolog_default) (pre ++ ts ++ [T T_DECL_CLOSE ">"]) =
    Ok ([R_ELEMENT_NONE; R_ELEMENT_NONE] ++ R_ELEMENT_NAME :: rs, s') /\ ~ In R_ERROR rs) /\
  (exists s' rs, token_roles utf8_encoding (external_init prolog_default) (pre ++ [T T_OPEN_PAREN "("; T T_CLOSE_PAREN ")"] ++ [T T_DECL_CLOSE ">"]) =
    Ok ([R_ELEMENT_NONE; R_ELEMENT_NONE] ++ R_ELEMENT_NAME :: rs, s') /\ In R_ERROR rs).
Proof.
  split; [vm_compute; intuition congruence|]. split; [vm_compute; reflexivity|]. split; eexists _, _; (split; [vm_compute; reflexivity|]).
  - cbn. intuition discriminate.
  - cbn. tauto.
Qed.

(* C26: the order of what is reported, for every token sequence *)
Theorem C26_order : forall e enc s0 ts rs s', ascii_writing e enc -> Forall (token_ok e) ts ->
  token_roles e (prolog_init s0) ts = Ok (rs, s') -> in_order PStart rs.
Proof.
  intros e enc s0 ts rs s' AW OK H. exact (run_order e enc (ascii_shape e enc AW) ts (prolog_init s0) rs s' OK H (fun X => ltac:(discriminate X)) eq_refl eq_refl).
Qed.
Print Assumptions C26_order.
(* the whole grammar of the prolog: the tokens up to the start of the root element are accepted exactly
   when they spell a prolog, and are then reported as the grammar says *)
Theorem C26_prolog_grammar : forall e enc s0 ts b rs s', ascii_writing e enc -> Forall (token_ok e) ts ->
  Forall (fun x => fst x <> T_NONE /\ fst x <> T_INSTANCE_START) ts -> N.of_nat (List.length ts) < 4294967290 - 1 ->
  token_roles e (prolog_init s0) (ts ++ [(T_INSTANCE_START, b)]) = Ok (rs, s') ->
  (~ In R_ERROR rs -> exists p, wf_prolog p /\ prolog_text e enc p (ts ++ [(T_INSTANCE_START, b)]) /\ prolog_roles e enc p (ts ++ [(T_INSTANCE_START, b)]) rs) /\
  (forall p, wf_prolog p -> prolog_text e enc p (ts ++ [(T_INSTANCE_START, b)]) ->
     ~ In R_ERROR rs /\ prolog_roles e enc p (ts ++ [(T_INSTANCE_START, b)]) rs).
Proof. intros e enc s0 ts b rs s' AW. exact (prolog_grammar e enc (ascii_shape e enc AW) s0 ts b rs s'). Qed.
Print Assumptions C26_prolog_grammar.
(* the external subset; the end of the input is the token NONE *)
Theorem C26_subset_grammar : forall e enc s0 ts b rs s', ascii_writing e enc -> Forall (token_ok e) ts ->
  Forall (fun x => fst x <> T_NONE) ts -> N.of_nat (List.length ts) < 4294967290 ->
  token_roles e (external_init s0) (ts ++ [(T_NONE, b)]) = Ok (rs, s') ->
  (~ In R_ERROR rs -> exists x rs1, rs = rs1 ++ [R_NONE] /\ wf_exts x /\ subset_roles e enc x ts rs1) /\
  (forall x, wf_exts x -> subset_text e enc x ts -> ~ In R_ERROR rs /\ exists rs1, rs = rs1 ++ [R_NONE] /\ subset_roles e enc x ts rs1).
Proof. intros e enc s0 ts b rs s' AW. exact (subset_grammar e enc (ascii_shape e enc AW) s0 ts b rs s'). Qed.
Print Assumptions C26_subset_grammar.
(* there a parameter entity reference may follow any token, and changes nothing else *)
Theorem C26_subset_references : forall e enc s0 x ts1 ts2 b rs1 rs2 s', ascii_writing e enc -> Forall (token_ok e) (x :: ts1) -> Forall (token_ok e) ts2 ->
  List.length rs1 = List.length (x :: ts1) ->
  token_roles e (external_init s0) ((x :: ts1) ++ ts2) = Ok (rs1 ++ rs2, s') -> ~ In R_ERROR rs1 ->
  exists r, (r = R_PARAM_ENTITY_REF \/ r = R_INNER_PARAM_ENTITY_REF) /\
    token_roles e (external_init s0) ((x :: ts1) ++ (T_PARAM_ENTITY_REF, b) :: ts2) = Ok (rs1 ++ r :: rs2, s').
Proof. intros e enc s0 x ts1 ts2 b rs1 rs2 s' AW. exact (ref_anywhere e enc (ascii_shape e enc AW) s0 x ts1 ts2 b rs1 rs2 s'). Qed.
Print Assumptions C26_subset_references.
Example C26_example :
  let ts := [T T_XML_DECL "<?xml version='1.0'?>"; T T_PROLOG_S " "; T T_DECL_OPEN "<!DOCTYPE"; T T_PROLOG_S " "; T T_NAME "d"; T T_OPEN_BRACKET "[";
             T T_DECL_OPEN "<!NOTATION"; T T_NAME "n"; T T_NAME "SYSTEM"; T T_LITERAL "'s'"; T T_DECL_CLOSE ">"; T T_CLOSE_BRACKET "]"; T T_DECL_CLOSE ">"; T T_COMMENT "<!---->"] in
  let p := {| before := []; dtd := Some ({| dt_name := {| prefixed := false; spelt := txt "d" |}; dt_ext := None;
                dt_subset := Some [DNotation (txt "n") (NotationExt (System (txt "'s'")))] |}, [MComment (txt "<!---->")]) |} in
  wf_prolog p /\ prolog_text utf8_encoding utf8_encode p (ts ++ [T T_INSTANCE_START ""]) /\
  (exists s', token_roles utf8_encoding (prolog_init prolog_default) (ts ++ [T T_INSTANCE_START ""]) =
    Ok ([R_XML_DECL; R_NONE; R_DOCTYPE_NONE; R_DOCTYPE_NONE; R_DOCTYPE_NAME; R_DOCTYPE_INTERNAL_SUBSET; R_NOTATION_NONE; R_NOTATION_NAME; R_NOTATION_NONE;
         R_NOTATION_SYSTEM_ID; R_NOTATION_NONE; R_DOCTYPE_NONE; R_DOCTYPE_CLOSE; R_COMMENT; R_INSTANCE_START], s')) /\
  (exists s' rs, token_roles utf8_encoding (external_init prolog_default)
    [T T_COND_SECT_OPEN "<!["; T T_NAME "INCLUDE"; T T_OPEN_BRACKET "["; T T_PI "<?p?>"; T T_COND_SECT_CLOSE "]]>"; T T_NONE ""] = Ok (rs, s') /\ ~ In R_ERROR rs).
Proof.
  split; [vm_compute; repeat split; auto; intros [H|[]]; discriminate H|]. split.
  - right. exists [], (txt "<?xml version='1.0'?>"). eexists. split; [reflexivity|]. split; [constructor|]. vm_compute. reflexivity.
  - split; [eexists; vm_compute; reflexivity|]. eexists _, _. split; [vm_compute; reflexivity|]. cbn. intuition discriminate.
Qed.
