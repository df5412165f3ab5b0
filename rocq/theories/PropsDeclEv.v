(* C66: the handlers for notation, entity and document type declarations are told the declared names and identifiers. *)
From Coq Require Import String List NArith ZArith Bool.
From Verif Require Import Base Encoding SpecText SpecUnicode SpecLex Role SpecRole SpecMisc Tok Status State Bind Content Prolog SpecEnt SpecAttDecl SpecDeclEv DeclEvLaws Core Demo.
From Verif Require Api.
From Coq Require Import List.
Import ListNotations.
Local Open Scope N_scope.

(* The roles of the tokens of a declaration are those of the grammar (C26_prolog_grammar, C26_subset_grammar): [ps] are
   the tokens of the declaration, with any separators between them. *)
Theorem C66_notation : forall e enc dom lat ns, text_encoding e enc dom lat ns -> forall n (x : ident + lit) ps s,
  all_in dom n -> (match x with inl x => ident_ok dom x | inr p => lit_ok dom p /\ all_in pubid_char (snd p) end) ->
  h_notation (c_h (s_cfg s)) = true -> spells ps (s_decl enc (DNotation (flat_map enc n) (notation_of enc x))) ->
  exists s', (forall r, acts r e ps s = Ret tt s') /\
    s_log s' = (s_pid s, EvNotationDecl (utf8 n) (s_base s) (match x with inl x => system_shown x | inr _ => None end)
                           (match x with inl x => public_shown x | inr p => Some (pub_shown p) end)) :: s_log s.
Proof. exact notation_told. Qed.
Print Assumptions C66_notation.
(* An entity declared for the first time (C51_new): after its name, an external identifier. The entity is kept as it is
   told, with the base in force at its declaration, and no other entity changes. *)
Theorem C66_external : forall e enc dom lat ns, text_encoding e enc dom lat ns -> forall x ps s ref,
  ident_ok dom x -> introduced s ref -> h_entityDecl (c_h (s_cfg s)) = true ->
  spells ps (s_entity enc (External (ext_of enc x))) ->
  exists s' y, (forall r, acts r e ps s = Ret tt s') /\
    s_log s' = (s_pid s, EvEntityDecl (snd ref) (fst ref) None (s_base s) (system_shown x) (public_shown x) None) :: s_log s /\
    entity_of s' ref = Some y /\ definition y = (None, system_shown x, s_base s, public_shown x, None, fst ref, e_is_internal y) /\ only_declared ref s s'.
Proof. exact external_told. Qed.
Print Assumptions C66_external.
(* an unparsed entity is told to its own handler, or else to the one for all entities *)
Theorem C66_unparsed : forall e enc dom lat ns, text_encoding e enc dom lat ns -> forall x n ps s ref,
  ident_ok dom x -> all_in dom n -> introduced s ref -> fst ref = false -> h_unparsed (c_h (s_cfg s)) = true \/ h_entityDecl (c_h (s_cfg s)) = true ->
  spells ps (s_entity enc (Unparsed (ext_of enc x) (flat_map enc n))) ->
  exists s' y, (forall r, acts r e ps s = Ret tt s') /\
    s_log s' = (s_pid s, if h_unparsed (c_h (s_cfg s)) then EvUnparsedEntityDecl (snd ref) (s_base s) (system_shown x) (public_shown x) (Some (utf8 n))
                         else EvEntityDecl (snd ref) false None (s_base s) (system_shown x) (public_shown x) (Some (utf8 n))) :: s_log s /\
    entity_of s' ref = Some y /\ definition y = (None, system_shown x, s_base s, public_shown x, Some (utf8 n), false, e_is_internal y) /\ only_declared ref s s'.
Proof. exact unparsed_told. Qed.
Print Assumptions C66_unparsed.
(* the document type: the name and the identifiers, once, before the declarations of its internal subset *)
Theorem C66_doctype : forall e enc dom lat ns, text_encoding e enc dom lat ns -> forall prefix n x ps s,
  all_in dom n -> (match x with Some x => ident_ok dom x | None => True end) -> h_startDoctype (c_h (s_cfg s)) = true -> unasked s ->
  spells ps (doctype_head enc prefix n x) ->
  forall r, exists s', acts r e ps s = Ret tt s' /\ s_log s' = (s_pid s, EvStartDoctype (utf8 n) (sys_of x) (pub_of x) true) :: s_log s.
Proof. exact doctype_told. Qed.
Print Assumptions C66_doctype.

(* whole declarations, from the text *)
Definition dtd_events (s : string) : option (list event) :=
  match history 300 (parser_of false all_handlers (fun _ => idle)) [parse_op s false] with
  | Ok (_, _, log) => Some (filter (fun x => match x with EvNotationDecl _ _ _ _ | EvEntityDecl _ _ _ _ _ _ _ | EvUnparsedEntityDecl _ _ _ _ _ | EvStartDoctype _ _ _ _ => true | _ => false end) (map snd log))
  | Err _ => None
  end.
Example C66_case :
  dtd_events "<!DOCTYPE d PUBLIC ' a  b ' ""c d"" [<!NOTATION n PUBLIC ' -//a  b '><!NOTATION m PUBLIC 'p' ""s""><!NOTATION k SYSTEM 't'><!ENTITY x SYSTEM 'u'><!ENTITY % y PUBLIC ' q  r ' 'v'><!ENTITY z SYSTEM 'w' NDATA n><!ENTITY x SYSTEM 'again'>]><d/>" =
  Some [EvStartDoctype (ascii "d") (Some (ascii "c d")) (Some (ascii "a b")) true;
        EvNotationDecl (ascii "n") None None (Some (ascii "-//a b")); EvNotationDecl (ascii "m") None (Some (ascii "s")) (Some (ascii "p"));
        EvNotationDecl (ascii "k") None (Some (ascii "t")) None;
        EvEntityDecl (ascii "x") false None None (Some (ascii "u")) None None;
        EvEntityDecl (ascii "y") true None None (Some (ascii "v")) (Some (ascii "q r")) None;
        EvUnparsedEntityDecl (ascii "z") None (Some (ascii "w")) None (Some (ascii "n"))].
Proof. vm_compute. reflexivity. Qed.
(* the state after the name of a new entity, and a declaration with separators, meet the hypotheses *)
Definition after_name : st :=
  set_declEntity (Some (false, ascii "x")) (set_dtd (put_entity (false, ascii "x") entity0 (s_dtd (parser_of false all_handlers (fun _ => idle)))) (parser_of false all_handlers (fun _ => idle))).
Example C66_case_hypotheses :
  introduced after_name (false, ascii "x") /\ h_entityDecl (c_h (s_cfg after_name)) = true /\
  ident_ok (fun c => c <? 128) {| id_public := Some (39, txt " p  q "); id_system := (34, txt "s") |} /\
  spells [(T_PROLOG_S, [32], R_ENTITY_NONE); (T_NAME, txt "PUBLIC", R_ENTITY_NONE); (T_PROLOG_S, [32], R_ENTITY_NONE); (T_LITERAL, txt "' p  q '", R_ENTITY_PUBLIC_ID);
          (T_PROLOG_S, [32], R_ENTITY_NONE); (T_LITERAL, txt """s""", R_ENTITY_SYSTEM_ID); (T_DECL_CLOSE, [62], R_ENTITY_COMPLETE)]
    (s_entity utf8_encode (External (ext_of utf8_encode {| id_public := Some (39, txt " p  q "); id_system := (34, txt "s") |}))).
Proof.
  split; [constructor; [reflexivity|reflexivity|eexists; split; [reflexivity|repeat split]]|]. split; [reflexivity|].
  split; [|reflexivity]. unfold ident_ok, lit_ok, all_in. cbn [id_public id_system fst snd]. repeat split; auto; repeat constructor.
Qed.
Example C66_case_doctype :
  unasked (set_pep PEP_ALWAYS after_name) /\ h_startDoctype (c_h (s_cfg (set_pep PEP_ALWAYS after_name))) = true /\
  spells [(T_DECL_OPEN, txt "<!DOCTYPE", R_DOCTYPE_NONE); (T_PROLOG_S, [32], R_DOCTYPE_NONE); (T_NAME, txt "d", R_DOCTYPE_NAME); (T_PROLOG_S, [32], R_DOCTYPE_NONE);
          (T_NAME, txt "SYSTEM", R_DOCTYPE_NONE); (T_LITERAL, txt "'s'", R_DOCTYPE_SYSTEM_ID); (T_OPEN_BRACKET, txt "[", R_DOCTYPE_INTERNAL_SUBSET)]
    (doctype_head utf8_encode false (txt "d") (Some {| id_public := None; id_system := (39, txt "s") |})).
Proof. split; [|split; reflexivity]. left. discriminate. Qed.
