(* C67: the replacement text of an internal entity is the one its declaration defines. *)
From Coq Require Import String List NArith ZArith Bool.
From Verif Require Import Base Encoding SpecText SpecUnicode SpecNames SpecLex Role SpecRole SpecMisc Tok Charset UniConv Status State Bind Content Prolog AttVal SpecAttVal SpecEnt SpecAttDecl SpecDeclEv SpecEntVal EvTop Core Demo.
From Verif Require Api.
From Coq Require Import List.
Import ListNotations.
Local Open Scope N_scope.

(* Between the quotes of an entity declaration: the text of the specification, or its error. Nothing else in the parser
   changes, except that after a parameter entity that was passed over declarations may no longer count. *)
Theorem C67_text : forall (ext : option bytes -> option bytes -> option bytes -> option bytes -> P bool) e enc dom lat ns s cs o,
  text_encoding e enc dom lat ns -> known (c_ns (s_cfg s)) (s_enc s) = e -> c_ns (s_cfg s) = ns -> all_in dom cs ->
  entval ns (h_external (c_h (s_cfg s))) lat false (s_isParam s) (d_pents (s_dtd s)) cs o ->
  exists n0, forall fuel, (n0 <= fuel)%nat ->
  match o with
  | Text v all_read => storeEntityValue ext fuel ENormal (flat_map enc cs) s = Ret XE_NONE (with_text v all_read s)
  | Wrong x => x <> XE_NONE /\ exists s', storeEntityValue ext fuel ENormal (flat_map enc cs) s = Ret x s'
  end.
Proof. exact text_stored. Qed.
Print Assumptions C67_text.
(* The specification says something about every literal, unless the application's handler is to read an external entity. *)
Theorem C67_total : forall ns handled lat inner allowed g cs, entity_texts g -> (handled = true -> forall n e, look n g = Some e -> e_sys e = None) ->
  exists o, entval ns handled lat inner allowed g cs o.
Proof. exact text_exists. Qed.
Print Assumptions C67_total.
(* The declaration as a whole: the text is kept with the entity, told to the handler, and no other entity changes. *)
Theorem C67_declared : forall e enc dom lat ns, text_encoding e enc dom lat ns -> forall ext l v all_read ps s ref,
  lit_ok dom l -> introduced s ref -> h_entityDecl (c_h (s_cfg s)) = true ->
  known (c_ns (s_cfg s)) (s_enc s) = e -> c_ns (s_cfg s) = ns -> d_ev (s_dtd s) = [] ->
  entval ns (h_external (c_h (s_cfg s))) lat false (s_isParam s) (d_pents (s_dtd s)) (snd l) (Text v all_read) ->
  spells ps (s_entity enc (SpecRole.Value (quoted enc l))) ->
  exists n0, forall r, rc_ext r = ext -> (n0 <= rc_fuel r)%nat -> exists s' y, acts r e ps s = Ret tt s' /\
    s_log s' = (s_pid s, EvEntityDecl (snd ref) (fst ref) (Some (utf8 v)) (s_base s) None None None) :: s_log s /\
    entity_of s' ref = Some y /\ definition y = (Some (utf8 v), None, e_base y, None, None, fst ref, e_is_internal y) /\ only_declared ref s s' /\
    d_ev (s_dtd s') = [].
Proof. exact value_told. Qed.
Print Assumptions C67_declared.
(* a literal with an error is refused, with that error and no other *)
Theorem C67_refused : forall e enc dom lat ns, text_encoding e enc dom lat ns -> forall ext l w ps s ref,
  lit_ok dom l -> introduced s ref -> known (c_ns (s_cfg s)) (s_enc s) = e -> c_ns (s_cfg s) = ns ->
  entval ns (h_external (c_h (s_cfg s))) lat false (s_isParam s) (d_pents (s_dtd s)) (snd l) (Wrong w) ->
  spells ps (s_entity enc (SpecRole.Value (quoted enc l))) ->
  exists n0, forall r, rc_ext r = ext -> (n0 <= rc_fuel r)%nat ->
    match acts r e ps s with Ret _ _ => False | Fail w' _ => w' = w | Die _ => True end.
Proof. exact value_refused. Qed.
Print Assumptions C67_refused.

(* whole declarations, from the text *)
Definition entity_events (s : string) : option (list event) :=
  match history 300 (parser_of false all_handlers (fun _ => idle)) [parse_op s false] with
  | Ok (_, _, log) => Some (filter (fun x => match x with EvEntityDecl _ _ _ _ _ _ _ => true | _ => false end) (map snd log))
  | Err _ => None
  end.
Example C67_case :
  entity_events "<!DOCTYPE d [<!ENTITY a 'x&#65;&b;<&#x26;#60;'><!ENTITY % p ""a 'b' &#37;""><!ENTITY e ''>]><d/>" =
  Some [EvEntityDecl (ascii "a") false (Some (ascii "xA&b;<&#60;")) None None None None;
        EvEntityDecl (ascii "p") true (Some (ascii "a 'b' %")) None None None None;
        EvEntityDecl (ascii "e") false (Some []) None None None None].
Proof. vm_compute. reflexivity. Qed.
(* in an external subset, with references to parameter entities *)
Definition subset_app (s : string) (log : list (nat * event)) : reaction :=
  match log with (_, EvExternalEntityRef _ _ _ _) :: _ => entity_text (ascii s) | _ => idle end.
Definition subset_events (s : string) : option (XML_Error * list event) :=
  match history 300 (parser_of false all_handlers (subset_app s)) [parse_op "<!DOCTYPE d SYSTEM 's'><d/>" true] with
  | Ok (_, x, log) => Some (x, filter (fun x => match x with EvEntityDecl _ _ _ _ _ _ _ => true | _ => false end) (map snd log))
  | Err _ => None
  end.
Example C67_case_subset :
  subset_events "<!ENTITY % p 'q&#66;'><!ENTITY x ""a%p;c&r;%p;"">" =
  Some (XE_NONE, [EvEntityDecl (ascii "p") true (Some (ascii "qB")) None None None None;
                  EvEntityDecl (ascii "x") false (Some (ascii "aqBc&r;qB")) None None None None]).
Proof. vm_compute. reflexivity. Qed.
(* the state after the name of a new entity in an external subset that has declared the parameter entity p, and a literal
   that refers to it, meet the hypotheses *)
Definition p_entity : entity := set_e_text (Some (ascii "q&#66;")) entity0.
Definition with_p : st :=
  let s := parser_of false all_handlers (fun _ => idle) in
  set_isParam true (set_declEntity (Some (false, ascii "x"))
    (set_dtd (put_entity (true, ascii "p") p_entity (put_entity (false, ascii "x") entity0 (s_dtd s))) s)).
Definition source : list N := txt "a" ++ [13; 10] ++ txt "%p;&c;".
Ltac name := eexists _, _; split; [reflexivity|split; [vm_compute; reflexivity|constructor]].
Ltac char c o := apply (ev_char _ _ _ _ _ _ c _ o); [vm_compute; intuition discriminate|discriminate|].
Example C67_case_hypotheses :
  introduced with_p (false, ascii "x") /\ h_entityDecl (c_h (s_cfg with_p)) = true /\ d_ev (s_dtd with_p) = [] /\
  known (c_ns (s_cfg with_p)) (s_enc with_p) = utf8_encoding /\ text_encoding utf8_encoding utf8_encode is_scalar false false /\
  lit_ok is_scalar (39, source) /\ entity_texts (d_pents (s_dtd with_p)) /\
  entval false (h_external (c_h (s_cfg with_p))) false false (s_isParam with_p) (d_pents (s_dtd with_p)) source (Text (txt "a" ++ [10] ++ txt "qB&c;") true) /\
  spells [(T_PROLOG_S, [32], R_ENTITY_NONE); (T_LITERAL, 39 :: utf8 source ++ [39], R_ENTITY_VALUE); (T_DECL_CLOSE, [62], R_ENTITY_NONE)]
    (s_entity utf8_encode (SpecRole.Value (quoted utf8_encode (39, source)))).
Proof.
  split; [constructor; [reflexivity|reflexivity|eexists; split; [reflexivity|repeat split]]|]. split; [reflexivity|]. split; [reflexivity|]. split; [reflexivity|].
  split; [constructor|]. split; [split; [right; reflexivity|repeat (apply Forall_cons; [reflexivity|]); apply Forall_nil]|]. split; [|split; [|reflexivity]].
  - intros n x b. change (d_pents (s_dtd with_p)) with [(ascii "p", p_entity)]. cbn [look]. destruct (beqb n (ascii "p")); [|discriminate].
    intros E E2; injection E as <-; injection E2 as <-; exists (txt "q&#66;"); split; [repeat constructor|reflexivity].
  - change (d_pents (s_dtd with_p)) with [(ascii "p", p_entity)]. change (s_isParam with_p) with true. unfold source.
    char 97 (Text ([10] ++ txt "qB&c;") true).
    apply (ev_crlf _ _ _ _ _ _ (Text (txt "qB&c;") true)).
    apply (ev_parameter _ _ _ _ _ (txt "p") p_entity (txt "q&#66;") (txt "qB") true (txt "&c;") (Text (txt "&c;") true)); try reflexivity; [name|repeat constructor| |].
    + char 113 (Text (txt "B") true). apply (ev_decimal _ _ _ _ _ _ (txt "66") [] (Text [] true)); [discriminate|repeat constructor|reflexivity|constructor].
    + apply (ev_general _ _ _ _ _ _ (txt "c") [] (Text [] true)); [name|constructor].
Qed.
(* a reference to a parameter entity in the internal subset *)
Example C67_case_refused :
  entval false true false false false [] (txt "a%p;") (Wrong XE_PARAM_ENTITY_REF).
Proof. char 97 (Wrong XE_PARAM_ENTITY_REF). apply (ev_forbidden _ _ _ _ _ (txt "p") []). name. Qed.
