(* C40, C51: expansion and declaration of entities. *)
From Coq Require Import String List NArith ZArith Bool.
From Verif Require Import Base Encoding Tok TokMisc Status Role State AttVal Bind Content Prolog Core.
From Verif Require Import SpecEnt EntTop Demo.
From Verif Require Api ApiInv.
From Coq Require Import List.
Import ListNotations.

(* C40.  After any calls on a new parser, the root parser or one for an external entity: the internal entities it is
   expanding are all different and marked as open, those open outside of it are still open and are not among them,
   and there are at most as many as there are declared entities. *)
Theorem C40_once : forall n c os a l, s_open c = [] -> Forall ApiInv.plain os ->
  Api.steps (run (knot n)) start position os (new_parser c) = Ok (a, l) ->
  let s := Api.core a in
  NoDup (expanding s) /\ (forall ref, In ref (expanding s) -> open_in s ref) /\
  (forall ref, open_in c ref -> open_in s ref /\ ~ In ref (expanding s)) /\
  length (expanding s) <= length (all_entities s).
Proof. exact open_once. Qed.
Print Assumptions C40_once.

(* C40.  A reference to an entity that is open fails, in content (where an entity from outside the document is
   refused first if the document cannot have such), *)
Theorem C40_content : forall r t e buf n s raw name ent, ref_name e buf n s = Ret raw s ->
  predefinedEntityName e raw = Ok 0%N -> conv e raw = Ok name -> entity_of s (false, name) = Some ent -> e_open ent = true ->
  content_entity r t e buf n s =
    Fail (if (negb (d_hasPE (s_dtd s)) || d_standalone (s_dtd s)) && negb (e_is_internal ent) then XE_ENTITY_DECLARED_IN_PE
          else XE_RECURSIVE_ENTITY_REF) s.
Proof. exact recursive_content. Qed.
Print Assumptions C40_content.
(* in an attribute value, *)
Theorem C40_attribute : forall fuel prolog t cd buf acc s e n raw name ent, encoding t s = Ret e s ->
  attributeValueTok e buf = Ok (T_ENTITY_REF, Some n) -> ref_name e buf n s = Ret raw s ->
  predefinedEntityName e raw = Ok 0%N -> conv e raw = Ok name -> entity_of s (false, name) = Some ent -> e_open ent = true ->
  exists x s', appendAttributeValue (S fuel) prolog t cd buf acc s = Fail x s' /\
    s_dtd s' = s_dtd s /\ (x = XE_RECURSIVE_ENTITY_REF \/ x = XE_ENTITY_DECLARED_IN_PE /\ e_is_internal ent = false).
Proof. exact recursive_attribute. Qed.
Print Assumptions C40_attribute.
(* in an entity value, *)
Theorem C40_value : forall r fuel t buf s e n raw name ent, encoding t s = Ret e s ->
  entityValueTok e buf = Ok (T_PARAM_ENTITY_REF, Some n) -> s_isParam s || is_internal t = true ->
  ref_name e buf n s = Ret raw s -> conv e raw = Ok name -> entity_of s (true, name) = Some ent -> e_open ent = true ->
  exists s', entity_value r (S fuel) t buf s = Ret XE_RECURSIVE_ENTITY_REF s' /\ s_dtd s' = s_dtd s.
Proof. exact recursive_value. Qed.
Print Assumptions C40_value.
(* and in a declaration or between declarations. *)
Theorem C40_parameter : forall r ref between s ent, entity_of s ref = Some ent -> e_open ent = true ->
  handleEntityRef r ref between s = Fail XE_RECURSIVE_ENTITY_REF s.
Proof. exact recursive_parameter. Qed.
Print Assumptions C40_parameter.
(* Expanding an attribute value closes nothing that was open. *)
Theorem C40_marks : forall fuel prolog t cd buf acc s ref, open_in s ref ->
  match appendAttributeValue fuel prolog t cd buf acc s with Ret _ s' | Fail _ s' => open_in s' ref | Die _ => True end.
Proof. exact attribute_flags. Qed.
Print Assumptions C40_marks.

(* C51.  An entity keeps what its first declaration said, whatever calls follow: only the entity whose declaration
   was the last to be read can still change, as that declaration may go on. *)
Theorem C51_first : forall n os a a' l ref e, Forall ApiInv.plain os ->
  Api.steps (run (knot n)) start position os a = Ok (a', l) ->
  ref <> external_subset_entry -> entity_of (Api.core a) ref = Some e -> s_declEntity (Api.core a) <> Some ref ->
  exists e', entity_of (Api.core a') ref = Some e' /\ definition e' = definition e.
Proof. exact fixed_steps. Qed.
Print Assumptions C51_first.
(* C51.  The name of a declaration: if there is such an entity nothing is declared, *)
Theorem C51_again : forall p e tok name s x, d_keep (s_dtd s) = true -> conv e tok = Ok name -> entity_of s (p, name) = Some x ->
  declare_entity p e tok s = Ret true (set_declEntity None s).
Proof. exact declared_again. Qed.
Print Assumptions C51_again.
(* otherwise there is a new entity, about which nothing is known yet. *)
Theorem C51_new : forall p e tok name s, d_keep (s_dtd s) = true -> conv e tok = Ok name -> entity_of s (p, name) = None ->
  exists hd x s', declare_entity p e tok s = Ret hd s' /\ s_declEntity s' = Some (p, name) /\ entity_of s' (p, name) = Some x /\
    e_open x = false /\ e_text x = None /\ e_sys x = None /\ e_pub x = None /\ e_notation x = None /\ e_is_param x = p /\
    forall ref, ref <> (p, name) -> entity_of s' ref = entity_of s ref.
Proof. exact declared_first. Qed.
Print Assumptions C51_new.
(* The predefined names are not declared. *)
Theorem C51_predefined : forall r k t e allow tok after ch s, predefinedEntityName e tok = Ok ch -> ch <> 0%N ->
  role_action r R_GENERAL_ENTITY_NAME k t e allow tok after s = Ret true (set_declEntity None s).
Proof. exact declared_predefined. Qed.
Print Assumptions C51_predefined.
(* C51.  The rest of a declaration, and every other part of the prolog, changes no entity but the one that is being
   declared. *)
Theorem C51_parts : forall n ro k t e allow tok after s ref x, ref <> external_subset_entry -> entity_of s ref = Some x ->
  s_declEntity s <> Some ref ->
  match role_action (knot n) ro k t e allow tok after s with
  | Ret _ s' | Fail _ s' => s_declEntity s' <> Some ref /\ exists x', entity_of s' ref = Some x' /\ definition x' = definition x
  | Die _ => True
  end.
Proof. exact role_fixed. Qed.
Print Assumptions C51_parts.

Definition code_of (s : string) : option XML_Error :=
  match history 300 (parser_of false all_handlers (fun _ => idle)) [parse_op s true] with Ok (_, e, _) => Some e | Err _ => None end.
(* entities that refer to themselves and to each other *)
Example C40_example :
  map code_of
    ["<!DOCTYPE a [<!ENTITY x '&y;'><!ENTITY y '&x;'>]><a>&x;</a>"; "<!DOCTYPE a [<!ENTITY x '&x;'>]><a b='&x;'/>";
     "<!DOCTYPE a [<!ENTITY x '<a b=""&#38;x;""/>'>]><a>&x;</a>"; "<!DOCTYPE a [<!ENTITY % x '&#37;x;'>%x;]><a/>";
     "<!DOCTYPE a [<!ENTITY x 'b&y;&y;'><!ENTITY y 'c'>]><a c='&x;&y;'>&x;&y;</a>"]%string =
  [Some XE_RECURSIVE_ENTITY_REF; Some XE_RECURSIVE_ENTITY_REF; Some XE_RECURSIVE_ENTITY_REF; Some XE_RECURSIVE_ENTITY_REF;
   Some XE_NONE].
Proof. vm_compute. reflexivity. Qed.
(* a handler that suspends two entities deep *)
Definition suspend_at_b (log : list (nat * event)) : reaction :=
  match log with (_, EvStartElement [98%N] _ _ _) :: _ => halt true | _ => idle end.
Example C40_once_example :
  match Api.steps (run (knot 300)) start position
    [parse_op "<!DOCTYPE a [<!ENTITY x '&y;c'><!ENTITY y '<b/>d'>]><a>&x;</a>" true]
    (new_parser (parser_of false only_elements suspend_at_b)) with
  | Ok (a, l) =>
      l = [Api.A_status ST_SUSPENDED] /\ expanding (Api.core a) = [(false, ascii "y"); (false, ascii "x")] /\
      length (all_entities (Api.core a)) = 2
  | Err _ => False
  end.
Proof. vm_compute. auto. Qed.
(* declared twice; a predefined name *)
Example C51_example :
  match history 300 (parser_of false all_handlers (fun _ => idle))
    [parse_op "<!DOCTYPE a [<!ENTITY x 'one'><!ENTITY x 'two'><!ENTITY lt 'three'>]><a>&x;&lt;</a>" true] with
  | Ok (l, e, log) =>
      l = [Api.A_status ST_OK] /\ e = XE_NONE /\
      flat_map (fun '(_, e) => match e with EvCharData t => [t] | _ => [] end) log = [ascii "one"; ascii "<"]
  | Err _ => False
  end.
Proof. vm_compute. auto. Qed.
Example C51_first_example :
  match Api.steps (run (knot 300)) start position [parse_op "<!DOCTYPE a [<!ENTITY x 'one'><!ENTITY y 'z'> " false]
          (new_parser (parser_of false all_handlers (fun _ => idle))) with
  | Ok (a, _) =>
      entity_of (Api.core a) (false, ascii "x") <> None /\ s_declEntity (Api.core a) <> Some (false, ascii "x") /\
      match Api.steps (run (knot 300)) start position [parse_op "<!ENTITY x 'two'> " false] a with
      | Ok (a', l) => l = [Api.A_status ST_OK] /\
          match entity_of (Api.core a') (false, ascii "x") with Some e => e_text e = Some (ascii "one") | None => False end
      | Err _ => False
      end
  | Err _ => False
  end.
Proof. vm_compute. repeat split; discriminate. Qed.
