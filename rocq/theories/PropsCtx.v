(* C49: the context of an external entity. *)
From Coq Require Import String List NArith ZArith Bool Permutation.
From Verif Require Import Base Encoding Tok TokMisc Status Role State AttVal Bind Content Core.
From Verif Require Import SpecNs SpecCtx CtxLaws Demo.
From Verif Require Api.
From Coq Require Import List.
Import ListNotations.

(* C49.  A parser created with the context string of [s], in whatever order the entries of the string were written,
   exists, and exactly the namespace bindings and the open entities of [s] are in force in it. *)
Theorem C49_taken_over : forall s s' enc l, presentable s -> same_but_open s s' ->
  Permutation l (context_entries (c_sep (s_cfg s)) (s_dtd s)) ->
  exists c, child_parser (Some (join CONTEXT_SEP l)) enc s' = Ok (Some c) /\
    (forall p u, p <> PDangling -> in_force c p u <-> in_force s p u) /\
    (forall n, is_open c n <-> is_open s n).
Proof. exact context_taken_over. Qed.
Print Assumptions C49_taken_over.

(* C49.  The string the handler is given at a reference to an external entity is the one of the state in which this
   entity, too, is open. *)
Theorem C49_reference : forall r t e buf n s raw name ent,
  ref_name e buf n s = Ret raw s -> predefinedEntityName e raw = Ok 0%N -> conv e raw = Ok name ->
  look name (d_gents (s_dtd s)) = Some ent -> e_open ent = false -> e_notation ent = None -> e_text ent = None ->
  (d_hasPE (s_dtd s) = true /\ d_standalone (s_dtd s) = false \/ e_is_internal ent = true) ->
  h_external (c_h (s_cfg s)) = true ->
  content_entity r t e buf n s =
    (do ok <- rc_ext r (Some (join CONTEXT_SEP (context_entries (c_sep (s_cfg s)) (s_dtd (opened name ent s)))))
                (e_base ent) (e_sys ent) (e_pub ent);
     if ok then pret tt else fail XE_EXTERNAL_ENTITY_HANDLING) s.
Proof. exact reference_context. Qed.
Print Assumptions C49_reference.
Theorem C49_reopened : forall n e s, look n (d_gents (s_dtd s)) = Some e -> same_but_open (opened n e s) s.
Proof. exact opened_same. Qed.
Print Assumptions C49_reopened.

(* A parent with three bindings, one of them of the default namespace, and an open entity. *)
Definition entity_f : entity :=
  {| e_text := None; e_processed := 0; e_sys := Some (ascii "f"); e_base := None; e_pub := None; e_notation := None;
     e_open := false; e_is_param := false; e_is_internal := true |}.
Definition binding (p : prefref) (u : string) : option State.binding := Some (MkB p None (ascii u) None).
Definition parent : st :=
  set_dtd (set_d_gents [(ascii "g", set_e_open true entity_f); (ascii "f", entity_f)]
    (set_d_default (binding PDefault "u|")
      (set_d_prefixes [(ascii "xml", binding (PNamed (ascii "xml")) "http://www.w3.org/XML/1998/namespace|");
                       (ascii "q", None); (ascii "p", binding (PNamed (ascii "p")) "v=w|")] dtd0)))
    (parser_of true all_handlers (fun _ => idle)).
Lemma not_in c l : existsb (N.eqb c) l = false -> ~ In c l.
Proof. intros H X. assert (existsb (N.eqb c) l = true); [|congruence]. apply existsb_exists. exists c. split; [exact X|apply N.eqb_refl]. Qed.
Ltac words := repeat split; try discriminate; apply not_in; reflexivity.
Example C49_parent : presentable (opened (ascii "f") entity_f parent) /\ same_but_open (opened (ascii "f") entity_f parent) parent /\
  context_entries 124 (s_dtd (opened (ascii "f") entity_f parent)) =
    map ascii ["=u"; "xml=http://www.w3.org/XML/1998/namespace"; "p=v=w"; "g"; "f"]%string.
Proof.
  split; [|split; [apply opened_same; reflexivity|reflexivity]]. split.
  - vm_compute. repeat (apply NoDup_cons; [vm_compute; intuition discriminate|]). apply NoDup_nil.
  - vm_compute. repeat (apply NoDup_cons; [vm_compute; intuition discriminate|]). apply NoDup_nil.
  - intros n b [E|[E|[E|[]]]]; injection E as <- E; [words|discriminate|words].
  - intros n b [E|[E|[]]] _; injection E as <- E; words.
  - intros p b E. destruct p as [|n|]; [| |discriminate].
    + injection E as <-. exists (ascii "u"). split; [reflexivity|]. split; [discriminate|]. split; [apply not_in; reflexivity|].
      split; try discriminate. split; discriminate.
    + unfold binding_of in E. destruct (look n _) as [ob|] eqn:L; [|discriminate]. subst ob. apply look_in in L.
      destruct L as [L|[L|[L|[]]]]; [|discriminate|].
      * injection L as <- <-. exists xml_name. split; [reflexivity|]. split; [discriminate|]. split; [apply not_in; reflexivity|].
        split; try discriminate. split; reflexivity.
      * injection L as <- <-. exists (ascii "v=w"). split; [reflexivity|]. split; [discriminate|]. split; [apply not_in; reflexivity|].
        split; try discriminate. split; discriminate.
  - intros n a [].
Qed.
(* A reference inside an entity: the context the handler gets, names in the external entity, and a recursive reference. *)
Definition context_example (text : string) :=
  match history 200 (parser_of true all_handlers (fun log => match log with (_, EvExternalEntityRef _ _ _ _) :: _ => entity_text (ascii text) | _ => idle end))
    [parse_op "<!DOCTYPE a [<!ENTITY f SYSTEM 'f'><!ENTITY g '<b xmlns:p=""w"">&f;</b>'>]><a xmlns='u' xmlns:p='v'>&g;</a>" true] with
  | Ok (l, e, log) =>
      Some (e, flat_map (fun '(_, e) => match e with EvStartElement n _ _ _ => [n] | EvExternalEntityRef (Some c) _ _ _ => [c] | _ => [] end) log)
  | Err _ => None
  end.
Example C49_example :
  context_example "<p:x/><y/>" =
    Some (XE_NONE, [ascii "u|a"; ascii "u|b";
      join 12 (map ascii ["=u"; "xml=http://www.w3.org/XML/1998/namespace"; "p=w"; "f"; "g"]%string);
      ascii "w|x"; ascii "u|y"]) /\
  option_map fst (context_example "&g;") = Some XE_EXTERNAL_ENTITY_HANDLING.
Proof. vm_compute. auto. Qed.
