(* What a parser for an external entity has to take over from its parent, and which parents can be written down as a
   context string: the entries of the string are separated by form feeds, and an equals sign ends a prefix. *)
From Coq Require Import List NArith ZArith Bool.
From Verif Require Import Base Encoding Status Role State SpecNs.
Import ListNotations.
Local Open Scope N_scope.

(* the namespace separator as it ends a stored namespace name *)
Definition separator (s : st) : bytes := if c_sep (s_cfg s) =? 0 then [] else [c_sep (s_cfg s)].
(* prefix [p] is bound to the namespace name [u] *)
Definition in_force (s : st) (p : prefref) (u : bytes) : Prop :=
  exists b, binding_of p (s_dtd s) = Some b /\ b_uri b = u ++ separator s.
(* the general entity [n] is open *)
Definition is_open (s : st) (n : bytes) : Prop :=
  exists e, look n (d_gents (s_dtd s)) = Some e /\ e_open e = true.

Definition FF : N := 12.
Definition EQUALS : N := 61.
Definition word (n : bytes) : Prop := n <> [] /\ ~ In EQUALS n /\ ~ In FF n.

Record presentable (s : st) : Prop := {
  (* the tables have one entry for a name *)
  pr_prefixes : NoDup (map fst (d_prefixes (s_dtd s)));
  pr_entities : NoDup (map fst (d_gents (s_dtd s)));
  (* names and namespace names have no separator of the string in them *)
  pr_prefix : forall n b, In (n, Some b) (d_prefixes (s_dtd s)) -> word n;
  pr_entity : forall n e, In (n, e) (d_gents (s_dtd s)) -> e_open e = true -> word n;
  pr_bound : forall p b, binding_of p (s_dtd s) = Some b ->
    exists u, b_uri b = u ++ separator s /\ u <> [] /\ ~ In FF u /\ allowed (prefix_name p) u;
  (* no attribute name refers to a default prefix that has gone (finding F29) *)
  pr_attids : forall n a, In (n, a) (d_attids (s_dtd s)) -> ai_prefix a <> Some PDangling
}.

(* [s'] has the tables of [s], but other entities may be open.  (The context string is made while the entity that is
   referred to is open, the new parser after it has been closed again.) *)
Definition set_gents (t : list (bytes * entity)) (s : st) : st := set_dtd (set_d_gents t (s_dtd s)) s.
Definition same_but_open (s s' : st) : Prop :=
  s_cfg s' = s_cfg s /\
  exists t, s_dtd s' = set_d_gents t (s_dtd s) /\
    Forall2 (fun a b => fst a = fst b /\ set_e_open false (snd a) = set_e_open false (snd b)) t (d_gents (s_dtd s)).

(* the state with the general entity [n], declared as [e], open *)
Definition opened (n : bytes) (e : entity) (s : st) : st := set_gents (put n (set_e_open true e) (d_gents (s_dtd s))) s.
