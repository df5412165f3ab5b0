(* What the handlers for notation, entity and document type declarations are to be told. *)
From Coq Require Import String List NArith ZArith Bool.
From Verif Require Import Base Encoding SpecText SpecUnicode SpecLex Role SpecRole SpecMisc Status State SpecEnt.
From Coq Require Import List.
Import ListNotations.
Local Open Scope N_scope.

(* a literal: its quote and its characters *)
Definition lit := (N * list N)%type.
Definition quoted (enc : N -> list N) (x : lit) : bytes := flat_map enc (fst x :: snd x ++ [fst x]).
Definition lit_ok (dom : N -> bool) (x : lit) : Prop := (fst x = 34 \/ fst x = 39) /\ all_in dom (snd x).
(* an external identifier: public, if there is one, and system *)
Record ident := { id_public : option lit; id_system : lit }.
Definition ident_ok (dom : N -> bool) (x : ident) : Prop :=
  lit_ok dom (id_system x) /\ match id_public x with Some p => lit_ok dom p /\ all_in pubid_char (snd p) | None => True end.
Definition ext_of (enc : N -> list N) (x : ident) : ext_id :=
  match id_public x with Some p => Public (quoted enc p) (quoted enc (id_system x)) | None => System (quoted enc (id_system x)) end.
(* as the handlers get them: the system identifier as it is, the public one with its white space normalised *)
Definition system_shown (x : ident) : option bytes := Some (utf8 (snd (id_system x))).
Definition pub_shown (p : lit) : bytes := join (words (snd p)).
Definition public_shown (x : ident) : option bytes := option_map pub_shown (id_public x).
(* the identifier of a notation: external, or public alone *)
Definition notation_of (enc : N -> list N) (x : ident + lit) : notation_id := match x with inl x => NotationExt (ext_of enc x) | inr p => NotationPublic (quoted enc p) end.
(* tokens that only separate others *)
Definition speaks (p : piece) : bool := match snd p with R_ENTITY_NONE | R_NOTATION_NONE | R_DOCTYPE_NONE => false | _ => true end.
(* tokens that end or open something: their text says nothing *)
Definition bare (p : piece) : piece :=
  match snd p with R_ENTITY_COMPLETE | R_NOTATION_NO_SYSTEM_ID | R_DOCTYPE_INTERNAL_SUBSET => (fst (fst p), [], snd p) | _ => p end.
(* [ps]: the tokens [l] with any separators between them *)
Definition spells (ps l : list piece) : Prop := map bare (filter speaks ps) = filter speaks l.

(* an entity whose name has just been read: nothing is known about it *)
Record introduced (s : st) (ref : entref) : Prop := {
  in_declared : s_declEntity s = Some ref;
  in_keep : d_keep (s_dtd s) = true;
  in_new : exists y, entity_of s ref = Some y /\ e_text y = None /\ e_sys y = None /\ e_pub y = None /\ e_notation y = None /\ e_is_param y = fst ref
}.
(* the one entity that has changed *)
Definition only_declared (ref : entref) (s s' : st) : Prop := forall ref', ref' <> ref -> entity_of s' ref' = entity_of s ref'.

(* the document type, up to the bracket that opens its internal subset *)
Definition doctype_head (enc : N -> list N) (prefix : bool) (n : list N) (x : option ident) : list piece :=
  (T_DECL_OPEN, flat_map enc (txt "DOCTYPE"), R_DOCTYPE_NONE) :: name {| prefixed := prefix; spelt := flat_map enc n |} R_DOCTYPE_NAME ::
  match x with Some x => s_ext enc R_DOCTYPE_NONE R_DOCTYPE_PUBLIC_ID R_DOCTYPE_SYSTEM_ID (ext_of enc x) | None => [] end ++
  [punct T_OPEN_BRACKET R_DOCTYPE_INTERNAL_SUBSET].
Definition sys_of (x : option ident) : option bytes := match x with Some x => system_shown x | None => None end.
Definition pub_of (x : option ident) : option bytes := match x with Some x => public_shown x | None => None end.
(* nobody is to be asked whether the document is standalone *)
Definition unasked (s : st) : Prop := s_pep s <> PEP_NEVER \/ d_standalone (s_dtd s) = true \/ h_notStandalone (c_h (s_cfg s)) = false.
