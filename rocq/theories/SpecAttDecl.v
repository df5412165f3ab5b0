(* What the handler for attribute declarations is to be told. *)
From Coq Require Import String List NArith ZArith Bool.
From Verif Require Import Base Encoding SpecText SpecUnicode SpecLex Role SpecRole SpecMisc Status State Bind AttVal SpecAttVal Content Prolog.
From Coq Require Import List.
Import ListNotations.
Local Open Scope N_scope.

(* the type of an attribute as the handler gets it: the keyword, or the names between parentheses and bars, without
   white space, after NOTATION for a notation type *)
Definition simple_name (t : simple_type) : list N :=
  match t with
  | TCdata => txt "CDATA" | TId => txt "ID" | TIdref => txt "IDREF" | TIdrefs => txt "IDREFS"
  | TEntity => txt "ENTITY" | TEntities => txt "ENTITIES" | TNmtoken => txt "NMTOKEN" | TNmtokens => txt "NMTOKENS"
  end.
Definition listed (x : list N) (l : list (list N)) : list N := txt "(" ++ x ++ flat_map (fun y => txt "|" ++ y) l ++ txt ")".
Definition type_shown (t : att_type) : list N :=
  match t with
  | Simple t => simple_name t
  | Enum x l => listed (snd x) (map snd l)
  | NotationType x l => txt "NOTATION" ++ listed x l
  end.
Definition type_names (t : att_type) : list (list N) :=
  match t with Simple _ => [] | Enum x l => snd x :: map snd l | NotationType x l => x :: l end.
Definition is_cdata (t : att_type) : bool := match t with Simple TCdata => true | _ => false end.
(* tokens with the role the grammar gives them (SpecRole): those that only separate the others have no say *)
Definition tells (p : piece) : bool := match snd p with R_ATTLIST_NONE => false | _ => true end.
Definition encoded (enc : N -> list N) (t : att_type) : att_type :=
  let w := flat_map enc in
  match t with
  | Simple t => Simple t
  | Enum x l => Enum (fst x, w (snd x)) (map (fun y => (fst y, w (snd y))) l)
  | NotationType x l => NotationType (w x) (map w l)
  end.
Definition pieces_of (enc : N -> list N) (t : att_type) : list piece := filter tells (s_type enc (encoded enc t)).
(* what the parser does with each of them *)
Fixpoint acts (r : recs) (e : EncImpl) (l : list piece) : P unit :=
  match l with
  | [] => pret tt
  | (k, tok, ro) :: l => do _ <- role_action r ro k ENormal e false tok 0; acts r e l
  end.
(* an attribute is being declared: its name has been read *)
Record declaring (s : st) (el id : bytes) : Prop := {
  dc_element : s_declElement s = Some el;
  dc_name : s_declAttId s = Some id;
  dc_type : s_declAttType s = None;
  dc_cdata : s_declCdata s = false;
  dc_id : s_declIsId s = false;
  dc_keep : d_keep (s_dtd s) = true;
  dc_handler : h_attlist (c_h (s_cfg s)) = true
}.
