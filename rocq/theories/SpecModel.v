(* The content model of an element declaration as a tree, from the grammar of declarations in SpecRole.  What the
   handler gets is a [model]: type, quantifier, name and children. *)
From Coq Require Import List NArith ZArith Bool.
From Verif Require Import Base Encoding Tok TokMisc Role Status State Content Core SpecRole.
Import ListNotations.

Definition quant_of (q : quant) : cquant := match q with One => Q_NONE | Opt => Q_OPT | Rep => Q_REP | Plus => Q_PLUS end.

Section Tree.
Variable e : EncImpl.
(* a text in UTF-8 *)
Definition utf8 (b : bytes) : bytes := match conv e b with Ok x => x | Err _ => [] end.
Definition readable (b : bytes) : Prop := exists x, conv e b = Ok x.
(* a name with a quantifier is one token: the name is what precedes the last character *)
Definition element_name (n : qname) (q : quant) : bytes :=
  match q with One => spelt n | _ => firstn (length (spelt n) - minbpc e) (spelt n) end.
Definition group_type (rest : cps) : ctype := match rest with And true _ _ => CT_CHOICE | _ => CT_SEQ end.
Fixpoint tree (c : cp) : model :=
  match c with
  | Leaf n q => Model CT_NAME (quant_of q) (Some (utf8 (element_name n q))) []
  | Group first rest q => Model (group_type rest) (quant_of q) None (tree first :: trees rest)
  end
with trees (l : cps) : list model :=
  match l with Done => [] | And _ c rest => tree c :: trees rest end.
Definition leaf_model (n : qname) : model := Model CT_NAME Q_NONE (Some (utf8 (spelt n))) [].
Definition content_model (c : content) : model :=
  match c with
  | Empty => Model CT_EMPTY Q_NONE None []
  | Any => Model CT_ANY Q_NONE None []
  | Pcdata => Model CT_MIXED Q_NONE None []
  | Mixed ns => Model CT_MIXED Q_REP None (map leaf_model ns)
  | Children first rest q => tree (Group first rest q)
  end.

(* all names can be converted, and those with a quantifier have room for it *)
Definition leaf_ok (n : qname) (q : quant) : Prop :=
  readable (element_name n q) /\ (q <> One -> minbpc e <= length (spelt n))%nat.
Fixpoint names_ok (c : cp) : Prop :=
  match c with Leaf n q => leaf_ok n q | Group first rest _ => names_ok first /\ names_oks rest end
with names_oks (l : cps) : Prop :=
  match l with Done => True | And _ c rest => names_ok c /\ names_oks rest end.
Definition content_names_ok (c : content) : Prop :=
  match c with
  | Mixed ns => Forall (fun n => readable (spelt n)) ns
  | Children first rest q => names_ok (Group first rest q)
  | _ => True
  end.
End Tree.

(* [49], [50]: the connectors of one group are all the same *)
Fixpoint all_are (choice : bool) (l : cps) : bool :=
  match l with Done => true | And c _ rest => Bool.eqb c choice && all_are choice rest end.
Definition uniform (l : cps) : bool := match l with Done => true | And c _ rest => all_are c rest end.
Fixpoint agrees (c : cp) : bool :=
  match c with Leaf _ _ => true | Group first rest _ => agrees first && uniform rest && agree_all rest end
with agree_all (l : cps) : bool :=
  match l with Done => true | And _ c rest => agrees c && agree_all rest end.
Definition content_agrees (c : content) : bool :=
  match c with Children first rest q => agrees (Group first rest q) | _ => true end.

(* bytes that the tokeniser cuts into these tokens, before [rest] *)
Inductive lexed (e : EncImpl) : bytes -> list (XML_TOK * bytes) -> bytes -> Prop :=
| lex_none b : lexed e b [] b
| lex_token b k n ts rest :
    prologTok e b = Ok (k, Some n) -> tok_is_error k = false -> (n <= length b)%nat ->
    lexed e (skipn n b) ts rest -> lexed e b ((k, firstn n b) :: ts) rest.

(* the parser is in the internal or the external subset, between two declarations, reading [e] *)
Definition in_subset (e : EncImpl) (t : enctype) (s : st) : Prop :=
  hd (s_role s) = (if doc (s_role s) then H_internalSubset else H_externalSubset1) /\
  match t with
  | ENormal => s_enc s = EKnown e
  | EInternal => e = if c_ns (s_cfg s) then internal_utf8_encoding_ns else internal_utf8_encoding
  end /\
  s_parsing s = PARSING.
(* the application gets element declarations, has no default handler, and never stops the parser *)
Definition listening (s : st) : Prop :=
  h_elementDecl (c_h (s_cfg s)) = true /\ h_default (c_h (s_cfg s)) = false /\
  forall log, stop (c_app (s_cfg s) log) = None.
(* the prolog from [buf] on, with fuel *)
Definition prolog_from (n : nat) (t : enctype) (buf : bytes) (haveMore allowClosing : bool) : P bytes :=
  do (k, m) <- scan_as t false buf; rc_prolog (knot n) t buf k m haveMore allowClosing.
