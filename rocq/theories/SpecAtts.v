(* Which attributes an element has, given its start tag and its declarations. *)
From Coq Require Import List NArith ZArith Bool.
From Verif Require Import Base Encoding SpecText SpecUnicode SpecNames SpecLex SpecMisc Status Role State Atts SpecNs SpecCtx SpecAttVal.
Import ListNotations.
Local Open Scope N_scope.

Definition COLON : N := 58.
(* [n] is [p], a colon and [l] *)
Definition prefixed (n p l : bytes) : Prop := n = p ++ COLON :: l /\ ~ In COLON p.
(* an attribute named [n] declares the prefix [p] or the default namespace *)
Inductive declares : bytes -> prefref -> Prop :=
| de_default : declares xmlns_prefix PDefault
| de_prefix p : declares (xmlns_prefix ++ COLON :: p) (PNamed p).

(* the attribute declarations of the element [el], in order: name, whether the type is CDATA, default value *)
Definition declarations (el : bytes) (s : st) : list (bytes * bool * option bytes) :=
  match look el (d_elems (s_dtd s)) with
  | Some et => map (fun da => (da_id da, da_cdata da, da_value da)) (et_defaults et)
  | None => []
  end.
(* the first one of the attribute [n] counts *)
Definition declaration_of (n : bytes) (ds : list (bytes * bool * option bytes)) : option (bool * option bytes) :=
  match find (fun '(m, _, _) => beqb n m) ds with Some (_, c, v) => Some (c, v) | None => None end.
Definition is_cdata (el n : bytes) (s : st) : bool :=
  match declaration_of n (declarations el s) with Some (c, _) => c | None => true end.
(* the default values, in the order of the declarations *)
Fixpoint defaults_from (seen : list bytes) (ds : list (bytes * bool * option bytes)) : list (bytes * bytes) :=
  match ds with
  | [] => []
  | (n, _, v) :: ds =>
      (if existsb (beqb n) seen then [] else match v with Some v => [(n, v)] | None => [] end) ++ defaults_from (n :: seen) ds
  end.
Definition defaults (el : bytes) (s : st) : list (bytes * bytes) := defaults_from [] (declarations el s).
(* those that the start tag does not give *)
Definition omitted (given ds : list (bytes * bytes)) : list (bytes * bytes) :=
  filter (fun '(n, _) => negb (existsb (fun '(m, _) => beqb n m) given)) ds.
Definition attributes (given : list (bytes * bytes)) (el : bytes) (s : st) : list (bytes * bytes) :=
  given ++ omitted given (defaults el s).

(* the namespace declarations among the attributes *)
Definition is_declaration (ns : bool) (n : bytes) : bool :=
  ns && (beqb n xmlns_prefix || beqb (firstn 6 n) (xmlns_prefix ++ [COLON])).
Definition ordinary (ns : bool) (l : list (bytes * bytes)) : list (bytes * bytes) :=
  filter (fun '(n, _) => negb (is_declaration ns n)) l.
Definition declared (ns : bool) (l : list (bytes * bytes)) : list (bytes * bytes) :=
  filter (fun '(n, _) => is_declaration ns n) l.

(* [p] is bound to [u] inside an element with the namespace declarations [ds], in whose place [s] is the state *)
Definition bound_inside (ds : list (bytes * bytes)) (s : st) (p : prefref) (u : bytes) : Prop :=
  (exists n, In (n, u) ds /\ declares n p /\ u <> []) \/
  ((forall n u', In (n, u') ds -> ~ declares n p) /\ in_force s p u).

(* the name under which an attribute is delivered, where [bound] says how prefixes are bound *)
Inductive att_name (s : st) (bound : prefref -> bytes -> Prop) (n : bytes) : bytes -> Prop :=
| an_plain : c_ns (s_cfg s) = false \/ ~ In COLON n -> att_name s bound n n
| an_prefix p l u : c_ns (s_cfg s) = true -> prefixed n p l -> bound (PNamed p) u ->
    att_name s bound n (u ++ separator s ++ l ++ (if c_triplets (s_cfg s) then c_sep (s_cfg s) :: p else [])).
(* and the name of the element *)
Inductive el_name (s : st) (bound : prefref -> bytes -> Prop) (n : bytes) : bytes -> Prop :=
| en_plain : c_ns (s_cfg s) = false \/ (~ In COLON n /\ forall u, ~ bound PDefault u) -> el_name s bound n n
| en_default u : c_ns (s_cfg s) = true -> ~ In COLON n -> bound PDefault u -> el_name s bound n (u ++ separator s ++ n)
| en_prefix p l u : c_ns (s_cfg s) = true -> prefixed n p l -> bound (PNamed p) u ->
    el_name s bound n (u ++ separator s ++ l ++ (if c_triplets (s_cfg s) then c_sep (s_cfg s) :: p else [])).


(* why a start tag with the attributes [given] is rejected *)
Definition expanded (s : st) (bound : prefref -> bytes -> Prop) (n m : bytes) : Prop :=
  exists p l u, prefixed n p l /\ bound (PNamed p) u /\ m = u ++ separator s ++ l.
Inductive rejected (s : st) (el : bytes) (given : list (bytes * bytes)) : XML_Error -> Prop :=
(* a name that is given twice *)
| rj_twice : ~ NoDup (map fst given) -> rejected s el given XE_DUPLICATE_ATTRIBUTE
(* a namespace declaration that is not allowed *)
| rj_declaration n v p x : c_ns (s_cfg s) = true -> In (n, v) (attributes given el s) -> declares n p ->
    wrong (prefix_name p) v x -> rejected s el given x
(* a prefix that is not bound *)
| rj_unbound n v p l : c_ns (s_cfg s) = true -> In (n, v) (ordinary true (attributes given el s)) -> prefixed n p l ->
    (forall u, ~ bound_inside (declared true (attributes given el s)) s (PNamed p) u) ->
    rejected s el given XE_UNBOUND_PREFIX
| rj_element p l : c_ns (s_cfg s) = true -> prefixed el p l ->
    (forall u, ~ bound_inside (declared true (attributes given el s)) s (PNamed p) u) ->
    rejected s el given XE_UNBOUND_PREFIX
(* an expanded name that is also the name under which another attribute is delivered *)
| rj_same l1 y l2 y' l3 m : c_ns (s_cfg s) = true -> ordinary true (attributes given el s) = l1 ++ y :: l2 ++ y' :: l3 ->
    In COLON (fst y) -> att_name s (bound_inside (declared true (attributes given el s)) s) (fst y) m ->
    expanded s (bound_inside (declared true (attributes given el s)) s) (fst y') m ->
    rejected s el given XE_DUPLICATE_ATTRIBUTE.

(* the attribute that [a] gives: its name and its value *)
Definition given_by (s : st) (el : bytes) (lat : bool) (a : att_src) (y : bytes * bytes) : Prop :=
  fst y = utf8 (as_name a) /\
  exists v, attval (c_ns (s_cfg s)) (must_be_declared false s) lat false (d_gents (s_dtd s)) (as_value a) (Value v) /\
    snd y = utf8 (normalised (is_cdata el (fst y) s) v).

(* what is delivered for a start tag with the attributes [given] *)
Record delivered (s : st) (el : bytes) (given : list (bytes * bytes)) (name : bytes) (atts : list (bytes * bytes)) (spec : nat) : Prop := {
  dl_atts : Forall2 (fun y z => att_name s (bound_inside (declared (c_ns (s_cfg s)) (attributes given el s)) s) (fst y) (fst z) /\ snd z = snd y)
    (ordinary (c_ns (s_cfg s)) (attributes given el s)) atts;
  dl_spec : spec = (2 * length (ordinary (c_ns (s_cfg s)) given))%nat;
  dl_name : el_name s (bound_inside (declared (c_ns (s_cfg s)) (attributes given el s)) s) el name
}.

(* The tables as they are between start tags, whatever has been declared.  *)
(* an attribute id, as getAttributeId made it or as it was copied to the parser of an external entity *)
Definition id_ok (ns : bool) (n : bytes) (a : attid) : Prop :=
  ai_xmlns a = ai_xmlns (new_attid ns n) /\
  (ai_prefix a = ai_prefix (new_attid ns n) \/ (ns = true /\ n = xmlns_prefix /\ ai_prefix a = Some PDangling)).
Record tables (s : st) : Prop := {
  (* no attribute is marked as present *)
  ta_clear : forall n a, look n (d_attids (s_dtd s)) = Some a -> ai_type a = Unset;
  (* an attribute id is what its name makes it *)
  ta_id : forall n a, look n (d_attids (s_dtd s)) = Some a -> id_ok (c_ns (s_cfg s)) n a;
  (* an attribute that is declared has an id, which knows about types other than CDATA *)
  ta_default : forall el et da, look el (d_elems (s_dtd s)) = Some et -> In da (et_defaults et) ->
    exists a, look (da_id da) (d_attids (s_dtd s)) = Some a /\ (da_cdata da = false -> ai_maybe a = true);
  (* a default value is only kept with the first declaration *)
  ta_first : forall el et l1 da l2, look el (d_elems (s_dtd s)) = Some et -> et_defaults et = l1 ++ da :: l2 ->
    da_value da <> None -> ~ In (da_id da) (map da_id l1);
  (* an element type knows its prefix *)
  ta_elem : forall el et, look el (d_elems (s_dtd s)) = Some et -> c_ns (s_cfg s) = true -> et_prefix et = elem_prefix el;
  (* an ID attribute has an id *)
  ta_ident : forall el et id, look el (d_elems (s_dtd s)) = Some et -> et_idAtt et = Some id -> exists a, look id (d_attids (s_dtd s)) = Some a;
  (* the namespace names end in the separator *)
  ta_bound : forall p b, binding_of p (s_dtd s) = Some b -> b_prefix b = p /\ exists u, b_uri b = u ++ separator s
}.
(* no attribute id refers to a default prefix that has gone (finding F29) *)
Definition no_dangling (s : st) : Prop := forall n a, look n (d_attids (s_dtd s)) = Some a -> ai_prefix a <> Some PDangling.

(* names without a prefix cannot be mistaken for expanded ones *)
Definition clean (s : st) (l : list (bytes * bytes)) : Prop :=
  c_sep (s_cfg s) <> 0 /\ forall n v, In (n, v) l -> ~ In COLON n -> ~ In (c_sep (s_cfg s)) n.

(* an event that says that an element starts or ends *)
Definition about_elements (e : event) : bool := match e with EvStartElement _ _ _ _ | EvEndElement _ => true | _ => false end.
(* what is seen of a tag: one start element event, the only new event about elements apart from the end of the element
   if its tag is an empty one *)
Definition seen_tag (empty : bool) (s : st) (el : bytes) (given : list (bytes * bytes)) (o : State.out unit) : Prop :=
  match o with
  | Ret _ s' => exists name l k ix after before,
      s_log s' = after ++ (s_pid s', EvStartElement name l k ix) :: before ++ s_log s /\
      filter about_elements (map snd before) = [] /\
      filter about_elements (map snd after) = (if empty && h_endElement (c_h (s_cfg s)) then [EvEndElement name] else []) /\
      delivered s el given name l k /\ NoDup (map fst given) /\
      (forall n v p, In (n, v) (attributes given el s) -> c_ns (s_cfg s) = true -> declares n p -> allowed (prefix_name p) v) /\
      (c_ns (s_cfg s) = false \/ (c_triplets (s_cfg s) = false /\ clean s (attributes given el s)) -> NoDup (map fst l))
  | Fail x _ => rejected s el given x
  | Die _ => False
  end.
(* nothing but equal names is wrong with a tag *)
Definition otherwise_fine (s : st) (el : bytes) (given : list (bytes * bytes)) : Prop := c_ns (s_cfg s) = true ->
  (forall n v p, In (n, v) (attributes given el s) -> declares n p -> forall x, ~ wrong (prefix_name p) v x) /\
  (forall n v p l, In (n, v) (ordinary true (attributes given el s)) \/ n = el -> prefixed n p l ->
     exists u, bound_inside (declared true (attributes given el s)) s (PNamed p) u).
(* two of the attributes have the same expanded name *)
Definition same_expanded (s : st) (el : bytes) (given : list (bytes * bytes)) : Prop :=
  exists l1 y l2 y' l3 m, ordinary true (attributes given el s) = l1 ++ y :: l2 ++ y' :: l3 /\
    expanded s (bound_inside (declared true (attributes given el s)) s) (fst y) m /\
    expanded s (bound_inside (declared true (attributes given el s)) s) (fst y') m.
(* [atts] is what stands in a start tag of the element [name], or in an empty-element tag; [given]: the names and values *)
Record tag_case (s : st) (e : EncImpl) (enc : N -> list N) (dom : N -> bool) (lat empty : bool)
    (name : list N) (atts : list att_src) (sp : list N) (given : list (bytes * bytes)) : Prop := {
  tc_encoding : text_encoding e enc dom lat (c_ns (s_cfg s));
  tc_known : known (c_ns (s_cfg s)) (s_enc s) = e;
  tc_ok : tag_ok lat (c_ns (s_cfg s)) name atts sp;
  tc_chars : all_in dom (tag_text name atts sp empty);
  tc_given : Forall2 (given_by s (utf8 name) lat) atts given;
  tc_tables : tables s;
  tc_dangling : no_dangling s;
  tc_handler : h_startElement (c_h (s_cfg s)) = true
}.
