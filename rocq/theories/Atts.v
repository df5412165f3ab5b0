(* Model of attribute ids, element types and the attributes of a start tag: getAttributeId,
   setElementTypePrefix, getElementType, defineAttribute and storeAtts, src/lib/xmlparse.rs:4242-4749,
   7747-7912, 8292-8352.  Feature "mozilla" is off. *)
From Coq Require Import String List NArith ZArith Bool.
From Verif Require Import Base Encoding Tok TokMisc Status Role State AttVal Bind.
Import ListNotations.
Local Open Scope N_scope.

(* the part of a name before its first colon, and the part after it *)
Fixpoint split_colon (n : bytes) : option (bytes * bytes) :=
  match n with
  | [] => None
  | c :: n =>
      if c =? 58 then Some ([], n)
      else match split_colon n with Some (a, b) => Some (c :: a, b) | None => None end
  end.

(* hash_insert! into prefixes: a new prefix has no binding *)
Definition insert_prefix (n : bytes) (d : dtd) : dtd :=
  match look n (d_prefixes d) with
  | Some _ => d
  | None => set_d_prefixes (put n None (d_prefixes d)) d
  end.

(* getAttributeId, src/lib/xmlparse.rs:7820-7912, for a name that has been converted *)
Definition xmlns_str : bytes := ascii "xmlns"%string.
Definition new_attid (ns : bool) (name : bytes) : attid :=
  let plain := {| ai_prefix := None; ai_xmlns := false; ai_maybe := false; ai_type := Unset |} in
  if negb ns then plain
  else if beqb name xmlns_str then {| ai_prefix := Some PDefault; ai_xmlns := true; ai_maybe := false; ai_type := Unset |}
  else match split_colon name with
       | None => plain
       | Some (p, rest) =>
           if beqb p xmlns_str then {| ai_prefix := Some (PNamed rest); ai_xmlns := true; ai_maybe := false; ai_type := Unset |}
           else {| ai_prefix := Some (PNamed p); ai_xmlns := false; ai_maybe := false; ai_type := Unset |}
       end.
Definition insert_attid (ns : bool) (name : bytes) (d : dtd) : dtd :=
  match look name (d_attids d) with
  | Some _ => d
  | None =>
      let a := new_attid ns name in
      let d := set_d_attids (put name a (d_attids d)) d in
      match ai_prefix a with Some (PNamed p) => insert_prefix p d | _ => d end
  end.
Definition getAttributeId (t : enctype) (buf : bytes) : P bytes :=
  do name <- store t buf;
  do ns <- get (fun s => c_ns (s_cfg s));
  upd_dtd (insert_attid ns name) ;;;
  pret name.

(* setElementTypePrefix, src/lib/xmlparse.rs:7780-7818 *)
Definition elem_prefix (name : bytes) : option prefref :=
  match split_colon name with Some (p, _) => Some (PNamed p) | None => None end.
(* hash_insert! of an element type; [set_prefix]: followed by setElementTypePrefix *)
Definition insert_elem (set_prefix : bool) (name : bytes) (d : dtd) : dtd :=
  match look name (d_elems d) with
  | Some _ => d
  | None =>
      let p := if set_prefix then elem_prefix name else None in
      let d := set_d_elems (put name {| et_prefix := p; et_idAtt := None; et_defaults := [] |} (d_elems d)) d in
      match p with Some (PNamed p) => insert_prefix p d | _ => d end
  end.
(* getElementType, src/lib/xmlparse.rs:8292-8325: the prefix is set whether or not namespaces are processed *)
Definition getElementType (t : enctype) (buf : bytes) : P bytes :=
  do name <- store t buf;
  upd_dtd (insert_elem true name) ;;;
  pret name.

Definition upd_attid (name : bytes) (f : attid -> attid) (d : dtd) : dtd :=
  match look name (d_attids d) with Some a => set_d_attids (put name (f a) (d_attids d)) d | None => d end.
Definition upd_elem (name : bytes) (f : elemtype -> elemtype) (d : dtd) : dtd :=
  match look name (d_elems d) with Some a => set_d_elems (put name (f a) (d_elems d)) d | None => d end.

(* defineAttribute, src/lib/xmlparse.rs:7747-7778 *)
Definition has_default (id : bytes) (et : elemtype) : bool := existsb (fun da => beqb id (da_id da)) (et_defaults et).
Definition defineAttribute (el id : bytes) (isCdata isId : bool) (value : option bytes) (d : dtd) : dtd :=
  match look el (d_elems d), look id (d_attids d) with
  | Some et, Some a =>
      let checked := (match value with Some _ => true | None => false end) || isId in
      if checked && has_default id et then d
      else
        let et := if checked && isId && (match et_idAtt et with None => true | Some _ => false end) && negb (ai_xmlns a)
                  then set_et_idAtt (Some id) et else et in
        let d := if isCdata then d else upd_attid id (set_ai_maybe true) d in
        set_d_elems (put el (set_et_defaults (et_defaults et ++ [{| da_id := id; da_cdata := isCdata; da_value := value |}]) et) (d_elems d)) d
  | _, _ => d
  end.

(* storeAtts.  The lists m_atts and typed_atts always have the same length and are modelled as one list
   of (attribute id, name, value): the type byte of an entry of typed_atts is that of its attribute id. *)
Record att := { at_id : bytes; at_name : bytes; at_value : bytes }.
Definition attid_of (id : bytes) : P attid :=
  do d <- get s_dtd;
  match look id (d_attids d) with Some a => pret a | None => die EPanic end.
Definition set_type (id : bytes) (t : atype) : P unit := upd_dtd (upd_attid id (set_ai_type t)).

(* isCdata of an attribute whose value needs normalising, src/lib/xmlparse.rs:4318-4330 *)
Definition declared_cdata (id : bytes) (a : attid) (et : elemtype) : bool :=
  if ai_maybe a then
    match find (fun da => beqb id (da_id da)) (et_defaults et) with Some da => da_cdata da | None => true end
  else true.

(* a namespace declaration of the tag at hand: addBinding(.., bindingsPtr) *)
Definition declare (p : prefref) (id v : bytes) : P unit :=
  do bs <- get s_bindings;
  do bs <- addBinding p (Some id) v bs;
  upd (set_bindings bs).

(* one attribute of the tag, src/lib/xmlparse.rs:4283-4388.  The state of the loop is the attributes so far
   and nPrefixes. *)
Definition specified_att (fuel : nat) (t : enctype) (el : bytes) (x : Attribute) (st : list att * nat)
  : P (list att * nat) :=
  let '(atts, nPrefixes) := st in
  do e <- encoding t;
  do nm <- (match a_name x with Some n => pret n | None => die EOob end);
  do len <- lift (nameLength e nm);
  do nmb <- lift (with_len len nm);
  do id <- getAttributeId t nmb;
  do a <- attid_of id;
  if is_set (ai_type a) then set_event t nm ;;; fail XE_DUPLICATE_ATTRIBUTE
  else
    set_type id Normal ;;;
    do et <- getd (fun d => look el (d_elems d));
    do et <- (match et with Some et => pret et | None => die EPanic end);
    do v <- (if a_normalized x then store t (a_value x)
             else storeAttributeValue fuel false t (declared_cdata id a et) (a_value x));
    match ai_prefix a with
    | None => pret (atts ++ [{| at_id := id; at_name := id; at_value := v |}], nPrefixes)
    | Some p =>
        if ai_xmlns a then
          declare p id v ;;;
          pret (atts, nPrefixes)
        else
          set_type id Prefixed ;;;
          pret (atts ++ [{| at_id := id; at_name := id; at_value := v |}], S nPrefixes)
    end.
Fixpoint specified_atts (fuel : nat) (t : enctype) (el : bytes) (xs : list Attribute) (st : list att * nat)
  : P (list att * nat) :=
  match xs with
  | [] => pret st
  | x :: xs => do st <- specified_att fuel t el x st; specified_atts fuel t el xs st
  end.

(* m_idAttIndex, src/lib/xmlparse.rs:4397-4406: kept as it was if the attribute is set but not in the list *)
Fixpoint index_of (id : bytes) (atts : list att) (i : Z) : option Z :=
  match atts with
  | [] => None
  | a :: atts => if beqb id (at_id a) then Some (2 * i)%Z else index_of id atts (i + 1)%Z
  end.
Definition id_index (el : bytes) (atts : list att) : P unit :=
  do d <- get s_dtd;
  match look el (d_elems d) with
  | None => die EPanic
  | Some et =>
      match et_idAtt et with
      | None => upd (set_idIx (-1)%Z)
      | Some id =>
          do a <- attid_of id;
          if is_set (ai_type a) then match index_of id atts 0 with Some i => upd (set_idIx i) | None => pret tt end
          else upd (set_idIx (-1)%Z)
      end
  end.

(* one default attribute, src/lib/xmlparse.rs:4415-4450 *)
Definition default_att (da : defatt) (st : list att * nat) : P (list att * nat) :=
  let '(atts, nPrefixes) := st in
  let id := da_id da in
  do a <- attid_of id;
  match da_value da with
  | Some v =>
      if is_set (ai_type a) then pret st
      else
        match ai_prefix a with
        | Some p =>
            if ai_xmlns a then
              declare p id v ;;;
              pret (atts, nPrefixes)
            else
              set_type id Prefixed ;;;
              pret (atts ++ [{| at_id := id; at_name := id; at_value := v |}], S nPrefixes)
        | None =>
            set_type id Normal ;;;
            pret (atts ++ [{| at_id := id; at_name := id; at_value := v |}], nPrefixes)
        end
  | None => pret st
  end.
Fixpoint default_atts (das : list defatt) (st : list att * nat) : P (list att * nat) :=
  match das with
  | [] => pret st
  | da :: das => do st <- default_att da st; default_atts das st
  end.

(* the part of a name after its first colon.  Without a colon the code would run past the end of the name. *)
Definition after_colon (n : bytes) : P bytes := match split_colon n with Some (_, l) => pret l | None => die EOob end.

(* the expansion of prefixed names, src/lib/xmlparse.rs:4458-4662, up to the last prefixed attribute; [seen] is
   m_nsAtts.  With triplets the name that is stored in m_nsAtts has the separator and the prefix appended. *)
Fixpoint expand_atts (nPrefixes : nat) (seen : list bytes) (atts : list att) : P (list att) :=
  match atts with
  | [] => pret []
  | x :: atts =>
      do a <- attid_of (at_id x);
      set_type (at_id x) Unset ;;;
      match ai_type a with
      | Prefixed =>
          match ai_prefix a with
          | None => fail XE_NO_MEMORY
          | Some p =>
              do b <- getd (binding_of p);
              match b with
              | None => fail XE_UNBOUND_PREFIX
              | Some b =>
                  do local <- after_colon (at_name x);
                  let name := b_uri b ++ local in
                  if existsb (beqb name) seen then fail XE_DUPLICATE_ATTRIBUTE
                  else
                    do triplets <- get (fun s => c_triplets (s_cfg s));
                    do sep <- get (fun s => c_sep (s_cfg s));
                    do name <- (if triplets then
                                  match prefix_name (b_prefix b) with
                                  | Some p => pret (name ++ [sep] ++ p)
                                  | None => die EOob
                                  end
                                else pret name);
                    let x := {| at_id := at_id x; at_name := name; at_value := at_value x |} in
                    match nPrefixes with
                    | 1%nat => pret (x :: atts)
                    | _ => do atts <- expand_atts (pred nPrefixes) (name :: seen) atts; pret (x :: atts)
                    end
              end
          end
      | _ => do atts <- expand_atts nPrefixes seen atts; pret (x :: atts)
      end
  end.

Fixpoint clear_types (ids : list bytes) : P unit :=
  match ids with [] => pret tt | id :: ids => set_type id Unset ;;; clear_types ids end.

(* the flags of the attribute ids of the bindings, src/lib/xmlparse.rs:4675-4679 *)
Fixpoint clear_bindings (bs : list binding) : P unit :=
  match bs with
  | [] => pret tt
  | b :: bs => (match b_att b with Some id => set_type id Unset | None => die EOob end) ;;; clear_bindings bs
  end.

(* the name of the element, src/lib/xmlparse.rs:4680-4748 *)
Definition expand_name (el : bytes) : P bytes :=
  do d <- get s_dtd;
  match look el (d_elems d) with
  | None => die EPanic
  | Some et =>
      do bl <- (match et_prefix et with
                | Some p =>
                    match binding_of p d with
                    | None => fail XE_UNBOUND_PREFIX
                    | Some b => do l <- after_colon el; pret (Some (b, l))
                    end
                | None => match d_default d with Some b => pret (Some (b, el)) | None => pret None end
                end);
      match bl with
      | None => pret el
      | Some (b, local) =>
          do triplets <- get (fun s => c_triplets (s_cfg s));
          do sep <- get (fun s => c_sep (s_cfg s));
          match triplets, prefix_name (b_prefix b) with
          | true, Some p => pret (b_uri b ++ local ++ [sep] ++ p)
          | _, _ => pret (b_uri b ++ local)
          end
      end
  end.

Record stored := { so_name : bytes; so_atts : list (bytes * bytes); so_spec : nat; so_bindings : list binding }.

(* storeAtts, src/lib/xmlparse.rs:4242-4749, for the element [el].  The bindings it has made are in [s_bindings],
   also when it fails. *)
Definition storeAtts (fuel : nat) (t : enctype) (buf el : bytes) : P stored :=
  do ns <- get (fun s => c_ns (s_cfg s));
  upd_dtd (insert_elem ns el) ;;;
  upd (set_bindings []) ;;;
  do e <- encoding t;
  do xs <- lift (getAtts e buf);
  do (atts, nPrefixes) <- specified_atts fuel t el xs ([], 0%nat);
  let spec := (2 * length atts)%nat in
  id_index el atts ;;;
  do d <- get s_dtd;
  do das <- (match look el (d_elems d) with Some et => pret (et_defaults et) | None => die EPanic end);
  do (atts, nPrefixes) <- default_atts das (atts, nPrefixes);
  do ex <- (match nPrefixes with O => pret atts | _ => expand_atts nPrefixes [] atts end);
  clear_types (map at_id ex) ;;;
  do bs <- get s_bindings;
  clear_bindings bs ;;;
  do name <- (if ns then expand_name el else pret el);
  pret {| so_name := name; so_atts := map (fun x => (at_name x, at_value x)) ex; so_spec := spec; so_bindings := bs |}.
