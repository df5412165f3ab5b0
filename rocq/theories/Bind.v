(* Model of namespace bindings and of the context string: addBinding, freeBindings, getContext and
   setContext, src/lib/xmlparse.rs:4211-4227, 4750-4886, 7914-8113. *)
From Coq Require Import List NArith ZArith Bool String.
From Verif Require Import Base Encoding Tok Status Role State.
From Coq Require Import List.
Import ListNotations.
Local Open Scope N_scope.

(* ASCII text *)
Definition ascii (s : string) : bytes := map (fun c => N.of_nat (Ascii.nat_of_ascii c)) (list_ascii_of_string s).

(* the constants xmlNamespace and xmlnsNamespace, without the terminating NUL, src/lib/xmlparse.rs:4757-4769 *)
Definition xmlNamespace : bytes := ascii "http://www.w3.org/XML/1998/namespace".
Definition xmlnsNamespace : bytes := ascii "http://www.w3.org/2000/xmlns/".

(* the loop over the URI, src/lib/xmlparse.rs:4797-4815: isXML, isXMLNS and len.  An index at or beyond
   the length of a constant (terminator included) clears the flag, and at the terminator the characters
   differ, since a character of the URI is not NUL. *)
Fixpoint uri_loop (mustBeXML : bool) (uri ns nsns : bytes) (isXML isXMLNS : bool) (len : nat) : bool * bool * nat :=
  match uri with
  | [] => (isXML, isXMLNS, len)
  | c :: uri =>
      let same l := match l with [] => false | x :: _ => c =? x end in
      uri_loop mustBeXML uri (tl ns) (tl nsns)
        (isXML && same ns)
        (if mustBeXML then isXMLNS else isXMLNS && same nsns)
        (S len)
  end.

(* addBinding, src/lib/xmlparse.rs:4750-4886.  [bs] is the list behind bindingsPtr; the result is the new list.
   The first thing it does with the prefix is to read its name: through a dangling pointer that is undefined. *)
Definition addBinding (p : prefref) (attId : option bytes) (uri : bytes) (bs : list binding) : P (list binding) :=
  let name := prefix_name p in
  match p with PDangling => die EOob | _ =>
  if is_nil uri && (match name with Some _ => true | None => false end) then fail XE_UNDECLARING_PREFIX
  else if (match name with Some n => beqb n (ascii "xmlns") | None => false end) then fail XE_RESERVED_PREFIX_XMLNS
  else
    let mustBeXML := match name with Some n => beqb n (ascii "xml") | None => false end in
    let '(isXML, isXMLNS, len) := uri_loop mustBeXML uri xmlNamespace xmlnsNamespace true true 0 in
    let isXML := isXML && (len =? length xmlNamespace)%nat in
    let isXMLNS := isXMLNS && (len =? length xmlnsNamespace)%nat in
    if xorb mustBeXML isXML then fail (if mustBeXML then XE_RESERVED_PREFIX_XML else XE_RESERVED_NAMESPACE_URI)
    else if isXMLNS then fail XE_RESERVED_NAMESPACE_URI
    else
      do sep <- get (fun s => c_sep (s_cfg s));
      do prev <- getd (binding_of p);
      let b := MkB p attId (uri ++ (if sep =? 0 then [] else [sep])) prev in
      let bound := match p with PDefault => if is_nil uri then None else Some b | _ => Some b end in
      upd_dtd (bind_prefix p bound) ;;;
      (match attId with
       | Some _ => emit h_startNs (EvStartNs name (match bound with Some _ => Some uri | None => None end)) ;;; pret tt
       | None => pret tt
       end) ;;;
      pret (b :: bs)
  end.

(* freeBindings, src/lib/xmlparse.rs:4214-4227; the loop at an end tag (4023-4030) does the same *)
Fixpoint freeBindings (bs : list binding) : P unit :=
  match bs with
  | [] => pret tt
  | b :: bs =>
      emit h_endNs (EvEndNs (prefix_name (b_prefix b))) ;;;
      upd_dtd (bind_prefix (b_prefix b) (b_prev b)) ;;;
      freeBindings bs
  end.

Definition CONTEXT_SEP : N := 12.

(* the namespace name of a binding without the separator *)
Definition plain_uri (sep : N) (b : binding) : bytes := if sep =? 0 then b_uri b else removelast (b_uri b).

(* getContext, src/lib/xmlparse.rs:7918-8010: the entries in the order in which they are written, joined
   by CONTEXT_SEP.  The code goes through its hash tables in an unspecified order. *)
Definition context_entries (sep : N) (d : dtd) : list bytes :=
  (match d_default d with Some b => [[61] ++ plain_uri sep b] | None => [] end)
  ++ flat_map (fun '(n, b) => match b with Some b => [n ++ [61] ++ plain_uri sep b] | None => [] end) (d_prefixes d)
  ++ flat_map (fun '(n, e) => if e_open e then [n] else []) (d_gents d).
Fixpoint join (sep : N) (l : list bytes) : bytes :=
  match l with
  | [] => []
  | [a] => a
  | a :: l => a ++ [sep] ++ join sep l
  end.
Definition getContext (s : st) : bytes := join CONTEXT_SEP (context_entries (c_sep (s_cfg s)) (s_dtd s)).

(* the URI in an entry: up to CONTEXT_SEP or the end *)
Fixpoint until_sep (s : bytes) : bytes * bytes :=
  match s with
  | [] => ([], [])
  | c :: s => if c =? CONTEXT_SEP then ([], c :: s) else let (a, r) := until_sep s in (c :: a, r)
  end.

(* setContext, src/lib/xmlparse.rs:8013-8113.  [acc] is the string in m_tempPool, [s] the rest of the
   context; each step consumes a byte of it. *)
Fixpoint setContext_loop (fuel : nat) (acc s : bytes) : P bool :=
  match fuel with
  | O => die EFuel
  | S fuel =>
      let entity rest := upd_entity (false, acc) (set_e_open true) ;;; setContext_loop fuel [] rest in
      match s with
      | [] => if is_nil acc then pret true else entity []
      | c :: s =>
          if c =? CONTEXT_SEP then entity s
          else if c =? 61 then
            let p := if is_nil acc then PDefault else PNamed acc in
            upd_dtd (fun d => match p with
                              | PNamed n => match look n (d_prefixes d) with
                                            | None => set_d_prefixes (put n None (d_prefixes d)) d
                                            | Some _ => d
                                            end
                              | _ => d
                              end) ;;;
            let (uri, rest) := until_sep s in
            do bs <- get s_inherited;
            do r <- try (addBinding p None uri bs);
            match r with
            | inl _ => pret false
            | inr bs => upd (set_inherited bs) ;;; setContext_loop fuel [] (tl rest)
            end
          else setContext_loop fuel (acc ++ [c]) s
      end
  end.
Definition setContext (context : bytes) : P bool := setContext_loop (2 + length context) [] context.

(* implicitContext, src/lib/xmlparse.rs:1587-1593 *)
Definition implicitContext : bytes := ascii "xml=http://www.w3.org/XML/1998/namespace".
