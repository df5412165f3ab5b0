(* Which encoding a name stands for, what a parsed declaration reports, and which encoding the first
   bytes of an entity announce.  Refers to the model only for the encoding objects and the record
   that carries the result. *)
From Coq Require Import String List NArith ZArith Bool Arith.
From Verif Require Import Base Encoding SpecText SpecUnicode SpecLex SpecDecl Tok XmlDecl.
Import ListNotations.
Local Open Scope N_scope.

Definition latin1_for (ns : bool) := if ns then latin1_encoding_ns else latin1_encoding.
Definition ascii_for (ns : bool) := if ns then ascii_encoding_ns else ascii_encoding.
Definition utf8_for (ns : bool) := if ns then utf8_encoding_ns else utf8_encoding.
Definition utf16be_for (ns : bool) := if ns then big2_encoding_ns else big2_encoding.
Definition utf16le_for (ns : bool) := if ns then little2_encoding_ns else little2_encoding.

(* The supported names and what they stand for in a declaration written in [e]: UTF-16 is the form
   the declaration itself is in, if it is in one of them. *)
Definition supported (ns : bool) (e : EncImpl) : list (string * EncImpl) :=
  [("ISO-8859-1", latin1_for ns); ("US-ASCII", ascii_for ns); ("UTF-8", utf8_for ns);
   ("UTF-16", if Nat.eqb (minbpc e) 2 then e else utf16be_for ns);
   ("UTF-16BE", utf16be_for ns); ("UTF-16LE", utf16le_for ns)]%string.
Definition selects (ns : bool) (e : EncImpl) (v : list N) (r : option EncImpl) : Prop :=
  match r with
  | Some x => exists w, In (w, x) (supported ns e) /\ same_name v (txt w)
  | None => forall w x, In (w, x) (supported ns e) -> ~ same_name v (txt w)
  end.

(* a result pointer points at the value of a pseudo-attribute, just behind its opening quote *)
Definition points_at (enc : N -> list N) (p : option (list N)) (a : option att_src) : Prop :=
  match a with
  | None => p = None
  | Some a => exists t, p = Some (flat_map enc (as_value a ++ [as_quote a]) ++ t)
  end.
Definition describes (e : EncImpl) (enc : N -> list N) (ns : bool) (d : decl_src) (r : decl_result) : Prop :=
  points_at enc (dr_version r) (ds_version d) /\
  points_at enc (dr_enc_name r) (ds_encoding d) /\
  match ds_encoding d with
  | None => dr_encoding r = None
  | Some a => selects ns e (as_value a) (dr_encoding r)
  end /\
  dr_standalone r = standalone_value d.

(* Encoding of an entity from its first bytes.  [proto]: the encoding the application named or the
   default.  [external]: an external general entity, where what would be a mark or a zero byte may be
   data under some named encodings. *)
Inductive named := N_latin1 | N_ascii | N_utf8 | N_utf16 | N_utf16be | N_utf16le | N_none.
Definition named_index (n : named) : N :=
  match n with N_latin1 => 0 | N_ascii => 1 | N_utf8 => 2 | N_utf16 => 3 | N_utf16be => 4 | N_utf16le => 5 | N_none => 6 end.
Definition named_enc (ns : bool) (n : named) : EncImpl :=
  match n with
  | N_latin1 => latin1_for ns | N_ascii => ascii_for ns | N_utf8 => utf8_for ns
  | N_utf16 => utf16be_for ns | N_utf16be => utf16be_for ns | N_utf16le => utf16le_for ns
  | N_none => utf8_for ns
  end.
Definition begins (w b : list N) : Prop := exists r, b = w ++ r.
Definition is16 (n : named) : bool := match n with N_utf16 | N_utf16be | N_utf16le => true | _ => false end.

(* the encoding [e] is chosen and the input scanned in it *)
Definition scan_with (e : EncImpl) (external : bool) (b : bytes) : res (XML_TOK * option nat * option EncImpl) :=
  let* (t, n) := (if external then contentTok e b else prologTok e b) in Ok (t, n, Some e).
(* no mark and no zero byte, or such bytes where they are data *)
Definition no_signs (external : bool) (n : named) (b : list N) : Prop :=
  (begins [254; 255] b \/ begins [255; 254] b -> external = true /\ n = N_latin1) /\
  (begins [239; 187] b -> (exists c r, b = 239 :: 187 :: c :: r /\ c <> 191) \/ external = true /\ (n = N_latin1 \/ is16 n = true)) /\
  (begins [0] b -> external = true /\ n = N_utf16le) /\
  (begins [60; 0] b -> external = true /\ (n = N_utf16 \/ n = N_utf16be)) /\
  (forall c r, b = c :: 0 :: r -> external = true).
