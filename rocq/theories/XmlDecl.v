(* Model of encoding names, encoding detection and the XML declaration:
   src/lib/xmltok.rs:1935-2101 (InitEncoding), 2528-2602, 2807-2833, 2843-3107, 3190-3232. *)
From Coq Require Import String List NArith ZArith Bool.
From Verif Require Import Base Tables Encoding SpecText Tok TokMisc.
Import ListNotations.
Local Open Scope N_scope.

(* encodings / encodingsNS, src/lib/xmltok.rs:2528-2546 *)
Definition encodings : list EncImpl :=
  [latin1_encoding; ascii_encoding; utf8_encoding; big2_encoding; big2_encoding; little2_encoding; utf8_encoding].
Definition encodingsNS : list EncImpl :=
  [latin1_encoding_ns; ascii_encoding_ns; utf8_encoding_ns; big2_encoding_ns; big2_encoding_ns; little2_encoding_ns; utf8_encoding_ns].
Definition enc_table (ns : bool) : list EncImpl := if ns then encodingsNS else encodings.

(* src/lib/xmltok.rs:2658-2687 *)
Definition ISO_8859_1_ENC := 0. Definition US_ASCII_ENC := 1. Definition UTF_8_ENC := 2.
Definition UTF_16_ENC := 3. Definition UTF_16BE_ENC := 4. Definition UTF_16LE_ENC := 5. Definition NO_ENC := 6.

(* streqci, src/lib/xmltok.rs:2807-2833: [s1] and [s2] are the memory from the two pointers on; the
   loop runs until the NUL.  [c1 as c_int + (ASCII_A - ASCII_a)] is [c - 32]. *)
Definition upcase (c : N) : N := if (97 <=? c) && (c <=? 122) then c - 32 else c.
Fixpoint streqci (s1 s2 : bytes) : res bool :=
  match s1, s2 with
  | c1 :: r1, c2 :: r2 =>
      if negb (upcase c1 =? upcase c2) then Ok false
      else if upcase c1 =? 0 then Ok true
      else streqci r1 r2
  | _, _ => Err EOob
  end.

(* the KW_ constants and encodingNames, src/lib/xmltok.rs:3186-3216 *)
Definition KW_UTF_16 : bytes := txt "UTF-16" ++ [0].
Definition encodingNames : list bytes :=
  map (fun s => txt s ++ [0]) ["ISO-8859-1"; "US-ASCII"; "UTF-8"; "UTF-16"; "UTF-16BE"; "UTF-16LE"]%string.

(* getEncodingIndex, src/lib/xmltok.rs:3208-3232; a null name is [None], the result UNKNOWN_ENC is [None] *)
Fixpoint encoding_index_from (i : N) (names : list bytes) (name : bytes) : res (option N) :=
  match names with
  | [] => Ok None
  | w :: names' =>
      let* m := streqci name w in
      if m then Ok (Some i) else encoding_index_from (i + 1) names' name
  end.
Definition getEncodingIndex (name : option bytes) : res (option N) :=
  match name with
  | None => Ok (Some NO_ENC)
  | Some name => encoding_index_from 0 encodingNames name
  end.

(* findEncoding / findEncodingNS, src/lib/xmltok.rs:2548-2602.  The output buffer has room for 127
   bytes and [p] is what is left of it; p[0] = 0 panics when nothing is left. *)
Definition findEncoding (ns : bool) (enc : EncImpl) (buf : bytes) : res (option EncImpl) :=
  let* (_, out, rest) := utf8Convert enc buf 127 in
  match rest with
  | _ :: _ => Ok None
  | [] =>
      if (127 <=? length out)%nat then Err EPanic
      else
        let out_buf := out ++ repeat 0 (128 - length out) in
        let* is16 := streqci out_buf KW_UTF_16 in
        if is16 && Nat.eqb (minbpc enc) 2 then Ok (Some enc)
        else
          let* i := getEncodingIndex (Some out_buf) in
          match i with
          | None => Ok None
          | Some i => let* e := index (enc_table ns) i in Ok (Some e)
          end
  end.

(* toAscii, src/lib/xmltok.rs:2843-2858: one byte of output room *)
Definition toAscii (enc : EncImpl) (buf : bytes) : res Z :=
  let* (_, out, _) := utf8Convert enc buf 1 in
  match out with [] => Ok (-1)%Z | c :: _ => Ok (sext8 c) end.

(* isSpace, src/lib/xmltok.rs:2860-2866 *)
Definition isSpace (c : Z) : bool := ((c =? 32) || (c =? 13) || (c =? 10) || (c =? 9))%Z.

(* ExpatBufRef::with_end on the part of [buf] before [stop], where [stop] is a suffix of [buf];
   src/lib/xmlparse.rs:106-111 *)
Definition upto (buf stop : bytes) : res bytes :=
  if (length stop <=? length buf)%nat then Ok (firstn (length buf - length stop) buf) else Err EPanic.
(* ExpatBufRef::dec_end, src/lib/xmlparse.rs:130-135 *)
Definition dec_end (n : nat) (buf : bytes) : res bytes :=
  if (n <=? length buf)%nat then Ok (firstn (length buf - n) buf) else Err EPanic.

Section Decl.
Variable enc : EncImpl.

(* the loops "buf = buf.inc_start(minbpc); while isSpace(toAscii(buf))": skip at least one character
   (2887-2892, 2908-2914); returns the position and its toAscii *)
Fixpoint skip_spaces1 (fuel : nat) (buf : bytes) : res (bytes * Z) :=
  match fuel with
  | O => Err EFuel
  | S fuel' =>
      let* b := inc_start (minbpc enc) buf in
      let* c := toAscii enc b in
      if isSpace c then skip_spaces1 fuel' b else Ok (b, c)
  end.

(* the name loop of parsePseudoAttribute, src/lib/xmltok.rs:2898-2923.  The result: [None] for
   "return 0" with the position, or the end of the name and the position of the "=". *)
Fixpoint pseudo_name (fuel : nat) (buf : bytes) : res (bytes + bytes * bytes) :=
  match fuel with
  | O => Err EFuel
  | S fuel' =>
      let* c := toAscii enc buf in
      if (c =? -1)%Z then Ok (inl buf)
      else if (c =? 61)%Z then Ok (inr (buf, buf))
      else if isSpace c then
        let* (b, c) := skip_spaces1 (S (length buf)) buf in
        if negb (c =? 61)%Z then Ok (inl b) else Ok (inr (buf, b))
      else
        let* b := inc_start (minbpc enc) buf in pseudo_name fuel' b
  end.

(* "while isSpace(c)", src/lib/xmltok.rs:2930-2933 *)
Fixpoint skip_spaces (fuel : nat) (buf : bytes) : res (bytes * Z) :=
  match fuel with
  | O => Err EFuel
  | S fuel' =>
      let* c := toAscii enc buf in
      if isSpace c then let* b := inc_start (minbpc enc) buf in skip_spaces fuel' b
      else Ok (buf, c)
  end.

Definition pseudo_char (c : Z) : bool :=
  (((97 <=? c) && (c <=? 122)) || ((65 <=? c) && (c <=? 90)) || ((48 <=? c) && (c <=? 57))
   || (c =? 46) || (c =? 45) || (c =? 95))%Z.

(* the value loop, src/lib/xmltok.rs:2941-2956; [inr] is the position of the closing quote *)
Fixpoint pseudo_value (fuel : nat) (open : Z) (buf : bytes) : res (bytes + bytes) :=
  match fuel with
  | O => Err EFuel
  | S fuel' =>
      let* c := toAscii enc buf in
      if (c =? open)%Z then Ok (inr buf)
      else if negb (pseudo_char c) then Ok (inl buf)
      else let* b := inc_start (minbpc enc) buf in pseudo_value fuel' open b
  end.

(* parsePseudoAttribute, src/lib/xmltok.rs:2871-2962.  A position is the rest of the declaration
   from there on.  [PA_bad p]: returned 0, *nextTokPtr = p.  [PA_end]: only white space, *name =
   None, *nextTokPtr as it was.  [PA_att np name val next]: the name's position and the name; the value from its first
   character to the END OF THE DECLARATION (it is never cut at the closing quote); the position
   after the closing quote. *)
Inductive pseudo_res := PA_bad (p : bytes) | PA_end | PA_att (np name val next : bytes).
Definition parsePseudoAttribute (buf : bytes) : res pseudo_res :=
  match buf with
  | [] => Ok PA_end
  | _ =>
      let* c := toAscii enc buf in
      if negb (isSpace c) then Ok (PA_bad buf)
      else
        let* (b, _) := skip_spaces1 (S (length buf)) buf in
        match b with
        | [] => Ok PA_end
        | _ =>
            let* r := pseudo_name (S (length b)) b in
            match r with
            | inl p => Ok (PA_bad p)
            | inr (name_end, eq) =>
                let* name := upto b name_end in
                if Nat.eqb (length eq) (length b) then Ok (PA_bad eq)   (* buf.as_ptr() == name.as_ptr() *)
                else
                  let* v := inc_start (minbpc enc) eq in
                  let* (v, c) := skip_spaces (S (length v)) v in
                  if negb (c =? 34)%Z && negb (c =? 39)%Z then Ok (PA_bad v)
                  else
                    let* val := inc_start (minbpc enc) v in
                    let* r := pseudo_value (S (length val)) c val in
                    match r with
                    | inl p => Ok (PA_bad p)
                    | inr q => let* next := inc_start (minbpc enc) q in Ok (PA_att b name val next)
                    end
            end
        end
  end.

(* What doParseXmlDecl hands back when it returns 1.  Pointers are the rest of the declaration from
   there on.  [dr_encoding]: not set / the finder's answer. *)
Record decl_result := {
  dr_version : option bytes;
  dr_enc_name : option bytes;
  dr_encoding : option EncImpl;
  dr_standalone : Z
}.
(* [inl p]: returned 0 with *badPtr = p.  (Out parameters set before that are not looked at by the
   caller, src/lib/xmlparse.rs:5227-5247.) *)
Definition decl_out := (bytes + decl_result)%type.

(* val_buf.with_end(next).dec_end(minbpc): the value without its closing quote *)
Definition value_of (val next : bytes) : res bytes :=
  let* v := upto val next in dec_end (minbpc enc) v.

(* the standalone part, src/lib/xmltok.rs:3062-3105; [name], [val] come from the pseudo attribute
   that ended at [next] *)
Definition decl_standalone (isGeneral : bool) (r : decl_result) (np name val next : bytes) : res decl_out :=
  let* m := nameMatchesAscii enc name (txt "standalone") in
  if negb m || isGeneral then Ok (inl np)
  else
    let* v := value_of val next in
    let* y := nameMatchesAscii enc v (txt "yes") in
    let* n := nameMatchesAscii enc v (txt "no") in
    if y || n then
      let* (b, _) := skip_spaces (S (length next)) next in
      match b with
      | [] => Ok (inr {| dr_version := dr_version r; dr_enc_name := dr_enc_name r;
                         dr_encoding := dr_encoding r; dr_standalone := if y then 1 else 0 |})
      | _ => Ok (inl b)
      end
    else Ok (inl val).

Definition ascii_letter (c : Z) : bool := (((97 <=? c) && (c <=? 122)) || ((65 <=? c) && (c <=? 90)))%Z.

(* the encoding part, src/lib/xmltok.rs:3030-3061 *)
Definition decl_encoding (ns isGeneral : bool) (r : decl_result) (np name val next : bytes) : res decl_out :=
  let* m := nameMatchesAscii enc name (txt "encoding") in
  if m then
    let* c := toAscii enc val in
    if negb (ascii_letter c) then Ok (inl val)
    else
      let* v := value_of val next in
      let* e := findEncoding ns enc v in
      let r := {| dr_version := dr_version r; dr_enc_name := Some val; dr_encoding := e;
                  dr_standalone := dr_standalone r |} in
      let* p := parsePseudoAttribute next in
      match p with
      | PA_bad _ => Ok (inl next)      (* badPtr = buf, not the position found *)
      | PA_end => Ok (inr r)
      | PA_att np name val next' => decl_standalone isGeneral r np name val next'
      end
  else decl_standalone isGeneral r np name val next.

(* doParseXmlDecl, src/lib/xmltok.rs:2981-3107 *)
Definition doParseXmlDecl (ns isGeneral : bool) (buf : bytes) : res decl_out :=
  let* b := inc_start (5 * minbpc enc) buf in
  let* b := dec_end (2 * minbpc enc) b in
  let* p := parsePseudoAttribute b in
  let r0 := {| dr_version := None; dr_enc_name := None; dr_encoding := None; dr_standalone := -1 |} in
  match p with
  | PA_bad q => Ok (inl q)
  | PA_end => Ok (inl b)
  | PA_att np name val next =>
      let* m := nameMatchesAscii enc name (txt "version") in
      if negb m then
        if negb isGeneral then Ok (inl np)
        else decl_encoding ns isGeneral r0 np name val next
      else
        let r := {| dr_version := Some val; dr_enc_name := None; dr_encoding := None; dr_standalone := -1 |} in
        let* p := parsePseudoAttribute next in
        match p with
        | PA_bad q => Ok (inl q)
        | PA_end => if isGeneral then Ok (inl next) else Ok (inr r)
        | PA_att np name val next' => decl_encoding ns isGeneral r np name val next'
        end
  end.
End Decl.

(* InitEncoding::initScan, src/lib/xmltok.rs:1980-2099.  [content]: state is XML_STATE::CONTENT.
   The results are the token, the bytes consumed ([None]: *nextTokPtr not written) and the encoding
   stored through encPtr ([None]: not stored). *)
Definition initScan (ns : bool) (idx : N) (content : bool) (buf : bytes)
  : res (XML_TOK * option nat * option EncImpl) :=
  let scan i :=
    let* e := index (enc_table ns) i in
    let* (t, n) := (if content then contentTok e buf else prologTok e buf) in
    Ok (t, n, Some e) in
  let bom i n := let* e := index (enc_table ns) i in Ok (T_BOM, Some n, Some e) in
  match buf with
  | [] => Ok (T_NONE, None, None)
  | [b0] =>
      if (idx =? UTF_16_ENC) || (idx =? UTF_16LE_ENC) || (idx =? UTF_16BE_ENC) then Ok (T_PARTIAL, None, None)
      else if (b0 =? 254) || (b0 =? 255) || (b0 =? 239) then
        if negb (idx =? ISO_8859_1_ENC) || negb content then Ok (T_PARTIAL, None, None) else scan idx
      else if (b0 =? 0) || (b0 =? 60) then Ok (T_PARTIAL, None, None)
      else scan idx
  | b0 :: b1 :: rest =>
      if (b0 =? 254) && (b1 =? 255) then
        if negb ((idx =? ISO_8859_1_ENC) && content) then bom UTF_16BE_ENC 2%nat else scan idx
      else if (b0 =? 60) && (b1 =? 0) then
        if negb (((idx =? UTF_16BE_ENC) || (idx =? UTF_16_ENC)) && content) then scan UTF_16LE_ENC else scan idx
      else if (b0 =? 255) && (b1 =? 254) then
        if negb ((idx =? ISO_8859_1_ENC) && content) then bom UTF_16LE_ENC 2%nat else scan idx
      else if (b0 =? 239) && (b1 =? 187) then
        if negb content || negb ((idx =? ISO_8859_1_ENC) || (idx =? UTF_16BE_ENC) || (idx =? UTF_16LE_ENC) || (idx =? UTF_16_ENC)) then
          match rest with
          | [] => Ok (T_PARTIAL, None, None)
          | b2 :: _ => if b2 =? 191 then bom UTF_8_ENC 3%nat else scan idx
          end
        else scan idx
      else if b0 =? 0 then
        if negb (content && (idx =? UTF_16LE_ENC)) then scan UTF_16BE_ENC else scan idx
      else if b1 =? 0 then
        if negb content then scan UTF_16LE_ENC else scan idx
      else scan idx
  end.
