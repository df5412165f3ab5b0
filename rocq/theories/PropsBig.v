(* C08: what holds of UTF-16BE in spite of C08_big_endian_refuted. *)
From Coq Require Import String List NArith ZArith Bool.
From Verif Require Import Base Encoding SpecText SpecUnicode SpecNames SpecLex Tok Status State Bind Core Demo BigLaws.
From Verif Require Api.
From Coq Require Import List.
Import ListNotations.
Local Open Scope N_scope.

(* No tokeniser panics on UTF-16BE text without U+0080..U+00FF. *)
Theorem C08_elsewhere : forall ns cs, all_in is_scalar_be cs ->
  let e := if ns : bool then big2_encoding_ns else big2_encoding in
  (forall tok, In tok [contentTok e; cdataSectionTok e; ignoreSectionTok e; attributeValueTok e; entityValueTok e] ->
     exists t n, tok (utf16be cs) = Ok (t, n)) /\
  ((forall c, In c cs -> 128 <= c -> is_xml_char c = true) -> exists t n, prologTok e (utf16be cs) = Ok (t, n)).
Proof. exact big_endian_answers. Qed.
Print Assumptions C08_elsewhere.

(* a whole document in UTF-16BE *)
Example C08_elsewhere_case :
  all_in is_scalar_be (txt "<d>" ++ [0x20AC; 0x1F600] ++ txt "</d>") /\
  match history 100 (parser_of false all_handlers (fun _ => idle)) [Api.OpParse ([254; 255] ++ utf16be (txt "<d>" ++ [0x20AC; 0x1F600] ++ txt "</d>")) true true] with
  | Ok (_, x, log) => x = XE_NONE /\ flat_map (fun ev => match snd ev with EvCharData t => t | _ => [] end) log = utf8 [0x20AC; 0x1F600]
  | Err _ => False
  end.
Proof. split; [repeat (apply Forall_cons; [reflexivity|]); apply Forall_nil|]. vm_compute. split; reflexivity. Qed.
