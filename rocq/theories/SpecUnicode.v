(* Unicode encoding forms, from the Unicode standard (table 3-6, table 3-5), and the XML Char
   production.  Arithmetic only; nothing here refers to the model. *)
From Coq Require Import List NArith Bool.
Import ListNotations.
Local Open Scope N_scope.

(* Unicode scalar values *)
Definition is_scalar (c : N) : bool := (c <? 0xD800) || ((0xE000 <=? c) && (c <=? 0x10FFFF)).
Definition scalars (cs : list N) : Prop := Forall (fun c => is_scalar c = true) cs.

(* UTF-8 *)
Definition utf8_encode (c : N) : list N :=
  if c <? 0x80 then [c]
  else if c <? 0x800 then [0xC0 + c / 64; 0x80 + c mod 64]
  else if c <? 0x10000 then [0xE0 + c / 4096; 0x80 + (c / 64) mod 64; 0x80 + c mod 64]
  else [0xF0 + c / 262144; 0x80 + (c / 4096) mod 64; 0x80 + (c / 64) mod 64; 0x80 + c mod 64].
Definition utf8 (cs : list N) : list N := flat_map utf8_encode cs.

(* UTF-16 code units, and their serialisation in both byte orders *)
Definition utf16_units (c : N) : list N :=
  if c <? 0x10000 then [c] else [0xD800 + (c - 0x10000) / 1024; 0xDC00 + (c - 0x10000) mod 1024].
Definition utf16le_encode (c : N) : list N := flat_map (fun u => [u mod 256; u / 256]) (utf16_units c).
Definition utf16be_encode (c : N) : list N := flat_map (fun u => [u / 256; u mod 256]) (utf16_units c).
Definition utf16le (cs : list N) : list N := flat_map utf16le_encode cs.
Definition utf16be (cs : list N) : list N := flat_map utf16be_encode cs.

(* XML 1.0 production [2] Char *)
Definition is_xml_char (c : N) : bool :=
  (c =? 0x9) || (c =? 0xA) || (c =? 0xD)
  || ((0x20 <=? c) && (c <=? 0xD7FF)) || ((0xE000 <=? c) && (c <=? 0xFFFD))
  || ((0x10000 <=? c) && (c <=? 0x10FFFF)).

(* The text [part] is a beginning of [whole]. *)
Definition prefix_of {A} (part whole : list A) : Prop := exists rest, whole = part ++ rest.
