(* Texts seen as sequences of code points: the classification of code points that an encoding
   induces, and an "encoding" whose units are the code points themselves. *)
From Coq Require Import List NArith ZArith Bool.
From Verif Require Import Base Tables Encoding SpecUnicode SpecNames.
Import ListNotations.
Local Open Scope N_scope.

(* what a tokeniser can see of a code point *)
Record cls := { ty : N -> ByteType; nst : N -> bool; nmc : N -> bool }.

(* the tokeniser interface over code points, one unit each *)
Definition cp_enc (k : cls) : EncImpl := {|
  minbpc := 1; isUtf8 := false;
  byte_type := fun b => let* c := peek 0 b in Ok (ty k c);
  byte_to_ascii := fun b => let* c := peek 0 b in Ok (if c <? 128 then c else 255);
  is_name_char := fun _ _ => Ok false;
  is_nmstrt_char := fun _ _ => Ok false;
  is_invalid_char := fun _ _ => Ok false;
  is_name_char_minbpc := fun b => let* c := peek 0 b in Ok (nmc k c);
  is_nmstrt_char_minbpc := fun b => let* c := peek 0 b in Ok (nst k c);
  char_matches := fun b x => let* c := peek 0 b in Ok (c =? x);
  utf8Convert := fun _ _ => Err EPanic;
  utf16Convert := fun _ _ => Err EPanic;
|}.

Definition wide_type (c : N) : ByteType := if is_xml_char c then BT_NONASCII else BT_NONXML.

(* classification by a 256-entry table below [limit] and by the Unicode tables from there on *)
Definition table_cls (types : list ByteType) (limit : N) : cls := {|
  ty := fun c => if c <? limit then nth (N.to_nat c) types BT_NONXML else wide_type c;
  nst := is_name_start;
  nmc := is_NameChar;
|}.

(* A text encoding as far as the tokenisers are concerned: [e] works on the concatenation of the
   [enc c]. *)
Inductive wide_char (e : EncImpl) (k : cls) (c : N) (b : bytes) (n : nat) : Prop :=
| wc_lead t : byte_type e b = Ok t -> lead_len t = Some n ->
    is_invalid_char e b n = Ok (negb (is_xml_char c)) ->
    is_name_char e b n = Ok (nmc k c) -> is_nmstrt_char e b n = Ok (nst k c) ->
    ty k c = wide_type c -> wide_char e k c b n
| wc_unit : n = minbpc e -> byte_type e b = Ok (ty k c) ->
    In (ty k c) [BT_NONASCII; BT_NMSTRT; BT_NAME; BT_OTHER; BT_NONXML] ->
    (ty k c = BT_NONXML <-> is_xml_char c = false) ->
    (ty k c = BT_NONASCII -> is_name_char_minbpc e b = Ok (nmc k c) /\ is_nmstrt_char_minbpc e b = Ok (nst k c)) ->
    wide_char e k c b n.

Record charset (e : EncImpl) (enc : N -> bytes) (dom : N -> bool) (k : cls) : Prop := {
  ch_min : minbpc e = 1%nat \/ minbpc e = 2%nat;
  ch_narrow_len : forall c, c < 128 -> length (enc c) = minbpc e;
  ch_narrow : forall c r, c < 128 -> byte_type e (enc c ++ r) = Ok (ty k c);
  ch_narrow_plain : forall c, c < 128 -> lead_len (ty k c) = None /\ ty k c <> BT_NONASCII;
  ch_ascii : forall c r, c < 128 -> byte_to_ascii e (enc c ++ r) = Ok c;
  ch_match : forall c r x, dom c = true -> x < 128 -> char_matches e (enc c ++ r) x = Ok (c =? x);
  ch_wide : forall c r, dom c = true -> 128 <= c -> wide_char e k c (enc c ++ r) (length (enc c));
  ch_wide_ascii : forall c r, dom c = true -> 128 <= c -> exists a, byte_to_ascii e (enc c ++ r) = Ok a /\ 128 <= a;
  ch_whole : forall c, dom c = true -> exists j, length (enc c) = (S j * minbpc e)%nat;
  ch_names : forall c, nmc k c = true -> is_xml_char c = true;
  ch_starts : forall c, nst k c = true -> is_xml_char c = true;
}.
