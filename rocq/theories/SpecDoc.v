(* Documents as trees: how a tree is written, and what is to be reported for it. *)
From Coq Require Import String List NArith Bool.
From Verif Require Import Status State Core.
From Verif Require Api.
From Verif Require Import Base SpecText SpecUnicode SpecNames SpecLex SpecMisc SpecAttVal.
From Coq Require Import List.
Import ListNotations.
Local Open Scope N_scope.

(* what stands in content besides elements with content.  [given]: names and values of the attributes *)
Inductive piece :=
| Empty (name : list N) (atts : list att_src) (given : list (list N * list N)) (sp : list N)
| Chars (cs : list N)
| Reference (r : list N) (c : N)
| Section (cs : list N)
| Comment (body : list N)
| Instruction (target data : list N).
Inductive node :=
| Leaf (p : piece)
| Element (name : list N) (atts : list att_src) (given : list (list N * list N)) (sp : list N) (kids : list node) (sp' : list N).

(* how it is written *)
Definition comment_text (body : list N) : list N := txt "<!--" ++ body ++ txt "-->".
Definition pi_text (target data : list N) : list N := txt "<?" ++ target ++ data ++ txt "?>".
Definition section_text (cs : list N) : list N := txt "<![CDATA[" ++ cs ++ txt "]]>".
Definition piece_text (p : piece) : list N :=
  match p with
  | Empty name atts _ sp => tag_text name atts sp true
  | Chars cs => cs
  | Reference r _ => r
  | Section cs => section_text cs
  | Comment body => comment_text body
  | Instruction target data => pi_text target data
  end.
Fixpoint source (n : node) : list N :=
  match n with
  | Leaf p => piece_text p
  | Element name atts _ sp kids sp' => tag_text name atts sp false ++ flat_map source kids ++ etag_text name sp'
  end.

(* when it is well-formed; there are no declarations *)
Definition tag_good (name : list N) (atts : list att_src) (given : list (list N * list N)) (sp : list N) : Prop :=
  tag_ok false false name atts sp /\ NoDup (map fst given) /\
  Forall2 (fun a y => fst y = as_name a /\ attval false true false false [] (as_value a) (Value (snd y))) atts given.
Inductive refers : list N -> N -> Prop :=
| rf_decimal ds : ds <> [] -> all_in is_digit ds -> is_xml_char (dec_value ds) = true ->
    refers (txt "&#" ++ ds ++ txt ";") (dec_value ds)
| rf_hexadecimal ds : ds <> [] -> all_in is_hex ds -> is_xml_char (hex_value ds) = true ->
    refers (txt "&#x" ++ ds ++ txt ";") (hex_value ds)
| rf_predefined n c : In (n, c) predefined -> refers (txt "&" ++ n ++ txt ";") c.
Definition text_char (c : N) : bool := is_xml_char c && negb ((c =? 0x3C) || (c =? 0x26)).
Definition piece_good (p : piece) : Prop :=
  match p with
  | Empty name atts given sp => tag_good name atts given sp
  | Chars cs => cs <> [] /\ all_in text_char cs /\ ~ occurs (txt "]]>") cs
  | Reference r c => refers r c
  | Section cs => xml_text cs /\ ~ occurs (txt "]]>") (cs ++ txt "]]")
  | Comment body => comment_body body
  | Instruction target data => is_name false false target /\ ~ is_xml_name target /\ pi_data data
  end.
(* character data is written in one piece *)
Fixpoint apart (l : list node) : Prop :=
  match l with
  | Leaf (Chars _) :: ((Leaf (Chars _) :: _)) => False
  | _ :: l' => apart l'
  | [] => True
  end.
Inductive good : node -> Prop :=
| g_leaf p : piece_good p -> good (Leaf p)
| g_element name atts given sp kids sp' : tag_good name atts given sp -> spaces sp' ->
    Forall good kids -> apart kids -> good (Element name atts given sp kids sp').
Definition is_element (n : node) : bool :=
  match n with Element _ _ _ _ _ _ | Leaf (Empty _ _ _ _) => true | _ => false end.

(* what is reported *)
Inductive report :=
| Begins (name : bytes) (atts : list (bytes * bytes))
| Ends (name : bytes)
| Text (s : bytes)
| Remark (s : bytes)
| Order (target data : bytes)
| SectionBegins
| SectionEnds.
(* the data of a processing instruction begins after the white space *)
Fixpoint drop_spaces (cs : list N) : list N :=
  match cs with c :: r => if is_space c then drop_spaces r else cs | [] => [] end.
Definition begins (name : list N) (given : list (list N * list N)) : report :=
  Begins (utf8 name) (map (fun y => (utf8 (fst y), utf8 (snd y))) given).
Definition piece_reports (p : piece) : list report :=
  match p with
  | Empty name _ given _ => [begins name given; Ends (utf8 name)]
  | Chars cs => [Text (utf8 (norm_eol cs))]
  | Reference _ c => [Text (utf8 [c])]
  | Section cs => [SectionBegins; Text (utf8 (norm_eol cs)); SectionEnds]
  | Comment body => [Remark (utf8 (norm_eol body))]
  | Instruction target data => [Order (utf8 target) (utf8 (norm_eol (drop_spaces data)))]
  end.
Fixpoint reports (n : node) : list report :=
  match n with
  | Leaf p => piece_reports p
  | Element name _ given _ kids _ => begins name given :: flat_map reports kids ++ [Ends (utf8 name)]
  end.
(* what the handlers heard, and character data in one piece *)
Definition heard (e : event) : list report :=
  match e with
  | EvStartElement name atts _ _ => [Begins name atts]
  | EvEndElement name => [Ends name]
  | EvCharData s => [Text s]
  | EvComment s => [Remark s]
  | EvPI target data => [Order target data]
  | EvStartCdata => [SectionBegins]
  | EvEndCdata => [SectionEnds]
  | _ => []
  end.
Definition glue (s : bytes) (l : list report) : list report :=
  match l with
  | Text t :: l' => Text (s ++ t) :: l'
  | _ => match s with [] => l | _ => Text s :: l end
  end.
Fixpoint merged (l : list report) : list report :=
  match l with
  | [] => []
  | Text s :: l' => glue s (merged l')
  | r :: l' => r :: merged l'
  end.

(* an application that hears all this, without namespaces, and never stops the parser *)
Definition attentive (c : config) : Prop :=
  c_ns c = false /\
  (h_startElement (c_h c) = true /\ h_endElement (c_h c) = true /\ h_charData (c_h c) = true /\ h_pi (c_h c) = true /\
   h_comment (c_h c) = true /\ h_startCdata (c_h c) = true /\ h_endCdata (c_h c) = true) /\
  forall log, stop (c_app c log) = None.
(* XML_Parse with each chunk in turn; the last call is final *)
Fixpoint give (n : nat) (chunks : list bytes) (a : Api.api st) : res (list XML_Status * Api.api st) :=
  match chunks with
  | [] => Ok ([], a)
  | b :: rest =>
      let* (a, s) := XML_Parse n b (match rest with [] => true | _ => false end) a in
      let* (l, a) := give n rest a in
      Ok (s :: l, a)
  end.
Definition told (a : Api.api st) : list report := flat_map (fun x => heard (snd x)) (rev (s_log (Api.core a))).
