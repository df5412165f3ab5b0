(* The rules for namespace declarations: Namespaces in XML 1.0, section 3 and 2.2.  Nothing here refers to the code but
   the names of the error codes. *)
From Coq Require Import List NArith ZArith Bool String Ascii.
From Verif Require Import Base Status.
From Coq Require Import List.
Import ListNotations.

Definition bytes_of (s : string) : bytes := map (fun c => N.of_nat (nat_of_ascii c)) (list_ascii_of_string s).
Definition xml_prefix : bytes := bytes_of "xml".
Definition xmlns_prefix : bytes := bytes_of "xmlns".
Definition xml_name : bytes := bytes_of "http://www.w3.org/XML/1998/namespace".
Definition xmlns_name : bytes := bytes_of "http://www.w3.org/2000/xmlns/".

(* a declaration: of [prefix], or of the default namespace; the namespace name may be empty *)
Record allowed (prefix : option bytes) (uri : bytes) : Prop := {
  al_xml : prefix = Some xml_prefix <-> uri = xml_name;   (* xml and its name only go together *)
  al_xmlns : prefix <> Some xmlns_prefix;                 (* xmlns is not declared *)
  al_name : uri <> xmlns_name;                            (* its name is not bound *)
  al_empty : prefix <> None -> uri <> []                  (* only the default namespace is undeclared *)
}.

(* what is wrong with a declaration that is not allowed *)
Inductive wrong (prefix : option bytes) (uri : bytes) : XML_Error -> Prop :=
| wr_undeclared : prefix <> None -> uri = [] -> wrong prefix uri XE_UNDECLARING_PREFIX
| wr_xmlns : prefix = Some xmlns_prefix -> uri <> [] -> wrong prefix uri XE_RESERVED_PREFIX_XMLNS
| wr_xml : prefix = Some xml_prefix -> uri <> [] -> uri <> xml_name -> wrong prefix uri XE_RESERVED_PREFIX_XML
| wr_xml_name : prefix <> Some xml_prefix -> prefix <> Some xmlns_prefix -> uri = xml_name ->
    wrong prefix uri XE_RESERVED_NAMESPACE_URI
| wr_xmlns_name : prefix <> Some xml_prefix -> prefix <> Some xmlns_prefix -> uri = xmlns_name ->
    wrong prefix uri XE_RESERVED_NAMESPACE_URI.
