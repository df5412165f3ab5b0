(* The tokens of the prolog and of DTDs over code points.  Nothing here refers to the scanners. *)
From Coq Require Import List NArith ZArith Bool String.
From Verif Require Import Base Encoding SpecText SpecUnicode SpecNames SpecLex.
Import ListNotations.
Local Open Scope N_scope.

(* what is or might become a name: [7] Nmtoken.  [prefixed]: a name, a colon and more name characters without colons. *)
Definition nmtoken (lat ns : bool) (n : list N) : Prop := n <> [] /\ all_in (fun c => name_char lat ns c || (ns && (c =? 0x3A))) n.
Definition prefixed (lat ns : bool) (n : list N) : Prop :=
  ns = true /\ exists p l, n = p ++ txt ":" ++ l /\ is_name lat ns p /\ l <> [] /\ all_in (name_char lat ns) l.
(* the text goes on with one of these characters *)
Definition next_is (f : N -> bool) (rest : list N) : Prop := exists c r, rest = c :: r /\ f c = true.
Definition one_of (s : string) (c : N) : bool := is_space c || existsb (N.eqb c) (txt s).

(* [prolog_token t lexeme rest]: a text [lexeme ++ rest] begins with the token [t], spelt [lexeme].  Where it would
   depend on what comes next whether the token has ended, there has to be a next character. *)
Inductive prolog_token (lat ns : bool) : XML_TOK -> list N -> list N -> Prop :=
| pt_comment l rest : content_token lat ns T_COMMENT l rest -> prolog_token lat ns T_COMMENT l rest
| pt_pi l rest : content_token lat ns T_PI l rest -> prolog_token lat ns T_PI l rest
| pt_xmldecl l rest : content_token lat ns T_XML_DECL l rest -> prolog_token lat ns T_XML_DECL l rest
| pt_literal q body rest : q = 0x22 \/ q = 0x27 -> xml_text body -> ~ In q body -> next_is (one_of ">%[") rest ->
    prolog_token lat ns T_LITERAL ([q] ++ body ++ [q]) rest
(* white space; a carriage return at the end of the text is left, a line feed may follow *)
| pt_space s rest : s <> [] -> spaces s -> stops is_space rest \/ rest = [13] -> (rest = [] -> last s 0 <> 13) ->
    prolog_token lat ns T_PROLOG_S s rest
| pt_cr : prolog_token lat ns T_PROLOG_S_NEG [13] []
| pt_percent rest : next_is (one_of "%") rest -> prolog_token lat ns T_PERCENT (txt "%") rest
| pt_peref n rest : is_name lat ns n -> prolog_token lat ns T_PARAM_ENTITY_REF (txt "%" ++ n ++ txt ";") rest
| pt_comma rest : prolog_token lat ns T_COMMA (txt ",") rest
| pt_or rest : prolog_token lat ns T_OR (txt "|") rest
| pt_lpar rest : prolog_token lat ns T_OPEN_PAREN (txt "(") rest
| pt_rpar rest : next_is (one_of ">,|)") rest -> prolog_token lat ns T_CLOSE_PAREN (txt ")") rest
| pt_rpar_ast rest : prolog_token lat ns T_CLOSE_PAREN_ASTERISK (txt ")*") rest
| pt_rpar_quest rest : prolog_token lat ns T_CLOSE_PAREN_QUESTION (txt ")?") rest
| pt_rpar_plus rest : prolog_token lat ns T_CLOSE_PAREN_PLUS (txt ")+") rest
| pt_lsqb rest : prolog_token lat ns T_OPEN_BRACKET (txt "[") rest
| pt_rsqb c rest : c <> 0x5D -> prolog_token lat ns T_CLOSE_BRACKET (txt "]") (c :: rest)
| pt_rsqb2 c rest : c <> 0x3E -> prolog_token lat ns T_CLOSE_BRACKET (txt "]") (0x5D :: c :: rest)
| pt_open rest : prolog_token lat ns T_COND_SECT_OPEN (txt "<![") rest
| pt_close rest : prolog_token lat ns T_COND_SECT_CLOSE (txt "]]>") rest
| pt_gt rest : prolog_token lat ns T_DECL_CLOSE (txt ">") rest
| pt_pound n rest : is_name lat ns n -> next_is (one_of ")>%|") rest -> prolog_token lat ns T_POUND_NAME (txt "#" ++ n) rest
| pt_name n rest : is_name lat ns n -> next_is (one_of ">),|[%") rest -> prolog_token lat ns T_NAME n rest
| pt_prefixed n rest : prefixed lat ns n -> next_is (one_of ">),|[%") rest -> prolog_token lat ns T_PREFIXED_NAME n rest
| pt_nmtoken n rest : nmtoken lat ns n -> ~ is_name lat ns n -> ~ prefixed lat ns n -> next_is (one_of ">),|[%") rest ->
    prolog_token lat ns T_NMTOKEN n rest
| pt_name_plus n rest : is_name lat ns n \/ prefixed lat ns n -> prolog_token lat ns T_NAME_PLUS (n ++ txt "+") rest
| pt_name_ast n rest : is_name lat ns n \/ prefixed lat ns n -> prolog_token lat ns T_NAME_ASTERISK (n ++ txt "*") rest
| pt_name_quest n rest : is_name lat ns n \/ prefixed lat ns n -> prolog_token lat ns T_NAME_QUESTION (n ++ txt "?") rest.

(* "<!name" opens a declaration: white space follows, or a '%' that is not followed by white space or '%' *)
Definition decl_opened (lat ns : bool) (name rest : list N) : Prop :=
  name <> [] /\ all_in (start_char lat ns) name /\
  ((exists c r, rest = c :: r /\ is_space c = true) \/ (exists c r, rest = 0x25 :: c :: r /\ one_of "%" c = false)).
