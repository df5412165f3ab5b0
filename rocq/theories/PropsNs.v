(* C39: the rules for reserved prefixes and namespace names. *)
From Coq Require Import String List NArith ZArith Bool.
From Verif Require Import Base Encoding Status Role State Bind Core.
From Verif Require Import SpecNs NsRules Demo.
From Verif Require Api ApiInv.
From Coq Require Import List.
Import ListNotations.

(* C39.  A declaration is accepted exactly if it is allowed: the new binding is on the list and remembers the one it
   hides. *)
Theorem C39_accepted : forall p att uri bs s, p <> PDangling -> allowed (prefix_name p) uri ->
  exists b s', addBinding p att uri bs s = Ret (b :: bs) s' /\ b_prefix b = p /\ b_prev b = binding_of p (s_dtd s).
Proof. exact addBinding_accepts. Qed.
Print Assumptions C39_accepted.

(* C39.  Otherwise the parse fails with the error code for what is wrong, and nothing has changed; [wrong] and
   [allowed] leave no case open. *)
Theorem C39_rejected : forall p att uri bs s e, p <> PDangling -> wrong (prefix_name p) uri e ->
  addBinding p att uri bs s = Fail e s.
Proof. exact addBinding_rejects. Qed.
Print Assumptions C39_rejected.
Theorem C39_decided : forall prefix uri, allowed prefix uri \/ exists e, wrong prefix uri e.
Proof. exact allowed_or_wrong. Qed.
Print Assumptions C39_decided.

(* C39.  Whatever the documents, chunks, handlers and calls: no start-namespace event of any parser reports a
   declaration that is not allowed. *)
Theorem C39_events : forall cfg enc pep foreign base n os a l, Forall ApiInv.plain os ->
  Api.steps (run (knot n)) start position os (new_parser (root cfg enc pep foreign base)) = Ok (a, l) ->
  forall q p u, In (q, EvStartNs p u) (s_log (Api.core a)) -> allowed p (match u with Some u => u | None => [] end).
Proof. exact (fun cfg enc pep foreign base n os a l H E => ns_steps n os (root cfg enc pep foreign base) a l H eq_refl E). Qed.
Print Assumptions C39_events.

(* declarations that are accepted, one after the other *)
Example C39_accepted_example :
  match history 200 (parser_of true all_handlers (fun _ => idle))
    [parse_op "<a xmlns='u' xmlns:xml='http://www.w3.org/XML/1998/namespace' xmlns:p='v'><b xmlns=''/></a>" true] with
  | Ok (l, e, log) =>
      l = [Api.A_status ST_OK] /\ e = XE_NONE /\
      flat_map (fun '(_, e) => match e with EvStartNs p u => [(p, u)] | _ => [] end) log =
        [(None, Some (ascii "u")); (Some (ascii "xml"), Some (ascii "http://www.w3.org/XML/1998/namespace"));
         (Some (ascii "p"), Some (ascii "v")); (None, None)]
  | Err _ => False
  end.
Proof. vm_compute. auto. Qed.
(* and each kind that is not *)
Example C39_rejected_example :
  map (fun s => match history 200 (parser_of true all_handlers (fun _ => idle)) [parse_op s true] with
                | Ok (_, e, _) => Some e | Err _ => None end)
    ["<a xmlns:p=''/>"; "<a xmlns:xmlns='u'/>"; "<a xmlns:xml='u'/>"; "<a xmlns:p='http://www.w3.org/XML/1998/namespace'/>";
     "<a xmlns='http://www.w3.org/2000/xmlns/'/>"; "<a xmlns:p='http://www.w3.org/2000/xmlns/x'/>"]%string =
  [Some XE_UNDECLARING_PREFIX; Some XE_RESERVED_PREFIX_XMLNS; Some XE_RESERVED_PREFIX_XML; Some XE_RESERVED_NAMESPACE_URI;
   Some XE_RESERVED_NAMESPACE_URI; Some XE_NONE].
Proof. vm_compute. reflexivity. Qed.
Example C39_wrong_example : wrong (Some (ascii "xml")) (ascii "u") XE_RESERVED_PREFIX_XML /\ allowed (Some (ascii "p")) (ascii "u").
Proof. split; [apply wr_xml; [reflexivity|discriminate|discriminate]|]. split; try discriminate. split; discriminate. Qed.
