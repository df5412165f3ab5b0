(* C36, C37: the attributes that are delivered. *)
From Coq Require Import String List NArith ZArith Bool Lia.
From Verif Require Import Base Tables Encoding SpecText SpecUnicode SpecNames SpecLex SpecMisc Tok TokMisc Status Role State Bind AttVal Atts Content Prolog SpecNs SpecCtx SpecAttVal SpecAtts AttsText AttsUse Core Demo.
From Verif Require Api Nest.
From Coq Require Import List.
Import ListNotations.
Local Open Scope N_scope.

(* C37.  For a start tag the handler gets the attributes of the tag followed by the default values that are declared
   and not given in the tag, under their names, without the namespace declarations; or the tag is rejected for one of
   the reasons that [rejected] lists. *)
Theorem C37_start : forall s e enc dom lat name atts sp given rest, tag_case s e enc dom lat false name atts sp given ->
  exists n0, forall r n, (n0 <= rc_fuel r)%nat ->
    seen_tag false s (utf8 name) given (start_tag r ENormal e (flat_map enc (tag_text name atts sp false) ++ rest) n s).
Proof. exact start_tag_seen. Qed.
Print Assumptions C37_start.
(* C37.  The same for an empty-element tag. *)
Theorem C37_empty : forall s e enc dom lat name atts sp given rest, tag_case s e enc dom lat true name atts sp given ->
  exists n0, forall r n, (n0 <= rc_fuel r)%nat ->
    seen_tag true s (utf8 name) given (empty_tag r ENormal e (flat_map enc (tag_text name atts sp true) ++ rest) n s).
Proof. exact empty_tag_seen. Qed.
Print Assumptions C37_empty.
(* C37.  The end of an attribute declaration adds the declaration unless the attribute is declared already. *)
Theorem C37_declared : forall s el id et a isId v req,
  tables s -> s_declElement s = Some el -> s_declAttId s = Some id ->
  look el (d_elems (s_dtd s)) = Some et -> look id (d_attids (s_dtd s)) = Some a ->
  exists b s', end_attribute isId v req s = Ret b s' /\ tables s' /\
    (forall e n, declaration_of n (declarations e s') =
       match declaration_of n (declarations e s) with
       | Some x => Some x
       | None => if beqb e el && beqb n id then Some (s_declCdata s, v) else None
       end) /\
    (forall e, defaults e s' = defaults e s ++
       (if beqb e el && match declaration_of id (declarations el s) with Some _ => false | None => true end
        then match v with Some v => [(id, v)] | None => [] end else [])).
Proof. exact attribute_declared. Qed.
Print Assumptions C37_declared.
(* C36.  An accepted start tag has delivered pairwise distinct names, apart from triplets. *)
Theorem C36_distinct : forall s e enc dom lat name atts sp given rest, tag_case s e enc dom lat false name atts sp given ->
  c_ns (s_cfg s) = false \/ (c_triplets (s_cfg s) = false /\ clean s (attributes given (utf8 name) s)) ->
  exists n0, forall r n s', (n0 <= rc_fuel r)%nat ->
    start_tag r ENormal e (flat_map enc (tag_text name atts sp false) ++ rest) n s = Ret tt s' ->
    NoDup (map fst given) /\
    exists m l k ix after before, s_log s' = after ++ (s_pid s', EvStartElement m l k ix) :: before ++ s_log s /\ NoDup (map fst l).
Proof. exact distinct_delivered. Qed.
Print Assumptions C36_distinct.
(* C36.  A tag with nothing else wrong is rejected as having a duplicate attribute if two names are equal, or if two
   expanded names are and triplets are not requested. *)
Theorem C36_duplicate : forall s e enc dom lat name atts sp given rest, tag_case s e enc dom lat false name atts sp given ->
  otherwise_fine s (utf8 name) given ->
  ~ NoDup (map fst given) \/
  (c_ns (s_cfg s) = true /\ c_triplets (s_cfg s) = false /\ clean s (attributes given (utf8 name) s) /\ same_expanded s (utf8 name) given) ->
  exists n0, forall r n, (n0 <= rc_fuel r)%nat ->
    exists s', start_tag r ENormal e (flat_map enc (tag_text name atts sp false) ++ rest) n s = Fail XE_DUPLICATE_ATTRIBUTE s'.
Proof. exact duplicate_rejected. Qed.
Print Assumptions C36_duplicate.

(* a parser in namespace mode, inside an element where x stands for u, after <!ATTLIST a b NMTOKEN '9' b CDATA #IMPLIED
   q NMTOKEN 'z' x:d CDATA 'w'> *)
Definition by_name (l : list bytes) : list (bytes * attid) := map (fun n => (n, set_ai_maybe true (new_attid true n))) l.
Definition with_defaults : st :=
  set_dtd (set_d_elems [(ascii "a", {| et_prefix := None; et_idAtt := None;
               et_defaults := [{| da_id := ascii "b"; da_cdata := false; da_value := Some (ascii "9") |};
                               {| da_id := ascii "b"; da_cdata := true; da_value := None |};
                               {| da_id := ascii "q"; da_cdata := false; da_value := Some (ascii "z") |};
                               {| da_id := ascii "x:d"; da_cdata := true; da_value := Some (ascii "w") |}] |})]
    (set_d_attids (by_name [ascii "b"; ascii "q"; ascii "x:d"])
    (set_d_prefixes [(ascii "x", Some (MkB (PNamed (ascii "x")) None (ascii "u|") None))] dtd0)))
    (parser_of true all_handlers (fun _ => idle)).
Definition att (n v : string) : att_src :=
  {| as_space := txt " "; as_name := txt n; as_eq1 := []; as_eq2 := []; as_quote := 39; as_value := txt v |}.
Ltac looks := let E := fresh in intros E; cbn in E; repeat (match type of E with context [beqb ?a ?b] => destruct (beqb a b) eqn:?Eb end; cbn in E); try discriminate E.
Lemma with_defaults_tables : tables with_defaults.
Proof.
  constructor; change (s_dtd with_defaults) with (s_dtd with_defaults); change (c_ns (s_cfg with_defaults)) with true.
  - intros n a. unfold with_defaults. looks; injection H as <-; reflexivity.
  - intros n a. unfold with_defaults. looks; injection H as <-; apply Nest.beqb_eq in Eb || (apply Nest.beqb_eq in Eb0) || (apply Nest.beqb_eq in Eb1); subst n; split; try reflexivity; left; reflexivity.
  - intros el et da. unfold with_defaults. looks. injection H as <-. cbn [et_defaults In]. intros [<-|[<-|[<-|[<-|[]]]]]; eexists; (split; [vm_compute; reflexivity|reflexivity]).
  - intros el et l1 da l2. unfold with_defaults. looks. injection H as <-. cbn [et_defaults]. intros E V.
    destruct l1 as [|d1 [|d2 [|d3 [|d4 [|d5 l]]]]]; injection E; intros; subst; cbn in V |- *; try congruence; intuition (try discriminate).
  - intros el et. unfold with_defaults. looks. injection H as <-. apply Nest.beqb_eq in Eb. subst el. reflexivity.
  - intros el et id. unfold with_defaults. looks. injection H as <-. discriminate.
  - intros [|p|] b; unfold with_defaults.
    + discriminate.
    + looks. injection H as <-. apply Nest.beqb_eq in Eb. subst p. split; [reflexivity|]. exists (ascii "u"). reflexivity.
    + discriminate.
Qed.
(* <a q=' 1' x:c='3' xmlns:y='w'> *)
Definition tag_atts : list att_src := [att "q" " 1"; att "x:c" "3"; att "xmlns:y" "w"].
Definition tag_given : list (bytes * bytes) := [(ascii "q", ascii "1"); (ascii "x:c", ascii "3"); (ascii "xmlns:y", ascii "w")].
Ltac name := eexists; eexists; split; [reflexivity|]; split; [vm_compute; reflexivity|repeat (apply Forall_cons; [vm_compute; reflexivity|]); apply Forall_nil].
Ltac chars := repeat (apply Forall_cons; [vm_compute; reflexivity|]); apply Forall_nil.
Ltac value := repeat (apply av_char; [vm_compute; reflexivity|discriminate|discriminate|discriminate|]); apply av_nil.
Ltac plain := split; [chars|split; [discriminate|split; [|split; [chars|split; [chars|split; [right; reflexivity|value]]]]]].
Ltac lit c o := apply (av_literal _ _ _ _ _ c _ o); [split; [vm_compute; intuition discriminate|reflexivity]|].
Lemma tag_atts_ok name atts : is_name false true name -> Forall (fun a => att_ok false true a) atts -> tag_ok false true name atts [].
Proof. intros H F. split; [left; exact H|]. split; [exact F|apply Forall_nil]. Qed.
Lemma with_defaults_dangling : no_dangling with_defaults.
Proof. intros n a. unfold with_defaults. looks; injection H as <-; discriminate. Qed.
Lemma q_given : given_by with_defaults (ascii "a") false (att "q" " 1") (ascii "q", ascii "1").
Proof.
  split; [reflexivity|]. exists (txt " 1"). split; [|reflexivity].
  apply (av_space _ _ _ _ _ 32 _ (Value (txt "1"))); [reflexivity|discriminate|]. lit 49 (Value []). constructor.
Qed.
Ltac one v c := split; [reflexivity|]; exists (txt v); split; [|reflexivity]; lit c (Value []); constructor.
Lemma c_given : given_by with_defaults (ascii "a") false (att "x:c" "3") (ascii "x:c", ascii "3").
Proof. one "3"%string 51. Qed.
Lemma w_given : given_by with_defaults (ascii "a") false (att "xmlns:y" "w") (ascii "xmlns:y", ascii "w").
Proof. one "w"%string 119. Qed.
Example C37_case empty : tag_case with_defaults utf8_encoding_ns utf8_encode is_scalar false empty (txt "a") tag_atts [] tag_given /\
  attributes tag_given (ascii "a") with_defaults = tag_given ++ [(ascii "b", ascii "9"); (ascii "x:d", ascii "w")].
Proof.
  split; [|reflexivity]. constructor.
  - exact te_utf8_ns.
  - reflexivity.
  - apply tag_atts_ok; [name|]. apply Forall_cons; [|apply Forall_cons; [|apply Forall_cons; [|apply Forall_nil]]]; plain.
    + left. name.
    + right. split; [reflexivity|]. exists (txt "x"), (txt "c"). split; [reflexivity|]. split; name.
    + right. split; [reflexivity|]. exists (txt "xmlns"), (txt "y"). split; [reflexivity|]. split; name.
  - destruct empty; chars.
  - apply Forall2_cons; [exact q_given|apply Forall2_cons; [exact c_given|apply Forall2_cons; [exact w_given|apply Forall2_nil]]].
  - exact with_defaults_tables.
  - exact with_defaults_dangling.
  - reflexivity.
Qed.
Definition first_event (o : State.out unit) : option event :=
  match o with Ret _ s => match s_log s with (_, e) :: _ => Some e | [] => None end | _ => None end.
Example C37_case_run :
  first_event (start_tag (knot 100) ENormal utf8_encoding_ns (utf8 (tag_text (txt "a") tag_atts [] false)) 30 with_defaults) =
  Some (EvStartElement (ascii "a") [(ascii "q", ascii "1"); (ascii "u|c", ascii "3"); (ascii "b", ascii "9"); (ascii "u|d", ascii "w")] 4 (-1)%Z).
Proof. vm_compute. reflexivity. Qed.
Definition starts_of (l : list (nat * event)) : list (bytes * list (bytes * bytes) * nat) :=
  flat_map (fun '(_, e) => match e with EvStartElement n atts k _ => [(n, atts, k)] | _ => [] end) l.
Example C37_parsed :
  match history 300 (parser_of true all_handlers (fun _ => idle))
    [parse_op "<!DOCTYPE a [<!ATTLIST a b NMTOKEN '9' b CDATA #IMPLIED q NMTOKEN 'z' x:d CDATA 'w' b CDATA 'k'>]><r xmlns:x='u'><a q=' 1' x:c='3' xmlns:y='w'/><a/></r>" true] with
  | Ok (l, e, log) => l = [Api.A_status ST_OK] /\ e = XE_NONE /\
      starts_of log = [(ascii "r", [], 0%nat);
        (ascii "a", [(ascii "q", ascii "1"); (ascii "u|c", ascii "3"); (ascii "b", ascii "9"); (ascii "u|d", ascii "w")], 4%nat);
        (ascii "a", [(ascii "b", ascii "9"); (ascii "q", ascii "z"); (ascii "u|d", ascii "w")], 0%nat)]
  | Err _ => False
  end.
Proof. vm_compute. auto. Qed.
(* the declaration of c as an attribute of a, and a second one of b *)
Definition declaring (id : bytes) : st := set_declAttId (Some id) (set_declElement (Some (ascii "a")) with_defaults).
Example C37_declare : tables (declaring (ascii "b")) /\ tables (declaring (ascii "q")) /\
  match end_attribute false (Some (ascii "5")) false (declaring (ascii "b")) with
  | Ret _ s => defaults (ascii "a") s = defaults (ascii "a") with_defaults
  | _ => False
  end.
Proof.
  split; [exact (like_tables with_defaults (declaring (ascii "b")) eq_refl eq_refl with_defaults_tables)|].
  split; [exact (like_tables with_defaults (declaring (ascii "q")) eq_refl eq_refl with_defaults_tables)|]. vm_compute. reflexivity.
Qed.
(* <a x:c='3' y:c='3' xmlns:y='u'>: equal expanded names *)
Definition twice_atts : list att_src := [att "x:c" "3"; att "y:c" "3"; att "xmlns:y" "u"].
Definition twice_given : list (bytes * bytes) := [(ascii "x:c", ascii "3"); (ascii "y:c", ascii "3"); (ascii "xmlns:y", ascii "u")].
Lemma x_bound ds : (forall n u, In (n, u) ds -> ~ declares n (PNamed (ascii "x"))) -> bound_inside ds with_defaults (PNamed (ascii "x")) (ascii "u").
Proof. intros H. right. split; [exact H|]. eexists. split; [vm_compute; reflexivity|reflexivity]. Qed.
Lemma prefix_of n p l p' l' : prefixed n p l -> prefixed n p' l' -> p = p'. Proof. intros A B. exact (proj1 (prefixed_unique _ _ _ _ _ A B)). Qed.
Lemma colonless n p l : prefixed n p l -> ~ In COLON n -> False.
Proof. intros [-> _] H. apply H. apply in_or_app. right. left. reflexivity. Qed.
Lemma twice_fine : otherwise_fine with_defaults (ascii "a") twice_given.
Proof.
  intros _. split.
  - intros n v p I D x W. cbn in I. assert (F : declares n p -> n = ascii "xmlns:y" -> p = PNamed (ascii "y")).
    { intros D' ->. inversion D'; subst. reflexivity. }
    repeat (destruct I as [E|I]; [injection E as <- <-|]); try destruct I; try (inversion D; fail).
    specialize (F D eq_refl). subst p. inversion W; try discriminate; congruence.
  - intros n v p l I P. assert (Dc : declared true (attributes twice_given (ascii "a") with_defaults) = [(ascii "xmlns:y", ascii "u")]) by reflexivity. rewrite Dc.
    assert (Xb : bound_inside [(ascii "xmlns:y", ascii "u")] with_defaults (PNamed (ascii "x")) (ascii "u")).
    { apply x_bound. intros m u [E|[]] D. injection E as <- <-. inversion D. }
    assert (Yb : bound_inside [(ascii "xmlns:y", ascii "u")] with_defaults (PNamed (ascii "y")) (ascii "u")).
    { left. exists (ascii "xmlns:y"). split; [left; reflexivity|]. split; [exact (de_prefix (ascii "y"))|discriminate]. }
    exists (ascii "u"). destruct I as [I|En]; [|subst n; destruct (colonless _ _ _ P); cbn; intuition discriminate]. cbn in I.
    repeat (destruct I as [E|I]; [injection E as <- <-|]); try destruct I.
    + replace p with (ascii "x"); [exact Xb|]. eapply prefix_of; [|exact P]. instantiate (1 := ascii "c"). split; [reflexivity|cbn; intuition discriminate].
    + replace p with (ascii "y"); [exact Yb|]. eapply prefix_of; [|exact P]. instantiate (1 := ascii "c"). split; [reflexivity|cbn; intuition discriminate].
    + destruct (colonless _ _ _ P). cbn. intuition discriminate.
    + destruct (colonless _ _ _ P). cbn. intuition discriminate.
    + replace p with (ascii "x"); [exact Xb|]. eapply prefix_of; [|exact P]. instantiate (1 := ascii "d"). split; [reflexivity|cbn; intuition discriminate].
Qed.
Example C36_case :
  tag_case with_defaults utf8_encoding_ns utf8_encode is_scalar false false (txt "a") twice_atts [] twice_given /\
  otherwise_fine with_defaults (ascii "a") twice_given /\ clean with_defaults (attributes twice_given (ascii "a") with_defaults) /\
  same_expanded with_defaults (ascii "a") twice_given /\ clean with_defaults (attributes tag_given (ascii "a") with_defaults) /\
  match start_tag (knot 100) ENormal utf8_encoding_ns (utf8 (tag_text (txt "a") twice_atts [] false)) 30 with_defaults with
  | Fail x _ => x = XE_DUPLICATE_ATTRIBUTE
  | _ => False
  end.
Proof.
  split; [constructor|split; [exact twice_fine|split; [|split; [|split; [|vm_compute; reflexivity]]]]].
  - exact te_utf8_ns.
  - reflexivity.
  - apply tag_atts_ok; [name|]. apply Forall_cons; [|apply Forall_cons; [|apply Forall_cons; [|apply Forall_nil]]]; plain; right; (split; [reflexivity|]).
    + exists (txt "x"), (txt "c"). split; [reflexivity|]. split; name.
    + exists (txt "y"), (txt "c"). split; [reflexivity|]. split; name.
    + exists (txt "xmlns"), (txt "y"). split; [reflexivity|]. split; name.
  - chars.
  - apply Forall2_cons; [exact c_given|apply Forall2_cons; [one "3"%string 51|apply Forall2_cons; [one "u"%string 117|apply Forall2_nil]]].
  - exact with_defaults_tables.
  - exact with_defaults_dangling.
  - reflexivity.
  - split; [discriminate|]. intros n v I _. cbn in I. repeat (destruct I as [E|I]; [injection E as <- <-; vm_compute; intuition discriminate|]). destruct I.
  - exists [], (ascii "x:c", ascii "3"), [], (ascii "y:c", ascii "3"), [(ascii "b", ascii "9"); (ascii "q", ascii "z"); (ascii "x:d", ascii "w")], (ascii "u|c").
    split; [reflexivity|]. change (declared true (attributes twice_given (ascii "a") with_defaults)) with [(ascii "xmlns:y", ascii "u")]. split.
    + exists (ascii "x"), (ascii "c"), (ascii "u"). split; [split; [reflexivity|cbn; intuition discriminate]|]. split; [|reflexivity].
      apply x_bound. intros m u [E|[]] D. injection E as <- <-. inversion D.
    + exists (ascii "y"), (ascii "c"), (ascii "u"). split; [split; [reflexivity|cbn; intuition discriminate]|]. split; [|reflexivity].
      left. exists (ascii "xmlns:y"). split; [left; reflexivity|]. split; [exact (de_prefix (ascii "y"))|discriminate].
  - split; [discriminate|]. intros n v I _. cbn in I. repeat (destruct I as [E|I]; [injection E as <- <-; vm_compute; intuition discriminate|]). destruct I.
Qed.
