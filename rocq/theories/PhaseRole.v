(* The grammar of the prolog in the document entity: where the start of the document element may be found. *)
From Coq Require Import List NArith Bool.
From Verif Require Import Base Encoding TokMisc Role.
Import ListNotations.

(* the states of the document entity *)
Definition dochd (h : handler) : bool :=
  match h with H_externalSubset0 | H_externalSubset1 | H_condSect0 | H_condSect1 | H_condSect2 => false | _ => true end.
Definition quiet_role (r : ROLE) : bool :=
  match r with R_NONE | R_ENTITY_NONE | R_NOTATION_NONE | R_ELEMENT_NONE => true | _ => false end.
Definition rok (p : pstate) : bool := doc p && dochd (hd p) && quiet_role (role_none p).
(* inside the brackets of the document type declaration *)
Definition inD (p : pstate) : bool :=
  match hd p with
  | H_prolog0 | H_prolog1 | H_prolog2 | H_doctype0 | H_doctype1 | H_doctype2 | H_doctype3 | H_doctype4 => false
  | _ => true
  end.
Definition pe_role (r : ROLE) : bool := match r with R_PARAM_ENTITY_REF | R_INNER_PARAM_ENTITY_REF => true | _ => false end.
Definition role_chk (p : pstate) (k : XML_TOK) (x : pstate * ROLE) : bool :=
  let '(p', ro) := x in
  rok p' && (match ro with
             | R_IGNORE_SECT => false
             | R_INSTANCE_START => match k with T_INSTANCE_START => negb (inD p) | _ => false end
             | R_DOCTYPE_CLOSE => match k with T_DECL_CLOSE => true | _ => false end
             | R_PARAM_ENTITY_REF | R_INNER_PARAM_ENTITY_REF => inD p'
             | _ => negb (inD p) || inD p'
             end).
Lemma kw_chk e p k alts : forall b d x, on_kw e b alts d = Ok x -> forallb (fun a => role_chk p k (snd a)) alts = true ->
  role_chk p k d = true -> role_chk p k x = true.
Proof.
  induction alts as [|[w y] alts IH]; intros b d x E Ha Hd; cbn [on_kw] in E; [injection E as <-; exact Hd|].
  cbn [forallb snd] in Ha. apply andb_true_iff in Ha as [H1 H2].
  destruct (nameMatchesAscii e b w) as [m|]; [|discriminate]. cbn [bind] in E.
  destruct m; [injection E as <-; exact H1|eapply IH; eassumption].
Qed.
Lemma common_chk p k : rok p = true -> role_chk p k (common p k) = true.
Proof.
  destruct p as [h l rn i d]. unfold rok, common, role_chk, to, inD. cbn. intros H.
  apply andb_true_iff in H as [H Hq]. apply andb_true_iff in H as [-> H]. cbn. unfold rok. cbn. rewrite Hq. destruct h; reflexivity.
Qed.
Lemma role_ok e p k b x : rok p = true -> token_role e p k b = Ok x -> role_chk p k x = true.
Proof.
  intros H. pose proof (common_chk p k H) as Hc. revert H Hc. destruct p as [h l rn i d]. intros H Hc. unfold rok in H. cbn in H.
  apply andb_true_iff in H as [H Hq]. apply andb_true_iff in H as [Hd Hh]. destruct d; [|discriminate Hd]. clear Hd.
  intros E. unfold token_role in E. cbn [hd] in E.
  assert (Hdc : forall q, quiet_role q = true -> match q with R_IGNORE_SECT | R_INSTANCE_START | R_DOCTYPE_CLOSE | R_PARAM_ENTITY_REF | R_INNER_PARAM_ENTITY_REF => false | _ => true end = true) by (intros []; cbn; congruence).
  destruct h; try discriminate Hh; clear Hh;
  unfold prolog0, prolog1, prolog2, doctype0, doctype1, doctype2, doctype3, doctype4, doctype5, internalSubset, entity0, entity1,
    entity2, entity3, entity4, entity5, entity6, entity7, entity8, entity9, entity10, notation0, notation1, notation2, notation3, notation4,
    attlist0, attlist1, attlist2, attlist3, attlist4, attlist5, attlist6, attlist7, attlist8, attlist9, element0, element1, element2,
    element3, element4, element5, element6, element7, declClose in E;
  try (destruct k);
  repeat match type of E with
  | bind (inc_start ?a ?c) _ = _ => let y := fresh in destruct (inc_start a c) as [y|]; [cbn [bind] in E|discriminate E]
  end;
  first [ injection E as <-; exact Hc
        | injection E as <-; cbn; unfold rok; cbn; rewrite ?Hq; reflexivity
        | eapply kw_chk; [exact E|cbn; unfold rok; cbn; rewrite ?Hq; reflexivity|exact Hc]
        | injection E as <-; unfold close_group; cbn; destruct (u32_pred l =? 0)%N; cbn; unfold rok; cbn; rewrite ?Hq; reflexivity
        | injection E as <-; cbn; unfold rok; cbn; destruct rn; (discriminate Hq || reflexivity) ].
Qed.
