(* C72: the statements about entities, from the laws of TagLaws.v. *)
From Coq Require Import List NArith ZArith Bool Arith Lia.
From Verif Require Import Base Encoding SpecText SpecUnicode SpecNames SpecLex SpecMisc Tok TokMisc Status State AttVal Bind Atts Content Core SpecNest SpecBal TagFrame TagLaws.
From Verif Require Phase CpContent Nest NestTop NestBal Api ApiInv.
Import ListNotations.
Local Open Scope nat_scope.

Lemma open_of s s' : same_or_held s s' -> still_open s s' /\ (s_parsing s' <> SUSPENDED -> same_elements s s').
Proof. intros [A B]. split; [exact A|]. intros N. destruct B as [B|B]; [exact B|contradiction]. Qed.
Theorem entity_leaves k name text bd s s' : processInternalEntity (knot k) (false, name) text bd s = Ret tt s' ->
  still_open s s' /\ (s_parsing s' <> SUSPENDED -> same_elements s s').
Proof. intros H. apply open_of. pose proof (entity_balanced k name text bd s) as B. unfold Phase.pw in B. rewrite H in B. exact B. Qed.
Theorem reference_leaves k t e buf n s s' : content_entity (knot k) t e buf n s = Ret tt s' ->
  still_open s s' /\ (s_parsing s' <> SUSPENDED -> same_elements s s').
Proof. intros H. apply open_of. pose proof (reference_balanced k t e buf n s) as B. unfold Phase.pw in B. rewrite H in B. exact B. Qed.
Theorem text_leaves k t buf more s rest s' : doContent (knot k) (s_tagLevel s) t buf more s = Ret rest s' ->
  still_open s s' /\ (more = false -> s_parsing s' <> SUSPENDED -> same_elements s s').
Proof.
  intros H. assert (A : above (s_tagLevel s) (s_tags s) s) by (exists []; cbn; split; [reflexivity|lia]).
  pose proof (content_balanced (S k) (s_tagLevel s) t buf more s (s_tags s) A) as B. unfold Phase.pw in B. cbn [knot rc_content] in B. rewrite H in B.
  destruct B as [B C]. split; [exact B|]. intros M N. destruct (C M) as [C'|C']; [exact C'|contradiction].
Qed.

(* the beginning of doContent *)
Lemma begins_with t buf e tok n s (f : EncImpl -> XML_TOK -> option nat -> P bytes) : read_in t s e -> contentTok e buf = Ok (tok, n) ->
  exists s0, s_tags s0 = s_tags s /\ s_tagLevel s0 = s_tagLevel s /\ s_log s0 = s_log s /\
    (set_event t buf ;;; do e <- encoding t; do (tok, n) <- scan_as t true buf; set_event_end_tok t false buf n ;;; f e tok n) s = f e tok n s0.
Proof.
  intros R Tk. destruct t; cbn [read_in] in R.
  - exists (match n with Some n => set_evEnd (Some (length buf - n)) | None => set_evEnd (Some (length buf)) end (set_ev (Some (length buf)) s)).
    split; [destruct n; reflexivity|]. split; [destruct n; reflexivity|]. split; [destruct n; reflexivity|].
    unfold set_event, set_event_end_tok. cbn [is_internal].
    unfold pbind at 1, upd at 1. unfold pbind at 1, encoding at 1. change (s_enc (set_ev ?a s)) with (s_enc s). rewrite R. cbn [known].
    unfold pbind at 1, scan_as at 1, scan at 1. change (s_enc (set_ev ?a s)) with (s_enc s). rewrite R. unfold lift at 1. rewrite Tk. destruct n; reflexivity.
  - exists s. do 3 (split; [reflexivity|]). unfold set_event, set_event_end_tok. cbn [is_internal].
    unfold pbind at 1, pret at 1. unfold pbind at 1, encoding at 1. rewrite <- R.
    unfold pbind at 1, scan_as at 1. unfold pbind at 1, encoding at 1. rewrite <- R. unfold lift at 1. rewrite Tk. reflexivity.
Qed.
Theorem end_refused k level t e buf more s n : read_in t s e -> s_tagLevel s = level -> contentTok e buf = Ok (T_END_TAG, Some n) ->
  exists s', doContent (knot k) level t buf more s = Fail XE_ASYNC_ENTITY s' /\ s_log s' = s_log s.
Proof.
  intros R L Tk. unfold doContent at 1. edestruct (begins_with t buf e T_END_TAG (Some n) s) as (s0 & E1 & E2 & E3 & E4); [exact R|exact Tk|].
  exists s0. split; [|exact E3]. rewrite E4. cbv beta iota. unfold pbind, need, pret, get, fail. rewrite E2, L, Nat.eqb_refl. reflexivity.
Qed.
Theorem end_refused_text e enc dom lat ns : text_encoding e enc dom lat ns -> forall k level more s name sp rest,
  s_enc s = EKnown e -> s_tagLevel s = level -> etag_ok lat ns name sp -> all_in dom (etag_text name sp ++ rest) ->
  exists s', doContent (knot k) level ENormal (flat_map enc (etag_text name sp ++ rest)) more s = Fail XE_ASYNC_ENTITY s' /\ s_log s' = s_log s.
Proof.
  intros TE k level more s name sp rest He L Ht Hd. eapply (end_refused k level ENormal e); [exact He|exact L|].
  apply (CpContent.contentTok_exact e enc dom lat ns _ _ _ TE Hd); [discriminate|]. exists (etag_text name sp), rest. split; [reflexivity|]. split; [|reflexivity].
  apply ct_etag, Ht.
Qed.
Theorem rest_refused k level t e s : read_in t s e -> level <> 0 -> s_tagLevel s <> level ->
  exists s', doContent (knot k) level t [] false s = Fail XE_ASYNC_ENTITY s' /\ s_log s' = s_log s.
Proof.
  intros R Z L. unfold doContent at 1. edestruct (begins_with t [] e T_NONE None s) as (s0 & E1 & E2 & E3 & E4); [exact R|reflexivity|].
  exists s0. split; [|exact E3]. rewrite E4. cbv beta iota. replace (level =? 0) with false by lia. unfold pbind, get, fail. rewrite E2. replace (s_tagLevel s =? level) with false by lia. reflexivity.
Qed.

(* the events *)
Lemma closed_by ks : forall k, Nest.stack k (map Close ks) = Some [] -> k = ks.
Proof.
  induction ks as [|x ks IH]; intros k H; cbn [map Nest.stack] in H; [congruence|]. destruct k as [|m k]; [discriminate|].
  destruct (beqb m x) eqn:B; [|discriminate]. apply Nest.beqb_eq in B. f_equal; [exact B|apply IH, H].
Qed.
Lemma nestable_of l : nested_so_far l -> Nest.nestable l.
Proof. intros (rest & B). pose proof (Nest.stack_balanced _ B []) as H. rewrite Nest.stack_app in H. unfold Nest.nestable. destruct (Nest.stack [] l); [eauto|discriminate]. Qed.
Lemma follows_inv s : follows s <-> Nest.inv s.
Proof.
  assert (M : map (fun t => Close (t_name t)) (s_tags s) = map Close (map t_name (s_tags s))) by (rewrite map_map; reflexivity). split.
  - intros [A B [C1 C2] D F]. split; [split; auto; intros q; apply nestable_of, D|]. pose proof (Nest.stack_balanced _ F []) as H. rewrite Nest.stack_app in H. fold (Nest.mine s) in H.
    destruct (Nest.stack [] (Nest.mine s)) as [k|]; [|discriminate]. rewrite M in H. f_equal. apply closed_by, H.
  - intros [[A B C1 C2 D] F]. split; auto; [intros q; destruct (D q) as [k Hk]; exact (Nest.stack_nested _ _ Hk)|]. apply Nest.stack_nil. rewrite Nest.stack_app. fold (Nest.mine s). rewrite F, M.
    generalize (map t_name (s_tags s)). intros l. induction l as [|x l IH]; cbn [map Nest.stack]; [reflexivity|]. rewrite Nest.beqb_refl. exact IH.
Qed.
Lemma heard_of s s' (complete : Prop) : Nest.inv s -> NestBal.up (s_pid s) (Nest.mine s) (s_tagLevel s) (s_tags s) s' ->
  (complete -> NestBal.at_start (s_pid s) (Nest.mine s) (s_tagLevel s) (s_tags s) s') -> heard_between s s' complete.
Proof.
  intros I (I' & P' & top & evs & A & B & C & D) H. exists evs. unfold Nest.mine in C. rewrite P' in C. split; [exact C|]. split; [exact (Nest.stack_nested _ _ D)|]. split; [|apply follows_inv, I'].
  intros Hc. destruct (H Hc) as (_ & _ & _ & _ & evs' & C' & D'). unfold Nest.mine in C'. rewrite P' in C'. rewrite C in C'. apply app_inv_head in C'. subst. exact D'.
Qed.
Theorem entity_heard k name text bd s s' : follows s -> processInternalEntity (knot k) (false, name) text bd s = Ret tt s' -> heard_between s s' (s_parsing s' <> SUSPENDED).
Proof.
  intros F H. apply follows_inv in F. pose proof (NestBal.entity_up k name text bd s) as B. unfold Phase.pw in B. rewrite H in B. destruct (B F) as [U V].
  apply heard_of; auto. intros N. destruct V as [V|V]; [exact V|contradiction].
Qed.
Theorem reference_heard k t e buf n s s' : follows s -> content_entity (knot k) t e buf n s = Ret tt s' -> heard_between s s' (s_parsing s' <> SUSPENDED).
Proof.
  intros F H. apply follows_inv in F. pose proof (NestBal.reference_up k t e buf n s) as B. unfold Phase.pw in B. rewrite H in B. destruct (B F) as [U V].
  apply heard_of; auto. intros N. destruct V as [V|V]; [exact V|contradiction].
Qed.
Theorem text_heard k t buf more s rest s' : follows s -> doContent (knot k) (s_tagLevel s) t buf more s = Ret rest s' -> heard_between s s' (more = false /\ s_parsing s' <> SUSPENDED).
Proof.
  intros F H. apply follows_inv in F. pose proof (NestBal.content_up (S k) (s_pid s) (Nest.mine s) (s_tagLevel s) t buf more s (s_tags s) (NestBal.at_up _ _ _ _ _ (NestBal.up_refl s F))) as B.
  unfold Phase.pw in B. cbn [knot rc_content] in B. rewrite H in B. destruct B as [U V]. apply heard_of; auto. intros [M N]. destruct (V M) as [W|W]; [exact W|contradiction].
Qed.

Theorem follows_reached n os cfg enc pep foreign base a l : h_startElement (c_h cfg) = true -> h_endElement (c_h cfg) = true -> Forall ApiInv.plain os ->
  Api.steps (run (knot n)) start position os (new_parser (root cfg enc pep foreign base)) = Ok (a, l) -> Api.failed a = false -> follows (Api.core a).
Proof.
  intros H1 H2 Hos St Hf. apply follows_inv. pose proof (NestTop.root_inv cfg enc pep foreign base H1 H2) as Hi. set (c := root cfg enc pep foreign base) in *. clearbody c.
  assert (Ha : ApiInv.holds (NestTop.I0 c) (NestTop.W0 c) a).
  { eapply (ApiInv.steps_inv (run (knot n)) start position); [apply NestTop.I0_W0|intros; eapply NestTop.run_inv; [apply NestTop.good_knot|eassumption|eassumption]
      |intros; eapply NestTop.start_inv; eassumption|intros; eapply NestTop.start_invW; eassumption|exact Hos| |exact St].
    split; [exact Hi|apply Nest.grown_refl]. }
  unfold ApiInv.holds in Ha. rewrite Hf in Ha. apply Ha.
Qed.

Theorem text_continued k t buf more s0 s rest s' : still_open s0 s -> doContent (knot k) (s_tagLevel s0) t buf more s = Ret rest s' ->
  still_open s0 s' /\ (more = false -> s_parsing s' <> SUSPENDED -> same_elements s0 s').
Proof.
  intros A H. pose proof (content_balanced (S k) (s_tagLevel s0) t buf more s (s_tags s0) A) as B. unfold Phase.pw in B. cbn [knot rc_content] in B. rewrite H in B.
  destruct B as [B C]. split; [exact B|]. intros M N. destruct (C M) as [C'|C']; [exact C'|contradiction].
Qed.
