(* The value of an attribute as storeAttributeValue computes it. *)
From Coq Require Import String List NArith ZArith Bool Lia Arith.
From Coq Require Import ZifyBool ZifyNat ZifyN.
From Verif Require Import Base Tables Encoding SpecText SpecUnicode SpecNames SpecLex SpecMisc EncLaws Tok TokMisc TokWp TokSafe UniLaws UniConv SpecConv Charset CharsetLaws Sim SimTop TextEnc CpBase CpComment CpTag CpMisc CpNames MiscTop DeclFinal AttCp Status State AttVal SpecAttVal CtxLaws.
Import ListNotations.
Local Open Scope N_scope.

(* ---- conversion of whole texts ---- *)
Lemma utf8_len4 c : (length (utf8_encode c) <= 4)%nat.
Proof. unfold utf8_encode. repeat (match goal with |- context [if ?b then _ else _] => destruct b end); cbn [length]; lia. Qed.
Lemma utf8_app a b : utf8 (a ++ b) = utf8 a ++ utf8 b. Proof. apply flat_map_app. Qed.
Lemma utf8_room (enc : N -> bytes) (dom : N -> Prop) cs : (forall c, dom c -> enc c <> []) -> Forall dom cs ->
  (length (utf8 cs) <= 4 * length (flat_map enc cs))%nat.
Proof.
  intros He. induction 1 as [|c cs Hc _ IH]; [cbn; lia|]. cbn [flat_map]. rewrite utf8_cons, !app_length.
  pose proof (utf8_len4 c). specialize (He c Hc). destruct (enc c); [congruence|]. cbn [length]. lia.
Qed.
Lemma conv_all e (enc : N -> bytes) dom cs : transfers (utf8Convert e) enc dom -> (forall c, dom c -> enc c <> []) -> Forall dom cs ->
  conv e (flat_map enc cs) = Ok (utf8 cs).
Proof.
  intros T He Hd. destruct (T cs (4 * length (flat_map enc cs) + 4)%nat Hd) as (done & left & E & L & R).
  unfold conv. destruct left as [|c left].
  - rewrite R. cbn [bind]. rewrite app_nil_r in E. subst. reflexivity.
  - exfalso. destruct R as [_ R]. subst cs. pose proof (utf8_room _ _ _ He Hd) as U.
    replace (done ++ c :: left) with ((done ++ [c]) ++ left) in U at 1 by (rewrite <- app_assoc; reflexivity).
    rewrite utf8_app, app_length in U. lia.
Qed.

(* an encoding in which attribute values are read *)
Record reader (e : EncImpl) (enc : N -> bytes) (dom : N -> bool) (lat ns inner : bool) : Prop := {
  rd_cls : exists k, charset e enc dom k /\ attcls lat ns inner dom k;
  rd_conv : forall cs, all_in dom cs -> conv e (flat_map enc cs) = Ok (utf8 cs);
  rd_ascii : forall c, c < 128 -> dom c = true;
  rd_predef : forall cs x, all_in dom cs -> x <> 0 -> (predefinedEntityName e (flat_map enc cs) = Ok x <-> In (cs, x) predefined);
  rd_none : forall cs, all_in dom cs -> (forall x, ~ In (cs, x) predefined) -> predefinedEntityName e (flat_map enc cs) = Ok 0;
}.
Lemma te_reader e enc dom lat ns : text_encoding e enc dom lat ns -> reader e enc dom lat ns false.
Proof.
  intros TE. destruct (text_encoding_std _ _ _ _ _ TE) as (k & CS & ST). constructor.
  - exists k. split; auto. now apply std_attcls.
  - intros cs Hd. apply (conv_all e enc (fun c => dom c = true)); auto; [exact (te_transfers _ _ _ _ _ TE)|].
    intros c Hc E. pose proof (enc_pos _ _ _ _ CS c Hc). rewrite E in *. cbn in *. lia.
  - exact (te_ascii_dom _ _ _ _ _ TE).
  - exact (te_predef _ _ _ _ _ TE).
  - exact (te_predef_none _ _ _ _ _ TE).
Qed.
Definition inner_enc (ns : bool) : EncImpl := if ns then internal_utf8_encoding_ns else internal_utf8_encoding.
Lemma inner_reader ns : reader (inner_enc ns) utf8_encode is_scalar false ns true.
Proof.
  constructor.
  - exists (table_cls (inner_types ns) 128). split; [|apply inner_attcls].
    destruct ns; apply utf8_charset; unfold utf8_types; auto.
  - intros cs Hd. apply (conv_all _ _ (fun c => is_scalar c = true)); auto; [destruct ns; exact utf8_transfers|].
    intros c _. apply utf8_ne.
  - intros c Hc. unfold is_scalar. lia.
  - intros cs x. destruct ns; exact (te_predef _ _ _ _ _ te_utf8 cs x).
  - intros cs. destruct ns; exact (te_predef_none _ _ _ _ _ te_utf8 cs).
Qed.

(* ---- how the value grows ---- *)
Definition add (cdata : bool) (acc : bytes) (c : N) : bytes :=
  if negb cdata && (c =? 32) && at_space acc then acc else acc ++ utf8_encode c.
Definition adds (cdata : bool) (acc : bytes) (v : list N) : bytes := fold_left (add cdata) v acc.
Lemma adds_app cdata acc a b : adds cdata acc (a ++ b) = adds cdata (adds cdata acc a) b.
Proof. apply fold_left_app. Qed.
Lemma adds_plain cdata acc v : Forall (fun c => c <> 32) v -> adds cdata acc v = acc ++ utf8 v.
Proof.
  intros H. revert acc. induction H as [|c v Hc _ IH]; intros acc; cbn [adds fold_left]; [now rewrite app_nil_r|].
  unfold add at 2. replace (c =? 32) with false by lia. rewrite andb_false_r. cbn [andb]. unfold adds in IH. rewrite IH, utf8_cons, app_assoc. reflexivity.
Qed.

Ltac teq := change (tok_eqb T_ATTRIBUTE_VALUE_S T_TRAILING_CR) with false; change (tok_eqb T_DATA_NEWLINE T_TRAILING_CR) with false;
  change (tok_eqb T_TRAILING_CR T_TRAILING_CR) with true; cbv beta iota.
Section Run.
Variables (prolog cdata : bool).
Variables (e : EncImpl) (enc : N -> bytes) (dom : N -> bool) (lat ns inner : bool) (t : enctype).
Hypothesis RD : reader e enc dom lat ns inner.
Notation T := (flat_map enc).
Notation app := (appendAttributeValue).

Definition reads (s : st) : Prop := encoding t s = Ret e s.

(* what one call does, for all sufficiently large amounts of fuel *)
Definition yields (cs : list N) (acc : bytes) (s : st) (o : outcome) : Prop :=
  exists n0, forall fuel, (n0 <= fuel)%nat ->
  match o with
  | Value v => app fuel prolog t cdata (T cs) acc s = Ret (adds cdata acc v) s
  | Error x => exists s', app fuel prolog t cdata (T cs) acc s = Fail x s'
  end.

Lemma tok_of cs r : all_in dom cs -> (forall k, charset e enc dom k -> attcls lat ns inner dom k -> attributeValueTok (cp_enc k) cs = r) ->
  same_tok enc false cs (attributeValueTok e (T cs)) r.
Proof.
  intros Hd H. destruct (rd_cls _ _ _ _ _ _ RD) as (k & CS & AC). rewrite <- (H k CS AC). now apply (attributeValueTok_sim _ _ _ _ CS).
Qed.
Lemma tok_some cs x n : all_in dom cs -> (forall k, charset e enc dom k -> attcls lat ns inner dom k -> attributeValueTok (cp_enc k) cs = Ok (x, Some n)) ->
  attributeValueTok e (T cs) = Ok (x, Some (length (T (firstn n cs)))).
Proof. intros Hd H. exact (tok_of cs _ Hd H). Qed.
Lemma tok_none cs x : all_in dom cs -> (forall k, charset e enc dom k -> attcls lat ns inner dom k -> attributeValueTok (cp_enc k) cs = Ok (x, None)) ->
  attributeValueTok e (T cs) = Ok (x, None).
Proof. intros Hd H. destruct (tok_of cs _ Hd H) as [E|(E & _)]; [exact E|discriminate]. Qed.
Lemma firstn_app_len {A} (a b : list A) : firstn (length a) (a ++ b) = a.
Proof. rewrite firstn_app, Nat.sub_diag, firstn_all. cbn. apply app_nil_r. Qed.
Lemma inc_T p cs s : inc (length (T p)) (T (p ++ cs)) s = Ret (T cs) s.
Proof. unfold inc, lift. rewrite flat_map_app, inc_start_app_len. reflexivity. Qed.

Lemma step_run p cs acc s fuel : reads s -> all_in dom (p ++ cs) -> all_in lit p -> p <> [] -> halts cs ->
  app (S fuel) prolog t cdata (T (p ++ cs)) acc s = app fuel prolog t cdata (T cs) (adds cdata acc p) s.
Proof.
  intros Hr Hd Hl Hn Hh. cbn [appendAttributeValue]. unfold pbind at 1. rewrite Hr.
  rewrite (tok_some (p ++ cs) T_DATA_CHARS (length p)) by (auto; intros; eapply tok_run; eauto).
  rewrite firstn_app_len. cbn [lift pbind need pret]. rewrite flat_map_app, firstn_app_len.
  apply Forall_app in Hd as [Hd1 Hd2]. unfold lift. rewrite (rd_conv _ _ _ _ _ _ RD) by auto.
  unfold pbind at 1. unfold pbind at 1. rewrite <- flat_map_app. rewrite inc_T. rewrite adds_plain; [reflexivity|].
  eapply Forall_impl; [|exact Hl]. unfold lit, is_space. cbn. intros; lia.
Qed.
(* it is enough to consider texts that do not begin with literal characters *)
Lemma yields_prefix p cs s o : reads s -> all_in dom (p ++ cs) -> all_in lit p -> halts cs ->
  (forall acc, yields cs acc s o) -> forall acc, yields (p ++ cs) acc s (prepend p o).
Proof.
  intros Hr Hd Hl Hh H acc. destruct p as [|c p]; [destruct o; apply H|].
  destruct (H (adds cdata acc (c :: p))) as (n0 & Hn). exists (S n0). intros [|fuel] Hf; [lia|]. specialize (Hn fuel ltac:(lia)).
  rewrite step_run by (auto; discriminate). destruct o as [v|x]; cbn [prepend]; [|exact Hn]. rewrite Hn. rewrite <- adds_app. reflexivity.
Qed.
Lemma yields_nil acc s : reads s -> yields [] acc s (Value []).
Proof.
  intros Hr. exists 1%nat. intros [|fuel] Hf; [lia|]. cbn [appendAttributeValue]. unfold pbind at 1. rewrite Hr.
  change (attributeValueTok e (T [])) with (Ok (T_NONE, @None nat)). reflexivity.
Qed.
(* a token that contributes one character *)
Definition goes (p : list N) (c : N) (cs : list N) (s : st) : Prop :=
  forall fuel acc, app (S fuel) prolog t cdata (T (p ++ cs)) acc s = app fuel prolog t cdata (T cs) (add cdata acc c) s.
Lemma yields_step p c cs s o : goes p c cs s -> (forall acc, yields cs acc s o) -> forall acc, yields (p ++ cs) acc s (prepend [c] o).
Proof.
  intros G H acc. destruct (H (add cdata acc c)) as (n0 & Hn). exists (S n0). intros [|fuel] Hf; [lia|]. specialize (Hn fuel ltac:(lia)).
  rewrite G. destruct o as [v|x]; cbn [prepend]; exact Hn.
Qed.
Lemma add_space acc : add cdata acc 32 = if negb cdata && at_space acc then acc else acc ++ [32].
Proof. unfold add. change (32 =? 32) with true. rewrite andb_true_r. reflexivity. Qed.
Lemma goes_space c cs s : reads s -> all_in dom (c :: cs) -> is_space c = true -> (c = 13 -> inner = true) -> goes [c] 32 cs s.
Proof.
  intros Hr Hd Hs H13 fuel acc. cbn [appendAttributeValue]. unfold pbind at 1. rewrite Hr.
  assert (exists x, attributeValueTok e (T (c :: cs)) = Ok (x, Some (length (T [c]))) /\ (x = T_ATTRIBUTE_VALUE_S \/ x = T_DATA_NEWLINE)) as (x & E & Hx).
  { destruct (rd_cls _ _ _ _ _ _ RD) as (k & CS & AC). destruct (tok_space _ _ _ _ _ AC c cs) as (x & Ex & Hx); auto; [inversion Hd; auto|].
    exists x. split; [|exact Hx]. pose proof (attributeValueTok_sim _ _ _ _ CS (c :: cs) Hd) as K. rewrite Ex in K. exact K. }
  change ([c] ++ cs) with (c :: cs). rewrite E. rewrite add_space.
  destruct Hx as [-> | ->]; unfold lift, pbind, need, pret; teq;
    change (T (c :: cs)) with (T ([c] ++ cs)); rewrite inc_T; reflexivity.
Qed.
Lemma goes_crlf cs s : reads s -> inner = false -> all_in dom (13 :: 10 :: cs) -> goes [13; 10] 32 cs s.
Proof.
  intros Hr Hi Hd fuel acc. cbn [appendAttributeValue]. unfold pbind at 1. rewrite Hr.
  change ([13; 10] ++ cs) with (13 :: 10 :: cs).
  rewrite (tok_some (13 :: 10 :: cs) T_DATA_NEWLINE 2).
  - rewrite add_space. unfold lift, pbind, need, pret; teq. change (firstn 2 (13 :: 10 :: cs)) with [13; 10].
    change (T (13 :: 10 :: cs)) with (T ([13; 10] ++ cs)); rewrite inc_T; reflexivity.
  - exact Hd.
  - intros k CS AC. apply (tok_crlf _ _ _ _ _ AC); auto; apply (rd_ascii _ _ _ _ _ _ RD); reflexivity.
Qed.
Lemma goes_cr cs s : reads s -> inner = false -> all_in dom (13 :: cs) -> ~ (exists q, cs = 10 :: q) -> goes [13] 32 cs s.
Proof.
  intros Hr Hi Hd Hn fuel acc. cbn [appendAttributeValue]. unfold pbind at 1. rewrite Hr.
  change ([13] ++ cs) with (13 :: cs). rewrite add_space.
  assert (K : forall k, charset e enc dom k -> attcls lat ns inner dom k -> attributeValueTok (cp_enc k) (13 :: cs) = match cs with [] => Ok (T_TRAILING_CR, None) | _ => Ok (T_DATA_NEWLINE, Some 1%nat) end).
  { intros k CS AC. apply (tok_cr _ _ _ _ _ AC); auto. }
  destruct cs as [|d cs].
  - rewrite (tok_none [13] T_TRAILING_CR) by auto. unfold lift, pbind, need, pret; teq.
    destruct (rd_cls _ _ _ _ _ _ RD) as (k & CS & AC).
    replace (minbpc e) with (length (T [13])) by (cbn [flat_map]; rewrite app_nil_r; apply (ch_narrow_len _ _ _ _ CS); reflexivity).
    change (T [13]) with (T ([13] ++ [])) at 2. rewrite inc_T. reflexivity.
  - rewrite (tok_some (13 :: d :: cs) T_DATA_NEWLINE 1) by auto. unfold lift, pbind, need, pret; teq.
    change (firstn 1 (13 :: d :: cs)) with [13]. change (T (13 :: d :: cs)) with (T ([13] ++ d :: cs)). rewrite inc_T. reflexivity.
Qed.
Lemma charref_num p ds cs v : ds <> [] ->
  p = "&#"%string /\ all_in is_digit ds /\ v = dec_value ds \/ p = "&#x"%string /\ all_in is_hex ds /\ v = hex_value ds ->
  charRefNumber e (T (txt p ++ ds ++ txt ";" ++ cs)) = Ok (if is_xml_char v then Z.of_N v else -1)%Z.
Proof.
  intros Hn H. destruct (rd_cls _ _ _ _ _ _ RD) as (k & CS & AC).
  replace (txt p ++ ds ++ txt ";" ++ cs) with ((txt p ++ ds ++ txt ";") ++ cs) by (rewrite <- !app_assoc; reflexivity).
  rewrite flat_map_app. destruct H as [(-> & Hd & ->)|(-> & Hd & ->)].
  - apply (charref_dec _ _ _ _ CS (rd_ascii _ _ _ _ _ _ RD)); auto.
  - apply (charref_hex _ _ _ _ CS (rd_ascii _ _ _ _ _ _ RD)); auto.
Qed.
Lemma goes_charref p ds cs v s : reads s -> all_in dom (txt p ++ ds ++ txt ";" ++ cs) -> ds <> [] ->
  p = "&#"%string /\ all_in is_digit ds /\ v = dec_value ds \/ p = "&#x"%string /\ all_in is_hex ds /\ v = hex_value ds ->
  is_xml_char v = true -> goes (txt p ++ ds ++ txt ";") v cs s.
Proof.
  intros Hr Hd Hn H Hx fuel acc. rewrite <- !app_assoc. cbn [appendAttributeValue]. unfold pbind at 1. rewrite Hr.
  rewrite (tok_some _ T_CHAR_REF (length (txt p ++ ds ++ txt ";"))).
  2: exact Hd. 2:{ intros k CS AC. apply (tok_charref _ _ _ _ _ AC); auto. tauto. }
  assert (Ea : txt p ++ ds ++ txt ";" ++ cs = (txt p ++ ds ++ txt ";") ++ cs) by (rewrite <- !app_assoc; reflexivity).
  unfold lift, pbind, need, pret. rewrite (charref_num p ds cs v) by auto. rewrite Hx.
  replace (Z.of_N v <? 0)%Z with false by lia. rewrite Ea, firstn_app_len. unfold add.
  replace (Z.of_N v =? 32)%Z with (v =? 32) by lia.
  rewrite XmlUtf8Encode_spec by (unfold is_xml_char in Hx; lia). destruct (negb cdata && (v =? 32) && at_space acc); rewrite inc_T; reflexivity.
Qed.
Lemma fails_charref p ds cs v s acc : reads s -> all_in dom (txt p ++ ds ++ txt ";" ++ cs) -> ds <> [] ->
  p = "&#"%string /\ all_in is_digit ds /\ v = dec_value ds \/ p = "&#x"%string /\ all_in is_hex ds /\ v = hex_value ds ->
  is_xml_char v = false -> yields (txt p ++ ds ++ txt ";" ++ cs) acc s (Error XE_BAD_CHAR_REF).
Proof.
  intros Hr Hd Hn H Hx. exists 1%nat. intros [|fuel] Hf; [lia|]. cbn [appendAttributeValue]. unfold pbind at 1. rewrite Hr.
  rewrite (tok_some _ T_CHAR_REF (length (txt p ++ ds ++ txt ";"))).
  2: exact Hd. 2:{ intros k CS AC. apply (tok_charref _ _ _ _ _ AC); auto. tauto. }
  unfold lift, pbind, need, pret. rewrite (charref_num p ds cs v) by auto. rewrite Hx. cbn [Z.ltb Z.compare].
  unfold set_event, fail, pret, upd. destruct (is_internal t); eauto.
Qed.
Lemma inc_cut n x : inc_start (length (T (firstn n x))) (T x) = Ok (T (skipn n x)).
Proof. rewrite <- (firstn_skipn n x) at 2. rewrite flat_map_app, inc_start_app_len. reflexivity. Qed.
Lemma fails_less p cs s acc : reads s -> all_in dom (p ++ 60 :: cs) -> all_in lit p -> yields (p ++ 60 :: cs) acc s (Error XE_INVALID_TOKEN).
Proof.
  intros Hr Hd Hl. exists 1%nat. intros [|fuel] Hf; [lia|]. cbn [appendAttributeValue]. unfold pbind at 1. rewrite Hr.
  assert (exists n, attributeValueTok e (T (p ++ 60 :: cs)) = Ok (T_INVALID, Some (length (T (firstn n (p ++ 60 :: cs)))))) as (n & E).
  { destruct (rd_cls _ _ _ _ _ _ RD) as (k & CS & AC). destruct (tok_less _ _ _ _ _ AC p cs Hd Hl) as (n & En).
    exists n. pose proof (attributeValueTok_sim _ _ _ _ CS _ Hd) as K. rewrite En in K. exact K. }
  rewrite E. unfold lift, pbind, set_event_opt, pret, fail, upd, inc, lift. destruct (is_internal t); [eauto|].
  rewrite inc_cut. eexists; reflexivity.
Qed.
Lemma fails_stray cs s acc : reads s -> all_in dom (38 :: cs) -> (forall r p, 38 :: cs = r ++ p -> ~ entity_ref lat ns r /\ ~ char_ref r) ->
  yields (38 :: cs) acc s (Error XE_INVALID_TOKEN).
Proof.
  intros Hr Hd Hn. exists 1%nat. intros [|fuel] Hf; [lia|]. cbn [appendAttributeValue]. unfold pbind at 1. rewrite Hr.
  destruct (rd_cls _ _ _ _ _ _ RD) as (k & CS & AC). pose proof (attributeValueTok_sim _ _ _ _ CS _ Hd) as K.
  destruct (tok_stray _ _ _ _ _ AC cs Hd Hn) as [(n & En)|En]; rewrite En in K.
  - rewrite K. unfold at_char, lift, pbind, set_event_opt, pret, fail, upd, inc, lift. destruct (is_internal t); [eauto|].
    rewrite inc_cut. eexists; reflexivity.
  - destruct K as [K|(K & _)]; [|discriminate]. rewrite K. unfold lift, pbind, set_event, pret, fail, upd. destruct (is_internal t); eauto.
Qed.

(* references to entities *)
Definition written (n : list N) : list N := txt "&" ++ n ++ txt ";".
Lemma name_of n cs s : all_in dom (written n) ->
  ref_name e (T (written n ++ cs)) (length (T (written n))) s = Ret (T n) s.
Proof.
  intros Hd. destruct (rd_cls _ _ _ _ _ _ RD) as (k & CS & AC). unfold ref_name, written.
  assert (L1 : length (T (txt "&")) = minbpc e) by (change (txt "&") with [38]; cbn [flat_map]; rewrite app_nil_r; apply (ch_narrow_len _ _ _ _ CS); reflexivity).
  assert (L2 : length (T (txt ";")) = minbpc e) by (change (txt ";") with [59]; cbn [flat_map]; rewrite app_nil_r; apply (ch_narrow_len _ _ _ _ CS); reflexivity).
  rewrite (flat_map_app _ (txt "&" ++ n ++ txt ";") cs), firstn_app_len. unfold pbind, inc, lift. rewrite flat_map_app. rewrite <- L1, inc_start_app_len.
  unfold dec. rewrite flat_map_app, app_length, L1, L2. replace (minbpc e <=? length (T n) + minbpc e)%nat with true by lia.
  replace (length (T n) + minbpc e - minbpc e)%nat with (length (T n)) by lia. rewrite firstn_app_len. reflexivity.
Qed.
Lemma entity_tok n cs : all_in dom (written n ++ cs) -> is_name lat ns n ->
  attributeValueTok e (T (written n ++ cs)) = Ok (T_ENTITY_REF, Some (length (T (written n)))).
Proof.
  intros Hd Hn. unfold written in *. rewrite <- !app_assoc in *. rewrite (tok_some _ T_ENTITY_REF (length (txt "&" ++ n ++ txt ";"))).
  - replace (txt "&" ++ n ++ txt ";" ++ cs) with ((txt "&" ++ n ++ txt ";") ++ cs) by (rewrite <- !app_assoc; reflexivity). rewrite firstn_app_len. reflexivity.
  - exact Hd.
  - intros k CS AC. apply (tok_entity _ _ _ _ _ AC); auto.
Qed.
Lemma predefined_name n x : In (n, x) predefined -> is_name lat ns n /\ x <> 0 /\ x <> 32 /\ utf8_encode x = [x].
Proof.
  intros I. unfold predefined in I. cbn [In] in I.
  repeat (destruct I as [I|I]; [injection I as <- <-; split; [eexists _, _; split; [reflexivity|split; [destruct lat, ns; vm_compute; reflexivity|repeat (apply Forall_cons; [destruct lat, ns; vm_compute; reflexivity|]); apply Forall_nil]]|split; [discriminate|split; [discriminate|reflexivity]]]|]).
  destruct I.
Qed.
Lemma goes_predefined n x cs s : reads s -> all_in dom (written n ++ cs) -> In (n, x) predefined -> goes (written n) x cs s.
Proof.
  intros Hr Hd I fuel acc. destruct (predefined_name n x I) as (Hn & H0 & H32 & Hu). cbn [appendAttributeValue]. unfold pbind at 1. rewrite Hr.
  rewrite entity_tok by auto. unfold lift at 1, pbind at 1. unfold need, pret, pbind at 1. unfold pbind at 1.
  apply Forall_app in Hd as [Hd1 Hd2]. rewrite name_of by auto. unfold pbind at 1.
  assert (Hdn : all_in dom n) by (unfold written in Hd1; unfold all_in in *; rewrite !Forall_app in Hd1; tauto).
  unfold lift at 1. rewrite (proj2 (rd_predef _ _ _ _ _ _ RD n x Hdn H0) I). replace (x =? 0) with false by lia. cbn [negb]. unfold pbind at 1. rewrite inc_T.
  unfold add. replace (x =? 32) with false by lia. rewrite andb_false_r. cbn [andb]. rewrite Hu. reflexivity.
Qed.
Definition opening (n : bytes) (x : entity) (s : st) : st := set_dtd (set_d_gents (put n (set_e_open true x) (d_gents (s_dtd s))) (s_dtd s)) s.
Lemma entity_eq n cs s fuel acc : reads s -> all_in dom (written n ++ cs) -> is_name lat ns n -> not_predefined n ->
  app (S fuel) prolog t cdata (T (written n ++ cs)) acc s =
  match look (utf8 n) (d_gents (s_dtd s)) with
  | None => if must_be_declared prolog s then Fail XE_UNDEFINED_ENTITY s else app fuel prolog t cdata (T cs) acc s
  | Some x =>
      if must_be_declared prolog s && negb (e_is_internal x) then Fail XE_ENTITY_DECLARED_IN_PE s
      else if e_open x then (set_event t (T (written n ++ cs)) ;;; fail XE_RECURSIVE_ENTITY_REF) s
      else match e_notation x, e_text x with
           | Some _, _ => (set_event t (T (written n ++ cs)) ;;; fail XE_BINARY_ENTITY_REF) s
           | None, None => (set_event t (T (written n ++ cs)) ;;; fail XE_ATTRIBUTE_EXTERNAL_ENTITY_REF) s
           | None, Some text =>
               match app fuel prolog EInternal cdata text acc (opening (utf8 n) x s) with
               | Ret acc s1 => (upd_entity (false, utf8 n) (set_e_open false) ;;; app fuel prolog t cdata (T cs) acc) s1
               | Fail y s1 => (upd_entity (false, utf8 n) (set_e_open false) ;;; fail y) s1
               | Die y => Die y
               end
           end
  end.
Proof.
  intros Hr Hd Hn Hp. cbn [appendAttributeValue]. unfold pbind at 1. rewrite Hr.
  rewrite entity_tok by auto. unfold lift at 1, pbind at 1. unfold need, pret, pbind at 1. unfold pbind at 1.
  apply Forall_app in Hd as [Hd1 Hd2]. rewrite name_of by auto. unfold pbind at 1.
  assert (Hdn : all_in dom n) by (unfold written in Hd1; unfold all_in in *; rewrite !Forall_app in Hd1; tauto).
  unfold lift at 1. rewrite (rd_none _ _ _ _ _ _ RD n Hdn Hp). cbn [N.eqb negb]. unfold pbind at 1. unfold lift at 1. rewrite (rd_conv _ _ _ _ _ _ RD) by auto.
  unfold get. unfold pbind at 1. unfold pbind at 1. unfold pbind at 1.
  change (if prolog then Role.doc (s_role s) && (if d_standalone (s_dtd s) then match s_open s with [] => true | _ :: _ => false end else negb (d_hasPE (s_dtd s)))
          else negb (d_hasPE (s_dtd s)) || d_standalone (s_dtd s)) with (must_be_declared prolog s).
  destruct (look (utf8 n) (d_gents (s_dtd s))) as [x|] eqn:El.
  - destruct (must_be_declared prolog s && negb (e_is_internal x)); [reflexivity|]. destruct (e_open x); [reflexivity|].
    destruct (e_notation x); [reflexivity|]. destruct (e_text x) as [text|]; [|reflexivity].
    unfold upd_entity at 1, upd_dtd, upd. unfold pbind at 1. unfold look_entity, put_entity. cbn [snd fst entity_table]. rewrite El. fold (opening (utf8 n) x s).
    unfold try. unfold pbind at 1. destruct (app fuel prolog EInternal cdata text acc (opening (utf8 n) x s)) as [acc' s1|y s1|y]; [| |reflexivity].
    + unfold pbind at 1. unfold pbind at 2. destruct (upd_entity _ _ s1) as [u s2|y s2|y]; [|reflexivity|reflexivity]. unfold pbind. rewrite inc_T. reflexivity.
    + reflexivity.
  - destruct (must_be_declared prolog s); [reflexivity|]. unfold pbind. rewrite inc_T. reflexivity.
Qed.
End Run.

Lemma reclose n x s : look n (d_gents (s_dtd s)) = Some x -> e_open x = false ->
  upd_entity (false, n) (set_e_open false) (opening n x s) = Ret tt s.
Proof.
  intros Hl Ho. unfold upd_entity, upd_dtd, upd, look_entity, put_entity, opening. cbn [fst snd entity_table].
  change (s_dtd (set_dtd ?a s)) with a. change (d_gents (set_d_gents ?a ?b)) with a. rewrite look_put, Nest.beqb_refl, put_put, reopen by exact Ho.
  rewrite put_same by exact Hl. f_equal. destruct s, s_dtd. reflexivity.
Qed.
Lemma then_ret {A} (m : P unit) (k : P A) s s' : m s = Ret tt s' -> (m ;;; k) s = k s'.
Proof. unfold pbind. intros ->. reflexivity. Qed.
Lemma prepend_prepend p q o : prepend p (prepend q o) = prepend (p ++ q) o.
Proof. destruct o; cbn [prepend]; [rewrite app_assoc|]; reflexivity. Qed.
Lemma prepend_nil o : prepend [] o = o. Proof. destruct o; reflexivity. Qed.
Lemma halts_cons c cs : lit c = false -> c <> 60 -> halts (c :: cs). Proof. split; assumption. Qed.

Theorem attval_yields ns strict prolog cdata lat inner g cs o : attval ns strict lat inner g cs o ->
  forall t e enc dom s p, reader e enc dom lat ns inner -> reads e t s -> c_ns (s_cfg s) = ns ->
  d_gents (s_dtd s) = g -> must_be_declared prolog s = strict -> all_in dom (p ++ cs) -> all_in lit p ->
  forall acc, yields prolog cdata enc t (p ++ cs) acc s (prepend p o).
Proof.
  induction 1 as [lat inner g|lat inner g c cs o Hc H IH|lat inner g c cs o Hc H13 H IH|lat g cs o H IH|lat g cs o Hn H IH
    |lat inner g ds cs o Hne Hds Hx H IH|lat inner g ds cs o Hne Hds Hx H IH|lat inner g n x cs o Hin H IH
    |lat inner g n x text v cs o Hn Hp Hl Hs Ho Hno Htx Hsc H1 IH1 H IH|lat inner g n cs o Hn Hp Hl Hs H IH
    |lat inner g cs|lat inner g cs Hno|lat inner g ds cs Hne Hds Hx|lat inner g ds cs Hne Hds Hx
    |lat inner g n cs Hn Hp Hl Hs|lat inner g n x cs Hn Hp Hl Hs Hi|lat inner g n x cs Hn Hp Hl Hs Ho
    |lat inner g n x cs Hn Hp Hl Hs Ho Hno|lat inner g n x cs Hn Hp Hl Hs Ho Hno Htx|lat inner g n x text y cs Hn Hp Hl Hs Ho Hno Htx Hsc H1 IH1];
  intros t e enc dom s p RD Hr Hns Hg Hst Hd Hlit.
  all: try (assert (Hd2 := Hd); apply Forall_app in Hd2 as [Hdp Hdc]).
  - apply (yields_prefix _ _ _ _ _ _ _ _ _ RD); auto; [exact I|]. intros acc. eapply yields_nil; eassumption.
  - intros acc. rewrite prepend_prepend. replace (p ++ c :: cs) with ((p ++ [c]) ++ cs) in * by (rewrite <- app_assoc; reflexivity).
    eapply IH; eauto. apply Forall_app. split; [exact Hlit|]. constructor; [|constructor].
    destruct Hc as [Hc1 Hc2]. unfold lit. rewrite Hc2.
    assert (c <> 38) by (intros ->; apply Hc1; left; reflexivity). assert (c <> 60) by (intros ->; apply Hc1; right; left; reflexivity). replace (c =? 38) with false by lia. replace (c =? 60) with false by lia. reflexivity.
  - apply (yields_prefix _ _ _ _ _ _ _ _ _ RD); auto.
    + apply halts_cons; unfold lit; rewrite ?Hc, ?orb_true_r; [reflexivity|]. intros ->. discriminate Hc.
    + change (c :: cs) with ([c] ++ cs). apply yields_step; [apply (goes_space _ _ _ _ _ _ _ _ _ RD); auto|].
      rewrite <- (prepend_nil o). inversion Hdc; subst. eapply (IH t e enc dom s []); eauto. constructor.
  - apply (yields_prefix _ _ _ _ _ _ _ _ _ RD); auto; [split; [reflexivity|discriminate]|].
    change (13 :: 10 :: cs) with ([13; 10] ++ cs). apply yields_step; [apply (goes_crlf _ _ _ _ _ _ _ _ _ RD); auto|].
    rewrite <- (prepend_nil o). inversion Hdc as [|? ? ? Hdc2]; inversion Hdc2; subst. eapply (IH t e enc dom s []); eauto. constructor.
  - apply (yields_prefix _ _ _ _ _ _ _ _ _ RD); auto; [split; [reflexivity|discriminate]|].
    change (13 :: cs) with ([13] ++ cs). apply yields_step; [apply (goes_cr _ _ _ _ _ _ _ _ _ RD); auto|].
    rewrite <- (prepend_nil o). inversion Hdc; subst. eapply (IH t e enc dom s []); eauto. constructor.
  - apply (yields_prefix _ _ _ _ _ _ _ _ _ RD); auto; [split; [reflexivity|discriminate]|].
    replace (txt "&#" ++ ds ++ txt ";" ++ cs) with ((txt "&#" ++ ds ++ txt ";") ++ cs) by (rewrite <- !app_assoc; reflexivity).
    apply yields_step; [apply (goes_charref _ _ _ _ _ _ _ _ _ RD); auto|].
    rewrite <- (prepend_nil o). apply Forall_app in Hdc as [_ Hdc]. apply Forall_app in Hdc as [_ Hdc]. apply Forall_app in Hdc as [_ Hdc].
    eapply (IH t e enc dom s []); eauto. constructor.
  - apply (yields_prefix _ _ _ _ _ _ _ _ _ RD); auto; [split; [reflexivity|discriminate]|].
    replace (txt "&#x" ++ ds ++ txt ";" ++ cs) with ((txt "&#x" ++ ds ++ txt ";") ++ cs) by (rewrite <- !app_assoc; reflexivity).
    apply yields_step; [apply (goes_charref _ _ _ _ _ _ _ _ _ RD); auto|].
    rewrite <- (prepend_nil o). apply Forall_app in Hdc as [_ Hdc]. apply Forall_app in Hdc as [_ Hdc]. apply Forall_app in Hdc as [_ Hdc].
    eapply (IH t e enc dom s []); eauto. constructor.
  - apply (yields_prefix _ _ _ _ _ _ _ _ _ RD); auto; [split; [reflexivity|discriminate]|].
    replace (txt "&" ++ n ++ txt ";" ++ cs) with (written n ++ cs) in * by (unfold written; rewrite <- !app_assoc; reflexivity).
    apply yields_step; [eapply (goes_predefined _ _ _ _ _ _ _ _ _ RD); eauto|].
    rewrite <- (prepend_nil o). apply Forall_app in Hdc as [_ Hdc]. eapply (IH t e enc dom s []); eauto. constructor.
  - apply (yields_prefix _ _ _ _ _ _ _ _ _ RD); auto; [split; [reflexivity|discriminate]|].
    replace (txt "&" ++ n ++ txt ";" ++ cs) with (written n ++ cs) in * by (unfold written; rewrite <- !app_assoc; reflexivity).
    intros acc. rewrite <- Hg in Hl.
    assert (Y1 : yields prolog cdata utf8_encode EInternal text acc (opening (utf8 n) x s) (Value v)).
    { eapply (IH1 EInternal _ _ _ _ []); [apply inner_reader| | | | |exact Hsc|constructor].
      - unfold reads, encoding, opening. change (s_cfg (set_dtd ?a s)) with (s_cfg s). rewrite Hns. reflexivity.
      - exact Hns.
      - unfold opening. change (s_dtd (set_dtd ?a s)) with a. rewrite Hg. reflexivity.
      - exact Hst. }
    assert (Y2 : yields prolog cdata enc t cs (adds cdata acc v) s o).
    { rewrite <- (prepend_nil o). apply Forall_app in Hdc as [_ Hdc]. eapply (IH t e enc dom s []); eauto. constructor. }
    destruct Y1 as (n1 & Y1). destruct Y2 as (n2 & Y2). exists (S (Nat.max n1 n2)). intros [|fuel] Hf; [lia|].
    specialize (Y1 fuel ltac:(lia)). specialize (Y2 fuel ltac:(lia)). cbv beta iota in Y1.
    rewrite (entity_eq _ _ _ _ _ _ _ _ _ RD n cs s fuel acc Hr Hdc Hn Hp). rewrite Hl, Hst.
    replace (strict && negb (e_is_internal x)) with false by (destruct strict; [rewrite Hs by reflexivity|]; reflexivity).
    rewrite Ho, Hno, Htx. unfold utf8 at 2. unfold utf8 in Y1. 
    assert (E : forall A (k : P A), (upd_entity (false, utf8 n) (set_e_open false) ;;; k) (opening (utf8 n) x s) = k s).
    { intros A k. exact (then_ret _ _ _ _ (reclose _ _ _ Hl Ho)). }
    destruct o as [v2|y]; cbn [prepend].
    + unfold utf8 in *. rewrite Y1. rewrite E, Y2. rewrite adds_app. reflexivity.
    + unfold utf8 in *. rewrite Y1. rewrite E. exact Y2.
  - apply (yields_prefix _ _ _ _ _ _ _ _ _ RD); auto; [split; [reflexivity|discriminate]|].
    replace (txt "&" ++ n ++ txt ";" ++ cs) with (written n ++ cs) in * by (unfold written; rewrite <- !app_assoc; reflexivity).
    intros acc. rewrite <- Hg in Hl.
    assert (Y2 : yields prolog cdata enc t cs acc s o).
    { rewrite <- (prepend_nil o). apply Forall_app in Hdc as [_ Hdc]. eapply (IH t e enc dom s []); eauto. constructor. }
    destruct Y2 as (n2 & Y2). exists (S n2). intros [|fuel] Hf; [lia|]. specialize (Y2 fuel ltac:(lia)).
    rewrite (entity_eq _ _ _ _ _ _ _ _ _ RD n cs s fuel acc Hr Hdc Hn Hp). rewrite Hl, Hst, Hs. exact Y2.
  - intros acc. cbn [prepend]. apply (fails_less _ _ _ _ _ _ _ _ _ RD); auto.
  - apply (yields_prefix _ _ _ _ _ _ _ _ _ RD); auto; [split; [reflexivity|discriminate]|].
    intros acc. apply (fails_stray _ _ _ _ _ _ _ _ _ RD); auto.
  - apply (yields_prefix _ _ _ _ _ _ _ _ _ RD); auto; [split; [reflexivity|discriminate]|].
    intros acc. eapply (fails_charref _ _ _ _ _ _ _ _ _ RD); eauto.
  - apply (yields_prefix _ _ _ _ _ _ _ _ _ RD); auto; [split; [reflexivity|discriminate]|].
    intros acc. eapply (fails_charref _ _ _ _ _ _ _ _ _ RD); eauto.
  - apply (yields_prefix _ _ _ _ _ _ _ _ _ RD); auto; [split; [reflexivity|discriminate]|].
    replace (txt "&" ++ n ++ txt ";" ++ cs) with (written n ++ cs) in * by (unfold written; rewrite <- !app_assoc; reflexivity).
    intros acc. rewrite <- Hg in Hl. exists 1%nat. intros [|fuel] Hf; [lia|].
    rewrite (entity_eq _ _ _ _ _ _ _ _ _ RD n cs s fuel acc Hr Hdc Hn Hp). rewrite Hl, Hst, Hs. eauto.
  - apply (yields_prefix _ _ _ _ _ _ _ _ _ RD); auto; [split; [reflexivity|discriminate]|].
    replace (txt "&" ++ n ++ txt ";" ++ cs) with (written n ++ cs) in * by (unfold written; rewrite <- !app_assoc; reflexivity).
    intros acc. rewrite <- Hg in Hl. exists 1%nat. intros [|fuel] Hf; [lia|].
    rewrite (entity_eq _ _ _ _ _ _ _ _ _ RD n cs s fuel acc Hr Hdc Hn Hp). rewrite Hl, Hst, Hs, Hi. cbn [negb andb]. eauto.
  - apply (yields_prefix _ _ _ _ _ _ _ _ _ RD); auto; [split; [reflexivity|discriminate]|].
    replace (txt "&" ++ n ++ txt ";" ++ cs) with (written n ++ cs) in * by (unfold written; rewrite <- !app_assoc; reflexivity).
    intros acc. rewrite <- Hg in Hl. exists 1%nat. intros [|fuel] Hf; [lia|].
    rewrite (entity_eq _ _ _ _ _ _ _ _ _ RD n cs s fuel acc Hr Hdc Hn Hp). rewrite Hl, Hst.
    replace (strict && negb (e_is_internal x)) with false by (destruct strict; [rewrite Hs by reflexivity|]; reflexivity).
    rewrite Ho. unfold pbind, set_event, pret, upd, fail. destruct (is_internal t); eauto.
  - apply (yields_prefix _ _ _ _ _ _ _ _ _ RD); auto; [split; [reflexivity|discriminate]|].
    replace (txt "&" ++ n ++ txt ";" ++ cs) with (written n ++ cs) in * by (unfold written; rewrite <- !app_assoc; reflexivity).
    intros acc. rewrite <- Hg in Hl. exists 1%nat. intros [|fuel] Hf; [lia|].
    rewrite (entity_eq _ _ _ _ _ _ _ _ _ RD n cs s fuel acc Hr Hdc Hn Hp). rewrite Hl, Hst.
    replace (strict && negb (e_is_internal x)) with false by (destruct strict; [rewrite Hs by reflexivity|]; reflexivity).
    rewrite Ho. destruct (e_notation x); [|congruence]. unfold pbind, set_event, pret, upd, fail. destruct (is_internal t); eauto.
  - apply (yields_prefix _ _ _ _ _ _ _ _ _ RD); auto; [split; [reflexivity|discriminate]|].
    replace (txt "&" ++ n ++ txt ";" ++ cs) with (written n ++ cs) in * by (unfold written; rewrite <- !app_assoc; reflexivity).
    intros acc. rewrite <- Hg in Hl. exists 1%nat. intros [|fuel] Hf; [lia|].
    rewrite (entity_eq _ _ _ _ _ _ _ _ _ RD n cs s fuel acc Hr Hdc Hn Hp). rewrite Hl, Hst.
    replace (strict && negb (e_is_internal x)) with false by (destruct strict; [rewrite Hs by reflexivity|]; reflexivity).
    rewrite Ho, Hno, Htx. unfold pbind, set_event, pret, upd, fail. destruct (is_internal t); eauto.
  - apply (yields_prefix _ _ _ _ _ _ _ _ _ RD); auto; [split; [reflexivity|discriminate]|].
    replace (txt "&" ++ n ++ txt ";" ++ cs) with (written n ++ cs) in * by (unfold written; rewrite <- !app_assoc; reflexivity).
    intros acc. rewrite <- Hg in Hl.
    assert (Y1 : yields prolog cdata utf8_encode EInternal text acc (opening (utf8 n) x s) (Error y)).
    { eapply (IH1 EInternal _ _ _ _ []); [apply inner_reader| | | | |exact Hsc|constructor].
      - unfold reads, encoding, opening. change (s_cfg (set_dtd ?a s)) with (s_cfg s). rewrite Hns. reflexivity.
      - exact Hns.
      - unfold opening. change (s_dtd (set_dtd ?a s)) with a. rewrite Hg. reflexivity.
      - exact Hst. }
    destruct Y1 as (n1 & Y1). exists (S n1). intros [|fuel] Hf; [lia|]. specialize (Y1 fuel ltac:(lia)). cbv beta iota in Y1. destruct Y1 as (s1 & Y1).
    rewrite (entity_eq _ _ _ _ _ _ _ _ _ RD n cs s fuel acc Hr Hdc Hn Hp). rewrite Hl, Hst.
    replace (strict && negb (e_is_internal x)) with false by (destruct strict; [rewrite Hs by reflexivity|]; reflexivity).
    rewrite Ho, Hno, Htx. unfold utf8 in *. rewrite Y1. unfold pbind, upd_entity, upd_dtd, upd, fail. eauto.
Qed.
