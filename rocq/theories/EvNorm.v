(* The replacement text of an entity as storeEntityValue computes it. *)
From Coq Require Import String List NArith ZArith Bool Lia Arith.
From Coq Require Import ZifyBool ZifyNat ZifyN.
From Verif Require Import Base Tables Encoding SpecText SpecUnicode SpecNames SpecLex SpecMisc EncLaws Tok TokMisc TokWp TokSafe UniLaws UniConv SpecConv Charset CharsetLaws Sim SimTop TextEnc CpBase CpComment CpTag CpMisc CpNames MiscTop DeclFinal AttCp Status State AttVal SpecAttVal CtxLaws AttNorm SpecEntVal EvCp.
From Coq Require Import List.
Import ListNotations.
Local Open Scope N_scope.

Lemma entval_wrong ns h lat inner al g cs o : entval ns h lat inner al g cs o -> o <> Wrong XE_NONE.
Proof.
  induction 1 as [| | | | | | |? ? ? ? ? ? ? b ? o ? ? ? ? ? ? ? ? ? IHo|?|? ? ? ? ? ? o ? ? ? ? ? ? IHo|?|?|?|?|?|?|?|?]; try discriminate; auto;
    try (destruct o; cbn in *; congruence); try congruence.
  - destruct b, o; cbn in *; congruence.
Qed.
Lemma wt_nil s : with_text [] true s = s.
Proof. unfold with_text. cbn [utf8 flat_map]. rewrite app_nil_r. destruct s, s_dtd. reflexivity. Qed.
Lemma wt_wt a b r1 r2 s : with_text b r2 (with_text a r1 s) = with_text (a ++ b) (r1 && r2) s.
Proof.
  unfold with_text. change (s_dtd (set_dtd ?x s)) with x. rewrite utf8_app.
change (set_dtd ?a (set_dtd ?b ?x)) with (set_dtd a x). f_equal. generalize (s_dtd s). clear s. intros d.
  change (d_ev (set_d_ev ?a ?b)) with a. rewrite app_assoc. destruct r1, r2; reflexivity.
Qed.
Definition vopening (n : bytes) (x : entity) (s : st) : st := set_dtd (set_d_pents (put n (set_e_open true x) (d_pents (s_dtd s))) (s_dtd s)) s.
Lemma vreclose n x v b s : look n (d_pents (s_dtd s)) = Some x -> e_open x = false ->
  upd_entity (true, n) (set_e_open false) (with_text v b (vopening n x s)) = Ret tt (with_text v b s).
Proof.
  intros Hl Ho. unfold upd_entity, upd_dtd, upd, look_entity, put_entity, vopening, with_text. cbn [fst snd entity_table].
  assert (Hp : put n (set_e_open false (set_e_open true x)) (put n (set_e_open true x) (d_pents (s_dtd s))) = d_pents (s_dtd s)).
  { rewrite put_put, reopen by exact Ho. apply put_same, Hl. }
  destruct b;
  (match goal with |- context [look n ?Y] => change Y with (put n (set_e_open true x) (d_pents (s_dtd s))) end;
   rewrite look_put, Nest.beqb_refl;
   match goal with |- context [put n (set_e_open false ?z) ?Y] => change Y with (put n (set_e_open true x) (d_pents (s_dtd s))) end;
   rewrite Hp; f_equal; destruct s, s_dtd; reflexivity).
Qed.

Record vreader (e : EncImpl) (enc : N -> bytes) (dom : N -> bool) (lat ns inner : bool) : Prop := {
  vr_rd : reader e enc dom lat ns inner;
  vr_cls : exists k, charset e enc dom k /\ evcls lat ns inner dom k }.
Lemma te_vreader e enc dom lat ns : text_encoding e enc dom lat ns -> vreader e enc dom lat ns false.
Proof.
  intros TE. constructor; [now apply te_reader|]. destruct (text_encoding_std _ _ _ _ _ TE) as (k & CS & ST). exists k. split; auto. now apply std_evcls.
Qed.
Lemma inner_vreader ns : vreader (inner_enc ns) utf8_encode is_scalar false ns true.
Proof.
  constructor; [apply inner_reader|]. exists (table_cls (inner_types ns) 128). split; [|apply inner_evcls].
  destruct ns; apply utf8_charset; unfold utf8_types; auto.
Qed.

Ltac veq := change (tok_eqb T_DATA_NEWLINE T_TRAILING_CR) with false; change (tok_eqb T_TRAILING_CR T_TRAILING_CR) with true; cbv beta iota.
Section Run.
Variable ext : option bytes -> option bytes -> option bytes -> option bytes -> P bool.
Variables (e : EncImpl) (enc : N -> bytes) (dom : N -> bool) (lat ns inner : bool) (t : enctype).
Hypothesis VR : vreader e enc dom lat ns inner.
Notation RD := (vr_rd _ _ _ _ _ _ VR).
Notation T := (flat_map enc).
Notation ev := (entity_value ext).

Definition vyields (cs : list N) (s : st) (o : entity_text) : Prop :=
  exists n0, forall fuel, (n0 <= fuel)%nat ->
  match o with
  | Text v b => ev fuel t (T cs) s = Ret XE_NONE (with_text v b s)
  | Wrong x => exists s', ev fuel t (T cs) s = Ret x s'
  end.
Lemma reads_dtd d s : reads e t s -> reads e t (set_dtd d s).
Proof. unfold reads, encoding. destruct t; intros H; injection H as H; rewrite <- H; reflexivity. Qed.
Lemma reads_wt v b s : reads e t s -> reads e t (with_text v b s). Proof. apply reads_dtd. Qed.

Lemma vtok_some cs x n : all_in dom cs -> (forall k, charset e enc dom k -> evcls lat ns inner dom k -> entityValueTok (cp_enc k) cs = Ok (x, Some n)) ->
  entityValueTok e (T cs) = Ok (x, Some (length (T (firstn n cs)))).
Proof. intros Hd H. destruct (vr_cls _ _ _ _ _ _ VR) as (k & CS & VC). pose proof (entityValueTok_sim _ _ _ _ CS cs Hd) as K. rewrite (H k CS VC) in K. exact K. Qed.
Lemma vtok_none cs x : all_in dom cs -> (forall k, charset e enc dom k -> evcls lat ns inner dom k -> entityValueTok (cp_enc k) cs = Ok (x, None)) ->
  entityValueTok e (T cs) = Ok (x, None).
Proof. intros Hd H. destruct (vr_cls _ _ _ _ _ _ VR) as (k & CS & VC). pose proof (entityValueTok_sim _ _ _ _ CS cs Hd) as K. rewrite (H k CS VC) in K. destruct K as [K|(K & _)]; [exact K|discriminate]. Qed.

(* a token that contributes [v] *)
Definition vgoes (p v : list N) (b : bool) (cs : list N) (s : st) : Prop :=
  forall fuel, ev (S fuel) t (T (p ++ cs)) s = ev fuel t (T cs) (with_text v b s).
Lemma vyields_step p v b cs s o : vgoes p v b cs s -> vyields cs (with_text v b s) o -> vyields (p ++ cs) s (onto v (after_read b o)).
Proof.
  intros G (n0 & H). exists (S n0). intros [|fuel] Hf; [lia|]. specialize (H fuel ltac:(lia)). rewrite G.
  destruct o as [w b2|x]; [|destruct b; exact H]. rewrite H. rewrite wt_wt. destruct b; cbn [after_read unread onto andb]; reflexivity.
Qed.
Lemma append_text p s : append_ev (utf8 p) s = Ret tt (with_text p true s). Proof. reflexivity. Qed.
Lemma vstep_run p cs s : reads e t s -> all_in dom (p ++ cs) -> all_in (vlit inner) p -> p <> [] -> vhalts inner cs -> vgoes p p true cs s.
Proof.
  intros Hr Hd Hl Hn Hh fuel. cbn [entity_value]. unfold pbind at 1. rewrite Hr.
  rewrite (vtok_some (p ++ cs) T_DATA_CHARS (length p)) by (auto; intros; eapply vtok_run; eauto).
  rewrite firstn_app_len. cbn [lift pbind need pret]. rewrite flat_map_app, firstn_app_len.
  apply Forall_app in Hd as [Hd1 Hd2]. unfold lift. rewrite (rd_conv _ _ _ _ _ _ RD) by auto.
  unfold pbind at 1. unfold pbind at 1. rewrite append_text. unfold pbind. rewrite <- flat_map_app. rewrite inc_T. reflexivity.
Qed.
Lemma vyields_prefix p cs s o : reads e t s -> all_in dom (p ++ cs) -> all_in (vlit inner) p -> vhalts inner cs ->
  vyields cs (with_text p true s) o -> vyields (p ++ cs) s (onto p o).
Proof.
  intros Hr Hd Hl Hh H. destruct p as [|c p]; [rewrite wt_nil in H; destruct o; exact H|].
  change (onto (c :: p) o) with (onto (c :: p) (after_read true o)). apply vyields_step; [|exact H]. apply vstep_run; auto. discriminate.
Qed.
Lemma vyields_nil s : reads e t s -> vyields [] s (Text [] true).
Proof.
  intros Hr. exists 1%nat. intros [|fuel] Hf; [lia|]. cbn [entity_value]. unfold pbind at 1. rewrite Hr.
  change (entityValueTok e (T [])) with (Ok (T_NONE, @None nat)). rewrite wt_nil. reflexivity.
Qed.
Lemma vgoes_lf cs s : reads e t s -> all_in dom (10 :: cs) -> vgoes [10] [10] true cs s.
Proof.
  intros Hr Hd fuel. cbn [entity_value]. unfold pbind at 1. rewrite Hr. change ([10] ++ cs) with (10 :: cs).
  rewrite (vtok_some (10 :: cs) T_DATA_NEWLINE 1) by (auto; intros k CS VC; apply (vtok_lf _ _ _ _ _ VC); inversion Hd; auto).
  unfold lift at 1, pbind at 1, need, pret; veq. unfold pbind at 1; veq. unfold pbind at 1. change [10] with (utf8 [10]) at 1. rewrite append_text.
  change (firstn 1 (10 :: cs)) with [10]. change (T (10 :: cs)) with (T ([10] ++ cs)). unfold pbind. rewrite inc_T. reflexivity.
Qed.
Lemma vgoes_crlf cs s : reads e t s -> inner = false -> all_in dom (13 :: 10 :: cs) -> vgoes [13; 10] [10] true cs s.
Proof.
  intros Hr Hi Hd fuel. cbn [entity_value]. unfold pbind at 1. rewrite Hr. change ([13; 10] ++ cs) with (13 :: 10 :: cs).
  rewrite (vtok_some (13 :: 10 :: cs) T_DATA_NEWLINE 2).
  - unfold lift at 1, pbind at 1, need, pret; veq. unfold pbind at 1; veq. unfold pbind at 1. change [10] with (utf8 [10]) at 1. rewrite append_text.
    change (firstn 2 (13 :: 10 :: cs)) with [13; 10]. change (T (13 :: 10 :: cs)) with (T ([13; 10] ++ cs)). unfold pbind. rewrite inc_T. reflexivity.
  - exact Hd.
  - intros k CS VC. apply (vtok_crlf _ _ _ _ _ VC); auto; apply (rd_ascii _ _ _ _ _ _ RD); reflexivity.
Qed.
Lemma vgoes_cr cs s : reads e t s -> inner = false -> all_in dom (13 :: cs) -> ~ (exists q, cs = 10 :: q) -> vgoes [13] [10] true cs s.
Proof.
  intros Hr Hi Hd Hn fuel. cbn [entity_value]. unfold pbind at 1. rewrite Hr. change ([13] ++ cs) with (13 :: cs).
  assert (K : forall k, charset e enc dom k -> evcls lat ns inner dom k -> entityValueTok (cp_enc k) (13 :: cs) = match cs with [] => Ok (T_TRAILING_CR, None) | _ => Ok (T_DATA_NEWLINE, Some 1%nat) end).
  { intros k CS VC. apply (vtok_cr _ _ _ _ _ VC); auto. }
  destruct cs as [|d cs].
  - rewrite (vtok_none [13] T_TRAILING_CR) by auto. unfold lift at 1, pbind at 1, need, pret; veq. unfold pbind at 1; veq. unfold pbind at 1. change [10] with (utf8 [10]) at 1. rewrite append_text.
    destruct (vr_cls _ _ _ _ _ _ VR) as (k & CS & VC).
    replace (minbpc e) with (length (T [13])) by (cbn [flat_map]; rewrite app_nil_r; apply (ch_narrow_len _ _ _ _ CS); reflexivity).
    change (T [13]) with (T ([13] ++ [])) at 2. unfold pbind. rewrite inc_T. reflexivity.
  - rewrite (vtok_some (13 :: d :: cs) T_DATA_NEWLINE 1) by auto. unfold lift at 1, pbind at 1, need, pret; veq. unfold pbind at 1; veq. unfold pbind at 1. change [10] with (utf8 [10]) at 1. rewrite append_text.
    change (firstn 1 (13 :: d :: cs)) with [13]. change (T (13 :: d :: cs)) with (T ([13] ++ d :: cs)). unfold pbind. rewrite inc_T. reflexivity.
Qed.
Lemma vcharref_tok p ds cs : all_in dom (txt p ++ ds ++ txt ";" ++ cs) -> ds <> [] ->
  p = "&#"%string /\ all_in is_digit ds \/ p = "&#x"%string /\ all_in is_hex ds ->
  entityValueTok e (T (txt p ++ ds ++ txt ";" ++ cs)) = Ok (T_CHAR_REF, Some (length (T (txt p ++ ds ++ txt ";")))).
Proof.
  intros Hd Hn H. rewrite (vtok_some _ T_CHAR_REF (length (txt p ++ ds ++ txt ";"))).
  - replace (txt p ++ ds ++ txt ";" ++ cs) with ((txt p ++ ds ++ txt ";") ++ cs) by (rewrite <- !app_assoc; reflexivity). rewrite firstn_app_len. reflexivity.
  - exact Hd.
  - intros k CS VC. rewrite <- (tok_charref _ _ _ _ _ (vc_att _ _ _ _ _ VC) ds p cs Hd Hn H). destruct H as [[-> _]|[-> _]]; apply (vtok_ref _ _ _ _ _ VC); exact Hd.
Qed.
Lemma vgoes_charref p ds cs v s : reads e t s -> all_in dom (txt p ++ ds ++ txt ";" ++ cs) -> ds <> [] ->
  p = "&#"%string /\ all_in is_digit ds /\ v = dec_value ds \/ p = "&#x"%string /\ all_in is_hex ds /\ v = hex_value ds ->
  is_xml_char v = true -> vgoes (txt p ++ ds ++ txt ";") [v] true cs s.
Proof.
  intros Hr Hd Hn H Hx fuel. rewrite <- !app_assoc. cbn [entity_value]. unfold pbind at 1. rewrite Hr.
  rewrite vcharref_tok by (auto; tauto). unfold lift at 1, pbind at 1. unfold lift at 1, pbind at 1. rewrite (charref_num _ _ _ _ _ _ RD p ds cs v) by auto. rewrite Hx.
  replace (Z.of_N v <? 0)%Z with false by lia. unfold need, pret, pbind at 1. unfold pbind at 1.
  rewrite XmlUtf8Encode_spec by (unfold is_xml_char in Hx; lia). rewrite N2Z.id || idtac.
  replace (utf8_encode v) with (utf8 [v]) by (cbn [utf8 flat_map]; apply app_nil_r). rewrite append_text. unfold pbind.
  replace (txt p ++ ds ++ txt ";" ++ cs) with ((txt p ++ ds ++ txt ";") ++ cs) by (rewrite <- !app_assoc; reflexivity). rewrite inc_T. reflexivity.
Qed.
Lemma vfails_charref p ds cs v s : reads e t s -> all_in dom (txt p ++ ds ++ txt ";" ++ cs) -> ds <> [] ->
  p = "&#"%string /\ all_in is_digit ds /\ v = dec_value ds \/ p = "&#x"%string /\ all_in is_hex ds /\ v = hex_value ds ->
  is_xml_char v = false -> vyields (txt p ++ ds ++ txt ";" ++ cs) s (Wrong XE_BAD_CHAR_REF).
Proof.
  intros Hr Hd Hn H Hx. exists 1%nat. intros [|fuel] Hf; [lia|]. cbn [entity_value]. unfold pbind at 1. rewrite Hr.
  rewrite vcharref_tok by (auto; tauto). unfold lift, pbind, need, pret. rewrite (charref_num _ _ _ _ _ _ RD p ds cs v) by auto. rewrite Hx. cbn [Z.ltb Z.compare].
  unfold set_event, fail, pret, upd. destruct (is_internal t); eauto.
Qed.
Lemma vgoes_general n cs s : reads e t s -> all_in dom (written n ++ cs) -> is_name lat ns n -> vgoes (written n) (written n) true cs s.
Proof.
  intros Hr Hd Hn fuel. cbn [entity_value]. unfold pbind at 1. rewrite Hr.
  rewrite (vtok_some _ T_ENTITY_REF (length (written n))).
  - rewrite firstn_app_len. unfold lift at 1, pbind at 1, need, pret, pbind at 1. unfold pbind at 1. rewrite flat_map_app, firstn_app_len.
    apply Forall_app in Hd as [Hd1 Hd2]. unfold lift at 1. rewrite (rd_conv _ _ _ _ _ _ RD) by auto. unfold pbind at 1. rewrite append_text. unfold pbind. rewrite <- flat_map_app, inc_T. reflexivity.
  - exact Hd.
  - intros k CS VC. unfold written in *. rewrite <- !app_assoc in *. rewrite <- (tok_entity _ _ _ _ _ (vc_att _ _ _ _ _ VC) n cs Hd Hn). apply (vtok_ref _ _ _ _ _ VC). exact Hd.
Qed.
Lemma vfails_token cs s x : reads e t s -> all_in dom cs ->
  (forall k, evcls lat ns inner dom k -> (exists n, entityValueTok (cp_enc k) cs = Ok (T_INVALID, Some n)) \/ entityValueTok (cp_enc k) cs = Ok (T_PARTIAL, None)) ->
  x = XE_INVALID_TOKEN -> vyields cs s (Wrong x).
Proof.
  intros Hr Hd H ->. exists 1%nat. intros [|fuel] Hf; [lia|]. cbn [entity_value]. unfold pbind at 1. rewrite Hr.
  destruct (vr_cls _ _ _ _ _ _ VR) as (k & CS & VC). pose proof (entityValueTok_sim _ _ _ _ CS _ Hd) as K.
  destruct (H k VC) as [(n & En)|En]; rewrite En in K.
  - rewrite K. unfold at_char, lift, pbind, set_event_opt, pret, fail, upd, inc, lift. destruct (is_internal t); [eauto|].
    rewrite inc_cut. eexists; reflexivity.
  - destruct K as [K|(K & _)]; [|discriminate]. rewrite K. unfold lift, pbind, set_event, pret, fail, upd. destruct (is_internal t); eauto.
Qed.

(* references to parameter entities *)
Definition pwritten (n : list N) : list N := txt "%" ++ n ++ txt ";".
Lemma pname_of n cs s : ref_name e (T (pwritten n ++ cs)) (length (T (pwritten n))) s = Ret (T n) s.
Proof.
  destruct (vr_cls _ _ _ _ _ _ VR) as (k & CS & VC). unfold ref_name, pwritten.
  assert (L1 : length (T (txt "%")) = minbpc e) by (change (txt "%") with [37]; cbn [flat_map]; rewrite app_nil_r; apply (ch_narrow_len _ _ _ _ CS); reflexivity).
  assert (L2 : length (T (txt ";")) = minbpc e) by (change (txt ";") with [59]; cbn [flat_map]; rewrite app_nil_r; apply (ch_narrow_len _ _ _ _ CS); reflexivity).
  rewrite (flat_map_app _ (txt "%" ++ n ++ txt ";") cs), firstn_app_len. unfold pbind, inc, lift. rewrite flat_map_app. rewrite <- L1, inc_start_app_len.
  unfold dec. rewrite flat_map_app, app_length, L1, L2. replace (minbpc e <=? length (T n) + minbpc e)%nat with true by lia.
  replace (length (T n) + minbpc e - minbpc e)%nat with (length (T n)) by lia. rewrite firstn_app_len. reflexivity.
Qed.
Lemma ptok n cs : all_in dom (pwritten n ++ cs) -> is_name lat ns n ->
  entityValueTok e (T (pwritten n ++ cs)) = Ok (T_PARAM_ENTITY_REF, Some (length (T (pwritten n)))).
Proof.
  intros Hd Hn. rewrite (vtok_some _ T_PARAM_ENTITY_REF (length (pwritten n))).
  - rewrite firstn_app_len. reflexivity.
  - exact Hd.
  - intros k CS VC. unfold pwritten in *. rewrite <- !app_assoc in *. apply (vtok_parameter _ _ _ _ _ VC); auto.
Qed.
Lemma param_eq n cs s fuel : reads e t s -> all_in dom (pwritten n ++ cs) -> is_name lat ns n -> h_external (c_h (s_cfg s)) = false \/ (forall x, look (utf8 n) (d_pents (s_dtd s)) = Some x -> e_open x = false -> e_sys x = None) ->
  ev (S fuel) t (T (pwritten n ++ cs)) s =
  if s_isParam s || is_internal t then
    match look (utf8 n) (d_pents (s_dtd s)) with
    | None => Ret XE_NONE (with_text [] false s)
    | Some x =>
        if e_open x then (set_event t (T (pwritten n ++ cs)) ;;; pret XE_RECURSIVE_ENTITY_REF) s
        else match e_sys x with
             | Some _ => ev fuel t (T cs) (with_text [] false s)
             | None =>
                 match ev fuel EInternal (match e_text x with Some b => b | None => [] end) (vopening (utf8 n) x s) with
                 | Ret y s1 => (upd_entity (true, utf8 n) (set_e_open false) ;;; match y with XE_NONE => ev fuel t (T cs) | _ => pret y end) s1
                 | Fail y s1 => Fail y s1
                 | Die y => Die y
                 end
             end
    end
  else Ret XE_PARAM_ENTITY_REF (set_ev (Some (length (T (pwritten n ++ cs)))) s).
Proof.
  intros Hr Hd Hn Hh. cbn [entity_value]. unfold pbind at 1. rewrite Hr. rewrite ptok by auto. unfold lift at 1, pbind at 1. unfold pbind at 1, get at 1.
  destruct (s_isParam s || is_internal t); [|reflexivity]. unfold need, pret at 1, pbind at 1. unfold pbind at 1. rewrite pname_of.
  assert (Hdn : all_in dom n) by (unfold pwritten in Hd; unfold all_in in *; rewrite !Forall_app in Hd; tauto).
  unfold pbind at 1. unfold lift at 1. rewrite (rd_conv _ _ _ _ _ _ RD) by auto. unfold pbind at 1, get at 1.
  assert (KS : forall A (k : P A), (upd_dtd (fun d => set_d_keep (d_standalone d) d) ;;; k) s = k (with_text [] false s)).
  { intros A kk. unfold pbind, upd_dtd, upd, with_text. cbn [utf8 flat_map]. rewrite app_nil_r. f_equal. }
  destruct (look (utf8 n) (d_pents (s_dtd s))) as [x|] eqn:El; [|rewrite KS; reflexivity].
  destruct (e_open x) eqn:Eo; [reflexivity|]. destruct (e_sys x) eqn:Es.
  - unfold pbind at 1, handler at 1, get at 1. destruct Hh as [Hh|Hh]; [|specialize (Hh x eq_refl Eo); congruence]. rewrite Hh. rewrite KS. unfold pbind. rewrite inc_T. reflexivity.
  - unfold upd_entity at 1, upd_dtd, upd. unfold pbind at 1. unfold look_entity, put_entity. cbn [snd fst entity_table]. rewrite El. fold (vopening (utf8 n) x s).
    unfold pbind at 1. destruct (ev fuel EInternal _ (vopening (utf8 n) x s)) as [y s1|y s1|y]; [|reflexivity|reflexivity].
    unfold pbind at 1. unfold pbind at 2. destruct (upd_entity _ _ s1) as [u s2|z s2|z]; [|reflexivity|reflexivity]. destruct y; try reflexivity. unfold pbind. rewrite inc_T. reflexivity.
Qed.
End Run.
