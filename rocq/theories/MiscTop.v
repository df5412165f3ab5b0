(* References, names, attributes, positions and public identifiers in the library's encodings. *)
From Coq Require Import String List NArith ZArith Bool Lia Arith.
From Coq Require Import ZifyBool ZifyNat ZifyN.
From Verif Require Import Base Tables Encoding SpecText SpecUnicode SpecNames SpecLex SpecMisc Tok TokMisc UniLaws Charset CharsetLaws TextEnc CpBase CpMisc CpAtts CpNames CpIgnore NameSweep Norm NormLaws CpContent CpUse.
Import ListNotations.
Local Open Scope N_scope.

Lemma Forall2_imp {A B} (P Q : A -> B -> Prop) l l' : (forall a b, P a b -> Q a b) -> Forall2 P l l' -> Forall2 Q l l'.
Proof. intros H. induction 1; constructor; auto. Qed.

Section TE.
Variables (e : EncImpl) (enc : N -> list N) (dom : N -> bool) (lat ns : bool).
Hypothesis TE : text_encoding e enc dom lat ns.

Lemma te_ascii_dom c : c < 128 -> dom c = true.
Proof. intros Hc. destruct TE as [| | | | | | | | | |? ? ? ? ? ? ? ? A ?]; try lia; try (unfold is_scalar; lia); try (unfold is_scalar_be, is_scalar; lia). now apply A. Qed.

Lemma te_charref_dec ds rest : ds <> [] -> all_in is_digit ds ->
  charRefNumber e (flat_map enc (txt "&#" ++ ds ++ txt ";") ++ rest) = Ok (if is_xml_char (dec_value ds) then Z.of_N (dec_value ds) else -1)%Z.
Proof.
  destruct (text_encoding_std _ _ _ _ _ TE) as (k & CS & ST). intros. eapply (charref_dec _ _ _ _ CS); eauto using te_ascii_dom.
Qed.
Lemma te_charref_hex ds rest : ds <> [] -> all_in is_hex ds ->
  charRefNumber e (flat_map enc (txt "&#x" ++ ds ++ txt ";") ++ rest) = Ok (if is_xml_char (hex_value ds) then Z.of_N (hex_value ds) else -1)%Z.
Proof.
  destruct (text_encoding_std _ _ _ _ _ TE) as (k & CS & ST). intros. eapply (charref_hex _ _ _ _ CS); eauto using te_ascii_dom.
Qed.
Lemma te_position cs p : all_in dom cs -> pos_line p < 2 ^ 64 -> pos_col p < 2 ^ 64 ->
  updatePosition e (flat_map enc cs) p =
  Ok {| pos_line := (pos_line p + line_ends cs) mod 2 ^ 64;
        pos_col := (if existsb is_eol cs then N.of_nat (length (last_line cs)) else pos_col p + N.of_nat (length cs)) mod 2 ^ 64 |}.
Proof.
  destruct (text_encoding_std _ _ _ _ _ TE) as (k & CS & ST). intros Hd H1 H2.
  rewrite (pos_exact _ _ _ _ CS te_ascii_dom); auto.
  - f_equal. now apply (pos_fn_spec (length cs)).
  - intros c Hc. assert (Dc : dom c = true) by now apply te_ascii_dom. split.
    + now apply (type_char_iff _ _ _ _ ST c BT_CR 13).
    + now apply (type_char_iff _ _ _ _ ST c BT_LF 10).
Qed.
Lemma line_ends_app a b : ~ ((exists a', a = a' ++ [13]) /\ exists b', b = 10 :: b') -> line_ends (a ++ b) = line_ends a + line_ends b.
Proof.
  assert (G : forall n a, (length a <= n)%nat -> ~ ((exists a', a = a' ++ [13]) /\ exists b', b = 10 :: b') -> line_ends (a ++ b) = line_ends a + line_ends b).
  2:{ apply (G (length a)). lia. }
  clear a. induction n as [n IH] using lt_wf_ind. intros a L H. destruct a as [|c r]; [reflexivity|]. cbn [length] in L.
  assert (Hr : forall r', r <> [] \/ r' <> [] -> (exists x, r = x ++ r') -> (length r' < n)%nat -> r' <> [] -> line_ends (r' ++ b) = line_ends r' + line_ends b).
  { intros r' _ (x & Ex) Lr Nr. apply (IH (length r')); auto. intros ((a' & Ea) & Hb). apply H. split; auto. exists (c :: x ++ a'). rewrite Ex, Ea. cbn. now rewrite <- app_assoc. }
  assert (Hr0 : line_ends (r ++ b) = line_ends r + line_ends b).
  { destruct r as [|d r]; [reflexivity|]. apply Hr; try (left; discriminate); try discriminate; [now exists []|lia]. }
  cbn [app line_ends]. destruct (c =? 10) eqn:E1; [rewrite Hr0; lia|]. destruct (c =? 13) eqn:E2; [|exact Hr0].
  destruct r as [|d r].
  - cbn [app] in *. destruct b as [|y b']; [reflexivity|]. destruct (y =? 10) eqn:E3; [|lia].
    exfalso. apply H. split; [exists []; cbn; f_equal; lia|]. exists b'. f_equal. lia.
  - cbn [app] in *. destruct (d =? 10) eqn:E3; [|rewrite Hr0; lia].
    destruct r as [|d2 r]; [cbn [app line_ends]; lia|]. rewrite Hr; [lia|now left|exists [d]; reflexivity|cbn in *; lia|discriminate].
Qed.
Lemma eol_app a b : existsb is_eol (a ++ b) = existsb is_eol a || existsb is_eol b. Proof. apply existsb_app. Qed.
Lemma last_line_app a b : last_line (a ++ b) = if existsb is_eol b then last_line b else if existsb is_eol a then last_line a ++ b else a ++ b.
Proof.
  induction a as [|c a IH]; cbn [app last_line existsb].
  - destruct (existsb is_eol b) eqn:E; auto. destruct b as [|c b]; auto. cbn [last_line existsb] in *. apply orb_false_iff in E as [E1 E2]. rewrite E1, E2. reflexivity.
  - rewrite eol_app. destruct (existsb is_eol b) eqn:E; [rewrite orb_true_r, IH; reflexivity|]. rewrite orb_false_r.
    destruct (existsb is_eol a) eqn:Ea; [rewrite orb_true_r, IH; reflexivity|]. rewrite orb_false_r. destruct (is_eol c); reflexivity.
Qed.
Lemma te_position_app a b p p1 : all_in dom a -> all_in dom b -> pos_line p < 2 ^ 64 -> pos_col p < 2 ^ 64 ->
  ~ ((exists a', a = a' ++ [13]) /\ exists b', b = 10 :: b') ->
  updatePosition e (flat_map enc a) p = Ok p1 ->
  updatePosition e (flat_map enc (a ++ b)) p = updatePosition e (flat_map enc b) p1.
Proof.
  intros Da Db H1 H2 Hs E. assert (Dab : all_in dom (a ++ b)) by (apply Forall_app; auto).
  rewrite te_position in E by auto. injection E as <-. rewrite !te_position; auto; cbn [pos_line pos_col]; try (apply N.mod_lt; discriminate).
  rewrite line_ends_app by auto. rewrite N.add_mod_idemp_l by discriminate. rewrite N.add_assoc. f_equal. f_equal.
  rewrite eol_app, last_line_app. destruct (existsb is_eol b); [now rewrite orb_true_r|]. rewrite orb_false_r. rewrite N.add_mod_idemp_l by discriminate.
  f_equal. destruct (existsb is_eol a); rewrite app_length; lia.
Qed.
Lemma te_predef cs x : all_in dom cs -> x <> 0 -> (predefinedEntityName e (flat_map enc cs) = Ok x <-> In (cs, x) predefined).
Proof.
  destruct (text_encoding_std _ _ _ _ _ TE) as (k & CS & ST). pose proof (text_unitary _ _ _ _ _ TE) as UN. intros Hd Hx. split.
  - intros E. destruct (whole _ _ _ _ CS te_ascii_dom cs Hd) as (j & L). destruct (predef_sound _ _ _ _ CS UN te_ascii_dom _ j L) as (y & Ey & H). rewrite Ey in E. injection E as ->.
    destruct (H Hx) as (w & I & Ew). rewrite (ascii_inj _ _ _ _ CS te_ascii_dom w cs); auto.
    clear -I. unfold predefined in I. cbn [In] in I. repeat (destruct I as [I|I]; [injection I as <- _; repeat (apply Forall_cons; [reflexivity|]); apply Forall_nil|]). destruct I.
  - intros I. clear -I TE. unfold predefined in I. cbn [In] in I.
    destruct TE as [| | | | | | | | | |? ? ? ? enc0 ? ? ? A ?].
    11:{ assert (F : forall w, forallb (fun c => c <? 128) w = true -> flat_map enc0 w = w).
        { induction w as [|c w IH]; [reflexivity|]. cbn. intros HH. apply andb_prop in HH as [HH1 HH2]. destruct (A c ltac:(lia)) as (_ & -> & _). cbn. now rewrite IH. }
        repeat (destruct I as [I|I]; [injection I as <- <-; rewrite F by reflexivity; vm_compute; reflexivity|]); destruct I. }
    all: repeat (destruct I as [I|I]; [injection I as <- <-; vm_compute; reflexivity|]); destruct I.
Qed.
Lemma te_predef_none cs : all_in dom cs -> (forall x, ~ In (cs, x) predefined) -> predefinedEntityName e (flat_map enc cs) = Ok 0.
Proof.
  destruct (text_encoding_std _ _ _ _ _ TE) as (k & CS & ST). pose proof (text_unitary _ _ _ _ _ TE) as UN. intros Hd Hn.
  destruct (whole _ _ _ _ CS te_ascii_dom cs Hd) as (j & L). destruct (predef_sound _ _ _ _ CS UN te_ascii_dom _ j L) as (y & Ey & _). rewrite Ey. f_equal.
  destruct (N.eq_dec y 0) as [|Hy]; auto. exfalso. apply (Hn y). now apply te_predef.
Qed.
Lemma te_pubid q cs : q = 34 \/ q = 39 -> all_in dom cs ->
  isPublicId e (flat_map enc (q :: cs ++ [q])) = Ok (if forallb pubid_char cs then None else Some (length (flat_map enc (q :: pub_good cs)))).
Proof.
  destruct (text_encoding_std _ _ _ _ _ TE) as (k & CS & ST). intros Hq Hd. apply (isPublicId_exact _ _ _ _ _ _ CS ST te_ascii_dom); auto. lia.
Qed.
Lemma te_getAtts name atts sp empty rest : tag_ok lat ns name atts sp -> all_in dom (tag_text name atts sp empty) ->
  exists l, getAtts e (flat_map enc (tag_text name atts sp empty) ++ rest) = Ok l /\
    Forall2 (fun a x => a_value x = flat_map enc (as_value a) /\ (a_normalized x = true <-> already_normal (as_value a)) /\
      exists r, a_name x = Some (flat_map enc (as_name a) ++ r) /\
        nameLength e (flat_map enc (as_name a) ++ r) = Ok (length (flat_map enc (as_name a)))) atts l.
Proof.
  destruct (text_encoding_std _ _ _ _ _ TE) as (k & CS & ST). intros Hok Hd. eexists. split.
  - eapply (getAtts_found _ _ _ _ _ _ CS ST te_ascii_dom); eauto.
  - destruct Hok as (_ & Ha & _). unfold tag_text, all_in in Hd. rewrite !Forall_app in Hd. destruct Hd as (_ & _ & Hd & _).
    eapply Forall2_imp; [|apply (founds_facts _ _ _ _ _ _ CS ST te_ascii_dom); eauto].
    intros a x (H1 & H2 & H3). split; auto. split; auto. rewrite H2. apply nf_normal.
Qed.
Lemma te_nameLength n c rest : is_qname lat ns n -> all_in dom n -> is_space c = true \/ In c (txt "=>/;?") ->
  nameLength e (flat_map enc (n ++ c :: rest)) = Ok (length (flat_map enc n)).
Proof.
  destruct (text_encoding_std _ _ _ _ _ TE) as (k & CS & ST). intros Hn Hd Hc. rewrite flat_map_app. cbn [flat_map].
  apply (nameLength_exact _ _ _ _ _ _ CS ST te_ascii_dom); auto. unfold name_end. destruct Hc as [Hc|Hc]; auto. right. cbn in Hc. lia.
Qed.
Lemma te_entity_ref cs n : all_in dom cs ->
  (contentTok e (flat_map enc cs) = Ok (T_ENTITY_REF, Some n) <->
   exists name rest, cs = txt "&" ++ name ++ txt ";" ++ rest /\ is_name lat ns name /\ n = length (flat_map enc (txt "&" ++ name ++ txt ";"))).
Proof.
  intros Hd. rewrite (contentTok_exact _ _ _ _ _ _ _ _ TE Hd) by discriminate. split.
  - intros (l & r & -> & H & ->). inversion H; subst; try (destruct atts, empty; discriminate).
    match goal with K : entity_ref _ _ _ |- _ => destruct K as (nm & Hn & ->) end. exists nm, r. rewrite <- !app_assoc. auto.
  - intros (nm & r & -> & Hn & ->). exists (txt "&" ++ nm ++ txt ";"), r. rewrite <- !app_assoc. split; auto. split; auto. constructor. now exists nm.
Qed.
Lemma not_semi : start_char lat ns 59 = false /\ name_char lat ns 59 = false.
Proof. split; destruct lat, ns; vm_compute; reflexivity. Qed.
Lemma te_name_start c : dom c = true ->
  ((exists n, contentTok e (flat_map enc [38; c; 59]) = Ok (T_ENTITY_REF, Some n)) <-> start_char lat ns c = true).
Proof.
  intros Hd. assert (D : all_in dom [38; c; 59]) by (repeat (apply Forall_cons; auto using te_ascii_dom); apply te_ascii_dom; reflexivity). destruct not_semi as [S1 S2]. split.
  - intros (n & E). apply te_entity_ref in E as (nm & r & E & (c0 & r0 & -> & Hs & _) & _); auto. cbn in E. injection E as -> _. exact Hs.
  - intros Hs. eexists. apply te_entity_ref; auto. exists [c], []. split; [reflexivity|]. split; [|reflexivity]. exists c, []. split; auto. split; auto. constructor.
Qed.
Lemma te_name_char c : dom c = true ->
  ((exists n, contentTok e (flat_map enc [38; 97; c; 59]) = Ok (T_ENTITY_REF, Some n)) <-> name_char lat ns c = true \/ c = 59).
Proof.
  intros Hd. assert (D : all_in dom [38; 97; c; 59]) by (repeat (apply Forall_cons; auto using te_ascii_dom); apply te_ascii_dom; reflexivity). destruct not_semi as [S1 S2].
  assert (Sa : start_char lat ns 97 = true) by (destruct lat, ns; vm_compute; reflexivity). split.
  - intros (n & E). apply te_entity_ref in E as (nm & r & E & (c0 & r0 & -> & Hs & Hr) & _); auto. cbn in E. injection E as _ E.
    destruct r0 as [|x r0]; [right; cbn in E; now injection E|]. cbn in E. injection E as -> _. left. now inversion Hr.
  - intros [Hs| ->]; eexists; apply te_entity_ref; auto.
    + exists [97; c], []. split; [reflexivity|]. split; [|reflexivity]. exists 97, [c]. split; auto. split; auto. constructor; auto.
    + exists [97], [59]. split; [reflexivity|]. split; [|reflexivity]. exists 97, []. split; auto. split; auto. constructor.
Qed.
End TE.

Lemma nozero_in s : ~ In 0 s -> nozero s.
Proof. unfold nozero. rewrite Forall_forall. intros H x Hx ->. auto. Qed.
Lemma normalizeLines_in s rest : ~ In 0 s ->
  exists a, normalizeLines (s ++ 0 :: rest) = Ok a /\ cstr a = norm_eol s /\ length a = length (s ++ 0 :: rest).
Proof. intros H. apply normalizeLines_spec. now apply nozero_in. Qed.
Lemma normalizePublicId_in s rest : ~ In 0 s ->
  exists a, normalizePublicId (s ++ 0 :: rest) = Ok a /\ cstr a = join (words s).
Proof. intros H. apply normalizePublicId_spec. now apply nozero_in. Qed.
Lemma ignore_text_one c : is_xml_char c = true -> ignore_text [c].
Proof.
  intros H. split; [constructor; auto|]. split; intros (a & b & K); (destruct a as [|a0 [|? ?]]; discriminate).
Qed.
Lemma ignore_refuted : exists body, ignore_contents body /\
  forall n, ignoreSectionTok utf8_encoding (body ++ txt "]]>") <> Ok (T_IGNORE_SECT, n).
Proof. exists (txt "]"). split; [apply ic_text, (ignore_text_one 93 eq_refl)|]. vm_compute. discriminate. Qed.
Lemma pub_good_split good c r : all_in pubid_char good -> pubid_char c = false -> pub_good (good ++ c :: r) = good.
Proof. intros H Hc. induction H as [|x g Hx _ IH]; cbn [app pub_good]; [now rewrite Hc|]. rewrite Hx. now f_equal. Qed.
Lemma te_pubid_iff e enc dom lat ns q cs : text_encoding e enc dom lat ns -> q = 34 \/ q = 39 -> all_in dom cs ->
  (isPublicId e (flat_map enc (q :: cs ++ [q])) = Ok None <-> all_in pubid_char cs) /\
  (forall good c r, cs = good ++ c :: r -> all_in pubid_char good -> pubid_char c = false ->
     isPublicId e (flat_map enc (q :: cs ++ [q])) = Ok (Some (length (flat_map enc (q :: good))))).
Proof.
  intros TE Hq Hd. rewrite (te_pubid _ _ _ _ _ TE q cs Hq Hd). split.
  - destruct (forallb pubid_char cs) eqn:E; split; auto; try discriminate.
    + intros _. unfold all_in. rewrite Forall_forall. rewrite forallb_forall in E. auto.
    + intros H. unfold all_in in H. rewrite Forall_forall in H. assert (forallb pubid_char cs = true) by (apply forallb_forall; auto). congruence.
  - intros good c r -> Hg Hc. rewrite pub_good_split by auto. rewrite forallb_app. cbn [forallb]. rewrite Hc, andb_false_r. reflexivity.
Qed.
