(* Attributes and names over code points. *)
From Coq Require Import String List NArith ZArith Bool Lia Arith.
From Coq Require Import ZifyBool ZifyNat ZifyN.
From Verif Require Import Base Tables Encoding SpecText SpecUnicode SpecNames SpecLex SpecMisc Tok TokMisc UniLaws Charset CharsetLaws TextEnc CpBase CpMisc.
Import ListNotations.
Local Open Scope N_scope.
Ltac Zify.zify_post_hook ::= Z.div_mod_to_equations.

Section Cs.
Variables (e : EncImpl) (enc : N -> list N) (lat ns : bool) (dom : N -> bool) (k : cls).
Hypothesis CS : charset e enc dom k.
Hypothesis ST : std lat ns dom k.
Hypothesis ascii_dom : forall c, c < 128 -> dom c = true.
Notation mb := (minbpc e).

Lemma char_view c r : dom c = true ->
  (byte_type e (enc c ++ r) = Ok (ty k c) /\ lead_len (ty k c) = None /\ length (enc c) = mb) \/
  (exists t, byte_type e (enc c ++ r) = Ok t /\ lead_len t = Some (length (enc c)) /\ (mb <= length (enc c))%nat /\
     128 <= c /\ (ty k c = BT_NONASCII \/ ty k c = BT_NONXML) /\ In t [BT_LEAD2; BT_LEAD3; BT_LEAD4]).
Proof.
  intros Hd. destruct (N.lt_ge_cases c 128) as [Hc|Hc].
  - left. split; [now apply (ch_narrow _ _ _ _ CS)|]. split; [apply (ch_narrow_plain _ _ _ _ CS c Hc)|now apply (ch_narrow_len _ _ _ _ CS)].
  - destruct (ch_wide _ _ _ _ CS c r Hd Hc) as [t B L _ _ _ W|E B I X _].
    + right. exists t. split; auto. split; auto. split.
      { destruct (ch_whole _ _ _ _ CS c Hd) as [j ->]. lia. }
      split; auto. split; [rewrite W; unfold wide_type; destruct (is_xml_char c); auto|]. destruct t; try discriminate; cbn; tauto.
    + left. split; auto. split; auto. apply (no_lead _ _ _ _ ST c Hd).
Qed.
Lemma inc_c c r : length (enc c) = mb -> inc_start mb (enc c ++ r) = Ok r.
Proof. apply inc_app. Qed.
Lemma inc_split c r (H : (mb <= length (enc c))%nat) : (let* b := inc_start (length (enc c) - mb) (enc c ++ r) in inc_start mb b) = Ok r.
Proof.
  rewrite <- (firstn_skipn (length (enc c) - mb) (enc c)) at 2. rewrite <- app_assoc.
  rewrite inc_app by (rewrite firstn_length; lia). cbn [bind]. apply inc_app. rewrite skipn_length. lia.
Qed.

Notation loop := (getAtts_loop e).
Lemma ga_lead f st nm vp no op acc c r t : byte_type e (enc c ++ r) = Ok t -> lead_len t = Some (length (enc c)) -> (mb <= length (enc c))%nat ->
  loop (S f) st nm vp no op acc (enc c ++ r) =
  loop f (if gs_eqb st GS_Other then GS_InName else st) (if gs_eqb st GS_Other then Some (enc c ++ r) else nm) vp
         (if gs_eqb st GS_Other then true else no) op acc r.
Proof.
  intros B L M. cbn [getAtts_loop]. rewrite B. cbn [bind]. rewrite L.
  pose proof (inc_split c r M) as I. destruct (inc_start (length (enc c) - mb) (enc c ++ r)) as [b|]; [|discriminate]. cbn [bind] in *. rewrite I. reflexivity.
Qed.
(* inside a name *)
Lemma ga_name f nm vp no op acc c r : dom c = true -> kname k c = true \/ c = 58 \/ c = 61 ->
  loop (S f) GS_InName nm vp no op acc (enc c ++ r) = loop f GS_InName nm vp no op acc r.
Proof.
  intros Hd Hn. destruct (char_view c r Hd) as [(B & L & M)|(t & B & L & M & _)]; [|rewrite (ga_lead _ _ _ _ _ _ _ _ _ _ B L M); reflexivity].
  cbn [getAtts_loop]. rewrite B. cbn [bind]. rewrite L, (inc_c c r M). cbn [bind gs_eqb].
  assert (H : kname k c = true \/ ty k c = BT_COLON \/ ty k c = BT_EQUALS \/ ty k c = BT_NMSTRT).
  { destruct Hn as [H|[->| ->]]; auto.
    - rewrite (st_ascii _ _ _ _ ST) by reflexivity. destruct ns; vm_compute; auto.
    - rewrite (st_ascii _ _ _ _ ST) by reflexivity. destruct ns; vm_compute; auto. }
  unfold kname in H. destruct (ty k c); try reflexivity; exfalso; repeat (destruct H as [H|H]; [discriminate H|]); discriminate H.
Qed.
(* the first character of a name *)
Lemma ga_start f nm vp no op acc c r : dom c = true -> kstart k c = true ->
  loop (S f) GS_Other nm vp no op acc (enc c ++ r) = loop f GS_InName (Some (enc c ++ r)) vp true op acc r.
Proof.
  intros Hd Hn. destruct (char_view c r Hd) as [(B & L & M)|(t & B & L & M & _)]; [|rewrite (ga_lead _ _ _ _ _ _ _ _ _ _ B L M); reflexivity].
  cbn [getAtts_loop]. rewrite B. cbn [bind]. rewrite L, (inc_c c r M). cbn [bind gs_eqb].
  unfold kstart in Hn. destruct (ty k c); try reflexivity; discriminate Hn.
Qed.
Lemma space_types c : dom c = true -> is_space c = true -> ty k c = BT_S \/ ty k c = BT_CR \/ ty k c = BT_LF.
Proof. intros Hd Hs. rewrite <- (sp_iff _ _ _ _ ST c Hd) in Hs. destruct (ty k c); try discriminate; auto. Qed.
Lemma unit_view c r : dom c = true -> ty k c <> BT_NONASCII -> ty k c <> BT_NONXML ->
  byte_type e (enc c ++ r) = Ok (ty k c) /\ lead_len (ty k c) = None /\ length (enc c) = mb.
Proof. intros Hd H1 H2. destruct (char_view c r Hd) as [H|(t & _ & _ & _ & _ & [H|H] & _)]; auto; contradiction. Qed.
Lemma ga_space f st nm vp no op acc c r : dom c = true -> is_space c = true -> st <> GS_InValue ->
  loop (S f) st nm vp no op acc (enc c ++ r) = loop f GS_Other nm vp no op acc r.
Proof.
  intros Hd Hs Hst. pose proof (space_types c Hd Hs) as Ht.
  destruct (unit_view c r Hd) as (B & L & M); [destruct Ht as [->|[->| ->]]; discriminate..|].
  cbn [getAtts_loop]. rewrite B. cbn [bind]. rewrite L, (inc_c c r M). cbn [bind].
  destruct Ht as [->|[->| ->]]; destruct st; try reflexivity; contradiction.
Qed.
Lemma ga_eq f st nm vp no op acc r : st <> GS_InValue ->
  loop (S f) st nm vp no op acc (enc 61 ++ r) = loop f st nm vp no op acc r.
Proof.
  intros Hst. assert (Hd : dom 61 = true) by (apply ascii_dom; reflexivity).
  pose proof (proj2 (type_char_iff _ _ _ _ ST 61 BT_EQUALS 61 Hd eq_refl) eq_refl) as T.
  destruct (unit_view 61 r Hd) as (B & L & M); [rewrite T; discriminate..|].
  cbn [getAtts_loop]. rewrite B. cbn [bind]. rewrite L, (inc_c 61 r M). cbn [bind]. rewrite T. reflexivity.
Qed.
Definition qt (q : N) : ByteType := if q =? 34 then BT_QUOT else BT_APOS.
Lemma quote_type q : q = 34 \/ q = 39 -> ty k q = qt q.
Proof. intros [->| ->].
  - apply (type_char_iff _ _ _ _ ST 34 BT_QUOT 34); auto. now apply ascii_dom.
  - apply (type_char_iff _ _ _ _ ST 39 BT_APOS 39); auto. now apply ascii_dom.
Qed.
Lemma ga_open f st nm vp no op acc q r : q = 34 \/ q = 39 -> st <> GS_InValue ->
  loop (S f) st nm vp no op acc (enc q ++ r) = loop f GS_InValue nm r no (qt q) acc r.
Proof.
  intros Hq Hst. assert (Hd : dom q = true) by (apply ascii_dom; lia). pose proof (quote_type q Hq) as T.
  destruct (unit_view q r Hd) as (B & L & M); [rewrite T; unfold qt; destruct (q =? 34); discriminate..|].
  cbn [getAtts_loop]. rewrite B. cbn [bind]. rewrite L, (inc_c q r M). cbn [bind]. rewrite T.
  destruct Hq as [->| ->]; destruct st; try contradiction; reflexivity.
Qed.
Lemma ga_close f nm v no acc q r : q = 34 \/ q = 39 ->
  loop (S f) GS_InValue nm (v ++ enc q ++ r) no (qt q) acc (enc q ++ r) =
  loop f GS_Other nm (v ++ enc q ++ r) no (qt q) (acc ++ [{| a_name := nm; a_value := v; a_normalized := no |}]) r.
Proof.
  intros Hq. assert (Hd : dom q = true) by (apply ascii_dom; lia). pose proof (quote_type q Hq) as T.
  destruct (unit_view q r Hd) as (B & L & M); [rewrite T; unfold qt; destruct (q =? 34); discriminate..|].
  cbn [getAtts_loop]. rewrite B. cbn [bind]. rewrite L, (inc_c q r M). cbn [bind]. rewrite T.
  replace (firstn (length (v ++ enc q ++ r) - length (enc q ++ r)) (v ++ enc q ++ r)) with v.
  2:{ rewrite app_length. replace (length v + length (enc q ++ r) - length (enc q ++ r))%nat with (length v) by lia.
      rewrite firstn_app, firstn_all, Nat.sub_diag. cbn. now rewrite app_nil_r. }
  destruct Hq as [->| ->]; reflexivity.
Qed.
(* one character of a value *)
Definition next_sp (q : N) (r : list N) : bool := match r with [] => true | d :: _ => d =? 32 end.
Definition vstep (first : bool) (q c : N) (r : list N) (no : bool) : bool :=
  if (c =? 38) || (c =? 13) || (c =? 10) then false
  else if is_space c then no && negb (first || negb (c =? 32) || next_sp q r)
  else no.
Lemma not_quote_type q d : q = 34 \/ q = 39 -> dom d = true -> d <> q -> bt_eqb (ty k d) (qt q) = false.
Proof.
  intros Hq Hd Hne. destruct (bt_eqb (ty k d) (qt q)) eqn:E; auto. apply bt_eqb_eq in E. exfalso. apply Hne.
  destruct Hq as [->| ->]; [apply (type_char_iff _ _ _ _ ST d BT_QUOT 34 Hd eq_refl) in E|apply (type_char_iff _ _ _ _ ST d BT_APOS 39 Hd eq_refl) in E]; auto.
Qed.
Lemma ga_value f nm pre no acc q c r x : q = 34 \/ q = 39 -> dom c = true -> c <> q -> all_in dom r -> ~ In q r ->
  loop (S f) GS_InValue nm (pre ++ enc c ++ flat_map enc (r ++ [q]) ++ x) no (qt q) acc (enc c ++ flat_map enc (r ++ [q]) ++ x) =
  loop f GS_InValue nm (pre ++ enc c ++ flat_map enc (r ++ [q]) ++ x) (vstep (match pre with [] => true | _ => false end) q c r no) (qt q) acc (flat_map enc (r ++ [q]) ++ x).
Proof.
  intros Hq Hd Hne Hr Hin. set (R := flat_map enc (r ++ [q]) ++ x).
  destruct (char_view c R Hd) as [(B & L & M)|(t & B & L & M & Hw & _)].
  2:{ rewrite (ga_lead _ _ _ _ _ _ _ _ _ _ B L M). cbn [gs_eqb]. unfold vstep, is_space.
      replace (c =? 38) with false by lia. replace (c =? 13) with false by lia. replace (c =? 10) with false by lia.
      replace (c =? 32) with false by lia. replace (c =? 9) with false by lia. reflexivity. }
  cbn [getAtts_loop]. rewrite B. cbn [bind]. rewrite L, (inc_c c R M). cbn [bind].
  pose proof (type_char_iff _ _ _ _ ST c BT_AMP 38 Hd eq_refl) as T1. pose proof (type_char_iff _ _ _ _ ST c BT_CR 13 Hd eq_refl) as T2.
  pose proof (type_char_iff _ _ _ _ ST c BT_LF 10 Hd eq_refl) as T3. pose proof (sp_iff _ _ _ _ ST c Hd) as T4.
  pose proof (not_quote_type q c Hq Hd Hne) as T5. cbn [gs_eqb negb].
  unfold vstep. destruct (N.eq_dec c 38) as [E|E]; [rewrite (proj2 T1 E), E; reflexivity|]. replace (c =? 38) with false by lia.
  destruct (N.eq_dec c 13) as [E13|E13]; [rewrite (proj2 T2 E13), E13; reflexivity|]. replace (c =? 13) with false by lia.
  destruct (N.eq_dec c 10) as [E10|E10]; [rewrite (proj2 T3 E10), E10; reflexivity|]. replace (c =? 10) with false by lia. cbn [orb].
  destruct (is_space c) eqn:S.
  - assert (ty k c = BT_S) as -> by (destruct (ty k c); try discriminate T4; auto; exfalso; tauto).
    destruct no; [|reflexivity]. cbn [andb].
    assert (Lc : c < 128) by (unfold is_space in S; lia).
    rewrite (ch_ascii _ _ _ _ CS) by auto. cbn [bind].
    assert (length (enc c ++ R) =? length (pre ++ enc c ++ R) = (match pre with [] => true | _ => false end))%nat as ->.
    { rewrite app_length with (l := pre). destruct pre as [|p0 pre]; [apply Nat.eqb_refl|]. cbn [length]. apply Nat.eqb_neq. lia. }
    destruct (match pre with [] => true | _ => false end || negb (c =? 32)) eqn:A; [reflexivity|]. cbn [orb].
    assert (exists a, byte_to_ascii e R = Ok a /\ exists t, byte_type e R = Ok t /\ (a =? 32) || bt_eqb t (qt q) = next_sp q r) as (a & -> & t & -> & G).
    { unfold R. destruct r as [|d r]; cbn [app flat_map next_sp].
      - rewrite app_nil_r. exists q. split; [apply (ch_ascii _ _ _ _ CS); lia|]. assert (Dq : dom q = true) by (apply ascii_dom; lia).
        exists (ty k q). split; [apply (ch_narrow _ _ _ _ CS); lia|]. rewrite (quote_type q Hq). destruct (bt_eqb (qt q) (qt q)) eqn:K; [now rewrite orb_true_r|].
        unfold qt in K. destruct (q =? 34); discriminate K.
      - inversion Hr; subst. rewrite <- app_assoc. assert (Hdq : d <> q) by (intros K; apply Hin; now left).
        pose proof (not_quote_type q d Hq H1 Hdq) as NQ.
        destruct (N.lt_ge_cases d 128) as [Ld|Ld].
        + exists d. split; [now apply (ch_ascii _ _ _ _ CS)|]. exists (ty k d). split; [now apply (ch_narrow _ _ _ _ CS)|]. now rewrite NQ, orb_false_r.
        + destruct (ch_wide_ascii _ _ _ _ CS d (flat_map enc (r ++ [q]) ++ x) H1 Ld) as (a & Ha & La). exists a. split; auto.
          destruct (char_view d (flat_map enc (r ++ [q]) ++ x) H1) as [(B' & _ & _)|(t & B' & L' & _)].
          * exists (ty k d). split; auto. rewrite NQ. lia.
          * exists t. split; auto. replace (a =? 32) with false by lia. replace (d =? 32) with false by lia. unfold qt. destruct t; try discriminate L'; destruct (q =? 34); reflexivity. }
    cbn [bind]. destruct (a =? 32); cbn [orb] in G; rewrite <- G; reflexivity.
  - destruct (ty k c); try reflexivity; try discriminate T4; try (exfalso; tauto); unfold qt in *; destruct (q =? 34); try discriminate T5; reflexivity.
Qed.
Fixpoint nf (first : bool) (q : N) (v : list N) (no : bool) : bool :=
  match v with [] => no | c :: r => nf false q r (vstep first q c r no) end.
Lemma ga_values nm acc q x : q = 34 \/ q = 39 -> forall v pre no f, all_in dom v -> ~ In q v ->
  loop (length v + f) GS_InValue nm (pre ++ flat_map enc (v ++ [q]) ++ x) no (qt q) acc (flat_map enc (v ++ [q]) ++ x) =
  loop f GS_InValue nm (pre ++ flat_map enc (v ++ [q]) ++ x) (nf (match pre with [] => true | _ => false end) q v no) (qt q) acc (enc q ++ x).
Proof.
  intros Hq. induction v as [|c v IH]; intros pre no f Hd Hin.
  - cbn [app flat_map nf length plus]. now rewrite app_nil_r.
  - inversion Hd; subst. cbn [app flat_map nf length plus]. rewrite <- app_assoc.
    rewrite ga_value; auto; [|intros ->; apply Hin; now left|intros K; apply Hin; now right].
    rewrite (app_assoc pre). rewrite IH; auto; [|intros K; apply Hin; now right].
    f_equal. assert (enc c <> []) by (intros K; pose proof (enc_pos _ _ _ _ CS c H1); rewrite K in *; cbn in *; lia).
    destruct pre, (enc c); try contradiction; reflexivity.
Qed.

Lemma ga_spaces nm vp no op acc x sp : spaces sp -> all_in dom sp -> forall f st, st <> GS_InValue -> 
  loop (length sp + f) st nm vp no op acc (flat_map enc sp ++ x) =
  loop f (match sp with [] => st | _ => GS_Other end) nm vp no op acc x.
Proof.
  induction sp as [|c sp IH]; intros Hs Hd f st Hst; [reflexivity|]. inversion Hs; inversion Hd; subst.
  cbn [length plus flat_map]. rewrite <- app_assoc. rewrite ga_space by auto. rewrite IH by (auto; discriminate). now destruct sp.
Qed.
Lemma ga_names nm vp no op acc x n : Forall (fun c => kname k c = true \/ c = 58) n -> all_in dom n -> forall f,
  loop (length n + f) GS_InName nm vp no op acc (flat_map enc n ++ x) = loop f GS_InName nm vp no op acc x.
Proof.
  induction n as [|c n IH]; intros Hn Hd f; [reflexivity|]. inversion Hn; inversion Hd; subst. cbn [length plus flat_map]. rewrite <- app_assoc.
  rewrite ga_name by tauto. now apply IH.
Qed.
Lemma start_is_name c : start_char lat ns c = true -> name_char lat ns c = true.
Proof.
  unfold start_char, name_char, is_name_start, is_NameChar. intros H. destruct (lat && latin_extra c); [now rewrite orb_true_r|]. rewrite orb_false_r in *.
  apply andb_prop in H as [H ->]. rewrite andb_true_r. destruct (is_Letter c); [reflexivity|]. cbn [orb] in *.
  apply orb_prop in H as [H|H]; rewrite H; now rewrite ?orb_true_r.
Qed.
Definition nchar (c : N) : Prop := kname k c = true \/ c = 58.
Lemma name_parts0 m : is_name lat ns m -> all_in dom m -> exists c r, m = c :: r /\ kstart k c = true /\ Forall nchar m.
Proof.
  intros (c & r & -> & Hs & Hr) Hd. exists c, r. split; auto. inversion Hd; subst. rewrite (st_start _ _ _ _ ST) by auto. split; auto.
  constructor.
  - left. rewrite (st_name _ _ _ _ ST) by auto. now apply start_is_name.
  - rewrite Forall_forall. intros y Hy. left. rewrite (st_name _ _ _ _ ST).
    + unfold all_in in Hr. rewrite Forall_forall in Hr. auto.
    + rewrite Forall_forall in H2. auto.
Qed.
Lemma name_parts n : is_qname lat ns n -> all_in dom n ->
  exists c r, n = c :: r /\ kstart k c = true /\ Forall nchar n.
Proof.
  intros [H|(_ & p & l & -> & Hp & Hl)] Hd; [now apply name_parts0|].
  unfold all_in in Hd. rewrite !Forall_app in Hd. destruct Hd as (D1 & _ & D2).
  destruct (name_parts0 p Hp D1) as (c & r & -> & K & F). destruct (name_parts0 l Hl D2) as (_ & _ & _ & _ & F2).
  exists c, (r ++ txt ":" ++ l). split; auto. split; auto. rewrite !Forall_app. repeat split; auto. constructor; [now right|constructor].
Qed.

(* [as_name] is what the code knows as the name: the text from the beginning of the name on *)
Definition att_rest (a : att_src) : list N := as_eq1 a ++ txt "=" ++ as_eq2 a ++ [as_quote a] ++ as_value a ++ [as_quote a].
Definition found (a : att_src) (x : bytes) : Attribute := {|
  a_name := Some (flat_map enc (as_name a ++ att_rest a) ++ x);
  a_value := flat_map enc (as_value a);
  a_normalized := nf true (as_quote a) (as_value a) true |}.
Lemma value_noquote q v : q = 34 \/ q = 39 -> att_value lat ns q v -> ~ In q v.
Proof.
  intros Hq. induction 1 as [|c v Hx Hc _ _ _ IH|r v Hr _ IH]; [intros []|intros [E|E]; auto|].
  intros H. apply in_app_or in H as [H|H]; [|now apply IH].
  assert (N1 : name_char lat ns q = false) by (destruct Hq as [->| ->]; destruct lat, ns; vm_compute; reflexivity).
  assert (N2 : start_char lat ns q = false) by (destruct Hq as [->| ->]; destruct lat, ns; vm_compute; reflexivity).
  assert (D : forall f ds, f q = false -> all_in f ds -> ~ In q ds).
  { intros f ds F A K. unfold all_in in A. rewrite Forall_forall in A. rewrite (A q K) in F. discriminate. }
  destruct Hr as [(n & (c & r' & -> & Hs & Hr') & ->)|[(d & _ & Hd & ->)|(d & _ & Hd & ->)]].
  - cbn in H. destruct H as [H|[H|H]]; [lia|subst; congruence|]. apply in_app_or in H as [H|[H|[]]]; [|lia]. now apply (D _ _ N1 Hr').
  - cbn in H. destruct H as [H|[H|H]]; [lia|lia|]. apply in_app_or in H as [H|[H|[]]]; [|lia]. revert H. apply (D is_digit); auto. unfold is_digit; lia.
  - cbn in H. destruct H as [H|[H|[H|H]]]; [lia|lia|lia|]. apply in_app_or in H as [H|[H|[]]]; [|lia]. revert H. apply (D is_hex); auto. unfold is_hex, is_digit; lia.
Qed.
Lemma ga_att a x f st nm vp no op acc : att_ok lat ns a -> all_in dom (att_text a) -> st <> GS_InValue ->
  exists nm' vp' no' op',
    loop (length (att_text a) + f) st nm vp no op acc (flat_map enc (att_text a) ++ x) =
    loop f GS_Other nm' vp' no' op' (acc ++ [found a x]) x.
Proof.
  intros (S1 & S2 & Nm & E1 & E2 & Hq & Hv) Hd Hst. unfold att_text in Hd. unfold all_in in Hd. rewrite !Forall_app in Hd.
  destruct Hd as (D1 & D2 & D3 & _ & D4 & _ & D5 & _). pose proof (value_noquote _ _ Hq Hv) as Hin.
  destruct (name_parts _ Nm D2) as (c & n & En & Kc & Kn).
  exists (Some (flat_map enc (as_name a ++ att_rest a) ++ x)), (flat_map enc (as_value a ++ [as_quote a]) ++ x), (nf true (as_quote a) (as_value a) true), (qt (as_quote a)).
  replace (flat_map enc (att_text a) ++ x) with (flat_map enc (as_space a) ++ flat_map enc (as_name a ++ att_rest a) ++ x)
    by (unfold att_text, att_rest; rewrite !flat_map_app, <- !app_assoc; reflexivity).
  replace (length (att_text a) + f)%nat with (length (as_space a) + S (length n + (length (as_eq1 a) + S (length (as_eq2 a) + S (length (as_value a) + S f)))))%nat
    by (unfold att_text; rewrite !app_length, En; cbn [length]; change (length (txt "=")) with 1%nat; lia).
  rewrite ga_spaces by auto. destruct (as_space a) as [|s0 s] eqn:Es; [congruence|].
  rewrite En in *. inversion D2; inversion Kn; subst. set (nb := flat_map enc ((c :: n) ++ att_rest a) ++ x).
  assert (Enb : nb = enc c ++ flat_map enc n ++ flat_map enc (as_eq1 a) ++ enc 61 ++ flat_map enc (as_eq2 a) ++ enc (as_quote a) ++ flat_map enc (as_value a ++ [as_quote a]) ++ x).
  { unfold nb, att_rest. cbn [app flat_map]. rewrite !flat_map_app. change (flat_map enc (txt "=")) with (enc 61 ++ []). rewrite !app_nil_r, <- !app_assoc.
    cbn [flat_map]. rewrite ?flat_map_app. cbn [flat_map]. rewrite ?app_nil_r, <- ?app_assoc. reflexivity. }
  rewrite Enb at 1. rewrite ga_start by auto. rewrite <- Enb. rewrite ga_names by auto. rewrite ga_spaces by (auto; discriminate).
  rewrite ga_eq by (destruct (as_eq1 a); discriminate). rewrite ga_spaces by (auto; destruct (as_eq1 a); discriminate).
  rewrite ga_open by (auto; destruct (as_eq1 a), (as_eq2 a); discriminate).
  etransitivity; [exact (ga_values _ _ _ x Hq _ [] _ _ D5 Hin)|]. cbn [app]. rewrite flat_map_app, <- app_assoc.
  change (flat_map enc [as_quote a]) with (enc (as_quote a) ++ []). rewrite app_nil_r. rewrite ga_close by auto.
  unfold found. rewrite En. fold nb. reflexivity.
Qed.
Fixpoint founds (atts : list att_src) (x : bytes) : list Attribute :=
  match atts with [] => [] | a :: r => found a (flat_map enc (flat_map att_text r) ++ x) :: founds r x end.
Lemma ga_atts x atts : Forall (att_ok lat ns) atts -> all_in dom (flat_map att_text atts) -> forall f st nm vp no op acc, st <> GS_InValue ->
  exists st' nm' vp' no' op', st' <> GS_InValue /\
    loop (length (flat_map att_text atts) + f) st nm vp no op acc (flat_map enc (flat_map att_text atts) ++ x) =
    loop f st' nm' vp' no' op' (acc ++ founds atts x) x.
Proof.
  induction 1 as [|a r Ha Hr IH]; intros Hd f st nm vp no op acc Hst.
  - exists st, nm, vp, no, op. cbn [founds]. rewrite app_nil_r. auto.
  - cbn [flat_map founds] in *. unfold all_in in Hd. rewrite Forall_app in Hd. destruct Hd as [D1 D2].
    rewrite flat_map_app, <- app_assoc, app_length, <- Nat.add_assoc.
    destruct (ga_att a (flat_map enc (flat_map att_text r) ++ x) (length (flat_map att_text r) + f) st nm vp no op acc Ha D1 Hst) as (nm1 & vp1 & no1 & op1 & ->).
    destruct (IH D2 f GS_Other nm1 vp1 no1 op1 (acc ++ [found a (flat_map enc (flat_map att_text r) ++ x)]) ltac:(discriminate)) as (st2 & nm2 & vp2 & no2 & op2 & H1 & H2).
    exists st2, nm2, vp2, no2, op2. split; auto. rewrite H2, <- app_assoc. reflexivity.
Qed.
Lemma ga_end f st nm vp no op acc c r : c = 62 \/ c = 47 -> st <> GS_InValue -> loop (S f) st nm vp no op acc (enc c ++ r) = Ok acc.
Proof.
  intros Hc Hst. assert (Hd : dom c = true) by (apply ascii_dom; lia).
  assert (T : ty k c = BT_GT \/ ty k c = BT_SOL).
  { destruct Hc as [->| ->]; [left; apply (type_char_iff _ _ _ _ ST 62 BT_GT 62)|right; apply (type_char_iff _ _ _ _ ST 47 BT_SOL 47)]; auto. }
  destruct (unit_view c r Hd) as (B & L & M); [destruct T as [->| ->]; discriminate..|].
  cbn [getAtts_loop]. rewrite B. cbn [bind]. rewrite L. destruct T as [->| ->]; destruct st; try contradiction; reflexivity.
Qed.
Lemma flat_len' cs : all_in dom cs -> (length cs <= length (flat_map enc cs))%nat.
Proof. intros H. eapply flat_len; eauto. Qed.
Lemma getAtts_found name atts sp empty rest : tag_ok lat ns name atts sp -> all_in dom (tag_text name atts sp empty) ->
  getAtts e (flat_map enc (tag_text name atts sp empty) ++ rest) =
  Ok (founds atts (flat_map enc (sp ++ (if empty then txt "/>" else txt ">")) ++ rest)).
Proof.
  intros (Hn & Ha & Hs) Hd. pose proof (flat_len' _ Hd) as L.
  unfold getAtts. set (B := length (flat_map enc (tag_text name atts sp empty) ++ rest)).
  assert (LB : (length name + (length (flat_map att_text atts) + (length sp + 1)) <= B)%nat).
  { unfold B. rewrite app_length. unfold tag_text in L. rewrite !app_length in L. change (length (txt "<")) with 1%nat in L. fold (tag_text name atts sp empty) in L. destruct empty; change (length (txt "/>")) with 2%nat in L; change (length (txt ">")) with 1%nat in L; lia. }
  unfold tag_text in *. unfold all_in in Hd. rewrite !Forall_app in Hd. destruct Hd as (_ & D1 & D2 & D3 & _).
  set (tl := if empty then txt "/>" else txt ">").
  assert (Etl : exists c tl', tl = c :: tl' /\ (c = 62 \/ c = 47)) by (unfold tl; destruct empty; eexists _, _; split; try reflexivity; auto).
  replace (flat_map enc (txt "<" ++ name ++ flat_map att_text atts ++ sp ++ tl) ++ rest)
    with (enc 60 ++ flat_map enc name ++ flat_map enc (flat_map att_text atts) ++ flat_map enc (sp ++ tl) ++ rest)
    by (change (txt "<" ++ name ++ flat_map att_text atts ++ sp ++ tl) with (60 :: name ++ flat_map att_text atts ++ sp ++ tl); cbn [flat_map]; rewrite !flat_map_app, <- !app_assoc; reflexivity).
  rewrite inc_c by (apply (ch_narrow_len _ _ _ _ CS); reflexivity). cbn [bind].
  replace (S B) with (length name + (length (flat_map att_text atts) + (length sp + S (B - (length name + (length (flat_map att_text atts) + length sp))))))%nat by lia.
  destruct (name_parts _ Hn D1) as (c0 & n0 & _ & _ & Kn). rewrite ga_names by auto.
  edestruct (ga_atts (flat_map enc (sp ++ tl) ++ rest) atts Ha D2) as (st & nm & vp & no & op & Hst & ->); [discriminate|].
  cbn [app]. set (FA := founds atts _). rewrite flat_map_app, <- app_assoc. rewrite ga_spaces by auto.
  destruct Etl as (c & tl' & Et & Hc). rewrite Et. cbn [flat_map]. rewrite <- app_assoc.
  rewrite ga_end; auto. destruct sp; auto. discriminate.
Qed.

(* the name of an attribute ends where nameLength says *)
Lemma nl_loop_names x n : Forall nchar n -> all_in dom n -> forall f n0,
  nameLength_loop e (length n + f) n0 (flat_map enc n ++ x) = nameLength_loop e f (n0 + length (flat_map enc n)) x.
Proof.
  induction n as [|c n IH]; intros Hn Hd f n0; [cbn; now rewrite Nat.add_0_r|]. inversion Hn; inversion Hd; subst. cbn [length plus flat_map]. rewrite <- app_assoc.
  cbn [nameLength_loop].
  assert (P : forall m, length (enc c) = m -> ptr_offset m (enc c ++ flat_map enc n ++ x) = Ok (flat_map enc n ++ x)).
  { intros m <-. unfold ptr_offset. rewrite has_app by auto. rewrite skipn_app, skipn_all, Nat.sub_diag. reflexivity. }
  destruct (char_view c (flat_map enc n ++ x) H5) as [(B & L & M)|(t & B & L & M & _)]; rewrite B; cbn [bind]; rewrite L.
  - rewrite P by auto. cbn [bind]. rewrite IH by auto. rewrite app_length, M.
    assert (H : kname k c = true \/ ty k c = BT_COLON \/ ty k c = BT_NMSTRT).
    { destruct H1 as [H| ->]; auto. rewrite (st_ascii _ _ _ _ ST) by reflexivity. destruct ns; vm_compute; auto. }
    unfold kname in H. rewrite <- Nat.add_assoc. destruct (ty k c); try reflexivity; exfalso; repeat (destruct H as [H|H]; [discriminate H|]); discriminate H.
  - rewrite P by auto. cbn [bind]. rewrite IH by auto. rewrite app_length, Nat.add_assoc. reflexivity.
Qed.
Definition name_end (c : N) : Prop := is_space c = true \/ c = 61 \/ c = 62 \/ c = 47 \/ c = 59 \/ c = 63.
Lemma nl_stop x c f n0 : name_end c -> nameLength_loop e (S f) n0 (enc c ++ x) = Ok n0.
Proof.
  intros Hc. assert (Hd : dom c = true) by (apply ascii_dom; unfold name_end, is_space in Hc; lia).
  assert (T : In (ty k c) [BT_S; BT_CR; BT_LF; BT_EQUALS; BT_GT; BT_SOL; BT_SEMI; BT_QUEST]).
  { destruct Hc as [Hc|Hc]; [destruct (space_types c Hd Hc) as [->|[->| ->]]; cbn; tauto|].
    destruct Hc as [->|[->|[->|[->| ->]]]]; [rewrite (proj2 (type_char_iff _ _ _ _ ST 61 BT_EQUALS 61 Hd eq_refl) eq_refl)
     |rewrite (proj2 (type_char_iff _ _ _ _ ST 62 BT_GT 62 Hd eq_refl) eq_refl)|rewrite (proj2 (type_char_iff _ _ _ _ ST 47 BT_SOL 47 Hd eq_refl) eq_refl)
     |rewrite (proj2 (type_char_iff _ _ _ _ ST 59 BT_SEMI 59 Hd eq_refl) eq_refl)|rewrite (proj2 (type_char_iff _ _ _ _ ST 63 BT_QUEST 63 Hd eq_refl) eq_refl)]; cbn; tauto. }
  destruct (unit_view c x Hd) as (B & L & M); [intros K; rewrite K in T; cbn in T; intuition discriminate..|].
  cbn [nameLength_loop]. rewrite B. cbn [bind]. rewrite L. cbn [In] in T. repeat (destruct T as [T|T]; [rewrite <- T; reflexivity|]). destruct T.
Qed.
Lemma nameLength_exact n c x : is_qname lat ns n -> all_in dom n -> name_end c ->
  nameLength e (flat_map enc n ++ enc c ++ x) = Ok (length (flat_map enc n)).
Proof.
  intros Hn Hd Hc. destruct (name_parts _ Hn Hd) as (_ & _ & _ & _ & K). unfold nameLength. pose proof (flat_len' _ Hd) as L.
  rewrite !app_length. replace (S _) with (length n + S (length (flat_map enc n) - length n + (length (enc c) + length x)))%nat by lia.
  rewrite nl_loop_names by auto. now apply nl_stop.
Qed.
Lemma founds_facts rest atts : Forall (att_ok lat ns) atts -> all_in dom (flat_map att_text atts) ->
  Forall2 (fun a x => a_value x = flat_map enc (as_value a) /\ a_normalized x = nf true (as_quote a) (as_value a) true /\
    exists r, a_name x = Some (flat_map enc (as_name a) ++ r) /\ nameLength e (flat_map enc (as_name a) ++ r) = Ok (length (flat_map enc (as_name a))))
    atts (founds atts rest).
Proof.
  induction 1 as [|a r Ha Hr IH]; intros Hd; [constructor|]. cbn [flat_map founds] in *. unfold all_in in Hd. rewrite Forall_app in Hd. destruct Hd as [D1 D2].
  constructor; [|now apply IH]. split; [reflexivity|]. split; [reflexivity|]. cbn [found a_name].
  exists (flat_map enc (att_rest a) ++ flat_map enc (flat_map att_text r) ++ rest). rewrite flat_map_app, <- app_assoc. split; [reflexivity|].
  destruct Ha as (S1 & S2 & Nm & E1 & E2 & _). unfold att_text in D1. rewrite !Forall_app in D1. destruct D1 as (_ & D1 & _).
  assert (exists c y, att_rest a = c :: y /\ name_end c) as (c & y & -> & Hc).
  { unfold att_rest. destruct (as_eq1 a) as [|s s'] eqn:Es; [eexists _, _; split; [reflexivity|unfold name_end; auto]|].
    exists s, (s' ++ txt "=" ++ as_eq2 a ++ [as_quote a] ++ as_value a ++ [as_quote a]). split; [reflexivity|]. left. now inversion E1. }
  cbn [flat_map]. rewrite <- app_assoc. now apply nameLength_exact.
Qed.
End Cs.

(* the flag of an attribute *)
Lemma nf_false first q v : nf first q v false = false.
Proof. revert first. induction v as [|c v IH]; intros first; [reflexivity|]. cbn [nf]. unfold vstep. destruct (_ || _); [apply IH|]. destruct (is_space c); apply IH. Qed.
Lemma nf_iff q v first : nf first q v true = true <->
  ~ In 38 v /\ ~ In 9 v /\ ~ In 13 v /\ ~ In 10 v /\ (first = true -> ~ exists r, v = 32 :: r) /\ ~ (exists r, v = r ++ [32]) /\ ~ occurs [32; 32] v.
Proof.
  revert first. induction v as [|c v IH]; intros first.
  { cbn [nf]. split; auto. intros _. repeat split; try (intros []; fail); auto.
    - intros _ (r & E). discriminate.
    - intros (r & E). destruct r; discriminate.
    - intros (a & b & E). destruct a; discriminate. }
  cbn [nf]. assert (F : forall w, vstep first q c v true = w -> nf false q v w = true <-> w = true /\ nf false q v true = true).
  { intros [] _; [tauto|]. rewrite nf_false. split; [discriminate|intros [? _]; discriminate]. }
  rewrite (F _ eq_refl), IH. clear F IH. unfold vstep, is_space, next_sp.
  destruct (c =? 38) eqn:A1; [split; [intros [K _]; discriminate|intros (K & _); exfalso; apply K; left; lia]|].
  destruct (c =? 13) eqn:A2; [split; [intros [K _]; discriminate|intros (_ & _ & K & _); exfalso; apply K; left; lia]|].
  destruct (c =? 10) eqn:A3; [split; [intros [K _]; discriminate|intros (_ & _ & _ & K & _); exfalso; apply K; left; lia]|].
  destruct (c =? 9) eqn:A4.
  { split; [intros [K _]; exfalso; destruct (c =? 32) eqn:A5; [lia|]; cbn in K; rewrite orb_true_r in K; discriminate|].
    intros (_ & K & _). exfalso. apply K. left. lia. }
  cbn [orb andb]. rewrite !orb_false_r. destruct (c =? 32) eqn:A5.
  - cbn [orb negb andb]. rewrite orb_false_r.
    split.
    + intros (K & H1 & H2 & H3 & H4 & _ & H6 & H7). destruct first; [discriminate|]. cbn [orb negb] in K.
      destruct v as [|d v]; [discriminate|].
      repeat split; try (intros [E|E]; [lia|contradiction]).
      * discriminate.
      * intros (r & E). destruct r as [|y r]; [discriminate|]. injection E as -> E. apply H6. now exists r.
      * intros (a & b & E). destruct a as [|y a]; [injection E as -> -> E; discriminate|]. injection E as -> E. apply H7. now exists a, b.
    + intros (H1 & H2 & H3 & H4 & H5 & H6 & H7). assert (c = 32) as -> by lia.
      repeat split; try (intros K; apply H1 || apply H2 || apply H3 || apply H4; now right); try (intros K; (apply H1; now right) || (apply H2; now right) || (apply H3; now right) || (apply H4; now right)).
      * destruct first; [exfalso; apply H5; [reflexivity|eexists; reflexivity]|]. cbn [orb]. destruct v as [|d v]; [exfalso; apply H6; now exists []|].
        destruct (d =? 32) eqn:D; auto. exfalso. apply H7. exists [], v. cbn. repeat f_equal. lia.
      * discriminate.
      * intros (r & ->). apply H6. now exists (32 :: r).
      * intros (a & b & ->). apply H7. now exists (32 :: a), b.
  - cbn [orb]. split.
    + intros (_ & H1 & H2 & H3 & H4 & _ & H6 & H7). repeat split; try (intros [E|E]; [lia|contradiction]).
      * intros _ (r & E). injection E as E _. lia.
      * intros (r & E). destruct r as [|y r]; [injection E as E _; lia|]. injection E as -> E. apply H6. now exists r.
      * intros (a & b & E). destruct a as [|y a]; [injection E as E _; lia|]. injection E as -> E. apply H7. now exists a, b.
    + intros (H1 & H2 & H3 & H4 & H5 & H6 & H7).
      repeat split; try (intros K; (apply H1; now right) || (apply H2; now right) || (apply H3; now right) || (apply H4; now right)).
      * discriminate.
      * intros (r & ->). apply H6. now exists (c :: r).
      * intros (a & b & ->). apply H7. now exists (c :: a), b.
Qed.
Lemma nf_normal q v : nf true q v true = true <-> already_normal v.
Proof. rewrite nf_iff. unfold already_normal. tauto. Qed.
