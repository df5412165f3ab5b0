(* Start tags, from their text to what is delivered. *)
From Coq Require Import String List NArith ZArith Bool Lia Arith.
From Coq Require Import ZifyBool ZifyNat ZifyN.
From Verif Require Import Base Tables Encoding SpecText SpecUnicode SpecNames SpecLex SpecMisc EncLaws Tok TokMisc UniLaws UniConv SpecConv Charset CharsetLaws TextEnc CpBase CpTag CpAtts MiscTop DeclFinal AttCp.
From Verif Require Import Status Role State AttVal Bind Atts Content SpecNs NsRules SpecCtx CtxLaws SpecAttVal AttNorm AttTop SpecAtts AttsLaws AttsTop.
From Verif Require Nest.
From Verif Require Import AttsLog.
From Coq Require Import List.
Import ListNotations.
Local Open Scope N_scope.

(* ---- values that need no normalisation ---- *)
Lemma plain_value ns strict lat g cs o : attval ns strict lat false g cs o -> ~ In 38 cs -> ~ In 9 cs -> ~ In 13 cs -> ~ In 10 cs ->
  match o with Value v => v = cs | Error _ => True end.
Proof.
  remember false as inner eqn:Ei.
  induction 1; intros K1 K2 K3 K4; try exact I; try (exfalso; apply K1; left; reflexivity).
  - reflexivity.
  - cbn [In] in *. destruct o as [v|x]; [|exact I]. cbn [prepend List.app] in *. f_equal. apply IHattval; tauto.
  - cbn [In] in *. destruct o as [v|x]; [|exact I]. cbn [prepend List.app] in *. rewrite IHattval; [|tauto..]. f_equal.
    unfold is_space in *. lia.
  - exfalso. apply K3. left. reflexivity.
  - exfalso. apply K3. left. reflexivity.
Qed.
Lemma words_ne v : forall w, w <> [] -> words_after w v <> [].
Proof.
  induction v as [|c v IH]; intros w H; cbn [words_after]; [destruct w; [congruence|discriminate]|].
  destruct (c =? 32); [destruct w; [congruence|discriminate]|]. apply IH. destruct w; discriminate.
Qed.
Lemma join_words v : forall w, (w = [] -> ~ exists r, v = 32 :: r) -> ~ (exists r, v = r ++ [32]) -> ~ occurs [32; 32] v ->
  SpecMisc.join (words_after w v) = w ++ v.
Proof.
  induction v as [|c v IH]; intros w H1 H2 H3; cbn [words_after].
  - rewrite app_nil_r. destruct w; reflexivity.
  - assert (H2' : ~ exists r, v = r ++ [32]) by (intros (r & ->); apply H2; exists (c :: r); reflexivity).
    assert (H3' : ~ occurs [32; 32] v) by (intros (a & b & ->); apply H3; exists (c :: a), b; reflexivity).
    destruct (c =? 32) eqn:E.
    + assert (c = 32) by lia. subst c. destruct w as [|x w]; [exfalso; apply H1; eauto|].
      destruct v as [|d v]; [exfalso; apply H2; exists []; reflexivity|].
      assert (Hd : (d =? 32) = false).
      { destruct (d =? 32) eqn:Ed; [|reflexivity]. exfalso. apply H3. exists [], v. assert (d = 32) by lia. subst. reflexivity. }
      pose proof (IH [] ltac:(intros _ (r & X); injection X as -> _; discriminate) H2' H3') as K.
      assert (Ne : words_after [] (d :: v) <> []) by (cbn [words_after]; rewrite Hd; apply words_ne; discriminate).
      destruct (words_after [] (d :: v)) as [|y ys] eqn:Ew; [congruence|].
      change (SpecMisc.join ((x :: w) :: y :: ys)) with ((x :: w) ++ 32 :: SpecMisc.join (y :: ys)). rewrite K. reflexivity.
    + rewrite IH; auto; [rewrite <- app_assoc; reflexivity|]. intros X. destruct w; discriminate X.
Qed.
Lemma normal_value ns strict lat g cs v cdata : already_normal cs -> attval ns strict lat false g cs (Value v) -> normalised cdata v = cs.
Proof.
  intros (H1 & H2 & H3 & H4 & H5 & H6 & H7) H. pose proof (plain_value _ _ _ _ _ _ H H1 H2 H3 H4) as E. cbn in E. subst v.
  destruct cdata; [reflexivity|]. apply join_words; auto.
Qed.

(* ---- from the text ---- *)
Section Text.
Variables (e : EncImpl) (enc : N -> list N) (dom : N -> bool) (lat ns : bool) (s : st).
Hypothesis TE : text_encoding e enc dom lat ns.
Hypothesis He : known (c_ns (s_cfg s)) (s_enc s) = e.
Hypothesis Hns : c_ns (s_cfg s) = ns.

Lemma te_conv cs : all_in dom cs -> conv e (flat_map enc cs) = Ok (utf8 cs).
Proof. apply (rd_conv _ _ _ _ _ _ (te_reader _ _ _ _ _ TE)). Qed.
Lemma te_encoding s' : s_cfg s' = s_cfg s -> s_enc s' = s_enc s -> encoding ENormal s' = Ret e s'.
Proof. intros E1 E2. unfold encoding. rewrite E1, E2, He. reflexivity. Qed.
Lemma te_store cs : all_in dom cs -> store ENormal (flat_map enc cs) s = Ret (utf8 cs) s.
Proof. intros H. unfold store, pbind. rewrite (te_encoding s) by reflexivity. unfold lift. rewrite te_conv by exact H. reflexivity. Qed.
Lemma with_len_app (a b : bytes) : with_len (length a) (a ++ b) = Ok a.
Proof. unfold with_len. rewrite app_length. replace (length a <=? length a + length b)%nat with true by lia. rewrite firstn_app_len. reflexivity. Qed.

Lemma given_read el a x y : all_in dom (as_name a) -> all_in dom (as_value a) ->
  a_value x = flat_map enc (as_value a) -> (a_normalized x = true <-> already_normal (as_value a)) ->
  (exists r, a_name x = Some (flat_map enc (as_name a) ++ r) /\ nameLength e (flat_map enc (as_name a) ++ r) = Ok (length (flat_map enc (as_name a)))) ->
  given_by s el lat a y -> exists n0, forall fuel, (n0 <= fuel)%nat -> read s el fuel ENormal x y.
Proof.
  intros Dn Dv Ev Nm (r & En & El) (E1 & v & Av & E2). rewrite Hns in Av.
  assert (Na : named ENormal x s (fst y)).
  { exists e, (flat_map enc (as_name a) ++ r), (length (flat_map enc (as_name a))), (flat_map enc (as_name a)).
    split; [apply te_encoding; reflexivity|]. split; [exact En|]. split; [exact El|]. split; [apply with_len_app|]. rewrite E1. apply te_store. exact Dn. }
  destruct (a_normalized x) eqn:An.
  - exists 0%nat. intros fuel _. split; [exact Na|]. unfold value_of. rewrite An, Ev, te_store by exact Dv. rewrite E2. do 2 f_equal.
    symmetry. eapply normal_value; [apply Nm; reflexivity|exact Av].
  - destruct (value_delivered e enc dom lat ns false (is_cdata el (fst y) s) s (as_value a) _ TE He Hns Dv Av) as (n0 & H). exists n0. intros fuel Hf.
    split; [exact Na|]. unfold value_of. rewrite An, Ev, E2. exact (H fuel Hf).
Qed.
Lemma given_reads el atts xs given :
  Forall2 (fun a x => a_value x = flat_map enc (as_value a) /\ (a_normalized x = true <-> already_normal (as_value a)) /\
    exists r, a_name x = Some (flat_map enc (as_name a) ++ r) /\
      nameLength e (flat_map enc (as_name a) ++ r) = Ok (length (flat_map enc (as_name a)))) atts xs ->
  all_in dom (flat_map att_text atts) -> Forall2 (given_by s el lat) atts given ->
  exists n0, forall fuel, (n0 <= fuel)%nat -> Forall2 (read s el fuel ENormal) xs given.
Proof.
  intros F. revert given. induction F as [|a x atts xs (H1 & H2 & H3) F IH]; intros given Hd G.
  { exists 0%nat. intros. assert (given = []) by (inversion G; reflexivity). clear G. subst given. constructor. }
  destruct given as [|y given']; [inversion G|]. assert (Gy : given_by s el lat a y /\ Forall2 (given_by s el lat) atts given') by (clear -G; inversion G; auto). destruct Gy as [Gy G'].
  cbn [flat_map] in Hd. apply Forall_app in Hd as [Hd1 Hd2]. destruct (IH given' Hd2 G') as (n1 & R1).
  unfold att_text, all_in in Hd1. rewrite !Forall_app in Hd1. destruct Hd1 as (_ & Dn & _ & _ & _ & _ & Dv & _).
  destruct (given_read el a x y Dn Dv H1 H2 H3 Gy) as (n2 & R2). exists (Nat.max n1 n2). intros fuel Hf. constructor; [apply R2; lia|apply R1; lia].
Qed.

Variables (name : list N) (atts : list att_src) (sp : list N) (empty : bool) (rest : bytes) (given : list (bytes * bytes)).
Hypothesis Hok : tag_ok lat ns name atts sp.
Hypothesis Hd : all_in dom (tag_text name atts sp empty).
Notation buf := (flat_map enc (tag_text name atts sp empty) ++ rest).

Lemma tag_raw_name s' : s_cfg s' = s_cfg s -> tag_raw e 1 buf s' = Ret (flat_map enc name) s'.
Proof.
  intros _. destruct (text_encoding_std _ _ _ _ _ TE) as (k & CS & ST).
  assert (L1 : length (enc 60) = minbpc e) by (apply (ch_narrow_len _ _ _ _ CS); reflexivity).
  unfold tag_text in Hd. unfold all_in in Hd. rewrite !Forall_app in Hd. destruct Hd as (_ & Dn & _).
  unfold tag_raw, pbind at 1, inc, lift. rewrite Nat.mul_1_r, <- L1. unfold tag_text. change (txt "<") with [60]. cbn [List.app flat_map].
  rewrite <- app_assoc, inc_start_app_len.
  rewrite flat_map_app.
  assert (X : exists c r, flat_map enc (flat_map att_text atts ++ sp ++ (if empty then txt "/>" else txt ">")) ++ rest = enc c ++ r /\ (is_space c = true \/ In c (txt "=>/;?"))).
  { destruct Hok as (_ & Ha & Hs). destruct atts as [|a atts'].
    - cbn [flat_map List.app]. destruct sp as [|c sp'].
      + destruct empty; [exists 47, (enc 62 ++ rest)|exists 62, rest]; (split; [|right; vm_compute; intuition]).
        * change (txt "/>") with [47; 62]. cbn [flat_map List.app]. rewrite app_nil_r, <- app_assoc. reflexivity.
        * change (txt ">") with [62]. cbn [flat_map List.app]. rewrite app_nil_r. reflexivity.
      + cbn [List.app flat_map]. rewrite <- app_assoc. eexists c, _. split; [reflexivity|]. left. apply Forall_inv in Hs. exact Hs.
    - apply Forall_inv in Ha. destruct Ha as (Hsp & Hne & _). cbn [flat_map]. unfold att_text at 1. destruct (as_space a) as [|c q]; [congruence|].
      cbn [List.app flat_map]. rewrite <- app_assoc. eexists c, _. split; [reflexivity|]. left. apply Forall_inv in Hsp. exact Hsp. }
  destruct X as (c & r & X & Hc). rewrite <- app_assoc, X.
  assert (NL : nameLength e (flat_map enc name ++ enc c ++ r) = Ok (length (flat_map enc name))).
  { destruct Hok as (Hq & _). apply (nameLength_exact _ _ _ _ _ _ CS ST (te_ascii_dom _ _ _ _ _ TE)); auto. unfold name_end. destruct Hc as [Hc|Hc]; auto. right. cbn in Hc. lia. }
  unfold pbind at 1. rewrite NL. unfold bytes in *. rewrite with_len_app. reflexivity.
Qed.

Hypothesis TA : tables s.
Hypothesis ND : no_dangling s.
Hypothesis Hg : Forall2 (given_by s (utf8 name) lat) atts given.
Lemma storeAtts_text : exists n0, forall fuel, (n0 <= fuel)%nat ->
  runs False (storeAtts fuel ENormal buf (utf8 name)) s (accepted s (utf8 name) given) (rejected s (utf8 name) given).
Proof.
  destruct (te_getAtts e enc dom lat ns TE name atts sp empty rest Hok Hd) as (xs & Hx & F).
  assert (Hd' : all_in dom (flat_map att_text atts)).
  { unfold tag_text, all_in in Hd. rewrite !Forall_app in Hd. apply Hd. }
  destruct (given_reads (utf8 name) atts xs given F Hd' Hg) as (n0 & R). exists n0. intros fuel Hf.
  eapply storeAtts_out; [exact TA|exact ND|apply te_encoding; reflexivity|exact Hx|exact (R fuel Hf)].
Qed.
End Text.

(* ---- what accepted tags deliver ---- *)
Lemma accepted_delivered s el given so s' : accepted s el given so s' -> delivered s el given (so_name so) (so_atts so) (so_spec so).
Proof.
  intros A. constructor; [|exact (ac_spec _ _ _ _ _ A)|exact (ac_name _ _ _ _ _ A)].
  destruct (ac_atts _ _ _ _ _ A) as (ex & -> & _ & Ev & F & _). clear A. revert Ev.
  set (Y := ordinary _ _) in *. clearbody Y. set (P := fun y x => att_name _ _ (fst y) (at_name x)) in F. 
  induction F as [|y x Y ex H F IH]; intros Ev; cbn [map] in *; [constructor|]. injection Ev as Ev1 Ev2. constructor; [split; [exact H|exact Ev1]|exact (IH Ev2)].
Qed.
(* delivered names are distinct *)
Lemma nodup_parts (p : att -> bool) (ex : list att) : NoDup (map at_name (filter p ex)) -> NoDup (map at_name (filter (fun x => negb (p x)) ex)) ->
  (forall x y, In x ex -> In y ex -> p x = true -> p y = false -> at_name x <> at_name y) -> NoDup (map at_name ex).
Proof.
  induction ex as [|x ex IH]; intros H1 H2 H3; [constructor|]. cbn [filter] in H1, H2.
  assert (H3' : forall x y, In x ex -> In y ex -> p x = true -> p y = false -> at_name x <> at_name y) by (intros a b Ia Ib; apply H3; right; assumption).
  destruct (p x) eqn:E; cbn [negb map] in *.
  - inversion H1 as [|? ? Hn H1']; subst. constructor; [|exact (IH H1' H2 H3')]. intros I. apply in_map_iff in I as (y & Ey & I).
    destruct (p y) eqn:Ey'; [apply Hn; rewrite <- Ey; apply in_map; apply filter_In; auto|]. apply (H3 x y); [left; reflexivity|right; exact I|exact E|exact Ey'|congruence].
  - inversion H2 as [|? ? Hn H2']; subst. constructor; [|exact (IH H1 H2' H3')]. intros I. apply in_map_iff in I as (y & Ey & I).
    destruct (p y) eqn:Ey'; [|apply Hn; rewrite <- Ey; apply in_map; apply filter_In; rewrite Ey'; auto]. apply (H3 y x); [right; exact I|left; reflexivity|exact Ey'|exact E|congruence].
Qed.
Lemma accepted_distinct s el given so s' : tables s -> accepted s el given so s' ->
  c_ns (s_cfg s) = false \/ (c_triplets (s_cfg s) = false /\ clean s (attributes given el s)) -> NoDup (map fst (so_atts so)).
Proof.
  intros TA A H. pose proof (attributes_nodup s el given TA (ac_nodup _ _ _ _ _ A)) as Nd.
  assert (NdY : NoDup (map fst (ordinary (c_ns (s_cfg s)) (attributes given el s)))) by (apply filter_nodup; exact Nd).
  destruct (ac_atts _ _ _ _ _ A) as (ex & -> & Ei & _ & F & Pr). rewrite map_map. cbn [fst].
  assert (In_Y : forall y, In y (ordinary (c_ns (s_cfg s)) (attributes given el s)) -> In y (attributes given el s)) by (intros y I; apply filter_In in I; apply I).
  set (Y := ordinary _ _) in *. clearbody Y. clear A.
  assert (Pl : forall x, In x ex -> is_pref (c_ns (s_cfg s)) (at_id x) = false -> at_name x = at_id x).
  { clear -Ei F. revert Ei. induction F as [|y x Y ex Hn F IH]; intros Ei z I Hp; [destruct I|]. cbn [map] in Ei. injection Ei as E1 E2. destruct I as [<-|I]; [|exact (IH E2 z I Hp)].
    rewrite E1 in Hp |- *. destruct Hn as [_|p l u Hc Pf _]; [reflexivity|]. rewrite Hc in Hp. apply prefixed_in, is_pref_spec in Pf. congruence. }
  destruct H as [H|(Tr & Sep & Cl)].
  - change (NoDup (map at_name ex)). assert (Em : map at_name ex = map at_id ex); [|rewrite Em, Ei; exact NdY]. apply map_ext_in. intros x I. apply Pl; [exact I|]. rewrite H. reflexivity.
  - apply (nodup_parts (fun x => is_pref (c_ns (s_cfg s)) (at_id x))).
    + exact (Pr Tr).
    + replace (map at_name (filter (fun x => negb (is_pref (c_ns (s_cfg s)) (at_id x))) ex)) with (map at_id (filter (fun x => negb (is_pref (c_ns (s_cfg s)) (at_id x))) ex)).
      * apply filter_nodup. rewrite Ei. exact NdY.
      * apply map_ext_in. intros x I. apply filter_In in I as [I Hp]. symmetry. apply Pl; [exact I|]. destruct (is_pref _ _); [discriminate|reflexivity].
    + intros x y Ix Iy Px Py E. rewrite (Pl y Iy Py) in E.
      assert (Hx : In (c_sep (s_cfg s)) (at_name x)).
      { clear -Ei F Ix Px Sep Tr. revert Ei. induction F as [|z w Y ex Hn F IH]; intros Ei; [destruct Ix|]. cbn [map] in Ei. injection Ei as E1 E2. destruct Ix as [->|I]; [|exact (IH I E2)].
        rewrite E1 in Px. destruct Hn as [Hp|p l u Hc Pf _]; [rewrite (is_pref_false _ _ Hp) in Px; discriminate|].
        unfold separator. replace (c_sep (s_cfg s) =? 0) with false by lia. apply in_or_app. right. left. reflexivity. }
      rewrite E in Hx.
      assert (Hy : exists v, In (at_id y, v) Y).
      { apply (in_map at_id) in Iy. rewrite Ei in Iy. apply in_map_iff in Iy as ([m v] & Em & I). cbn [fst] in Em. subst m. eauto. }
      destruct Hy as (v & Hy). apply (Cl _ _ (In_Y _ Hy)); [|exact Hx]. intros I. apply is_pref_spec in I.
      (* in a parser without namespaces nothing is prefixed *)
      destruct (c_ns (s_cfg s)); [congruence|]. discriminate Px.
Qed.

(* ---- the same in a state that differs elsewhere ---- *)
Section Like.
Variables s s' : st.
Hypothesis Ec : s_cfg s' = s_cfg s.
Hypothesis Ed : s_dtd s' = s_dtd s.
Lemma like_attributes given el : attributes given el s' = attributes given el s.
Proof. unfold attributes, defaults, declarations. rewrite Ed. reflexivity. Qed.
Lemma like_bound ds p u : bound_inside ds s p u <-> bound_inside ds s' p u.
Proof. unfold bound_inside, in_force, separator. rewrite Ec, Ed. reflexivity. Qed.
Lemma like_tables : tables s -> tables s'.
Proof. intros [A1 A2 A3 A4 A5 A6 A7]. unfold separator in A7. constructor; rewrite ?Ed, ?Ec; unfold separator; rewrite ?Ec; assumption. Qed.
Lemma like_delivered el given m l k : delivered s el given m l k -> delivered s' el given m l k.
Proof.
  intros [D1 D2 D3]. constructor; rewrite ?like_attributes, ?Ec.
  - set (Y := ordinary _ _) in *. clearbody Y. clear D2 D3. induction D1 as [|y z Y l [H1 H2] D1 IH]; constructor; [|exact IH]. split; [|exact H2].
    eapply att_name_ext; [exact Ec| |exact H1]. apply like_bound.
  - exact D2.
  - eapply el_name_ext; [exact Ec| |exact D3]. apply like_bound.
Qed.
Lemma like_rejected el given x : rejected s el given x -> rejected s' el given x.
Proof.
  intros R. destruct R as [H|n v p x H1 H2 H3 H4|n v p l H1 H2 H3 H4|p l H1 H2 H3|l1 y l2 y' l3 m H1 H2 H3 H4 H5].
  - apply rj_twice. exact H.
  - eapply rj_declaration; rewrite ?Ec, ?like_attributes; eassumption.
  - eapply rj_unbound; rewrite ?Ec, ?like_attributes; try eassumption. intros u Hu. apply like_bound in Hu. exact (H4 u Hu).
  - eapply rj_element; rewrite ?Ec, ?like_attributes; try eassumption. intros u Hu. apply like_bound in Hu. exact (H3 u Hu).
  - eapply rj_same; rewrite ?Ec, ?like_attributes; try eassumption.
    + eapply att_name_ext; [exact Ec| |exact H4]. apply like_bound.
    + destruct H5 as (p & l & u & A1 & A2 & ->). exists p, l, u. split; [exact A1|]. split; [apply like_bound; exact A2|]. unfold separator. rewrite Ec. reflexivity.
Qed.
End Like.

(* ---- start tags and empty elements ---- *)
Lemma free_log bs : forall s, exists s' log, freeBindings bs s = Ret tt s' /\ s_log s' = log ++ s_log s /\ s_pid s' = s_pid s.
Proof.
  induction bs as [|b bs IH]; intros s; cbn [freeBindings]; [exists s, []; auto|].
  unfold pbind at 1, emit, handler, get. unfold pbind at 1. destruct (h_endNs (c_h (s_cfg s))).
  - unfold pbind at 1, call at 1, pret at 1. unfold pbind at 1, upd_dtd at 1, upd at 1.
    match goal with |- context [freeBindings bs ?x] => destruct (IH x) as (s' & log & E & L & Pd) end.
    exists s', (log ++ [(s_pid s, EvEndNs (prefix_name (b_prefix b)))]). split; [exact E|]. split; [rewrite L, <- app_assoc; reflexivity|exact Pd].
  - unfold pret at 1. unfold pbind at 1, upd_dtd at 1, upd at 1.
    match goal with |- context [freeBindings bs ?x] => destruct (IH x) as (s' & log & E & L & Pd) end.
    exists s', log. auto.
Qed.

Section Top.
Variables (e : EncImpl) (enc : N -> list N) (dom : N -> bool) (lat ns : bool) (s : st).
Hypothesis TE : text_encoding e enc dom lat ns.
Hypothesis He : known (c_ns (s_cfg s)) (s_enc s) = e.
Hypothesis Hns : c_ns (s_cfg s) = ns.
Variables (name : list N) (atts : list att_src) (sp : list N) (rest : bytes) (given : list (bytes * bytes)).
Hypothesis Hok : tag_ok lat ns name atts sp.
Hypothesis TA : tables s.
Hypothesis ND : no_dangling s.
Hypothesis Hg : Forall2 (given_by s (utf8 name) lat) atts given.
Hypothesis Hh : h_startElement (c_h (s_cfg s)) = true.

Lemma started_log s1 so ix k : s_cfg s1 = s_cfg s ->
  exists s2, emit h_startElement (EvStartElement (so_name so) (so_atts so) (so_spec so) ix) s1 = Ret true s2 /\
    s_log s2 = (s_pid s2, EvStartElement (so_name so) (so_atts so) (so_spec so) ix) :: s_log s1 /\ k s2 = k s2 :> nat /\ s_cfg s2 = s_cfg s.
Proof using Hh.
  intros E. unfold emit, pbind, handler, get. rewrite E, Hh. eexists. split; [reflexivity|]. split; [reflexivity|]. split; [reflexivity|exact E].
Qed.
Theorem start_tag_out : all_in dom (tag_text name atts sp false) ->
  exists n0, forall r n, (n0 <= rc_fuel r)%nat ->
  seen_tag false s (utf8 name) given (start_tag r ENormal e (flat_map enc (tag_text name atts sp false) ++ rest) n s).
Proof using All.
  intros Hd. set (s1 := set_tagLevel (S (s_tagLevel s)) s).
  assert (Dn : all_in dom name) by (unfold tag_text, all_in in Hd; rewrite !Forall_app in Hd; apply Hd).
  destruct (storeAtts_text e enc dom lat ns s1 TE He Hns name atts sp false rest given Hok Hd (like_tables s s1 eq_refl eq_refl TA) ND Hg) as (n0 & H).
  exists n0. intros r n Hf. specialize (H _ Hf). unfold start_tag.
  unfold pbind at 1. rewrite (tag_raw_name e enc dom lat ns s TE name atts sp false rest Hok Hd s eq_refl).
  unfold pbind at 1, upd at 1. fold s1. unfold pbind at 1, lift at 1. rewrite (te_conv e enc dom lat ns TE name Dn).
  unfold pbind at 1. unfold runs in H. destruct (storeAtts (rc_fuel r) ENormal _ (utf8 name) s1) as [so s2|x s2|x] eqn:Est; [|exact (like_rejected s1 s eq_refl eq_refl _ _ _ H)|destruct H].
  assert (C2 : s_cfg s2 = s_cfg s) by apply (ac_same _ _ _ _ _ H).
  unfold pbind at 1, get at 1. unfold pbind at 1. destruct (started_log s2 so (s_idIx s2) (fun _ => 0%nat) C2) as (s3 & -> & L & _ & C3).
  unfold pbind at 1, when at 1. cbn [negb]. unfold pret at 1. unfold upd at 1. cbn [seen_tag].
  destruct (storeAtts_log _ _ _ _ _ _ _ Est) as (before & Lb & Qb).
  eexists _, _, _, _, [], before. split; [change (s_log s) with (s_log s1); rewrite <- Lb; exact L|].
  split; [exact Qb|]. split; [reflexivity|]. split; [exact (like_delivered s1 s eq_refl eq_refl _ _ _ _ _ (accepted_delivered _ _ _ _ _ H))|].
  split; [exact (ac_nodup _ _ _ _ _ H)|]. split; [exact (ac_allowed _ _ _ _ _ H)|]. intros X. eapply (accepted_distinct s1); [exact (like_tables s s1 eq_refl eq_refl TA)|exact H|exact X].
Qed.
Theorem empty_tag_out : all_in dom (tag_text name atts sp true) ->
  exists n0, forall r n, (n0 <= rc_fuel r)%nat ->
  seen_tag true s (utf8 name) given (empty_tag r ENormal e (flat_map enc (tag_text name atts sp true) ++ rest) n s).
Proof using All.
  intros Hd. assert (Dn : all_in dom name) by (unfold tag_text, all_in in Hd; rewrite !Forall_app in Hd; apply Hd).
  destruct (storeAtts_text e enc dom lat ns s TE He Hns name atts sp true rest given Hok Hd TA ND Hg) as (n0 & H).
  exists n0. intros r n Hf. specialize (H _ Hf). unfold empty_tag.
  unfold pbind at 1. rewrite (tag_raw_name e enc dom lat ns s TE name atts sp true rest Hok Hd s eq_refl).
  unfold pbind at 1, lift at 1. rewrite (te_conv e enc dom lat ns TE name Dn).
  unfold pbind at 1, try at 1. unfold runs in H. destruct (storeAtts (rc_fuel r) ENormal _ (utf8 name) s) as [so s2|x s2|x] eqn:Est; [| |destruct H].
  2:{ unfold pbind at 1, get at 1. unfold pbind. destruct (free_log (s_bindings s2) s2) as (s3 & log & -> & _). exact H. }
  assert (C2 : s_cfg s2 = s_cfg s) by apply (ac_same _ _ _ _ _ H).
  unfold pbind at 1, get at 1. unfold pbind at 1. destruct (started_log s2 so (s_idIx s2) (fun _ => 0%nat) C2) as (s3 & -> & L & _ & C3).
  unfold pbind at 1, when at 1. set (ev := (s_pid s3, EvStartElement (so_name so) (so_atts so) (so_spec so) (s_idIx s2))) in *.
  assert (X : exists s4, set_event_n ENormal (length (flat_map enc (tag_text name atts sp true) ++ rest) - n) s3 = Ret tt s4 /\ s_log s4 = s_log s3 /\ s_pid s4 = s_pid s3 /\ s_cfg s4 = s_cfg s).
  { unfold set_event_n. cbn [is_internal]. eexists. split; [reflexivity|]. split; [reflexivity|]. split; [reflexivity|exact C3]. }
  destruct X as (s4 & -> & L4 & P4 & C4).
  unfold pbind at 1. assert (X : exists b s5 log, emit h_endElement (EvEndElement (so_name so)) s4 = Ret b s5 /\ s_log s5 = log ++ s_log s4 /\ s_pid s5 = s_pid s4 /\
    filter about_elements (map snd log) = if h_endElement (c_h (s_cfg s)) then [EvEndElement (so_name so)] else []).
  { unfold emit, pbind, handler, get. rewrite C4. destruct (h_endElement (c_h (s_cfg s))); [eexists _, _, [_]|exists false, s4, []]; (split; [reflexivity|]); (split; [reflexivity|]); split; reflexivity. }
  destruct X as (b & s5 & log & -> & L5 & P5 & F5). cbn [negb andb]. unfold pbind at 1, when at 1, pret at 1.
  destruct (free_log (so_bindings so) s5) as (s6 & _ & Ef & _ & P6). rewrite Ef. cbn [seen_tag].
  destruct (free_log_quiet _ _ _ Ef) as (log' & L6 & F6). destruct (storeAtts_log _ _ _ _ _ _ _ Est) as (before & Lb & Qb).
  exists (so_name so), (so_atts so), (so_spec so), (s_idIx s2), (log' ++ log), before.
  split; [rewrite L6, L5, L4, L, Lb, <- app_assoc, P6, P5, P4; reflexivity|]. split; [exact Qb|].
  split; [rewrite map_app, filter_app, F6, F5; reflexivity|]. split; [exact (accepted_delivered _ _ _ _ _ H)|].
  split; [exact (ac_nodup _ _ _ _ _ H)|]. split; [exact (ac_allowed _ _ _ _ _ H)|]. intros X. eapply (accepted_distinct s); [exact TA|exact H|exact X].
Qed.
End Top.
