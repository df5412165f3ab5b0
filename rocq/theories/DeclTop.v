(* Encoding names and XML declarations in the library's encodings. *)
From Coq Require Import String List NArith ZArith Bool Lia Arith.
From Coq Require Import ZifyBool ZifyNat ZifyN.
From Verif Require Import Base Tables Encoding SpecText SpecUnicode SpecNames SpecLex SpecDecl Tok TokMisc UniLaws UniConv SpecConv Charset CharsetLaws TextEnc CpBase CpMisc CpNames MiscTop XmlDecl DeclLaws.
Import ListNotations.
Local Open Scope N_scope.

Lemma upcase_upper c : upcase c = upper c. Proof. reflexivity. Qed.
Lemma upper0 c : upper c = 0 <-> c = 0. Proof. unfold upper. destruct ((97 <=? c) && (c <=? 122)) eqn:E; lia. Qed.
Lemma streqci_spec s : forall w x y, ~ In 0 s -> ~ In 0 w -> exists b, streqci (s ++ 0 :: x) (w ++ 0 :: y) = Ok b /\ (b = true <-> same_name s w).
Proof.
  unfold same_name. induction s as [|c s IH]; intros w x y Hs Hw.
  - destruct w as [|d w]; cbn [app streqci].
    + exists true. split; [reflexivity|]. tauto.
    + exists false. assert (Hd : d <> 0) by (intros ->; apply Hw; now left). change upcase with upper.
      replace (upper 0 =? upper d) with false. 2:{ symmetry. apply N.eqb_neq. change (upper 0) with 0. intros E. symmetry in E. apply (proj1 (upper0 _)) in E. auto. }
      split; [reflexivity|]. split; discriminate.
  - assert (Hc : c <> 0) by (intros ->; apply Hs; now left).
    destruct w as [|d w]; cbn [app streqci]; change upcase with upper.
    + exists false. replace (upper c =? upper 0) with false. 2:{ symmetry. apply N.eqb_neq. change (upper 0) with 0. intros E. apply (proj1 (upper0 _)) in E. auto. }
      split; [reflexivity|]. split; discriminate.
    + destruct (upper c =? upper d) eqn:E; cbn [negb].
      * replace (upper c =? 0) with false. 2:{ symmetry. apply N.eqb_neq. rewrite upper0. auto. }
        destruct (IH w x y) as (b & -> & Hb). { intros K; apply Hs; now right. } { intros K; apply Hw; now right. }
        exists b. split; auto. rewrite Hb. cbn [map]. apply N.eqb_eq in E. rewrite E. split; [congruence|intros K; now injection K].
      * exists false. split; auto. split; [discriminate|]. cbn [map]. intros K. injection K as K _. apply N.eqb_neq in E. congruence.
Qed.

(* The supported names and what they stand for, given that the text is in [e]. *)
Definition supported (ns : bool) (e : EncImpl) : list (string * EncImpl) :=
  [("ISO-8859-1", if ns then latin1_encoding_ns else latin1_encoding);
   ("US-ASCII", if ns then ascii_encoding_ns else ascii_encoding);
   ("UTF-8", if ns then utf8_encoding_ns else utf8_encoding);
   ("UTF-16", if Nat.eqb (minbpc e) 2 then e else if ns then big2_encoding_ns else big2_encoding);
   ("UTF-16BE", if ns then big2_encoding_ns else big2_encoding);
   ("UTF-16LE", if ns then little2_encoding_ns else little2_encoding)]%string.

Fixpoint lookup (l : list (string * EncImpl)) (v : list N) : option EncImpl :=
  match l with
  | [] => None
  | (w, r) :: l' => if list_eq_dec N.eq_dec (map upper v) (map upper (txt w)) then Some r else lookup l' v
  end.

Section T.
Variables (e : EncImpl) (enc : N -> list N) (dom : N -> bool) (k : cls).
Hypothesis CS : charset e enc dom k.
Hypothesis TR : transfers (utf8Convert e) enc (fun c => dom c = true).
Hypothesis AD : forall c, c < 128 -> dom c = true.
Notation mb := (minbpc e).
Notation F := (flat_map enc).

Lemma utf8_asciis v : all_in (fun c => c <? 128) v -> utf8 v = v.
Proof. induction 1 as [|c v Hc _ IH]; [reflexivity|]. rewrite utf8_cons, IH, utf8_ascii by lia. reflexivity. Qed.
Lemma val_ascii v : all_in value_char v -> all_in (fun c => c <? 128) v.
Proof. intros H. eapply Forall_impl; [|exact H]. cbn. intros c Hc. apply value_lt in Hc. lia. Qed.
Lemma val_nozero v : all_in value_char v -> ~ In 0 v.
Proof. unfold all_in. rewrite Forall_forall. intros H K. apply H in K. discriminate. Qed.

Lemma find_conv v : all_in value_char v ->
  (length v <= 127)%nat /\ utf8Convert e (F v) 127 = Ok (COMPLETED, v, []) \/
  (127 < length v)%nat /\ exists r o x t, utf8Convert e (F v) 127 = Ok (r, o, x :: t).
Proof.
  intros Hv. pose proof (val_dom dom AD _ Hv) as Hd. destruct (TR v 127%nat Hd) as (done & left & -> & L & H).
  apply val_ascii in Hv. apply Forall_app in Hv as [H1 H2]. rewrite utf8_asciis in * by auto. apply Forall_app in Hd as [_ Hd].
  destruct left as [|c left].
  - left. rewrite app_nil_r in *. auto.
  - right. destruct H as [H L2]. rewrite utf8_asciis in L2. 2:{ apply Forall_app. split; auto. inversion H2; subst; auto. }
    rewrite app_length in *. cbn [length] in *. split; [lia|]. destruct (F_ne _ _ _ _ CS AD (c :: left) Hd ltac:(discriminate)) as (x & t & E).
    rewrite E in H. eauto.
Qed.

Lemma out_buf_split v : (length v < 127)%nat -> v ++ repeat 0 (128 - length v) = v ++ 0 :: repeat 0 (127 - length v).
Proof. intros H. replace (128 - length v)%nat with (S (127 - length v)) by lia. reflexivity. Qed.
Lemma nozero_txt (s : string) : forallb (fun c => negb (c =? 0)) (txt s) = true -> ~ In 0 (txt s).
Proof. rewrite forallb_forall. intros H K. apply H in K. discriminate. Qed.

Lemma find_eval ns v : all_in value_char v ->
  findEncoding ns e (F v) = if Nat.eqb (length v) 127 then Err EPanic else Ok (if (127 <? length v)%nat then None else lookup (supported ns e) v).
Proof.
  intros Hv. unfold findEncoding. destruct (find_conv v Hv) as [(L & ->)|(L & r & o & x & t & ->)]; cbn [bind].
  2:{ replace (Nat.eqb (length v) 127) with false by (symmetry; apply Nat.eqb_neq; lia). now replace (127 <? length v)%nat with true by lia. }
  replace (127 <? length v)%nat with false by lia. destruct (Nat.eqb (length v) 127) eqn:E.
  { apply Nat.eqb_eq in E. now replace (127 <=? length v)%nat with true by lia. }
  apply Nat.eqb_neq in E. replace (127 <=? length v)%nat with false by lia. rewrite out_buf_split by lia. set (x := repeat 0 _).
  pose proof (val_nozero v Hv) as Z.
  assert (Q : forall w : string, forallb (fun c => negb (c =? 0)) (txt w) = true ->
     streqci (v ++ 0 :: x) (txt w ++ [0]) = Ok (if list_eq_dec N.eq_dec (map upper v) (map upper (txt w)) then true else false)).
  { intros w Hw. destruct (streqci_spec v (txt w) x [] Z (nozero_txt _ Hw)) as (b & -> & Hb). f_equal. unfold same_name in Hb.
    destruct (list_eq_dec N.eq_dec (map upper v) (map upper (txt w))) as [K|K]; [now apply Hb|]. destruct b; auto. exfalso. apply K. now apply Hb. }
  unfold KW_UTF_16. rewrite Q by reflexivity. cbn [bind]. unfold getEncodingIndex, encodingNames. cbn [map encoding_index_from].
  unfold supported. cbn [lookup].
  rewrite (Q "ISO-8859-1"%string eq_refl), (Q "US-ASCII"%string eq_refl), (Q "UTF-8"%string eq_refl), (Q "UTF-16"%string eq_refl), (Q "UTF-16BE"%string eq_refl), (Q "UTF-16LE"%string eq_refl).
  cbn [bind]. clear Q.
  destruct (list_eq_dec N.eq_dec (map upper v) (map upper (txt "UTF-16"))) as [K|K].
  - rewrite K. cbn [andb]. destruct (list_eq_dec _ _ (map upper (txt "ISO-8859-1"))) as [K2|_]; [exfalso; revert K2; vm_compute; discriminate|].
    destruct (list_eq_dec _ _ (map upper (txt "US-ASCII"))) as [K2|_]; [exfalso; revert K2; vm_compute; discriminate|].
    destruct (list_eq_dec _ _ (map upper (txt "UTF-8"))) as [K2|_]; [exfalso; revert K2; vm_compute; discriminate|].
    destruct (Nat.eqb mb 2); [reflexivity|]. cbn [bind]. destruct ns; reflexivity.
  - cbn [andb]. destruct (list_eq_dec _ _ (map upper (txt "ISO-8859-1"))); [destruct ns; reflexivity|].
    destruct (list_eq_dec _ _ (map upper (txt "US-ASCII"))); [destruct ns; reflexivity|].
    destruct (list_eq_dec _ _ (map upper (txt "UTF-8"))); [destruct ns; reflexivity|].
    destruct (list_eq_dec _ _ (map upper (txt "UTF-16BE"))); [destruct ns; reflexivity|].
    destruct (list_eq_dec _ _ (map upper (txt "UTF-16LE"))); destruct ns; reflexivity.
Qed.
Lemma lookup_in l v r : lookup l v = Some r -> exists w, In (w, r) l /\ same_name v (txt w).
Proof.
  induction l as [|[w r'] l IH]; cbn [lookup]; [discriminate|]. destruct (list_eq_dec _ _ _) as [K|K].
  - intros E. injection E as <-. exists w. split; [now left|exact K].
  - intros E. destruct (IH E) as (w' & I & S). exists w'. split; [now right|exact S].
Qed.
Lemma in_lookup ns v w r : In (w, r) (supported ns e) -> same_name v (txt w) -> lookup (supported ns e) v = Some r /\ (length v < 127)%nat.
Proof.
  intros I S. unfold same_name in S. assert (L : length v = length (txt w)) by (rewrite <- (map_length upper v), S, map_length; reflexivity).
  unfold supported in I. cbn [In] in I. unfold supported. cbn [lookup]. rewrite S.
  destruct I as [I|[I|[I|[I|[I|[I|[]]]]]]]; injection I as <- <-; (split; [|rewrite L; vm_compute; lia]);
    repeat (let K := fresh in match goal with |- context [list_eq_dec N.eq_dec ?a ?b] => destruct (list_eq_dec N.eq_dec a b) as [K|K] end; [first [reflexivity | exfalso; revert K; vm_compute; discriminate]|]); exfalso; match goal with H : ?a <> ?a |- _ => apply H; reflexivity end.
Qed.

Lemma has_c c r : dom c = true -> has mb (enc c ++ r) = true.
Proof.
  intros Hd. destruct (ch_whole _ _ _ _ CS c Hd) as [j Hj]. rewrite has_len, app_length, Hj. cbn [Nat.mul].
  replace (mb <=? mb + j * mb + length r)%nat with true; auto. symmetry. apply Nat.leb_le. lia.
Qed.
Lemma match_eq w : all_in (fun c => c <? 128) w -> forall nm, all_in dom nm ->
  nameMatchesAscii e (F nm) w = Ok (if list_eq_dec N.eq_dec nm w then true else false).
Proof.
  intros Hw. induction Hw as [|x w Hx Hw IH]; intros nm Hn; cbn [nameMatchesAscii].
  - destruct nm as [|c nm]; [reflexivity|]. destruct (F_ne _ _ _ _ CS AD (c :: nm) Hn ltac:(discriminate)) as (y & t & ->). reflexivity.
  - destruct nm as [|c nm].
    + cbn [flat_map]. pose proof (min_pos _ _ _ _ CS). destruct mb as [|m]; [lia|]. reflexivity.
    + inversion Hn as [|? ? Hc Hn']; subst. cbn [flat_map]. rewrite has_c by auto. cbn [negb].
      rewrite (ch_match _ _ _ _ CS) by (auto; lia). cbn [bind]. destruct (c =? x) eqn:E; cbn [negb].
      * assert (c = x) by lia. subst c. rewrite (inc_narrow _ _ _ _ CS) by lia. cbn [bind]. rewrite IH by auto. f_equal.
        destruct (list_eq_dec N.eq_dec nm w) as [->|K]; destruct (list_eq_dec N.eq_dec (x :: _) (x :: w)) as [K2|K2]; auto; congruence.
      * destruct (list_eq_dec N.eq_dec (c :: nm) (x :: w)) as [K|K]; auto. exfalso. injection K as K _. lia.
Qed.
Lemma value_eq v q next : q < 128 -> value_of e (F (v ++ [q] ++ next)) (F next) = Ok (F v).
Proof.
  intros Hq. unfold value_of. rewrite app_assoc, F_app, upto_app. cbn [bind]. unfold dec_end. rewrite F_app. cbn [flat_map]. rewrite app_nil_r, app_length, (ch_narrow_len _ _ _ _ CS q Hq).
  replace (mb <=? length (F v) + mb)%nat with true by lia. f_equal. replace (length (F v) + mb - mb)%nat with (length (F v) + 0)%nat by lia.
  rewrite firstn_app_2. cbn. now rewrite app_nil_r.
Qed.

(* a result that describes a declaration taken apart; [t]: what follows the value *)
Definition points_at (p : option bytes) (a : option att_src) : Prop :=
  match a with
  | None => p = None
  | Some a => exists t, p = Some (F (as_value a ++ [as_quote a]) ++ t)
  end.
Definition describes (ns : bool) (d : decl_src) (r : decl_result) : Prop :=
  points_at (dr_version r) (ds_version d) /\ points_at (dr_enc_name r) (ds_encoding d) /\
  match ds_encoding d with
  | None => dr_encoding r = None
  | Some a => findEncoding ns e (F (as_value a)) = Ok (dr_encoding r)
  end /\
  dr_standalone r = standalone_value d.

Lemma pseudo_pseudo_any n a : pseudo n a -> all_in pname_char (txt n) -> txt n <> [] -> pseudo_any a.
Proof. intros (? & ? & E & ? & ? & ? & ?) ? ?. rewrite <- E in *. repeat split; auto. Qed.
Lemma pseudo_any_pseudo n a : pseudo_any a -> as_name a = txt n -> pseudo n a.
Proof. intros (? & ? & ? & ? & ? & ? & ? & ?) E. repeat split; auto. Qed.
Lemma pn_ascii nm : all_in pname_char nm -> all_in (fun c => c <? 128) nm.
Proof. intros H. eapply Forall_impl; [|exact H]. cbn. unfold pname_char. intros c Hc. destruct (c <? 128); auto. Qed.
Lemma pn_dom' nm : all_in pname_char nm -> all_in dom nm.
Proof. intros H. apply pn_ascii in H. eapply Forall_impl; [|exact H]. cbn. intros c Hc. apply AD. lia. Qed.
Lemma txt_ascii (s : string) : forallb (fun c => c <? 128) (txt s) = true -> all_in (fun c => c <? 128) (txt s).
Proof. rewrite forallb_forall. intros H. apply Forall_forall. exact H. Qed.

Lemma standalone_eval g r np a next : pseudo_any a -> all_in dom (att_text a ++ next) ->
  exists p, decl_standalone e g r np (F (as_name a)) (F (as_value a ++ [as_quote a] ++ next)) (F next) =
    if (if list_eq_dec N.eq_dec (as_name a) (txt "standalone") then true else false) && negb g &&
       ((if list_eq_dec N.eq_dec (as_value a) (txt "yes") then true else false) || (if list_eq_dec N.eq_dec (as_value a) (txt "no") then true else false)) &&
       forallb is_space next
    then Ok (inr {| dr_version := dr_version r; dr_enc_name := dr_enc_name r; dr_encoding := dr_encoding r;
                    dr_standalone := if list_eq_dec N.eq_dec (as_value a) (txt "yes") then 1 else 0 |})
    else Ok (inl p).
Proof.
  intros Pa Hd. destruct Pa as (_ & _ & _ & Hn & _ & _ & Hq & Hv). unfold decl_standalone.
  rewrite match_eq by (try (apply txt_ascii; reflexivity); now apply pn_dom'). cbn [bind].
  destruct (list_eq_dec N.eq_dec (as_name a) (txt "standalone")); cbn [negb orb andb]; [|eauto].
  destruct g; cbn [negb orb andb]; [eauto|]. rewrite value_eq by lia. cbn [bind].
  pose proof (val_dom dom AD _ Hv) as Dv. rewrite !match_eq by (auto; apply txt_ascii; reflexivity). cbn [bind].
  apply Forall_app in Hd as [_ Dn].
  destruct (span_sp next) as (sp & b & -> & Hs & St). apply Forall_app in Dn as [_ Db].
  rewrite (skip_spaces_eq _ _ _ _ CS TR AD) by (auto; rewrite flat_map_app, app_length; pose proof (F_len _ _ _ _ CS AD _ (sp_dom dom AD _ Hs)); lia).
  cbn [bind].
  assert (Q : forallb is_space (sp ++ b) = match b with [] => true | _ => false end).
  { rewrite forallb_app. replace (forallb is_space sp) with true by (symmetry; apply forallb_forall; unfold spaces, all_in in Hs; rewrite Forall_forall in Hs; exact Hs).
    destruct b as [|c b]; [reflexivity|]. cbn in St |- *. now rewrite St. }
  rewrite Q. clear Q. destruct b as [|c b].
  - cbn [flat_map]. destruct (list_eq_dec N.eq_dec (as_value a) (txt "yes")), (list_eq_dec N.eq_dec (as_value a) (txt "no")); cbn [orb andb]; eauto.
  - destruct (F_ne _ _ _ _ CS AD (c :: b) Db ltac:(discriminate)) as (y & t & ->).
    destruct (list_eq_dec N.eq_dec (as_value a) (txt "yes")), (list_eq_dec N.eq_dec (as_value a) (txt "no")); cbn [orb andb]; eauto.
  Unshelve. all: exact [].
Qed.

Definition eqb_txt (v : list N) (s : string) : bool := if list_eq_dec N.eq_dec v (txt s) then true else false.
Lemma letter_eval v q next : all_in dom (v ++ q :: next) -> q = 34 \/ q = 39 -> all_in value_char v ->
  exists c, toAscii e (F (v ++ [q] ++ next)) = Ok c /\ (ascii_letter c = true <-> enc_value v).
Proof.
  intros Hd Hq Hv. rewrite (toAscii_cp _ _ _ TR) by auto. eexists. split; [reflexivity|]. destruct v as [|c v]; cbn [app ascii_of].
  - replace (q <? 128) with true by lia. unfold ascii_letter. split; [lia|]. intros (? & ? & ? & ?). discriminate.
  - inversion Hv as [|? ? Hc _]; subst. apply value_lt in Hc. replace (c <? 128) with true by lia. unfold enc_value, letter, ascii_letter. split.
    + intros H. exists c, v. split; auto. lia.
    + intros (c' & v' & E & H). injection E as <- <-. lia.
Qed.

Lemma att_dom a next : all_in dom (att_text a ++ next) -> all_in dom (as_value a ++ as_quote a :: next) /\ all_in dom next.
Proof. unfold att_text. intros H. unfold all_in in *. repeat (rewrite Forall_app in H || rewrite Forall_app). destruct H as ((?&?&?&?&?&?&?&H2)&?). inversion H2; subst. auto. Qed.

Lemma fwd_sd g r np a next r' : pseudo_any a -> all_in dom (att_text a ++ next) ->
  decl_standalone e g r np (F (as_name a)) (F (as_value a ++ [as_quote a] ++ next)) (F next) = Ok (inr r') ->
  g = false /\ pseudo "standalone" a /\ (as_value a = txt "yes" \/ as_value a = txt "no") /\ spaces next /\
  r' = {| dr_version := dr_version r; dr_enc_name := dr_enc_name r; dr_encoding := dr_encoding r;
          dr_standalone := if list_eq_dec N.eq_dec (as_value a) (txt "yes") then 1 else 0 |}.
Proof.
  intros Pa Hd. destruct (standalone_eval g r np a next Pa Hd) as (p & ->).
  destruct (list_eq_dec N.eq_dec (as_name a) (txt "standalone")) as [En|]; cbn [andb]; [|discriminate].
  destruct g; cbn [negb andb]; [discriminate|]. destruct (_ || _) eqn:Y; cbn [andb]; [|discriminate].
  destruct (forallb is_space next) eqn:S; [|discriminate]. intros E. injection E as <-. split; auto. split; [now apply pseudo_any_pseudo|].
  split; [destruct (list_eq_dec N.eq_dec (as_value a) (txt "yes")); [now left|right]; destruct (list_eq_dec N.eq_dec (as_value a) (txt "no")); [auto|discriminate]|].
  split; auto. unfold spaces, all_in. rewrite Forall_forall. rewrite forallb_forall in S. exact S.
Qed.
Lemma src_dom n a : pseudo n a -> forallb pname_char (txt n) = true -> txt n <> [] -> all_in dom (att_text a) /\ pseudo_any a.
Proof.
  intros H Hn Hne. assert (P : all_in pname_char (txt n)) by (apply Forall_forall; rewrite forallb_forall in Hn; exact Hn).
  pose proof (pseudo_pseudo_any _ _ H P Hne) as Pa. split; auto. destruct Pa as (_ & H1 & _ & H2 & H3 & H4 & H5 & H6).
  unfold att_text, all_in in *. rewrite !Forall_app.
  pose proof (sp_dom dom AD _ H1). pose proof (sp_dom dom AD _ H3). pose proof (sp_dom dom AD _ H4). pose proof (val_dom dom AD _ H6). pose proof (pn_dom' _ H2).
  repeat split; auto; change (txt "=") with [61]; try (apply Forall_cons; [apply AD; lia|apply Forall_nil]).
Qed.
Lemma bwd_sd r np a next : pseudo "standalone" a -> (as_value a = txt "yes" \/ as_value a = txt "no") -> spaces next ->
  decl_standalone e false r np (F (as_name a)) (F (as_value a ++ [as_quote a] ++ next)) (F next) = Ok (inr
    {| dr_version := dr_version r; dr_enc_name := dr_enc_name r; dr_encoding := dr_encoding r;
       dr_standalone := if list_eq_dec N.eq_dec (as_value a) (txt "yes") then 1 else 0 |}).
Proof.
  intros Pa Hy Hs. destruct (src_dom _ _ Pa eq_refl ltac:(discriminate)) as [Da Pb].
  assert (Hd : all_in dom (att_text a ++ next)) by (apply Forall_app; split; [exact Da|now apply (sp_dom dom AD)]).
  destruct (standalone_eval false r np a next Pb Hd) as (p & ->). destruct Pa as (_ & _ & -> & _).
  destruct (list_eq_dec N.eq_dec (txt "standalone") (txt "standalone")) as [_|K]; [|congruence]. cbn [negb andb].
  replace (forallb is_space next) with true by (symmetry; apply forallb_forall; unfold spaces, all_in in Hs; rewrite Forall_forall in Hs; exact Hs).
  destruct (list_eq_dec N.eq_dec (as_value a) (txt "yes")); cbn [orb andb]; auto.
  destruct (list_eq_dec N.eq_dec (as_value a) (txt "no")); cbn [orb andb]; auto. tauto.
Qed.

Definition en_ok (a : att_src) : Prop := pseudo "encoding" a /\ enc_value (as_value a).
Definition sd_ok (a : att_src) : Prop := pseudo "standalone" a /\ (as_value a = txt "yes" \/ as_value a = txt "no").
Definition enc_result (ns : bool) (en : option att_src) (r : decl_result) : Prop :=
  points_at (dr_enc_name r) en /\
  match en with None => dr_encoding r = None | Some a => findEncoding ns e (F (as_value a)) = Ok (dr_encoding r) end.
Definition sd_value (sd : option att_src) : Z :=
  match sd with None => -1 | Some a => if list_eq_dec N.eq_dec (as_value a) (txt "yes") then 1 else 0 end.

Lemma fwd_enc ns g r np a next r' : pseudo_any a -> all_in dom (att_text a ++ next) ->
  dr_enc_name r = None -> dr_encoding r = None -> dr_standalone r = (-1)%Z ->
  decl_encoding e ns g r np (F (as_name a)) (F (as_value a ++ [as_quote a] ++ next)) (F next) = Ok (inr r') ->
  exists en sd sp, att_text a ++ next = opt_text en ++ opt_text sd ++ sp /\ opt_ok en_ok en /\ opt_ok sd_ok sd /\ spaces sp /\
    (if g then en <> None /\ sd = None else True) /\
    dr_version r' = dr_version r /\ enc_result ns en r' /\ dr_standalone r' = sd_value sd.
Proof.
  intros Pa Hd R1 R2 R3. unfold decl_encoding. pose proof Pa as (_ & _ & _ & Hn & _ & _ & Hq & Hv). destruct (att_dom _ _ Hd) as [Dv Dn].
  rewrite match_eq by (try (apply txt_ascii; reflexivity); now apply pn_dom'). cbn [bind].
  destruct (list_eq_dec N.eq_dec (as_name a) (txt "encoding")) as [En|En].
  - destruct (letter_eval (as_value a) (as_quote a) next) as (c & Ec & Hc); auto. rewrite Ec. cbn [bind].
    destruct (ascii_letter c) eqn:L; cbn [negb]; [|discriminate]. assert (EV : enc_value (as_value a)) by now apply Hc.
    rewrite value_eq by lia. cbn [bind]. destruct (findEncoding ns e (F (as_value a))) as [fe|] eqn:FE; cbn [bind]; [|discriminate].
    assert (EO : en_ok a) by (split; auto; now apply pseudo_any_pseudo).
    destruct (pseudo_cases _ _ _ _ CS TR AD next Dn) as [(Hs & ->)|[(a2 & n2 & -> & Pa2 & ->)|(pre & p & -> & ->)]]; cbn [bind].
    + intros E. injection E as <-. exists (Some a), None, next. cbn [opt_text opt_ok app].
      split; [reflexivity|]. split; [exact EO|]. split; [exact I|]. split; [exact Hs|]. split; [destruct g; [split; [discriminate|reflexivity]|exact I]|].
      split; [reflexivity|]. split; [|exact R3]. split; [|exact FE].
      * cbn [dr_enc_name]. exists (F next). rewrite <- flat_map_app, <- app_assoc. reflexivity.
    + intros E. destruct (fwd_sd _ _ _ _ _ _ Pa2 Dn E) as (-> & P2 & Hy & Hs & ->).
      exists (Some a), (Some a2), n2. cbn [opt_text opt_ok].
      split; [reflexivity|]. split; [exact EO|]. split; [now split|]. split; [exact Hs|]. split; [exact I|].
      split; [reflexivity|]. split; [|reflexivity]. split; [|exact FE].
      cbn [dr_enc_name]. exists (F (att_text a2 ++ n2)). rewrite <- flat_map_app, <- app_assoc. reflexivity.
    + discriminate.
  - intros E. destruct (fwd_sd _ _ _ _ _ _ Pa Hd E) as (-> & P2 & Hy & Hs & ->).
    exists None, (Some a), next. cbn [opt_text opt_ok app].
    split; [reflexivity|]. split; [exact I|]. split; [now split|]. split; [exact Hs|]. split; [exact I|].
    split; [reflexivity|]. split; [|reflexivity]. split; [exact R1|exact R2].
Qed.

Lemma not_name a b : txt a <> txt b -> (if list_eq_dec N.eq_dec (txt a) (txt b) then true else false) = false.
Proof. intros H. now destruct (list_eq_dec N.eq_dec (txt a) (txt b)). Qed.

Lemma bwd_enc ns (g : bool) r np en sd sp a next : 
  dr_enc_name r = None -> dr_encoding r = None -> dr_standalone r = (-1)%Z ->
  att_text a ++ next = opt_text en ++ opt_text sd ++ sp -> (en = Some a \/ en = None /\ sd = Some a) ->
  opt_ok en_ok en -> opt_ok sd_ok sd -> spaces sp -> (if g then en <> None /\ sd = None else True) ->
  (forall a, en = Some a -> length (as_value a) <> 127%nat) ->
  exists r', decl_encoding e ns g r np (F (as_name a)) (F (as_value a ++ [as_quote a] ++ next)) (F next) = Ok (inr r') /\
    dr_version r' = dr_version r /\ enc_result ns en r' /\ dr_standalone r' = sd_value sd.
Proof.
  intros R1 R2 R3 E Ha Hen Hsd Hs Hg H127. unfold decl_encoding. destruct Ha as [-> |[-> ->]].
  - cbn [opt_ok opt_text] in *. apply app_inv_head in E. subst next. destruct Hen as [Pe EV]. destruct (src_dom _ _ Pe eq_refl ltac:(discriminate)) as [Da Pa].
    assert (Dn : all_in dom (opt_text sd ++ sp)).
    { apply Forall_app. split; [|now apply (sp_dom dom AD)]. destruct sd as [s|]; [|constructor]. cbn in Hsd. destruct Hsd as [Ps _]. now apply (src_dom _ _ Ps). }
    pose proof Pa as (_ & _ & _ & Hn & _ & _ & Hq & Hv).
    destruct (att_dom a (opt_text sd ++ sp)) as [Dv _]. { apply Forall_app; auto. }
    rewrite match_eq by (try (apply txt_ascii; reflexivity); now apply pn_dom'). cbn [bind]. destruct Pe as (Pe1 & Pe2 & Pe3 & Pe4). rewrite Pe3.
    destruct (list_eq_dec N.eq_dec (txt "encoding") (txt "encoding")) as [_|K]; [|congruence].
    destruct (letter_eval (as_value a) (as_quote a) (opt_text sd ++ sp)) as (c & -> & Hc); auto. cbn [bind]. replace (ascii_letter c) with true by (symmetry; now apply Hc). cbn [negb].
    rewrite value_eq by lia. cbn [bind]. pose proof (H127 a eq_refl) as L. assert (FE : exists fe, findEncoding ns e (F (as_value a)) = Ok fe).
    { rewrite find_eval by auto. replace (Nat.eqb (length (as_value a)) 127) with false by (symmetry; now apply Nat.eqb_neq). eauto. }
    destruct FE as (fe & FE). rewrite FE. cbn [bind].
    assert (PT : points_at (Some (F (as_value a ++ [as_quote a] ++ opt_text sd ++ sp))) (Some a)).
    { exists (F (opt_text sd ++ sp)). rewrite <- flat_map_app, <- app_assoc. reflexivity. }
    destruct sd as [s|].
    + cbn [opt_ok opt_text] in *. destruct Hsd as [Ps Hy]. destruct (src_dom _ _ Ps eq_refl ltac:(discriminate)) as [Ds Pas].
      rewrite (pseudo_complete _ _ _ _ CS TR AD) by auto. cbn [bind]. destruct g; [destruct Hg; discriminate|].
      rewrite bwd_sd by auto. eexists. split; [reflexivity|]. cbn. split; auto. split; auto. split; auto.
    + cbn [opt_text app] in *. rewrite (pseudo_spaces _ _ _ _ CS TR AD) by auto. cbn [bind]. eexists. split; [reflexivity|]. cbn. split; auto. split; auto. split; auto.
  - cbn [opt_ok opt_text app] in *. apply app_inv_head in E. subst next. destruct Hsd as [Ps Hy]. destruct g; [destruct Hg; congruence|].
    destruct (src_dom _ _ Ps eq_refl ltac:(discriminate)) as [Ds Pas]. pose proof Pas as (_ & _ & _ & Hn & _ & _ & Hq & Hv).
    rewrite match_eq by (try (apply txt_ascii; reflexivity); now apply pn_dom'). cbn [bind]. pose proof Ps as (_ & _ & Pe3 & _). rewrite Pe3, not_name by discriminate.
    rewrite <- Pe3. pose proof (bwd_sd r np a sp Ps Hy Hs) as B. cbn [app] in B. rewrite B. eexists. split; [reflexivity|]. cbn. rewrite R1, R2. repeat split; auto.
Qed.

Lemma cut_eval body : all_in dom body ->
  (let* b := inc_start (5 * mb) (F (txt "<?xml" ++ body ++ txt "?>")) in dec_end (2 * mb) b) = Ok (F body).
Proof.
  intros Hd. assert (L : forall w, all_in (fun c => c <? 128) w -> length (F w) = (length w * mb)%nat).
  { induction 1 as [|c w Hc _ IH]; [reflexivity|]. cbn [flat_map length]. rewrite app_length, IH, (ch_narrow_len _ _ _ _ CS) by lia. lia. }
  rewrite flat_map_app. rewrite inc_app by (rewrite L by (apply txt_ascii; reflexivity); reflexivity). cbn [bind]. unfold dec_end.
  rewrite flat_map_app, app_length, (L (txt "?>")) by (apply txt_ascii; reflexivity). change (length (txt "?>")) with 2%nat.
  replace (2 * mb <=? length (F body) + 2 * mb)%nat with true by lia. f_equal. replace (length (F body) + 2 * mb - 2 * mb)%nat with (length (F body) + 0)%nat by lia.
  rewrite firstn_app_2. cbn. now rewrite app_nil_r.
Qed.

Definition start_result : decl_result := {| dr_version := None; dr_enc_name := None; dr_encoding := None; dr_standalone := -1 |}.
Definition decl_body (d : decl_src) : list N := opt_text (ds_version d) ++ opt_text (ds_encoding d) ++ opt_text (ds_standalone d) ++ ds_space d.
Lemma decl_text_body d : decl_text d = txt "<?xml" ++ decl_body d ++ txt "?>".
Proof. unfold decl_text, decl_body. now rewrite <- !app_assoc. Qed.
Lemma decl_unfold ns g body : all_in dom body ->
  doParseXmlDecl e ns g (F (txt "<?xml" ++ body ++ txt "?>")) =
  (let* p := parsePseudoAttribute e (F body) in
  match p with
  | PA_bad q => Ok (inl q)
  | PA_end => Ok (inl (F body))
  | PA_att np name val next =>
      let* m := nameMatchesAscii e name (txt "version") in
      if negb m then
        if negb g then Ok (inl np)
        else decl_encoding e ns g start_result np name val next
      else
        let r := {| dr_version := Some val; dr_enc_name := None; dr_encoding := None; dr_standalone := -1 |} in
        let* p := parsePseudoAttribute e next in
        match p with
        | PA_bad q => Ok (inl q)
        | PA_end => if g then Ok (inl next) else Ok (inr r)
        | PA_att np name val next' => decl_encoding e ns g r np name val next'
        end
  end).
Proof.
  intros Hd. pose proof (cut_eval body Hd) as C. unfold doParseXmlDecl. destruct (inc_start (5 * mb) _) as [b|]; [|discriminate]. cbn [bind] in *. rewrite C. reflexivity.
Qed.

Theorem decl_sound ns g body r : all_in dom body ->
  doParseXmlDecl e ns g (F (txt "<?xml" ++ body ++ txt "?>")) = Ok (inr r) ->
  exists d, txt "<?xml" ++ body ++ txt "?>" = decl_text d /\ decl_ok g d /\ describes ns d r.
Proof.
  intros Hd. rewrite decl_unfold by auto.
  destruct (pseudo_cases _ _ _ _ CS TR AD body Hd) as [(Hs & ->)|[(a & next & -> & Pa & ->)|(pre & p & -> & ->)]]; cbn [bind]; try discriminate.
  pose proof Pa as (_ & _ & _ & Hn & _ & _ & Hq & Hv). destruct (att_dom _ _ Hd) as [Dv Dn].
  rewrite match_eq by (try (apply txt_ascii; reflexivity); now apply pn_dom'). cbn [bind].
  destruct (list_eq_dec N.eq_dec (as_name a) (txt "version")) as [En|En]; cbn [negb].
  - assert (VO : pseudo "version" a) by now apply pseudo_any_pseudo.
    assert (PT : points_at (Some (F (as_value a ++ [as_quote a] ++ next))) (Some a)).
    { exists (F next). rewrite <- flat_map_app, <- app_assoc. reflexivity. }
    destruct (pseudo_cases _ _ _ _ CS TR AD next Dn) as [(Hs & ->)|[(a2 & n2 & -> & Pa2 & ->)|(pre & p & -> & ->)]]; cbn [bind]; try discriminate.
    + destruct g; [discriminate|]. intros E. injection E as <-. exists {| ds_version := Some a; ds_encoding := None; ds_standalone := None; ds_space := next |}.
      rewrite decl_text_body. unfold decl_body, decl_ok, describes. cbn. split; [reflexivity|]. repeat split; auto; try apply VO. discriminate.
    + intros E. match type of E with decl_encoding _ _ _ ?r0 ?np _ _ _ = _ => pose proof (fwd_enc ns g r0 np a2 n2 r Pa2 Dn eq_refl eq_refl eq_refl E) as FW end.
      destruct FW as (en & sd & sp & E2 & H1 & H2 & H3 & H4 & H5 & H6 & H7).
      exists {| ds_version := Some a; ds_encoding := en; ds_standalone := sd; ds_space := sp |}.
      rewrite decl_text_body. unfold decl_body, decl_ok, describes. cbn [ds_version ds_encoding ds_standalone ds_space opt_text]. rewrite E2, H5. split; [reflexivity|].
      destruct H6 as [H6a H6b]. repeat split; auto; try apply VO. destruct g; auto. discriminate.
  - destruct g; cbn [negb]; [|discriminate]. intros E.
    destruct (fwd_enc ns true start_result _ a next r Pa Hd eq_refl eq_refl eq_refl E) as (en & sd & sp & E2 & H1 & H2 & H3 & H4 & H5 & H6 & H7).
    exists {| ds_version := None; ds_encoding := en; ds_standalone := sd; ds_space := sp |}.
    rewrite decl_text_body. unfold decl_body, decl_ok, describes. cbn [ds_version ds_encoding ds_standalone ds_space opt_text app]. rewrite E2, H5. split; [reflexivity|].
    destruct H6 as [H6a H6b]. destruct H4. repeat split; auto.
Qed.

Lemma opt_dom (P : att_src -> Prop) n a : (forall a, P a -> pseudo n a) -> forallb pname_char (txt n) = true -> txt n <> [] -> opt_ok P a -> all_in dom (opt_text a).
Proof. intros HP H1 H2 H3. destruct a as [a|]; [|constructor]. cbn in *. apply HP in H3. now apply (src_dom n). Qed.
Lemma body_dom g d : decl_ok g d -> all_in dom (decl_body d).
Proof.
  intros (H1 & H2 & H3 & H4 & _). unfold decl_body, all_in. rewrite !Forall_app. repeat split.
  - apply (opt_dom (pseudo "version") "version"); auto. discriminate.
  - apply (opt_dom en_ok "encoding"); auto; [intros ? []; auto|discriminate].
  - apply (opt_dom sd_ok "standalone"); auto; [intros ? []; auto|discriminate].
  - now apply (sp_dom dom AD).
Qed.
Theorem decl_complete ns g d : decl_ok g d -> (forall a, ds_encoding d = Some a -> length (as_value a) <> 127%nat) ->
  exists r, doParseXmlDecl e ns g (F (decl_text d)) = Ok (inr r) /\ describes ns d r.
Proof.
  intros OK H127. pose proof (body_dom _ _ OK) as Hd. rewrite decl_text_body, decl_unfold by auto. destruct OK as (H1 & H2 & H3 & H4 & H5). unfold decl_body in *.
  destruct d as [[v|] en sd sp]; cbn [ds_version ds_encoding ds_standalone ds_space opt_text opt_ok] in *.
  - destruct (src_dom _ _ H1 eq_refl ltac:(discriminate)) as [Da Pa]. rewrite (pseudo_complete _ _ _ _ CS TR AD) by auto. cbn [bind].
    pose proof Pa as (_ & _ & _ & Hn & _ & _ & Hq & Hv). pose proof Hd as Hd0. apply Forall_app in Hd as [_ Dn].
    rewrite match_eq by (try (apply txt_ascii; reflexivity); now apply pn_dom'). cbn [bind]. pose proof H1 as (_ & _ & Pe3 & _).
    destruct (list_eq_dec N.eq_dec (as_name v) (txt "version")) as [_|K]; [|congruence]. cbn [negb].
    set (r0 := {| dr_version := Some _; dr_enc_name := None; dr_encoding := None; dr_standalone := -1 |}).
    assert (PT : points_at (dr_version r0) (Some v)).
    { unfold r0. cbn [dr_version]. exists (F (opt_text en ++ opt_text sd ++ sp)). rewrite <- flat_map_app, <- app_assoc. reflexivity. }
    assert (K : forall a next, att_text a ++ next = opt_text en ++ opt_text sd ++ sp -> (en = Some a \/ en = None /\ sd = Some a) -> pseudo_any a ->
      exists r, (let* p := parsePseudoAttribute e (F (opt_text en ++ opt_text sd ++ sp)) in
        match p with
        | PA_bad q => Ok (inl q)
        | PA_end => if g then Ok (inl (F (opt_text en ++ opt_text sd ++ sp))) else Ok (inr r0)
        | PA_att np name val next' => decl_encoding e ns g r0 np name val next'
        end) = Ok (inr r) /\ describes ns {| ds_version := Some v; ds_encoding := en; ds_standalone := sd; ds_space := sp |} r).
    { intros a next E Ha Pa2. rewrite <- E in Dn. assert (PC := pseudo_complete _ _ _ _ CS TR AD a next Dn Pa2). rewrite E in PC. rewrite PC. cbn [bind].
      destruct (bwd_enc ns g r0 (F (skipn (length (as_space a)) (opt_text en ++ opt_text sd ++ sp))) en sd sp a next eq_refl eq_refl eq_refl E Ha H2 H3 H4) as (r' & E' & V & ER & SD); auto.
      { destruct g; auto. }
      exists r'. split; [exact E'|]. unfold describes. cbn. rewrite V. destruct ER as [ER1 ER2]. repeat split; auto. }
    destruct en as [a|].
    + cbn [opt_text] in *. destruct (src_dom "encoding" a (proj1 H2) eq_refl ltac:(discriminate)) as [_ Pa2]. apply (K a (opt_text sd ++ sp)); auto.
    + destruct sd as [a|].
      * cbn [opt_text app] in *. destruct (src_dom "standalone" a (proj1 H3) eq_refl ltac:(discriminate)) as [_ Pa2]. apply (K a sp); auto.
      * cbn [opt_text app]. rewrite (pseudo_spaces _ _ _ _ CS TR AD) by auto. cbn [bind]. destruct g; [destruct H5; congruence|].
        eexists. split; [reflexivity|]. unfold describes. cbn. repeat split; auto.
  - destruct g; [|congruence]. destruct H5 as [H5 ->]. destruct en as [a|]; [|congruence]. cbn [opt_text app opt_ok] in *.
    destruct (src_dom "encoding" a (proj1 H2) eq_refl ltac:(discriminate)) as [Da Pa]. rewrite (pseudo_complete _ _ _ _ CS TR AD) by auto. cbn [bind].
    pose proof Pa as (_ & _ & _ & Hn & _ & _ & Hq & Hv). rewrite match_eq by (try (apply txt_ascii; reflexivity); now apply pn_dom'). cbn [bind].
    destruct H2 as [Pe EV]. pose proof Pe as (_ & _ & Pe3 & _). destruct (list_eq_dec N.eq_dec (as_name a) (txt "version")) as [K|_]; [rewrite Pe3 in K; discriminate|]. cbn [negb].
    destruct (bwd_enc ns true start_result (F (skipn (length (as_space a)) (att_text a ++ sp))) (Some a) None sp a sp eq_refl eq_refl eq_refl eq_refl) as (r' & E' & V & ER & SD); auto.
    { now split. }
    exists r'. split; [exact E'|]. unfold describes. cbn. rewrite V. destruct ER as [ER1 ER2]. repeat split; auto.
Qed.

Definition long_name (body : list N) : Prop :=
  exists pre a suf, body = pre ++ att_text a ++ suf /\ en_ok a /\ length (as_value a) = 127%nat.
Lemma long_app pre b : long_name b -> long_name (pre ++ b).
Proof. intros (p & a & suf & -> & H). exists (pre ++ p), a, suf. now rewrite <- app_assoc. Qed.
Lemma tot_sd g r np a next : pseudo_any a -> all_in dom (att_text a ++ next) ->
  exists o, decl_standalone e g r np (F (as_name a)) (F (as_value a ++ [as_quote a] ++ next)) (F next) = Ok o.
Proof. intros Pa Hd. destruct (standalone_eval g r np a next Pa Hd) as (p & ->). destruct (_ && _); eauto. Qed.
Lemma tot_enc ns g r np a next : pseudo_any a -> all_in dom (att_text a ++ next) ->
  (exists o, decl_encoding e ns g r np (F (as_name a)) (F (as_value a ++ [as_quote a] ++ next)) (F next) = Ok o) \/
  (decl_encoding e ns g r np (F (as_name a)) (F (as_value a ++ [as_quote a] ++ next)) (F next) = Err EPanic /\ long_name (att_text a ++ next)).
Proof.
  intros Pa Hd. unfold decl_encoding. pose proof Pa as (_ & _ & _ & Hn & _ & _ & Hq & Hv). destruct (att_dom _ _ Hd) as [Dv Dn].
  rewrite match_eq by (try (apply txt_ascii; reflexivity); now apply pn_dom'). cbn [bind].
  destruct (list_eq_dec N.eq_dec (as_name a) (txt "encoding")) as [En|En].
  - destruct (letter_eval (as_value a) (as_quote a) next) as (c & Ec & Hc); auto. rewrite Ec. cbn [bind].
    destruct (ascii_letter c) eqn:L; cbn [negb]; [|eauto]. assert (EV : enc_value (as_value a)) by now apply Hc.
    rewrite value_eq by lia. cbn [bind]. rewrite find_eval by auto. destruct (Nat.eqb (length (as_value a)) 127) eqn:E; cbn [bind].
    + right. split; auto. exists [], a, next. cbn [app]. split; auto. split; [split; auto; now apply pseudo_any_pseudo|now apply Nat.eqb_eq].
    + left. destruct (pseudo_cases _ _ _ _ CS TR AD next Dn) as [(Hs & ->)|[(a2 & n2 & -> & Pa2 & ->)|(pre & p & -> & ->)]]; cbn [bind]; eauto.
      apply tot_sd; auto.
  - left. apply tot_sd; auto.
Qed.
Theorem decl_total ns g body : all_in dom body ->
  (exists o, doParseXmlDecl e ns g (F (txt "<?xml" ++ body ++ txt "?>")) = Ok o) \/
  (doParseXmlDecl e ns g (F (txt "<?xml" ++ body ++ txt "?>")) = Err EPanic /\ long_name body).
Proof.
  intros Hd. rewrite decl_unfold by auto.
  destruct (pseudo_cases _ _ _ _ CS TR AD body Hd) as [(Hs & ->)|[(a & next & -> & Pa & ->)|(pre & p & -> & ->)]]; cbn [bind]; eauto.
  pose proof Pa as (_ & _ & _ & Hn & _ & _ & Hq & Hv). destruct (att_dom _ _ Hd) as [Dv Dn].
  rewrite match_eq by (try (apply txt_ascii; reflexivity); now apply pn_dom'). cbn [bind].
  destruct (list_eq_dec N.eq_dec (as_name a) (txt "version")) as [En|En]; cbn [negb].
  - destruct (pseudo_cases _ _ _ _ CS TR AD next Dn) as [(Hs & ->)|[(a2 & n2 & -> & Pa2 & ->)|(pre & p & -> & ->)]]; cbn [bind]; eauto.
    + destruct g; eauto.
    + match goal with |- context [decl_encoding e ns g ?r ?np _ _ _] => destruct (tot_enc ns g r np a2 n2 Pa2 Dn) as [(o & ->)|[-> L]] end; eauto.
      right. split; auto. now apply long_app.
  - destruct g; cbn [negb]; eauto. match goal with |- context [decl_encoding e ns true ?r ?np _ _ _] => destruct (tot_enc ns true r np a next Pa Hd) as [(o & ->)|[-> L]] end; eauto.
Qed.

Lemma long_enc ns g r np a next : en_ok a -> length (as_value a) = 127%nat -> all_in dom next ->
  decl_encoding e ns g r np (F (as_name a)) (F (as_value a ++ [as_quote a] ++ next)) (F next) = Err EPanic.
Proof.
  intros [Pe EV] L Dn. destruct (src_dom _ _ Pe eq_refl ltac:(discriminate)) as [Da Pa]. unfold decl_encoding. pose proof Pa as (_ & _ & _ & Hn & _ & _ & Hq & Hv).
  destruct (att_dom a next) as [Dv _]; [apply Forall_app; auto|].
  rewrite match_eq by (try (apply txt_ascii; reflexivity); now apply pn_dom'). cbn [bind]. destruct Pe as (Pe1 & Pe2 & Pe3 & Pe4). rewrite Pe3.
  destruct (list_eq_dec N.eq_dec (txt "encoding") (txt "encoding")) as [_|K]; [|congruence].
  destruct (letter_eval (as_value a) (as_quote a) next) as (c & Ec & Hc); auto. rewrite Ec. cbn [bind].
  replace (ascii_letter c) with true by (symmetry; now apply Hc). cbn [negb]. rewrite value_eq by lia. cbn [bind]. rewrite find_eval by auto. now rewrite L.
Qed.
Theorem decl_long ns g d a : decl_ok g d -> ds_encoding d = Some a -> length (as_value a) = 127%nat ->
  doParseXmlDecl e ns g (F (decl_text d)) = Err EPanic.
Proof.
  intros OK Ea L. pose proof (body_dom _ _ OK) as Hd. rewrite decl_text_body, decl_unfold by auto. destruct OK as (H1 & H2 & H3 & H4 & H5). unfold decl_body in *.
  destruct d as [v en sd sp]; cbn [ds_version ds_encoding ds_standalone ds_space opt_text opt_ok] in *. subst en. cbn [opt_text opt_ok] in *.
  destruct (src_dom "encoding" a (proj1 H2) eq_refl ltac:(discriminate)) as [Da Pa]. destruct v as [v|].
  - cbn [opt_text opt_ok app] in *. destruct (src_dom "version" v H1 eq_refl ltac:(discriminate)) as [Dv Pv].
    rewrite (pseudo_complete _ _ _ _ CS TR AD) by auto. cbn [bind].
    pose proof Pv as (_ & _ & _ & Hn & _ & _ & Hq & Hv). rewrite match_eq by (try (apply txt_ascii; reflexivity); now apply pn_dom'). cbn [bind].
    pose proof H1 as (_ & _ & Pe3 & _). destruct (list_eq_dec N.eq_dec (as_name v) (txt "version")) as [_|K]; [|congruence]. cbn [negb].
    unfold all_in in Hd. rewrite !Forall_app in Hd. rewrite (pseudo_complete _ _ _ _ CS TR AD) by (unfold all_in in *; try rewrite !Forall_app; tauto). cbn [bind].
    apply long_enc; auto. unfold all_in. rewrite Forall_app. tauto.
  - cbn [opt_text opt_ok app] in *. rewrite (pseudo_complete _ _ _ _ CS TR AD) by auto. cbn [bind]. pose proof Pa as (_ & _ & _ & Hn & _ & _ & Hq & Hv).
    rewrite match_eq by (try (apply txt_ascii; reflexivity); now apply pn_dom'). cbn [bind].
    pose proof H2 as ((_ & _ & Pe3 & _) & _). destruct (list_eq_dec N.eq_dec (as_name a) (txt "version")) as [K|_]; [rewrite Pe3 in K; discriminate|]. cbn [negb].
    destruct g; [|congruence]. cbn [negb]. unfold all_in in Hd. rewrite !Forall_app in Hd. apply long_enc; auto. unfold all_in. rewrite Forall_app. tauto.
Qed.
End T.
