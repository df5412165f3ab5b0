(* Content and CDATA sections over code points. *)
From Coq Require Import String List NArith ZArith Bool Lia Arith.
From Coq Require Import ZifyBool ZifyNat ZifyN.
From Verif Require Import Base Encoding SpecText SpecUnicode SpecNames SpecLex EncLaws Tok TokWp TokSafe Charset CharsetLaws Sim SimTop TextEnc CpBase CpComment CpTag CpStart.
Import ListNotations.
Local Open Scope N_scope.

Definition cast {A B} (r : res (outc A)) : res (outc B) :=
  match r with Ok (Stop t n) => Ok (Stop t n) | Ok (Cont _ _) => Err EPanic | Err x => Err x end.
Lemma cast_stop {A B} (r : res (outc A)) t p : @cast A B r = stop t p <-> r = stop t p.
Proof. destruct r as [[? ?|? ?]|]; cbn [cast]; unfold stop; split; intros; congruence. Qed.

Section Cp.
Variables (lat ns : bool) (dom : N -> bool) (k : cls).
Hypothesis ST : std lat ns dom k.
Notation ce := (cp_enc k).
Notation doms := (all_in dom).
Notation take_name := (take_name lat ns).
Notation name_char := (name_char lat ns).
Notation start_char := (start_char lat ns).

Definition nocont {A} (r : res (outc A)) : Prop := match r with Ok (Cont _ _) => False | _ => True end.
Lemma cast_then {A B} (r : res (outc A)) (f : A -> M B) : nocont r -> then_ r f = cast r.
Proof. destruct r as [[? ?|? ?]|]; cbn; tauto. Qed.
Lemma cm_no {B} cs : nocont (@cm B cs).
Proof. induction cs as [|c r IH]; cbn [cm]; [exact I|]. destruct (is_xml_char c); cbn [negb]; [|exact I]. destruct (c =? 45); [|exact IH].
  destruct r as [|d r']; [exact I|]. destruct (d =? 45); auto. destruct r'; [exact I|]. destruct (_ =? 62); exact I. Qed.
Lemma pt_no {B} t cs : nocont (@pt B t cs).
Proof. induction cs as [|c r IH]; cbn [pt]; [exact I|]. destruct (negb _); [exact I|]. destruct (c =? 63); auto.
  destruct r as [|d r']; [exact I|]. destruct (d =? 62); [exact I|auto]. Qed.
Lemma pi_no {B} cs : nocont (@pi_fn lat ns B cs).
Proof.
  unfold pi_fn. destruct cs as [|c r]; [exact I|]. destruct (start_char c); [|exact I]. destruct (snd _) as [|d q]; [exact I|].
  destruct (pi_stop d); [|exact I]. destruct (target _); [|exact I]. destruct (d =? 63); [|apply pt_no].
  destruct q as [|f q]; [exact I|]. destruct (f =? 62); exact I.
Qed.
Lemma etag_no {B} cs : nocont (@etag_fn lat ns B cs).
Proof.
  unfold etag_fn. destruct cs as [|c r]; [exact I|]. destruct (start_char c); [|exact I]. destruct (snd _) as [|d q]; [exact I|].
  destruct (d =? 62); [exact I|]. destruct (is_space d); [|exact I]. destruct (skip_sp q); [exact I|]. destruct (_ =? 62); exact I.
Qed.
Definition comment_fn {B} (cs : list N) : res (outc B) :=
  match cs with [] => partial | c :: r => if c =? 45 then cm B r else stop T_INVALID cs end.
Lemma comment_no {B} cs : nocont (@comment_fn B cs).
Proof. destruct cs as [|c r]; [exact I|]. cbn [comment_fn]. destruct (c =? 45); [apply cm_no|exact I]. Qed.
Lemma scanComment_eq' B cs : doms cs -> @scanComment ce B cs = comment_fn cs.
Proof. intros Hd. destruct cs as [|c r]; [reflexivity|]. now apply (scanComment_eq _ _ _ _ ST). Qed.
Fixpoint string_fn {B} (w : list N) (t : XML_TOK) (cs : list N) : res (outc B) :=
  match w with
  | [] => stop t cs
  | x :: w' => match cs with [] => Err EOob | c :: r => if c =? x then string_fn w' t r else stop T_INVALID cs end
  end.
Definition cdopen_fn {B} (cs : list N) : res (outc B) :=
  if has 6 cs then string_fn (txt "CDATA[") T_CDATA_SECT_OPEN cs else partial.
Lemma cdopen_no {B} cs : nocont (@cdopen_fn B cs).
Proof.
  unfold cdopen_fn. destruct (has 6 cs); [|exact I]. generalize (txt "CDATA["). intros w. revert cs.
  induction w as [|x w IH]; intros [|c r]; try exact I. cbn [string_fn]. destruct (c =? x); [auto|exact I].
Qed.
Lemma scanCdata_eq B cs : @scanCdataSection ce B cs = cdopen_fn cs.
Proof.
  unfold scanCdataSection, cdopen_fn, mbind at 1, require_chars, require_or, has_chars. change (6 * minbpc ce)%nat with 6%nat.
  destruct (has 6 cs); [|reflexivity].
  change CDATA_LSQB with (txt "CDATA["). generalize (txt "CDATA["). intros w. revert cs.
  induction w as [|x w IH]; intros cs; [reflexivity|]. cbn [match_string string_fn]. destruct cs as [|c r]; [reflexivity|].
  cps. destruct (c =? x); cbn [negb]; [cps; apply IH|reflexivity].
Qed.
Lemma string_spec {B} w t cs p : t <> T_INVALID -> (@string_fn B w t cs = stop t p <-> cs = w ++ p).
Proof.
  intros Ht. revert cs. induction w as [|x w IH]; intros cs; cbn [string_fn app]; [split; [now intros [= ->]|now intros ->]|].
  destruct cs as [|c r]; [split; discriminate|]. destruct (c =? x) eqn:E.
  - apply N.eqb_eq in E. subst. rewrite IH. split; [now intros ->|now intros [= ->]].
  - unfold stop. split; [congruence|]. intros [= -> _]. rewrite N.eqb_refl in E. discriminate.
Qed.
Lemma string_toks {B} w t cs t' n : @string_fn B w t cs = Ok (Stop t' n) -> t' = t \/ t' = T_INVALID.
Proof.
  revert cs. induction w as [|x w IH]; intros cs; cbn [string_fn]; [intros [= <- _]; auto|].
  destruct cs as [|c r]; [discriminate|]. destruct (c =? x); [apply IH|intros [= <- _]; auto].
Qed.
Lemma cdopen_spec {B} cs p : @cdopen_fn B cs = stop T_CDATA_SECT_OPEN p <-> cs = txt "CDATA[" ++ p.
Proof.
  unfold cdopen_fn. destruct (has 6 cs) eqn:E.
  - apply string_spec. discriminate.
  - split; [discriminate|]. intros ->. discriminate.
Qed.

(* ---- after '<' ---- *)
Definition lt_fn {B} (r : list N) : res (outc B) :=
  match r with
  | [] => partial
  | c :: q =>
      if start_char c then while_ ce (lt_name_body ce) (fun _ => Ok T_PARTIAL) false q
      else if c =? 33 then
        match q with
        | [] => partial
        | d :: q' =>
            if d =? 45 then cast (@comment_fn unit q')
            else if d =? 91 then cast (@cdopen_fn unit q')
            else stop T_INVALID q
        end
      else if c =? 63 then cast (@pi_fn lat ns unit q)
      else if c =? 47 then cast (@etag_fn lat ns unit q)
      else stop T_INVALID r
  end.
Lemma ex_t c : dom c = true -> bt_eqb (ty k c) BT_EXCL = (c =? 33). Proof. intros; now apply (ty_eqb _ _ _ _ ST). Qed.
Lemma qu_t c : dom c = true -> bt_eqb (ty k c) BT_QUEST = (c =? 63). Proof. intros; now apply (ty_eqb _ _ _ _ ST). Qed.
Lemma ls_t c : dom c = true -> bt_eqb (ty k c) BT_LSQB = (c =? 91). Proof. intros; now apply (ty_eqb _ _ _ _ ST). Qed.
Lemma rs_t c : dom c = true -> bt_eqb (ty k c) BT_RSQB = (c =? 93). Proof. intros; now apply (ty_eqb _ _ _ _ ST). Qed.
Lemma mi_t c : dom c = true -> bt_eqb (ty k c) BT_MINUS = (c =? 45). Proof. intros; now apply (ty_eqb _ _ _ _ ST). Qed.
Lemma lt_t c : dom c = true -> bt_eqb (ty k c) BT_LT = (c =? 60). Proof. intros; now apply (ty_eqb _ _ _ _ ST). Qed.
Lemma am_t c : dom c = true -> bt_eqb (ty k c) BT_AMP = (c =? 38). Proof. intros; now apply (ty_eqb _ _ _ _ ST). Qed.
Lemma cr_t c : dom c = true -> bt_eqb (ty k c) BT_CR = (c =? 13). Proof. intros; now apply (ty_eqb _ _ _ _ ST). Qed.
Lemma lf_t c : dom c = true -> bt_eqb (ty k c) BT_LF = (c =? 10). Proof. intros; now apply (ty_eqb _ _ _ _ ST). Qed.
Lemma excl_fn {A} q : doms q -> (adv1 ce ;; require_char ce ;; t <- bt ce ;;
        match t with BT_MINUS => adv1 ce ;; scanComment ce | BT_LSQB => adv1 ce ;; scanCdataSection ce | _ => stop_here T_INVALID end)%scan (33 :: q) =
  match q with
        | [] => @partial A
        | d :: q' =>
            if d =? 45 then comment_fn q'
            else if d =? 91 then cdopen_fn q'
            else stop T_INVALID q
        end.
Proof.
  intros Hd. cps. destruct q as [|d q]; [reflexivity|]. inversion Hd; subst. cps.
  rewrite <- mi_t, <- ls_t by auto. destruct (ty k d); cbv [bt_eqb ByteType_eq_dec ByteType_rec ByteType_rect]; cps; rewrite ?scanComment_eq', ?scanCdata_eq by auto; reflexivity.
Qed.
Ltac bto := cbv [bt_eqb ByteType_eq_dec ByteType_rec ByteType_rect] in *.
Ltac btg := repeat match goal with |- context [bt_eqb ?a ?b] => let v := eval vm_compute in (bt_eqb a b) in
  match v with true => change (bt_eqb a b) with true | false => change (bt_eqb a b) with false end end.
Lemma scanLt_eq B r : doms r -> @scanLt ce B r = lt_fn r.
Proof.
  intros Hd. unfold scanLt, lt_fn. destruct r as [|c q]; [reflexivity|]. inversion Hd; subst. cps. unfold mbind at 1.
  rewrite (start_iff _ _ _ _ ST) by auto. destruct (start_char c); [reflexivity|].
  pose proof (ex_t c H1) as S1. pose proof (qu_t c H1) as S2. pose proof (sol_t _ _ _ _ ST c H1) as S3.
  destruct (bt_eqb (ty k c) BT_NONASCII) eqn:En.
  { destruct (ty k c); try discriminate. bto. rewrite <- S1, <- S2, <- S3. reflexivity. }
  destruct (c =? 33) eqn:E1.
  { apply N.eqb_eq in E1. subst c. destruct (ty k 33) eqn:Et; try discriminate. rewrite excl_fn by auto.
    destruct q as [|d q]; [reflexivity|]. destruct (d =? 45); [|destruct (d =? 91); [|reflexivity]].
    - pose proof (@comment_no unit q). destruct (comment_fn q) as [[]|]; try reflexivity. destruct H.
    - pose proof (@cdopen_no unit q). destruct (cdopen_fn q) as [[]|]; try reflexivity. destruct H. }
  destruct (c =? 63) eqn:E2.
  { destruct (ty k c) eqn:Et; try discriminate. cps. rewrite (scanPi_eq _ _ _ _ ST) by auto.
    pose proof (@pi_no unit q). destruct (pi_fn lat ns unit q) as [[]|]; try reflexivity. destruct H. }
  destruct (c =? 47) eqn:E3.
  { destruct (ty k c) eqn:Et; try discriminate. cps. rewrite (scanEndTag_eq _ _ _ _ ST) by auto.
    pose proof (@etag_no unit q). destruct (etag_fn lat ns q) as [[]|]; try reflexivity. destruct H. }
  destruct (ty k c); try discriminate; reflexivity.
Qed.

(* ---- runs of character data ---- *)
Fixpoint data_fn {B} (cs : list N) : res (outc B) :=
  match cs with
  | [] => stop T_DATA_CHARS cs
  | c :: r =>
      if negb (data_char c) then stop T_DATA_CHARS cs
      else if c =? 93 then
        match r with
        | [] => stop T_DATA_CHARS cs
        | d :: r' =>
            if d =? 93 then
              match r' with [] => stop T_DATA_CHARS cs | f :: _ => if f =? 62 then stop T_INVALID r' else data_fn r end
            else data_fn r
        end
      else data_fn r
  end.
Lemma xml_t c : dom c = true -> bt_eqb (ty k c) BT_NONXML = negb (is_xml_char c).
Proof.
  intros Hd. pose proof (st_xml _ _ _ _ ST c Hd) as H. destruct (is_xml_char c) eqn:E; cbn [negb].
  - destruct (bt_eqb (ty k c) BT_NONXML) eqn:F; [|reflexivity]. apply bt_eqb_eq in F. apply H in F. discriminate.
  - rewrite (proj2 H eq_refl). reflexivity.
Qed.
Lemma tk_adv1 c r : inc_start (minbpc ce) (c :: r) = @Ok bytes r. Proof. reflexivity. Qed.
Lemma has1_cons c r : has_chars ce 1 (c :: r) = true. Proof. reflexivity. Qed.
Lemma byte_type_cons c r : byte_type ce (c :: r) = Ok (ty k c). Proof. reflexivity. Qed.
Lemma content_run_eq B cs : doms cs -> forall fuel, (length cs < fuel)%nat -> @content_run ce B fuel cs = data_fn cs.
Proof.
  induction cs as [|c r IH]; intros Hd fuel Hf; [destruct fuel; reflexivity|]. inversion Hd; subst. destruct fuel as [|f]; [lia|].
  cbn [length] in Hf. cbn [content_run]. rewrite has1_cons, byte_type_cons. cbn [bind]. rewrite (no_lead _ _ _ _ ST) by auto.
  rewrite tk_adv1. cbn [bind data_fn]. unfold data_char. rewrite <- (lt_t c), <- (am_t c), <- (cr_t c), <- (lf_t c), <- (rs_t c) by auto.
  replace (is_xml_char c) with (negb (bt_eqb (ty k c) BT_NONXML)) by (rewrite xml_t, negb_involutive; auto).
  pose proof (no_trail _ _ _ _ ST c H1) as [T1 T2]. specialize (IH H2 f ltac:(lia)).
  destruct (ty k c) eqn:Et; try congruence; btg; cbn [negb orb andb]; try reflexivity; try exact IH.
  destruct r as [|d r']; [reflexivity|]. change (has_chars ce 2 (c :: d :: r')) with true. cbv iota.
  change (char_matches ce (d :: r') c_RSQB) with (Ok (d =? 93)). cbn [bind]. destruct (d =? 93); cbn [negb]; [|exact IH].
  destruct r' as [|g r'']; [reflexivity|]. change (has_chars ce 3 (c :: d :: g :: r'')) with true. cbv iota.
  change (inc_start (2 * minbpc ce) (c :: d :: g :: r'')) with (@Ok bytes (g :: r'')). cbn [bind].
  change (char_matches ce (g :: r'') c_GT) with (Ok (g =? 62)). cbn [bind]. destruct (g =? 62); cbn [negb]; [reflexivity|exact IH].
Qed.
Fixpoint cdrun_fn {B} (cs : list N) : res (outc B) :=
  match cs with
  | [] => stop T_DATA_CHARS cs
  | c :: r => if cdata_char c then cdrun_fn r else stop T_DATA_CHARS cs
  end.
Lemma cdata_run_eq B cs : doms cs -> forall fuel, (length cs < fuel)%nat -> @cdata_run ce B fuel cs = cdrun_fn cs.
Proof.
  induction cs as [|c r IH]; intros Hd fuel Hf; [destruct fuel; reflexivity|]. inversion Hd; subst. destruct fuel as [|f]; [lia|].
  cbn [length] in Hf. cbn [cdata_run]. rewrite has1_cons, byte_type_cons. cbn [bind]. rewrite (no_lead _ _ _ _ ST) by auto.
  rewrite tk_adv1. cbn [bind cdrun_fn]. unfold cdata_char. rewrite <- (cr_t c), <- (lf_t c), <- (rs_t c) by auto.
  replace (is_xml_char c) with (negb (bt_eqb (ty k c) BT_NONXML)) by (rewrite xml_t, negb_involutive; auto).
  pose proof (no_trail _ _ _ _ ST c H1) as [T1 T2]. specialize (IH H2 f ltac:(lia)).
  destruct (ty k c) eqn:Et; try congruence; btg; cbn [negb orb andb]; try reflexivity; try exact IH.
Qed.

(* ---- the tokenisers ---- *)
Definition newline_fn {B} (none : res (outc B)) (r : list N) : res (outc B) :=
  match r with
  | [] => none
  | d :: q => if d =? 10 then stop T_DATA_NEWLINE q else stop T_DATA_NEWLINE r
  end.
Definition content_fn {B} (cs : list N) : res (outc B) :=
  match cs with
  | [] => partial
  | c :: r =>
      if negb (is_xml_char c) then stop T_INVALID cs
      else if c =? 60 then lt_fn r
      else if c =? 38 then ref_fn lat ns r
      else if c =? 13 then newline_fn (Ok (Stop T_TRAILING_CR None)) r
      else if c =? 10 then stop T_DATA_NEWLINE r
      else if c =? 93 then
        match r with
        | [] => Ok (Stop T_TRAILING_RSQB None)
        | d :: q =>
            if d =? 93 then
              match q with
              | [] => Ok (Stop T_TRAILING_RSQB None)
              | f :: _ => if f =? 62 then stop T_INVALID q else data_fn r
              end
            else data_fn r
        end
      else data_fn r
  end.
Lemma lt_no r : nocont (@lt_fn unit r).
Proof.
  unfold lt_fn. destruct r as [|c q]; [exact I|]. destruct (start_char c).
  - unfold while_. generalize (S (length q)). intros n. generalize false. revert q.
    induction n as [|n IH]; intros q b; cbn [while_fuel]; (destruct (has_chars ce 1 q); [|exact I]); [exact I|].
    destruct (lt_name_body ce b q) as [[]|]; try exact I. apply IH.
  - assert (C : forall r : res (outc unit), nocont (@cast unit unit r)) by (intros [[]|]; exact I).
    repeat (match goal with |- nocont (if ?b then _ else _) => destruct b end); auto; try exact I. destruct q as [|d q]; [exact I|].
    repeat (match goal with |- nocont (if ?b then _ else _) => destruct b end); auto; exact I.
Qed.
Lemma ref_no r : nocont (@ref_fn lat ns unit r).
Proof. destruct (@ref_toks lat ns unit r) as [[p ->]|[[p ->]|[[p ->]| ->]]]; exact I. Qed.
Lemma lt_cast B r : doms r -> then_ (@lt_fn unit r) (fun _ b => @content_run ce B (S (length b)) b) = lt_fn r.
Proof.
  intros Hd. unfold lt_fn. destruct r as [|c q]; [reflexivity|]. destruct (start_char c).
  - apply while_cast.
  - assert (C : forall (r : res (outc unit)) (g : unit -> M B), then_ (cast r) g = cast r) by (intros [[]|]; reflexivity).
    destruct (c =? 33); [|destruct (c =? 63); [apply C|destruct (c =? 47); [apply C|reflexivity]]].
    destruct q as [|d q]; [reflexivity|]. destruct (d =? 45); [apply C|]. destruct (d =? 91); [apply C|reflexivity].
Qed.
Lemma ref_cast {A B} r (g : A -> M B) : then_ (@ref_fn lat ns A r) g = ref_fn lat ns r.
Proof.
  unfold ref_fn. destruct r as [|c q]; [reflexivity|]. destruct (start_char c).
  - destruct (snd (take_name q)) as [|d q']; [reflexivity|]. destruct (d =? 59); reflexivity.
  - destruct (c =? 35); [apply charref_cast|reflexivity].
Qed.
Lemma contentScan_eq B cs : doms cs -> cs <> [] -> @contentScan ce B cs = content_fn cs.
Proof.
  intros Hd Hne. destruct cs as [|c r]; [congruence|]. inversion Hd; subst. unfold contentScan, content_fn. cps.
  unfold mbind at 1. rewrite (invalid_iff _ _ _ _ ST) by auto. destruct (is_xml_char c) eqn:Ex; cbn [negb]; [|reflexivity].
  rewrite <- (lt_t c), <- (am_t c), <- (cr_t c), <- (lf_t c), <- (rs_t c) by auto.
  assert (R : content_run ce (S (length r)) r = @data_fn B r) by (apply content_run_eq; auto).
  destruct (ty k c) eqn:Et; btg; cps; try exact R; try reflexivity.
  - rewrite scanLt_eq by auto. now apply lt_cast.
  - rewrite (scanRef_eq _ _ _ _ ST) by auto. apply ref_cast.
  - destruct r as [|d q]; [reflexivity|]. cps. change c_RSQB with 93. destruct (d =? 93); [|exact R].
    destruct q as [|f q]; [reflexivity|]. cps. change c_GT with 62. destruct (f =? 62); cbn [negb]; [reflexivity|exact R].
  - destruct r as [|d q]; [reflexivity|]. cps. inversion H2; subst. rewrite (lf_t d) by auto. cbn [newline_fn]. destruct (d =? 10); reflexivity.
Qed.
Definition tok_of (cs : list N) (r : res (outc Empty_set)) : tokres :=
  match r with
  | Ok (Stop t next) => Ok (t, option_map (fun p => (length cs - length p)%nat) next)
  | Ok (Cont x _) => match x : Empty_set with end
  | Err x => Err x
  end.
Lemma round_cp cs : round_down ce cs = cs. Proof. reflexivity. Qed.
Lemma contentTok_eq cs : doms cs -> cs <> [] -> contentTok ce cs = tok_of cs (content_fn cs).
Proof.
  intros Hd Hne. unfold contentTok. rewrite round_cp. destruct cs as [|c r]; [congruence|]. cbn [is_nil].
  unfold run. rewrite contentScan_eq by auto. reflexivity.
Qed.
(* an outcome with an end position, as a split of the text *)
Lemma tok_of_some cs r t n : tok_of cs r = Ok (t, Some n) -> exists p, r = stop t p /\ n = (length cs - length p)%nat.
Proof. destruct r as [[t' [p|]|[]]|]; cbn; try discriminate. intros [= -> <-]. exists p. auto. Qed.
Lemma tok_of_stop cs t p : tok_of cs (stop t p) = Ok (t, Some (length cs - length p)%nat).
Proof. reflexivity. Qed.

Definition cdata_fn {B} (cs : list N) : res (outc B) :=
  match cs with
  | [] => partial
  | c :: r =>
      if negb (is_xml_char c) then stop T_INVALID cs
      else if c =? 13 then newline_fn partial r
      else if c =? 10 then stop T_DATA_NEWLINE r
      else if c =? 93 then
        match r with
        | [] => partial
        | d :: q =>
            if d =? 93 then
              match q with
              | [] => partial
              | f :: q' => if f =? 62 then stop T_CDATA_SECT_CLOSE q' else cdrun_fn r
              end
            else cdrun_fn r
        end
      else cdrun_fn r
  end.
Lemma cdataScan_eq B cs : doms cs -> cs <> [] -> @cdataSectionScan ce B cs = cdata_fn cs.
Proof.
  intros Hd Hne. destruct cs as [|c r]; [congruence|]. inversion Hd; subst. unfold cdataSectionScan, cdata_fn. cps.
  unfold mbind at 1. rewrite (invalid_iff _ _ _ _ ST) by auto. destruct (is_xml_char c) eqn:Ex; cbn [negb]; [|reflexivity].
  rewrite <- (cr_t c), <- (lf_t c), <- (rs_t c) by auto.
  assert (R : cdata_run ce (S (length r)) r = @cdrun_fn B r) by (apply cdata_run_eq; auto).
  destruct (ty k c) eqn:Et; btg; cps; try exact R; try reflexivity.
  - destruct r as [|d q]; [reflexivity|]. cps. change c_RSQB with 93. destruct (d =? 93); [|exact R].
    destruct q as [|f q]; [reflexivity|]. cps. change c_GT with 62. destruct (f =? 62); cbn [negb]; [reflexivity|exact R].
  - destruct r as [|d q]; [reflexivity|]. cps. inversion H2; subst. rewrite (lf_t d) by auto. cbn [newline_fn]. destruct (d =? 10); reflexivity.
Qed.
Lemma cdataTok_eq cs : doms cs -> cs <> [] -> cdataSectionTok ce cs = tok_of cs (cdata_fn cs).
Proof.
  intros Hd Hne. unfold cdataSectionTok. rewrite round_cp. destruct cs as [|c r]; [congruence|]. cbn [is_nil].
  unfold run. rewrite cdataScan_eq by auto. reflexivity.
Qed.

(* ---- what each of them accepts ---- *)
Lemma no_close_cons c a p : no_close (c :: a) p <-> ~ may_close (c :: a ++ p) /\ no_close a p.
Proof.
  unfold no_close. split.
  - intros H. split; [exact (H [] (c :: a) eq_refl ltac:(discriminate))|]. intros a1 a2 -> Hn. exact (H (c :: a1) a2 eq_refl Hn).
  - intros [H1 H2] a1 a2 E Hn. destruct a1 as [|x a1]; cbn [app] in E; [now subst|]. injection E as -> ->. eauto.
Qed.
Lemma no_close_nil p : no_close [] p.
Proof. intros a1 a2 E Hn. destruct a1; [cbn in E; congruence|discriminate]. Qed.
Lemma may_close_head s : may_close s -> exists r, s = 93 :: r.
Proof. intros [[r ->]|[-> | ->]]; eexists; reflexivity. Qed.
Definition run_stop (p : list N) : Prop := stops data_char p \/ p = txt "]" \/ p = txt "]]".
Lemma data_spec {B} cs p : @data_fn B cs = stop T_DATA_CHARS p <->
  exists a, cs = a ++ p /\ all_in data_char a /\ no_close a p /\ run_stop p.
Proof.
  change (txt "]") with [93]. change (txt "]]") with [93;93]. split.
  - induction cs as [|c r IH]; cbn [data_fn].
    { intros [= <-]. exists []. repeat split; auto using no_close_nil; constructor. exact I. }
    destruct (data_char c) eqn:Ed; cbn [negb].
    2:{ intros [= <-]. exists []. repeat split; auto using no_close_nil; [constructor|]. left. exact Ed. }
    assert (NX : @data_fn B r = stop T_DATA_CHARS p -> ~ may_close (c :: r) -> exists a, c :: r = a ++ p /\ all_in data_char a /\ no_close a p /\ run_stop p).
    { intros H Hc. destruct (IH H) as (a & -> & Ha & Hn & Hs). exists (c :: a). split; [reflexivity|]. split; [constructor; auto|].
      split; [apply no_close_cons; auto|auto]. }
    destruct (c =? 93) eqn:E.
    + apply N.eqb_eq in E. subst c. destruct r as [|d r'].
      { intros [= <-]. exists []. repeat split; auto using no_close_nil; [constructor|]. right; left; reflexivity. }
      destruct (d =? 93) eqn:E2.
      * apply N.eqb_eq in E2. subst d. destruct r' as [|f r''].
        { intros [= <-]. exists []. repeat split; auto using no_close_nil; [constructor|]. right; right; reflexivity. }
        destruct (f =? 62) eqn:E3; [discriminate|]. intros H. apply NX; auto.
        intros [[q Hq]|[Hq|Hq]]; try discriminate. injection Hq as -> _. discriminate.
      * intros H. apply NX; auto. intros [[q Hq]|[Hq|Hq]]; try discriminate; injection Hq as -> _; discriminate.
    + intros H. apply NX; auto. intros Hm. apply may_close_head in Hm as [q Hq]. injection Hq as -> _. discriminate.
  - intros (a & -> & Ha & Hn & Hs). induction Ha as [|c a Hc Ha IH].
    + cbn [app]. destruct Hs as [Hs|[-> | ->]]; try reflexivity. destruct p as [|c p]; [reflexivity|]. cbn [stops data_fn] in *. now rewrite Hs.
    + apply no_close_cons in Hn as [Hm Hn]. specialize (IH Hn). cbn [app data_fn]. rewrite Hc. cbn [negb].
      destruct (c =? 93) eqn:E; [|exact IH]. apply N.eqb_eq in E. subst c.
      destruct (a ++ p) as [|d q] eqn:Ea. { exfalso. apply Hm. right; left; reflexivity. }
      destruct (d =? 93) eqn:E2; [|exact IH]. apply N.eqb_eq in E2. subst d.
      destruct q as [|f q]. { exfalso. apply Hm. right; right; reflexivity. }
      destruct (f =? 62) eqn:E3; [|exact IH]. apply N.eqb_eq in E3. subst. exfalso. apply Hm. left. exists q. reflexivity.
Qed.
Lemma data_toks {B} cs : (exists p, @data_fn B cs = stop T_DATA_CHARS p) \/ (exists p, @data_fn B cs = stop T_INVALID p).
Proof.
  induction cs as [|c r IH]; cbn [data_fn]; eauto. destruct (data_char c); cbn [negb]; eauto. destruct (c =? 93); auto.
  destruct r as [|d r']; eauto. destruct (d =? 93); auto. destruct r' as [|f r'']; eauto. destruct (f =? 62); eauto.
Qed.
Lemma comment_spec {B} cs t p : t <> T_INVALID -> (@comment_fn B cs = stop t p <->
  t = T_COMMENT /\ exists body, cs = [45] ++ body ++ txt "-->" ++ p /\ comment_body body).
Proof.
  intros Ht. destruct cs as [|c r]; cbn [comment_fn].
  - split; [discriminate|]. intros (_ & b & E & _). discriminate.
  - destruct (c =? 45) eqn:E.
    + apply N.eqb_eq in E. subst c. split.
      * intros H. destruct (cm_toks _ _ _ _ H) as [->|[->| ->]]; [|congruence|].
        -- split; auto. apply cm_spec in H as (b & -> & Hb). exists b. auto.
        -- exfalso. clear - H. induction r as [|c r IH]; cbn [cm] in H; [discriminate|]. destruct (negb _); [discriminate|]. destruct (c =? 45); auto.
           destruct r as [|d r]; [discriminate|]. destruct (d =? 45); auto. destruct r as [|f r]; [discriminate|]. destruct (f =? 62); discriminate.
      * intros (-> & b & [= ->] & Hb). apply cm_spec. eauto.
    + split; [unfold stop; congruence|]. intros (_ & b & [= -> _] & _). discriminate.
Qed.
Lemma pt_some {B} tok cs t p : @pt B tok cs = stop t p -> t = tok \/ t = T_INVALID.
Proof.
  induction cs as [|c r IH]; cbn [pt]; [discriminate|]. destruct (negb _); [unfold stop; intros [= <- _]; auto|]. destruct (c =? 63); auto.
  destruct r as [|d r]; [discriminate|]. destruct (d =? 62); auto. unfold stop. intros [= <- _]. auto.
Qed.
Lemma target_inv n t : target n = Some t -> (t = T_PI /\ ~ is_xml_name n) \/ (t = T_XML_DECL /\ n = txt "xml").
Proof.
  unfold target, is_xml_name. destruct (list_eq_dec _ _ _) as [E|E]; [destruct (list_eq_dec _ _ _) as [F|F]|]; intros [= <-]; auto.
Qed.
Lemma pi_sound {B} cs t p : t <> T_INVALID -> @pi_fn lat ns B cs = stop t p ->
  exists name d, cs = name ++ d ++ txt "?>" ++ p /\ is_name lat ns name /\ pi_data d /\
   ((t = T_PI /\ ~ is_xml_name name) \/ (t = T_XML_DECL /\ name = txt "xml")).
Proof.
  intros Ht. destruct cs as [|c r]; [discriminate|]. unfold pi_fn. destruct (start_char c) eqn:Es; [|unfold stop; congruence].
  pose proof (take_name_app lat ns r) as Ea. pose proof (take_name_all lat ns r) as Eall.
  destruct (take_name r) as [a b]. cbn [fst snd] in *. destruct b as [|d q]; [discriminate|].
  destruct (pi_stop d) eqn:Ep; [|unfold stop; congruence]. destruct (target (c :: a)) as [tok|] eqn:Et; [|unfold stop; congruence].
  assert (Htok : tok <> T_INVALID) by (apply target_inv in Et as [[-> _]|[-> _]]; discriminate).
  assert (Hn : is_name lat ns (c :: a)) by (exists c, a; auto).
  destruct (d =? 63) eqn:E.
  - destruct q as [|f q]; [discriminate|]. destruct (f =? 62) eqn:E2; [|unfold stop; congruence]. unfold stop. intros [= <- <-].
    apply N.eqb_eq in E, E2. subst. exists (c :: a), []. split; [reflexivity|]. split; auto. split; [left; auto|]. now apply target_inv.
  - intros H. destruct (pt_some _ _ _ _ H) as [->|]; [|congruence]. apply pt_spec in H as (d' & -> & Hx & Ho); auto.
    exists (c :: a), (d :: d'). subst r. split. { rewrite <- !app_comm_cons. reflexivity. }
    split; auto. split; [|now apply target_inv]. right. exists d, d'. repeat split; auto. unfold pi_stop in Ep. destruct (is_space d); auto. lia.
Qed.
Lemma pi_complete {B} name d p tok : is_name lat ns name -> pi_data d -> target name = Some tok ->
  @pi_fn lat ns B (name ++ d ++ txt "?>" ++ p) = stop tok p.
Proof.
  intros (c & a & -> & Hs & Ha) Hd Ht. cbn [app pi_fn]. rewrite Hs.
  assert (Htok : tok <> T_INVALID) by (apply target_inv in Ht as [[-> _]|[-> _]]; discriminate).
  destruct Hd as [->|(s & d' & -> & Hsp & Hx & Ho)]; cbn [app].
  - change (txt "?>" ++ p) with (63 :: 62 :: p). rewrite take_name_intro; auto. 2:{ now apply (stop_not_name _ _ _ _ ST). }
    cbn [fst snd]. change (pi_stop 63) with true. rewrite Ht. reflexivity.
  - assert (Hps : pi_stop s = true) by (unfold pi_stop; now rewrite Hsp).
    rewrite take_name_intro; auto. 2:{ now apply (stop_not_name _ _ _ _ ST). }
    cbn [fst snd]. rewrite Hps, Ht. replace (s =? 63) with false by (unfold is_space in Hsp; lia).
    apply pt_spec; auto. exists d'. auto.
Qed.
Lemma tag_token_valid atts empty : tag_token atts empty <> T_INVALID. Proof. destruct atts, empty; discriminate. Qed.
Lemma xml_is_name : is_name lat ns (txt "xml").
Proof. exists 120, [109; 108]. split; [reflexivity|]. destruct lat, ns; (split; [reflexivity|repeat (apply Forall_cons; [reflexivity|]); apply Forall_nil]). Qed.
Lemma content_sound {B} cs t p : t <> T_INVALID -> doms cs -> @content_fn B cs = stop t p ->
  exists lexeme, cs = lexeme ++ p /\ content_token lat ns t lexeme p.
Proof.
  intros Ht Hd. destruct cs as [|c r]; [discriminate|]. inversion Hd; subst. unfold content_fn.
  destruct (is_xml_char c) eqn:Ex; cbn [negb]; [|unfold stop; congruence].
  assert (D : c <> 60 -> c <> 38 -> c <> 13 -> c <> 10 -> ~ may_close (c :: r) -> data_fn r = @stop B t p ->
     exists lexeme, c :: r = lexeme ++ p /\ content_token lat ns t lexeme p).
  { intros N1 N2 N3 N4 Nm H. destruct (@data_toks B r) as [[p' E]|[p' E]]; rewrite E in H; unfold stop in H; [|congruence].
    injection H as <- <-. apply data_spec in E as (a & -> & Ha & Hn & Hs). exists (c :: a). split; [reflexivity|].
    apply ct_data; [discriminate| |apply no_close_cons; auto|exact Hs]. constructor; auto. unfold data_char. rewrite Ex. lia. }
  destruct (c =? 60) eqn:E60.
  { apply N.eqb_eq in E60. subst c. unfold lt_fn. destruct r as [|c q]; [discriminate|]. inversion H2; subst. destruct (start_char c) eqn:Es.
    - intros H. apply (tag_sound _ _ _ _ ST B c q) in H as (name & atts & sp & empty & E & Hok & ->); auto.
      exists (tag_text name atts sp empty). split; [exact E|]. now constructor.
    - destruct (c =? 33) eqn:E33.
      { apply N.eqb_eq in E33. subst c. destruct q as [|d q]; [discriminate|]. destruct (d =? 45) eqn:E45.
        - rewrite cast_stop, comment_spec by auto. intros (-> & b & -> & Hb). apply N.eqb_eq in E45. subst d.
          exists (txt "<!--" ++ b ++ txt "-->"). split; [rewrite <- !app_assoc; reflexivity|]. now constructor.
        - destruct (d =? 91) eqn:E91; [|unfold stop; congruence]. rewrite cast_stop. apply N.eqb_eq in E91. subst d. intros H.
          assert (t = T_CDATA_SECT_OPEN) as ->.
          { unfold cdopen_fn in H. destruct (has 6 q); [|discriminate]. destruct (string_toks _ _ _ _ _ H); congruence. }
          apply cdopen_spec in H as ->. exists (txt "<![CDATA["). split; [reflexivity|]. constructor. }
      destruct (c =? 63) eqn:E63.
      { apply N.eqb_eq in E63. subst c. rewrite cast_stop. intros H. apply pi_sound in H as (name & d & -> & Hn & Hp & [[-> Hx]|[-> ->]]); auto.
        - exists (txt "<?" ++ name ++ d ++ txt "?>"). split; [rewrite <- !app_assoc; reflexivity|]. now constructor.
        - exists (txt "<?xml" ++ d ++ txt "?>"). split; [rewrite <- !app_assoc; reflexivity|]. now constructor. }
      destruct (c =? 47) eqn:E47; [|unfold stop; congruence]. apply N.eqb_eq in E47. subst c. rewrite cast_stop. intros H.
      assert (t = T_END_TAG) as ->.
      { revert H Ht. clear. unfold etag_fn, stop. intros H Ht. destruct q as [|c q]; [discriminate|]. destruct (start_char c); [|congruence].
        destruct (snd _) as [|d q']; [discriminate|]. destruct (d =? 62); [congruence|]. destruct (is_space d); [|congruence].
        destruct (skip_sp q') as [|f q2]; [discriminate|]. destruct (f =? 62); congruence. }
      apply (etag_spec _ _ _ _ ST) in H as (c & n & sp & Hc & Hn & Hs & ->). exists (etag_text (c :: n) sp).
      split; [unfold etag_text; rewrite <- !app_assoc; reflexivity|]. constructor. split; auto. exists c, n. auto. }
  destruct (c =? 38) eqn:E38.
  { apply N.eqb_eq in E38. subst c. intros H. destruct (@ref_toks lat ns B r) as [[q E]|[[q E]|[[q E]| E]]]; rewrite E in H; unfold stop in H; try congruence.
    - injection H as <- <-. apply (ref_entity _ _ _ _ ST) in E as (n & Hn & ->). exists (txt "&" ++ n ++ txt ";").
      split; [rewrite <- !app_assoc; reflexivity|]. constructor. exists n. auto.
    - injection H as <- <-. apply (ref_char _ _ _ _ ST) in E as [(d & Hd1 & Ha & ->)|(d & Hd1 & Ha & ->)].
      + exists (txt "&#" ++ d ++ txt ";"). split; [rewrite <- !app_assoc; reflexivity|]. constructor. left. exists d. auto.
      + exists (txt "&#x" ++ d ++ txt ";"). split; [rewrite <- !app_assoc; reflexivity|]. constructor. right. exists d. auto.
    - discriminate. }
  destruct (c =? 13) eqn:E13.
  { apply N.eqb_eq in E13. subst c. destruct r as [|d q]; [discriminate|]. cbn [newline_fn]. unfold stop. destruct (d =? 10) eqn:E; intros [= <- <-].
    - apply N.eqb_eq in E. subst d. exists [13; 10]. split; [reflexivity|constructor].
    - exists [13]. split; [reflexivity|]. constructor. lia. }
  destruct (c =? 10) eqn:E10.
  { apply N.eqb_eq in E10. subst c. unfold stop. intros [= <- <-]. exists [10]. split; [reflexivity|constructor]. }
  destruct (c =? 93) eqn:E93.
  { apply N.eqb_eq in E93. subst c. destruct r as [|d q]; [discriminate|]. destruct (d =? 93) eqn:E2.
    - apply N.eqb_eq in E2. subst d. destruct q as [|f q]; [discriminate|]. destruct (f =? 62) eqn:E3; [unfold stop; congruence|].
      apply D; try lia. intros [[x Hq]|[Hq|Hq]]; try discriminate. injection Hq as -> _. discriminate.
    - apply D; try lia. intros [[x Hq]|[Hq|Hq]]; try discriminate; injection Hq as -> _; discriminate. }
  apply D; try lia. intros Hm. apply may_close_head in Hm as [x Hq]. injection Hq as -> _. discriminate.
Qed.
Lemma ref_not_xml x : entity_ref lat ns x \/ char_ref x -> exists y, x = 38 :: y.
Proof. intros [(n & _ & ->)|[(d & _ & _ & ->)|(d & _ & _ & ->)]]; cbn; eauto. Qed.
Lemma content_complete {B} lexeme t p : doms (lexeme ++ p) -> content_token lat ns t lexeme p -> @content_fn B (lexeme ++ p) = stop t p.
Proof.
  intros Hd H. destruct H as [body rest Hb|name d rest Hn Hx Hp|d rest Hp|rest|name atts sp empty rest Hok|name sp rest Hok|r rest Hr|r rest Hr|rest|rest|c rest Hc|a rest Ha Hda Hn Hs].
  - change ((txt "<!--" ++ body ++ txt "-->") ++ rest) with (60 :: 33 :: 45 :: 45 :: (body ++ txt "-->") ++ rest). rewrite <- app_assoc.
    cbn [content_fn]. change (negb (is_xml_char 60)) with false. cbv iota. change (60 =? 60) with true. cbv iota. unfold lt_fn.
    replace (start_char 33) with false by (destruct lat, ns; reflexivity). change (33 =? 33) with true. cbv iota. change (45 =? 45) with true. cbv iota.
    apply cast_stop. apply comment_spec; [discriminate|]. split; auto. exists body. auto.
  - change ((txt "<?" ++ name ++ d ++ txt "?>") ++ rest) with (60 :: 63 :: (name ++ d ++ txt "?>") ++ rest). rewrite <- !app_assoc.
    cbn [content_fn]. change (negb (is_xml_char 60)) with false. cbv iota. change (60 =? 60) with true. cbv iota. unfold lt_fn.
    replace (start_char 63) with false by (destruct lat, ns; reflexivity). change (63 =? 33) with false. change (63 =? 63) with true. cbv iota.
    apply cast_stop, pi_complete; auto. unfold target. destruct (list_eq_dec _ _ _); [contradiction|reflexivity].
  - change ((txt "<?xml" ++ d ++ txt "?>") ++ rest) with (60 :: 63 :: (txt "xml" ++ d ++ txt "?>") ++ rest). rewrite <- !app_assoc.
    cbn [content_fn]. change (negb (is_xml_char 60)) with false. cbv iota. change (60 =? 60) with true. cbv iota. unfold lt_fn.
    replace (start_char 63) with false by (destruct lat, ns; reflexivity). change (63 =? 33) with false. change (63 =? 63) with true. cbv iota.
    apply cast_stop, pi_complete; auto. apply xml_is_name.
  - change (txt "<![CDATA[" ++ rest) with (60 :: 33 :: 91 :: txt "CDATA[" ++ rest).
    cbn [content_fn]. change (negb (is_xml_char 60)) with false. cbv iota. change (60 =? 60) with true. cbv iota. unfold lt_fn.
    replace (start_char 33) with false by (destruct lat, ns; reflexivity). change (33 =? 33) with true. cbv iota. change (91 =? 45) with false. change (91 =? 91) with true. cbv iota.
    apply cast_stop. now apply cdopen_spec.
  - destruct (tag_complete _ _ _ _ ST B name atts sp empty rest Hok Hd) as (c & cs & -> & Hc & W).
    cbn [content_fn app]. change (negb (is_xml_char 60)) with false. cbv iota. change (60 =? 60) with true. cbv iota. unfold lt_fn. now rewrite Hc.
  - unfold etag_text. change ((txt "</" ++ name ++ sp ++ txt ">") ++ rest) with (60 :: 47 :: (name ++ sp ++ txt ">") ++ rest). rewrite <- !app_assoc.
    cbn [content_fn]. change (negb (is_xml_char 60)) with false. cbv iota. change (60 =? 60) with true. cbv iota. unfold lt_fn.
    replace (start_char 47) with false by (destruct lat, ns; reflexivity). change (47 =? 33) with false. change (47 =? 63) with false. change (47 =? 47) with true. cbv iota.
    apply cast_stop, (etag_spec _ _ _ _ ST). destruct Hok as [(c & r & -> & Hc & Hr) Hs]. exists c, r, sp. auto.
  - destruct Hr as (n & Hn & ->). change ((txt "&" ++ n ++ txt ";") ++ rest) with (38 :: (n ++ txt ";") ++ rest). rewrite <- app_assoc.
    cbn [content_fn]. change (negb (is_xml_char 38)) with false. cbv iota. change (38 =? 60) with false. change (38 =? 38) with true. cbv iota.
    apply (ref_entity _ _ _ _ ST). exists n. auto.
  - assert (exists y, r = 38 :: y /\ @ref_fn lat ns B (y ++ rest) = stop T_CHAR_REF rest) as (y & -> & E).
    { destruct Hr as [(d & Hd1 & Ha & ->)|(d & Hd1 & Ha & ->)].
      - exists (txt "#" ++ d ++ txt ";"). split; [reflexivity|]. apply (ref_char _ _ _ _ ST). left. exists d. repeat split; auto. rewrite <- !app_assoc. reflexivity.
      - exists (txt "#x" ++ d ++ txt ";"). split; [reflexivity|]. apply (ref_char _ _ _ _ ST). right. exists d. repeat split; auto. rewrite <- !app_assoc. reflexivity. }
    cbn [content_fn app]. change (negb (is_xml_char 38)) with false. cbv iota. change (38 =? 60) with false. change (38 =? 38) with true. cbv iota. exact E.
  - reflexivity.
  - reflexivity.
  - cbn [app]. unfold content_fn. change (negb (is_xml_char 13)) with false. cbv iota. change (13 =? 60) with false. change (13 =? 38) with false.
    change (13 =? 13) with true. cbv iota. cbn [newline_fn]. replace (c =? 10) with false by lia. reflexivity.
  - destruct a as [|c a]; [congruence|]. inversion Hda as [|? ? Hc Hda']; subst. apply no_close_cons in Hn as [Hm Hn].
    assert (E : @data_fn B (a ++ rest) = stop T_DATA_CHARS rest) by (apply data_spec; exists a; auto).
    unfold data_char in Hc. apply andb_prop in Hc as [Hx Hc]. cbn [app]. unfold content_fn. rewrite Hx. cbn [negb].
    replace (c =? 60) with false by lia. replace (c =? 38) with false by lia. replace (c =? 13) with false by lia. replace (c =? 10) with false by lia.
    destruct (c =? 93) eqn:E1; [|exact E]. apply N.eqb_eq in E1. subst c.
    destruct (a ++ rest) as [|d q] eqn:Ea. { exfalso. apply Hm. right; left; reflexivity. }
    destruct (d =? 93) eqn:E2; [|exact E]. apply N.eqb_eq in E2. subst d.
    destruct q as [|f q]. { exfalso. apply Hm. right; right; reflexivity. }
    destruct (f =? 62) eqn:E3; [|exact E]. apply N.eqb_eq in E3. subst. exfalso. apply Hm. left. exists q. reflexivity.
Qed.
(* "]]>" in character data *)
Lemma data_bad {B} a rest : all_in data_char a -> ~ occurs (txt "]]>") (a ++ txt "]]") ->
  @data_fn B (a ++ txt "]]>" ++ rest) = stop T_INVALID (62 :: rest).
Proof.
  change (txt "]]>" ++ rest) with (93 :: 93 :: 62 :: rest). change (txt "]]>") with [93; 93; 62]. change (txt "]]") with [93; 93].
  intros Ha. induction Ha as [|c a Hc Ha IH]; intros Ho; [reflexivity|].
  cbn [app] in *. rewrite occurs_cons in Ho. cbn [data_fn]. rewrite Hc. cbn [negb]. specialize (IH (fun H => Ho (or_intror H))).
  destruct (c =? 93) eqn:E; [|exact IH]. apply N.eqb_eq in E. subst c.
  destruct a as [|d a]; cbn [app] in *. { destruct (93 =? 93); exact IH. }
  destruct (d =? 93) eqn:E2; [|exact IH]. apply N.eqb_eq in E2. subst d.
  destruct a as [|f a]; cbn [app] in *. { exact IH. }
  destruct (f =? 62) eqn:E3; [|exact IH]. apply N.eqb_eq in E3. subst f. exfalso. apply Ho. left. exists (a ++ [93; 93]). reflexivity.
Qed.
Lemma content_bad {B} a rest : all_in data_char a -> ~ occurs (txt "]]>") (a ++ txt "]]") ->
  @content_fn B (a ++ txt "]]>" ++ rest) = stop T_INVALID (62 :: rest).
Proof.
  intros Ha Ho. pose proof (@data_bad B a rest Ha Ho) as E. destruct Ha as [|c a Hc Ha]; [reflexivity|].
  cbn [app] in *. unfold content_fn. cbn [data_fn] in E. rewrite Hc in E. cbn [negb] in E.
  unfold data_char in Hc. apply andb_prop in Hc as [Hx Hc]. rewrite Hx. cbn [negb].
  replace (c =? 60) with false by lia. replace (c =? 38) with false by lia. replace (c =? 13) with false by lia. replace (c =? 10) with false by lia.
  destruct (c =? 93); [|exact E]. destruct (a ++ txt "]]>" ++ rest) as [|d q]; [discriminate|]. destruct (d =? 93); [|exact E].
  destruct q; [discriminate|]. exact E.
Qed.
(* ---- CDATA sections ---- *)
Lemma cdrun_spec {B} cs p : @cdrun_fn B cs = stop T_DATA_CHARS p <-> exists a, cs = a ++ p /\ all_in cdata_char a /\ stops cdata_char p.
Proof.
  split.
  - induction cs as [|c r IH]; cbn [cdrun_fn].
    + intros [= <-]. exists []. repeat split; constructor.
    + destruct (cdata_char c) eqn:E.
      * intros H. destruct (IH H) as (a & -> & Ha & Hs). exists (c :: a). split; [reflexivity|]. split; [constructor; auto|auto].
      * intros [= <-]. exists []. split; [reflexivity|]. split; [constructor|exact E].
  - intros (a & -> & Ha & Hs). induction Ha as [|c a Hc Ha IH]; cbn [app cdrun_fn].
    + destruct p as [|c p]; [reflexivity|]. cbn [stops cdrun_fn] in *. now rewrite Hs.
    + now rewrite Hc.
Qed.
Lemma cdrun_tok {B} cs : exists p, @cdrun_fn B cs = stop T_DATA_CHARS p.
Proof. induction cs as [|c r IH]; cbn [cdrun_fn]; eauto. destruct (cdata_char c); eauto. Qed.
Lemma cdata_sound {B} cs t p : t <> T_INVALID -> @cdata_fn B cs = stop t p -> exists lexeme, cs = lexeme ++ p /\ cdata_token t lexeme p.
Proof.
  intros Ht. destruct cs as [|c r]; [discriminate|]. unfold cdata_fn.
  destruct (is_xml_char c) eqn:Ex; cbn [negb]; [|unfold stop; congruence].
  destruct (c =? 13) eqn:E13.
  { apply N.eqb_eq in E13. subst c. destruct r as [|d q]; [discriminate|]. cbn [newline_fn]. unfold stop. destruct (d =? 10) eqn:E; intros [= <- <-].
    - apply N.eqb_eq in E. subst d. exists [13; 10]. split; [reflexivity|constructor].
    - exists [13]. split; [reflexivity|]. constructor. lia. }
  destruct (c =? 10) eqn:E10.
  { apply N.eqb_eq in E10. subst c. unfold stop. intros [= <- <-]. exists [10]. split; [reflexivity|constructor]. }
  destruct (c =? 93) eqn:E93.
  { apply N.eqb_eq in E93. subst c.
    assert (D : ~ may_close (93 :: r) -> cdrun_fn r = @stop B t p -> exists lexeme, 93 :: r = lexeme ++ p /\ cdata_token t lexeme p).
    { intros Hm H. destruct (@cdrun_tok B r) as [p' E]. rewrite E in H. unfold stop in H. injection H as <- <-.
      apply cdrun_spec in E as (a & -> & Ha & Hs). exists (txt "]" ++ a). split; [reflexivity|]. now constructor. }
    destruct r as [|d q]; [discriminate|]. destruct (d =? 93) eqn:E2.
    - apply N.eqb_eq in E2. subst d. destruct q as [|f q]; [discriminate|]. destruct (f =? 62) eqn:E3.
      + apply N.eqb_eq in E3. subst f. unfold stop. intros [= <- <-]. exists (txt "]]>"). split; [reflexivity|constructor].
      + apply D; try lia. intros [[x Hq]|[Hq|Hq]]; try discriminate. injection Hq as -> _. discriminate.
    - apply D; try lia. intros [[x Hq]|[Hq|Hq]]; try discriminate; injection Hq as -> _; discriminate. }
  intros H. destruct (@cdrun_tok B r) as [p' E]. rewrite E in H. unfold stop in H. injection H as <- <-.
  apply cdrun_spec in E as (a & -> & Ha & Hs). exists (c :: a). split; [reflexivity|]. constructor; auto; [discriminate|].
  constructor; auto. unfold cdata_char. rewrite Ex. lia.
Qed.
Lemma cdata_complete {B} lexeme t p : cdata_token t lexeme p -> @cdata_fn B (lexeme ++ p) = stop t p.
Proof.
  intros H. destruct H as [rest|rest|rest|c rest Hc|a rest Hne Ha Hs|a rest Ha Hs Hm]; try reflexivity.
  - cbn [app]. unfold cdata_fn. change (negb (is_xml_char 13)) with false. cbv iota.
    change (13 =? 13) with true. cbv iota. cbn [newline_fn]. replace (c =? 10) with false by lia. reflexivity.
  - destruct a as [|c a]; [congruence|]. inversion Ha as [|? ? Hc Ha']; subst. cbn [app]. unfold cdata_fn.
    unfold cdata_char in Hc. apply andb_prop in Hc as [Hx Hc]. rewrite Hx. cbn [negb].
    replace (c =? 13) with false by lia. replace (c =? 10) with false by lia. replace (c =? 93) with false by lia.
    apply cdrun_spec. exists a. auto.
  - assert (E : @cdrun_fn B (a ++ rest) = stop T_DATA_CHARS rest) by (apply cdrun_spec; eauto).
    change (txt "]" ++ a ++ rest) with (93 :: a ++ rest) in Hm. change ((txt "]" ++ a) ++ rest) with (93 :: a ++ rest).
    unfold cdata_fn. change (negb (is_xml_char 93)) with false. cbv iota. change (93 =? 13) with false. change (93 =? 10) with false.
    change (93 =? 93) with true. cbv iota.
    destruct (a ++ rest) as [|d q] eqn:Ea. { exfalso. apply Hm. right; left; reflexivity. }
    destruct (d =? 93) eqn:E2; [|exact E]. apply N.eqb_eq in E2. subst d.
    destruct q as [|f q]. { exfalso. apply Hm. right; right; reflexivity. }
    destruct (f =? 62) eqn:E3; [|exact E]. apply N.eqb_eq in E3. subst. exfalso. apply Hm. left. exists q. reflexivity.
Qed.
End Cp.

(* ---- any text encoding ---- *)
Lemma at_char_app enc a b : at_char enc (a ++ b) (length a) = length (flat_map enc a).
Proof. unfold at_char. now rewrite firstn_app, firstn_all, Nat.sub_diag, app_nil_r. Qed.
Lemma content_token_ne lat ns t a b : content_token lat ns t a b -> a <> [].
Proof. intros []; try discriminate; auto. - destruct H as (n & _ & ->); discriminate. - destruct H as [(d & _ & _ & ->)|(d & _ & _ & ->)]; discriminate. Qed.
Lemma content_token_valid lat ns t a b : content_token lat ns t a b -> t <> T_INVALID.
Proof. intros []; try discriminate. apply tag_token_valid. Qed.
Theorem contentTok_exact e enc dom lat ns cs t n : text_encoding e enc dom lat ns -> all_in dom cs -> t <> T_INVALID ->
  (contentTok e (flat_map enc cs) = Ok (t, Some n) <->
   exists lexeme rest, cs = lexeme ++ rest /\ content_token lat ns t lexeme rest /\ n = length (flat_map enc lexeme)).
Proof.
  intros TE Hd Ht. destruct (text_encoding_std _ _ _ _ _ TE) as (k & CS & ST).
  rewrite (lift_tok enc true cs _ _ t n (contentTok_sim _ _ _ _ CS cs Hd) (fun _ => Ht)). split.
  - intros (m & H & ->). destruct cs as [|c r] eqn:Ec; [discriminate|]. rewrite <- Ec in *.
    rewrite (contentTok_eq _ _ _ _ ST) in H by (auto; subst; discriminate). apply tok_of_some in H as (p & H & ->).
    apply (content_sound _ _ _ _ ST) in H as (l & E & Hl); auto. exists l, p. split; auto. split; auto.
    rewrite E, app_length. replace (length l + length p - length p)%nat with (length l) by lia. apply at_char_app.
  - intros (l & p & E & Hl & ->). exists (length l). split.
    + rewrite (contentTok_eq _ _ _ _ ST); auto. 2:{ apply content_token_ne in Hl. destruct l; [congruence|subst; discriminate]. }
      rewrite E in *. rewrite (content_complete _ _ _ _ ST l t p) by auto. rewrite tok_of_stop. do 3 f_equal. rewrite app_length. lia.
    + rewrite E. symmetry. apply at_char_app.
Qed.
Theorem content_close_invalid e enc dom lat ns a rest : text_encoding e enc dom lat ns -> all_in dom (a ++ txt "]]>" ++ rest) ->
  all_in data_char a -> ~ occurs (txt "]]>") (a ++ txt "]]") ->
  contentTok e (flat_map enc (a ++ txt "]]>" ++ rest)) = Ok (T_INVALID, Some (length (flat_map enc (a ++ txt "]]")))).
Proof.
  intros TE Hd Ha Ho. destruct (text_encoding_std _ _ _ _ _ TE) as (k & CS & ST).
  pose proof (contentTok_sim _ _ _ _ CS _ Hd) as S.
  rewrite (contentTok_eq _ _ _ _ ST), content_bad in S; auto. 2:{ destruct a; discriminate. }
  rewrite tok_of_stop in S. cbn [same_tok] in S. rewrite S. do 3 f_equal.
  replace (length (a ++ txt "]]>" ++ rest) - length (62%N :: rest))%nat with (length (a ++ txt "]]")).
  2:{ rewrite !app_length. cbn. lia. }
  replace (a ++ txt "]]>" ++ rest) with ((a ++ txt "]]") ++ txt ">" ++ rest) by (rewrite <- app_assoc; reflexivity). apply at_char_app.
Qed.
Theorem cdataTok_exact e enc dom lat ns cs t n : text_encoding e enc dom lat ns -> all_in dom cs -> t <> T_INVALID ->
  (cdataSectionTok e (flat_map enc cs) = Ok (t, Some n) <->
   exists lexeme rest, cs = lexeme ++ rest /\ cdata_token t lexeme rest /\ n = length (flat_map enc lexeme)).
Proof.
  intros TE Hd Ht. destruct (text_encoding_std _ _ _ _ _ TE) as (k & CS & ST).
  rewrite (lift_tok enc false cs _ _ t n (cdataSectionTok_sim _ _ _ _ CS cs Hd)) by discriminate. split.
  - intros (m & H & ->). destruct cs as [|c r] eqn:Ec; [discriminate|]. rewrite <- Ec in *.
    rewrite (cdataTok_eq _ _ _ _ ST) in H by (auto; subst; discriminate). apply tok_of_some in H as (p & H & ->).
    apply cdata_sound in H as (l & E & Hl); auto. exists l, p. split; auto. split; auto.
    rewrite E, app_length. replace (length l + length p - length p)%nat with (length l) by lia. apply at_char_app.
  - intros (l & p & E & Hl & ->). exists (length l). split.
    + rewrite (cdataTok_eq _ _ _ _ ST); auto. 2:{ intros ->. destruct l; [|discriminate]. inversion Hl; congruence. }
      rewrite E in *. rewrite (cdata_complete l t p) by auto. rewrite tok_of_stop. do 3 f_equal. rewrite app_length. lia.
    + rewrite E. symmetry. apply at_char_app.
Qed.
