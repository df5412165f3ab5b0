(* The encoding after an XML declaration. *)
From Coq Require Import String List NArith ZArith Bool Lia Arith.
From Verif Require Import Base Encoding SpecText SpecUnicode SpecLex SpecDecl Tok TokMisc XmlDecl SpecEnc DeclFinal Status State Content Prolog SpecConf.
From Coq Require Import List.
Import ListNotations.
Local Open Scope nat_scope.

(* ---- what reads and reports without changing the encoding ---- *)
Definition same (s s' : st) : Prop := s_enc s' = s_enc s /\ s_cfg s' = s_cfg s /\ s_protocol s' = s_protocol s.
Definition calm {A} (m : P A) : Prop := forall s, match m s with Ret _ s' => same s s' | Fail _ _ => False | Die _ => True end.
Lemma calm_bind {A B} (m : P A) (k : A -> P B) : calm m -> (forall a, calm (k a)) -> calm (pbind m k).
Proof.
  intros Hm Hk s. unfold pbind. specialize (Hm s). destruct (m s) as [a s1|? ?|?]; [|contradiction|exact I]. specialize (Hk a s1).
  destruct (k a s1) as [b s2|? ?|?]; auto. destruct Hm as (A1 & A2 & A3), Hk as (B1 & B2 & B3). repeat split; congruence.
Qed.
Lemma calm_ret {A} (a : A) : calm (pret a). Proof. intros s. repeat split. Qed.
Lemma calm_get {A} (f : st -> A) : calm (get f). Proof. intros s. repeat split. Qed.
Lemma calm_enc t : calm (encoding t). Proof. intros s. repeat split. Qed.
Lemma calm_handler f : calm (handler f). Proof. intros s. repeat split. Qed.
Lemma calm_lift {A} (r : res A) : calm (lift r). Proof. intros s. unfold lift. destruct r; [repeat split|exact I]. Qed.
Lemma calm_die {A} e : calm (@die A e). Proof. intros s. exact I. Qed.
Lemma calm_call ev : calm (call ev). Proof. intros s. repeat split. Qed.
Lemma calm_when b m : calm m -> calm (when b m). Proof. intros H. destruct b; [exact H|apply calm_ret]. Qed.
Lemma calm_ev t n : calm (set_event_n t n). Proof. intros s. unfold set_event_n. destruct (is_internal t); repeat split. Qed.
Lemma calm_evEnd t n : calm (set_event_end_n t n). Proof. intros s. unfold set_event_end_n. destruct (is_internal t); repeat split. Qed.
Lemma calm_chunks mk t e after : forall fuel b, calm (send_chunks fuel mk t e b after).
Proof.
  induction fuel as [|fuel IH]; intros b; [apply calm_die|]. cbn [send_chunks]. apply calm_bind; [apply calm_lift|]. intros [[r out] rest].
  apply calm_bind; [apply calm_evEnd|]. intros _. apply calm_bind; [apply calm_call|]. intros _. apply calm_bind; [apply calm_ev|]. intros _. destruct r; try apply calm_ret. apply IH.
Qed.
Lemma calm_default t b n : calm (reportDefault t b n).
Proof.
  unfold reportDefault, send. apply calm_bind; [apply calm_handler|]. intros on. apply calm_when. apply calm_bind; [apply calm_enc|]. intros e.
  destruct (isUtf8 e); [apply calm_bind; [apply calm_call|intros _; apply calm_ret]|apply calm_chunks].
Qed.
Lemma then_ {A B} (m : P A) (k : A -> P B) s (R : out B -> Prop) : calm m -> (forall x, R (Die x)) -> (forall a s', same s s' -> R (k a s')) -> R (pbind m k s).
Proof. intros C D H. unfold pbind. specialize (C s). destruct (m s) as [a s1|? ?|?]; [auto|contradiction|auto]. Qed.
Lemma then_2 {A B} (m : P A) (k : A -> P B) s (Q : A -> Prop) (R : out B -> Prop) : calm m -> (match m s with Ret a _ => Q a | _ => True end) ->
  (forall x, R (Die x)) -> (forall a s', Q a -> same s s' -> R (k a s')) -> R (pbind m k s).
Proof. intros C C2 D H. unfold pbind. specialize (C s). destruct (m s) as [a s1|? ?|?]; [auto|contradiction|auto]. Qed.
Lemma unknown_code n s : match handleUnknownEncoding n s with Ret _ s' => h_unknown (c_h (s_cfg s)) = true | Fail e _ => e = XE_UNKNOWN_ENCODING | Die _ => True end.
Proof.
  unfold handleUnknownEncoding, pbind, handler, get. destruct (h_unknown (c_h (s_cfg s))); cbn [negb]; [|reflexivity]. unfold call.
  set (r := c_app _ _). set (s1 := set_parsing _ _). destruct (negb (answer r [])); [reflexivity|].
  destruct (match encmap r with Some x => x | None => _ end) as [map cv]. cbv beta. unfold lift. destruct (unknown_initialize _ _ _) as [[u|]|]; [reflexivity|reflexivity|exact I].
Qed.

(* ---- the declaration ---- *)
Lemma readable ns d : exists dom lat, text_encoding (object ns d) (write d) dom lat ns.
Proof. destruct d, ns; eexists _, _; cbn; constructor. Qed.
Lemma names_of ns d : supported ns (object ns d) = map (fun p => (fst p, object ns (snd p))) (names d).
Proof. destruct ns, d; reflexivity. Qed.
Lemma selects_some ns d v x : selects ns (object ns d) v (Some x) -> exists c, x = object ns c /\ says d v c.
Proof.
  intros (w & I & S). rewrite names_of in I. apply in_map_iff in I as ((w' & c) & E & I). cbn in E. injection E as <- <-. exists c. split; [reflexivity|]. exists w'. auto.
Qed.
Lemma selects_none ns d v : selects ns (object ns d) v None -> unknown d v.
Proof. intros H x (w & I & S). apply (H w (object ns x)); [|exact S]. rewrite names_of. apply in_map_iff. exists (w, x). auto. Qed.
Lemma agrees_iff ns d x : negb (minbpc (object ns x) =? minbpc (object ns d)) || (minbpc (object ns x) =? 2) && negb (Bool.eqb (big_endian (object ns x)) (big_endian (object ns d))) = false <-> agrees d x.
Proof. unfold agrees. destruct ns, d, x; cbn; split; intros; try discriminate; try tauto; try (split; [reflexivity|discriminate]); try (destruct H as [H H1]; try discriminate H; specialize (H1 eq_refl); discriminate H1); auto. Qed.
Lemma declared general d src after s : s_enc s = EKnown (object (c_ns (s_cfg s)) d) -> decl_ok general src ->
  (forall a, ds_encoding src = Some a -> length (as_value a) <> 127) ->
  settled (c_ns (s_cfg s)) d src s (processXmlDecl general (flat_map (write d) (decl_text src)) after s).
Proof.
  intros En OK L. set (ns := c_ns (s_cfg s)) in *. destruct (readable ns d) as (dom & lat & TE).
  destruct (te_decl_complete _ _ _ _ _ TE ns general src OK L) as (r & Er & (D1 & D2 & D3 & D4)).
  unfold processXmlDecl. set (buf := flat_map _ _) in *.
  assert (Z : forall x, settled ns d src s (Die x)) by (intros x; unfold settled; destruct (s_protocol s), (ds_encoding src); exact I).
  unfold pbind at 1, encoding. rewrite En. cbn [known]. unfold pbind at 1, get at 1. fold ns. unfold pbind at 1, lift at 1. rewrite Er.
  apply then_; [|exact Z|].
  { apply calm_when. apply calm_bind; [intros x; repeat split|]. intros _ x. unfold upd. destruct (s_pep x); repeat split. }
  intros _ s1 (S1 & S2 & S3). apply (then_2 _ _ _ (fun n => dr_enc_name r <> None -> n <> None)); [| |exact Z|].
  2: { unfold pbind, lift, pret. destruct (dr_enc_name r); [|congruence]. repeat (match goal with |- context [match ?x with Ok _ => _ | Err _ => _ end] => destruct x end; try exact I). congruence. }
  { destruct (dr_enc_name r); [|apply calm_ret]. repeat (apply calm_bind; [apply calm_lift|intros ?]). apply calm_ret. }
  intros encName s2 T0 (T1 & T2 & T3). apply then_; [|exact Z|].
  { destruct (dr_version r); [|apply calm_ret]. apply calm_bind; [apply calm_lift|intros ?]. apply calm_ret. }
  intros version s3 (U1 & U2 & U3). apply then_; [apply calm_handler|exact Z|]. intros on s4 (V1 & V2 & V3). apply then_; [|exact Z|].
  { destruct on; [apply calm_bind; [apply calm_call|intros ?; apply calm_ret]|apply calm_default]. }
  intros _ s5 (W1 & W2 & W3). unfold pbind at 1, get at 1.
  assert (X1 : s_enc s5 = s_enc s) by congruence. assert (X2 : s_cfg s5 = s_cfg s) by congruence. assert (X3 : s_protocol s5 = s_protocol s) by congruence. clear S1 S2 S3 T1 T2 T3 U1 U2 U3 V1 V2 V3 W1 W2 W3.
  rewrite X3. unfold settled. destruct (s_protocol s); [exact X1|]. unfold points_at in D2. destruct (ds_encoding src) as [a|].
  - destruct D2 as (t & Et). rewrite Et in T0 |- *. destruct (dr_encoding r) as [x|].
    + apply selects_some in D3 as (c & -> & Sc). pose proof (agrees_iff ns d c) as Ag. destruct (negb _ || _ && _).
      * unfold pbind, set_event_n. cbn [is_internal]. unfold upd, fail. left. exists c. split; [exact Sc|]. split; [|reflexivity]. intros H. apply Ag in H. discriminate H.
      * unfold upd. left. exists c. split; [exact Sc|]. split; [apply Ag; reflexivity|reflexivity].
    + apply selects_none in D3. destruct encName as [n|].
      * unfold pbind, try. pose proof (unknown_code n s5) as K. destruct (handleUnknownEncoding n s5) as [[] s6|e s6|e].
        -- right. split; [exact D3|]. rewrite <- X2. exact K.
        -- unfold set_event_n. cbn [is_internal]. unfold upd, fail. right. auto.
        -- exact I.
      * exfalso. apply T0; [discriminate|reflexivity].
  - rewrite D2. destruct (dr_encoding r); exact X1.
Qed.
