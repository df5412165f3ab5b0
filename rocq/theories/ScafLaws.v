(* The scaffold: what the steps of a declaration build, and what is read from it. *)
From Coq Require Import List NArith ZArith Bool Arith Lia.
From Verif Require Import Base Encoding Status Role State Scaf.
Import ListNotations.

Section ModelInd.
Variable P : model -> Prop.
Hypothesis H : forall ty q n l, Forall P l -> P (Model ty q n l).
Fixpoint model_rect' (m : model) : P m :=
  match m with
  | Model ty q n l => H ty q n l ((fix go (l : list model) : Forall P l :=
      match l with [] => Forall_nil P | m :: l => Forall_cons m (model_rect' m) (go l) end) l)
  end.
End ModelInd.

Fixpoint size (m : model) : nat :=
  match m with Model _ _ _ l => S ((fix go l := match l with [] => 0 | m :: l => size m + go l end) l) end.
Fixpoint sizes (l : list model) : nat := match l with [] => 0 | m :: l => size m + sizes l end.
Lemma size_eq ty q n l : size (Model ty q n l) = S (sizes l).
Proof. reflexivity. Qed.
Lemma size_pos m : 0 < size m.
Proof. destruct m. rewrite size_eq. lia. Qed.
Lemma sizes_app a b : sizes (a ++ b) = sizes a + sizes b.
Proof. induction a as [|m a IH]; cbn [app sizes]; [reflexivity|]. lia. Qed.

(* the place of the last of some trees laid out from [base] on *)
Fixpoint lastpos (l : list model) (base : nat) : nat :=
  match l with [] => 0 | [_] => base | m :: l => lastpos l (base + size m) end.
Definition root_node (m : model) (base next : nat) : scafnode :=
  match m with
  | Model ty q n l =>
      {| sn_type := ty; sn_quant := q; sn_name := n; sn_first := match l with [] => 0 | _ => S base end;
         sn_last := lastpos l (S base); sn_count := length l; sn_next := next |}
  end.
Fixpoint lay (m : model) (base next : nat) : list scafnode :=
  match m with
  | Model _ _ _ l =>
      root_node m base next ::
      (fix go (l : list model) (base next : nat) : list scafnode :=
         match l with
         | [] => []
         | m :: l => lay m base (match l with [] => next | _ => base + size m end) ++ go l (base + size m) next
         end) l (S base) 0
  end.
Fixpoint lays (l : list model) (base next : nat) : list scafnode :=
  match l with
  | [] => []
  | m :: l => lay m base (match l with [] => next | _ => base + size m end) ++ lays l (base + size m) next
  end.
Lemma lay_eq ty q n l base next : lay (Model ty q n l) base next = root_node (Model ty q n l) base next :: lays l (S base) 0.
Proof.
  reflexivity.
Qed.
Lemma lay_length m : forall base next, length (lay m base next) = size m.
Proof.
  induction m as [ty q n l IH] using model_rect'. intros base next. rewrite lay_eq, size_eq. cbn [length]. f_equal.
  generalize (S base) as b. generalize 0 as x. induction l as [|m l IHl]; intros x b; [reflexivity|].
  inversion IH as [|? ? H1 H2]; subst. cbn [lays sizes]. rewrite app_length, H1, IHl by assumption. reflexivity.
Qed.
Lemma lays_length l : forall base next, length (lays l base next) = sizes l.
Proof. induction l as [|m l IH]; intros base next; [reflexivity|]. cbn [lays sizes]. rewrite app_length, lay_length, IH. reflexivity. Qed.
Lemma lays_snoc l m : forall base next, lays (l ++ [m]) base next = lays l base (base + sizes l) ++ lay m (base + sizes l) next.
Proof.
  induction l as [|x l IH]; intros base next.
  - cbn [app lays sizes]. rewrite Nat.add_0_r, app_nil_r. reflexivity.
  - cbn [app lays]. rewrite IH. cbn [sizes].
    rewrite <- app_assoc. f_equal; [|f_equal; [f_equal; lia|f_equal; lia]].
    f_equal. destruct l as [|y l]; cbn [app sizes]; lia.
Qed.

Lemma modify_app {A} (f : A -> A) pre l k l' : modify k f l = Ok l' -> modify (length pre + k) f (pre ++ l) = Ok (pre ++ l').
Proof. intros H. induction pre as [|x pre IH]; [exact H|]. cbn [length app modify Nat.add]. rewrite IH. reflexivity. Qed.
Lemma modify_left {A} (f : A -> A) l post k l' : modify k f l = Ok l' -> modify k f (l ++ post) = Ok (l' ++ post).
Proof.
  revert k l'. induction l as [|x l IH]; intros k l' H; [destruct k; discriminate|]. destruct k as [|k]; cbn [modify app] in *.
  - injection H as <-. reflexivity.
  - destruct (modify k f l) as [l1|] eqn:E; [|discriminate]. cbn [bind] in H. injection H as <-. rewrite (IH _ _ E). reflexivity.
Qed.
Lemma modify_mid {A} (f : A -> A) pre x l : modify (length pre) f (pre ++ x :: l) = Ok (pre ++ f x :: l).
Proof. induction pre as [|y pre IH]; [reflexivity|]. cbn [length app modify]. rewrite IH. reflexivity. Qed.
Lemma lay_relink m base a b : modify 0 (sn_set_next b) (lay m base a) = Ok (lay m base b).
Proof. destruct m as [ty q n l]. rewrite !lay_eq. reflexivity. Qed.
Lemma lays_relink l a b : forall base, l <> [] -> base <= lastpos l base /\ modify (lastpos l base - base) (sn_set_next b) (lays l base a) = Ok (lays l base b).
Proof.
  induction l as [|m l IH]; intros base Hn; [contradiction|]. destruct l as [|m' l].
  - cbn [lastpos lays]. split; [lia|]. rewrite Nat.sub_diag, !app_nil_r. apply lay_relink.
  - destruct (IH (base + size m)) as [H1 H2]; [discriminate|]. change (lastpos (m :: m' :: l) base) with (lastpos (m' :: l) (base + size m)).
    split; [lia|]. change (lays (m :: m' :: l) base a) with (lay m base (base + size m) ++ lays (m' :: l) (base + size m) a).
    change (lays (m :: m' :: l) base b) with (lay m base (base + size m) ++ lays (m' :: l) (base + size m) b).
    replace (lastpos (m' :: l) (base + size m) - base) with (length (lay m base (base + size m)) + (lastpos (m' :: l) (base + size m) - (base + size m))) by (rewrite lay_length; lia).
    apply modify_app, H2.
Qed.
Lemma lastpos_snoc l m : forall base, lastpos (l ++ [m]) base = base + sizes l.
Proof.
  induction l as [|x l IH]; intros base; [cbn; lia|]. cbn [app sizes]. destruct (l ++ [m]) as [|y r] eqn:E; [destruct l; discriminate|].
  cbn [lastpos]. change (match r with [] => base + size x | m1 :: _ => lastpos r (base + size x + size y) end) with (lastpos (y :: r) (base + size x)). rewrite IH. lia.
Qed.

(* one more part below the open group, which stands after [pre] *)
Definition group (ty : ctype) (l : list model) : model := Model ty Q_NONE None l.
Lemma next_part_child pre ty l next idx :
  let g := pre ++ lay (group ty l) (length pre) next in
  next_part g (length pre :: idx) =
    Ok (pre ++ root_node (group ty (l ++ [Model CT_SEQ Q_NONE None []])) (length pre) next ::
          lays l (S (length pre)) (S (length pre) + sizes l) ++ [node0],
        length g).
Proof.
  cbv zeta. unfold group. rewrite lay_eq. set (root := root_node _ _ _). set (kids := lays l (S (length pre)) 0).
  assert (El : length (pre ++ root :: kids) = S (length pre) + sizes l).
  { rewrite app_length. cbn [length]. unfold kids. rewrite lays_length. lia. }
  unfold next_part. rewrite El. rewrite <- app_assoc. cbn [app].
  assert (En : nth_error (pre ++ root :: kids ++ [node0]) (length pre) = Some root).
  { rewrite nth_error_app2 by lia. rewrite Nat.sub_diag. reflexivity. }
  unfold nth_error_res. rewrite En. cbn [bind].
  assert (Es : (if sn_last root =? 0 then Ok (pre ++ root :: kids ++ [node0])
     else modify (sn_last root) (sn_set_next (S (length pre) + sizes l)) (pre ++ root :: kids ++ [node0])) =
     Ok (pre ++ root :: lays l (S (length pre)) (S (length pre) + sizes l) ++ [node0])).
  { destruct l as [|m l].
    - reflexivity.
    - destruct (lays_relink (m :: l) 0 (S (length pre) + sizes (m :: l)) (S (length pre))) as [H1 H2]; [discriminate|].
      change (sn_last root) with (lastpos (m :: l) (S (length pre))).
      destruct (Nat.eqb_spec (lastpos (m :: l) (S (length pre))) 0) as [E|E]; [lia|].
      replace (lastpos (m :: l) (S (length pre))) with (length pre + S (lastpos (m :: l) (S (length pre)) - S (length pre))) at 1 by lia.
      apply modify_app. cbn [modify]. fold kids in H2. rewrite (modify_left _ _ [node0] _ _ H2). reflexivity. }
  rewrite Es. cbn [bind].
  rewrite modify_mid. cbn [bind].
  f_equal. f_equal. f_equal. f_equal.
  unfold sn_add_child, root, root_node. cbn [sn_type sn_quant sn_name sn_first sn_count sn_next]. f_equal.
  - destruct l; cbn [length app Nat.eqb]; [cbn; lia|reflexivity].
  - rewrite lastpos_snoc. lia.
  - rewrite app_length. cbn. lia.
Qed.

Lemma lay_child pre ty l m next :
  pre ++ root_node (group ty (l ++ [Model CT_SEQ Q_NONE None []])) (length pre) next ::
    lays l (S (length pre)) (S (length pre) + sizes l) ++ lay m (S (length pre) + sizes l) 0 =
  pre ++ lay (group ty (l ++ [m])) (length pre) next.
Proof.
  unfold group. rewrite lay_eq, lays_snoc. f_equal. f_equal. unfold root_node. rewrite !lastpos_snoc, !app_length. f_equal.
  destruct l; reflexivity.
Qed.

(* names are exactly on the leaves of that type *)
Fixpoint proper (m : model) : Prop :=
  match m with
  | Model ty _ n l =>
      match ty with CT_NAME => l = [] /\ n <> None | _ => n = None end /\
      (fix go l := match l with [] => True | m :: l => proper m /\ go l end) l
  end.
Fixpoint propers (l : list model) : Prop := match l with [] => True | m :: l => proper m /\ propers l end.
(* the characters of the names, each with its end *)
Fixpoint strs (m : model) : nat :=
  match m with
  | Model _ _ n l =>
      match n with Some x => S (length x) | None => 0 end + (fix go l := match l with [] => 0 | m :: l => strs m + go l end) l
  end.
Fixpoint strss (l : list model) : nat := match l with [] => 0 | m :: l => strs m + strss l end.
Lemma strss_app a b : strss (a ++ b) = strss a + strss b.
Proof. induction a as [|m a IH]; cbn [app strss]; [reflexivity|]. lia. Qed.
Lemma propers_app a b : propers a -> propers b -> propers (a ++ b).
Proof. intros Ha Hb. induction a as [|m a IH]; [exact Hb|]. destruct Ha as [H1 H2]. split; [exact H1|]. apply IH, H2. Qed.
Lemma sizes_length l : length l <= sizes l.
Proof. induction l as [|m l IH]; [apply le_n|]. cbn [length sizes]. pose proof (size_pos m). lia. Qed.

Lemma build_lay m : proper m -> forall fuel pre next post cont str,
  2 * size m <= fuel -> size m - 1 <= cont -> strs m <= str ->
  build_node fuel (pre ++ lay m (length pre) next ++ post) (length pre) cont str = Ok (m, cont - (size m - 1), str - strs m).
Proof.
  induction m as [ty q n l IH] using model_rect'. intros Hp fuel pre next post cont str Hf Hc Hs.
  rewrite size_eq in Hf, Hc. rewrite size_eq. change (strs (Model ty q n l)) with (match n with Some x => S (length x) | None => 0 end + strss l) in Hs |- *.
  destruct fuel as [|fuel]; [lia|].
  assert (Hk : forall l, Forall (fun m => proper m -> forall fuel pre next post cont str,
     2 * size m <= fuel -> size m - 1 <= cont -> strs m <= str ->
     build_node fuel (pre ++ lay m (length pre) next ++ post) (length pre) cont str = Ok (m, cont - (size m - 1), str - strs m)) l ->
     propers l -> forall fuel pre next post cn cont str,
     (l <> [] -> cn = length pre) -> 2 * sizes l < fuel -> sizes l - length l <= cont -> strss l <= str ->
     build_nodes fuel (pre ++ lays l (length pre) next ++ post) (length l) cn cont str = Ok (l, cont - (sizes l - length l), str - strss l)).
  { clear. induction l as [|m l IHl]; intros HF Hp fuel pre next post cn cont str Hcn Hf Hc Hs.
    - destruct fuel as [|fuel]; [lia|]. cbn [build_nodes length sizes strss]. rewrite !Nat.sub_0_r. reflexivity.
    - inversion HF as [|? ? H1 H2]; subst. destruct Hp as [P1 P2]. destruct fuel as [|fuel]; [lia|]. rewrite Hcn by discriminate.
      cbn [length sizes strss] in *. pose proof (sizes_length l) as HL. pose proof (size_pos m) as Hpm. cbn [build_nodes].
      change (lays (m :: l) (length pre) next) with (lay m (length pre) (match l with [] => next | _ => length pre + size m end) ++ lays l (length pre + size m) next).
      set (nx := match l with [] => next | _ => length pre + size m end).
      rewrite <- app_assoc. rewrite (H1 P1) by lia. cbn [bind].
      unfold nth_error_res at 1. rewrite nth_error_app2 by lia. rewrite Nat.sub_diag.
      assert (E : exists rest, lay m (length pre) nx = root_node m (length pre) nx :: rest) by (destruct m; rewrite lay_eq; eexists; reflexivity).
      destruct E as [rest E]. rewrite E. cbn [app nth_error bind]. rewrite app_comm_cons, <- E.
      rewrite app_assoc. replace (length pre + size m) with (length (pre ++ lay m (length pre) nx)) by (rewrite app_length, lay_length; reflexivity).
      rewrite IHl; [cbn [bind]; do 2 f_equal; [f_equal|]; lia|exact H2|exact P2| |lia|lia|lia].
      intros Hl. rewrite app_length, lay_length. unfold nx. destruct m; destruct l; [contradiction|reflexivity]. }
  cbn [build_node]. unfold nth_error_res at 1. rewrite nth_error_app2 by lia. rewrite Nat.sub_diag, lay_eq. cbn [app nth_error bind root_node sn_type sn_name sn_count sn_first sn_quant].
  destruct Hp as [Ht Hl]. change (propers l) in Hl. pose proof (sizes_length l) as HL.
  assert (Hb : n = None -> ty <> CT_NAME -> (if length l <=? cont then let* (l0, cont0, str0) := build_nodes fuel (pre ++ root_node (Model ty q n l) (length pre) next :: lays l (S (length pre)) 0 ++ post) (length l) (match l with [] => 0 | _ :: _ => S (length pre) end) (cont - length l) str in Ok (Model ty q None l0, cont0, str0) else Err EPanic) = Ok (Model ty q n l, cont - (S (sizes l) - 1), str - strss l)).
  { intros -> _. destruct (Nat.leb_spec (length l) cont) as [_|Hx]; [|lia].
    replace (pre ++ root_node (Model ty q None l) (length pre) next :: lays l (S (length pre)) 0 ++ post)
      with ((pre ++ [root_node (Model ty q None l) (length pre) next]) ++ lays l (length (pre ++ [root_node (Model ty q None l) (length pre) next])) 0 ++ post)
      by (rewrite app_length; cbn [length]; rewrite Nat.add_1_r, <- app_assoc; reflexivity).
    rewrite Hk; [cbn [bind]; do 2 f_equal; f_equal; lia|exact IH|exact Hl| |lia|lia|].
    - intros Hn. rewrite app_length. cbn [length]. destruct l; [contradiction|lia].
    - destruct ty; lia. }
  destruct ty; try (specialize (Hb Ht); specialize (Hb ltac:(discriminate)); rewrite Ht in *; exact Hb).
  destruct Ht as [-> Hn]. destruct n as [x|]; [|contradiction]. cbn [strss sizes] in *. rewrite Nat.add_0_r in *.
  destruct (Nat.leb_spec (S (length x)) str); [|lia]. replace (cont - (1 - 1)) with cont by lia. reflexivity.
Qed.

Lemma build_model_lay m cslen : proper m -> strs m <= cslen -> build_model (lay m 0 0) cslen = Ok m.
Proof.
  intros Hp Hs. unfold build_model. pose proof (lay_length m 0 0) as El. pose proof (size_pos m) as Hpos.
  destruct (lay m 0 0) as [|x l] eqn:E; [cbn in El; lia|]. rewrite <- E in *. rewrite El.
  replace (lay m 0 0) with ([] ++ lay m (length (@nil scafnode)) 0 ++ []) by apply app_nil_r.
  change 0 with (length (@nil scafnode)) at 3. rewrite build_lay by (cbn [length]; lia || assumption). reflexivity.
Qed.
