(* Model of the construction of content models: DTDScaffold::next_part, build_node and build_model,
   src/lib/xmlparse.rs:1305-1333, 8234-8299, and of what doProlog does to the scaffold, 6442-6501,
   6600-6645, 6735-6800. *)
From Coq Require Import List NArith ZArith Bool.
From Verif Require Import Base Encoding Status Role State.
Import ListNotations.
Local Open Scope nat_scope.

Definition node0 : scafnode :=
  {| sn_type := CT_ZERO; sn_quant := Q_NONE; sn_name := None; sn_first := 0; sn_last := 0; sn_count := 0; sn_next := 0 |}.
Definition sn_set_type (t : ctype) (n : scafnode) : scafnode :=
  {| sn_type := t; sn_quant := sn_quant n; sn_name := sn_name n; sn_first := sn_first n; sn_last := sn_last n;
     sn_count := sn_count n; sn_next := sn_next n |}.
Definition sn_set_quant (q : cquant) (n : scafnode) : scafnode :=
  {| sn_type := sn_type n; sn_quant := q; sn_name := sn_name n; sn_first := sn_first n; sn_last := sn_last n;
     sn_count := sn_count n; sn_next := sn_next n |}.
Definition sn_set_name (x : bytes) (n : scafnode) : scafnode :=
  {| sn_type := sn_type n; sn_quant := sn_quant n; sn_name := Some x; sn_first := sn_first n; sn_last := sn_last n;
     sn_count := sn_count n; sn_next := sn_next n |}.
Definition sn_set_next (i : nat) (n : scafnode) : scafnode :=
  {| sn_type := sn_type n; sn_quant := sn_quant n; sn_name := sn_name n; sn_first := sn_first n; sn_last := sn_last n;
     sn_count := sn_count n; sn_next := i |}.
(* a further child [i]: firstchild, lastchild and childcnt *)
Definition sn_add_child (i : nat) (n : scafnode) : scafnode :=
  {| sn_type := sn_type n; sn_quant := sn_quant n; sn_name := sn_name n;
     sn_first := if sn_count n =? 0 then i else sn_first n; sn_last := i;
     sn_count := S (sn_count n); sn_next := sn_next n |}.

(* scaffold[i] = f(scaffold[i]) *)
Fixpoint modify {A} (i : nat) (f : A -> A) (l : list A) : res (list A) :=
  match i, l with
  | _, [] => Err EPanic
  | O, x :: l => Ok (f x :: l)
  | S i, x :: l => let* l := modify i f l in Ok (x :: l)
  end.

(* bounds-checked indexing *)
Definition nth_error_res {A} (l : list A) (i : nat) : res A :=
  match nth_error l i with Some x => Ok x | None => Err EPanic end.

(* next_part, src/lib/xmlparse.rs:1311-1333; [index] has its last element first *)
Definition next_part (scaf : list scafnode) (index : list nat) : res (list scafnode * nat) :=
  let next := length scaf in
  let scaf := scaf ++ [node0] in
  match index with
  | [] => Ok (scaf, next)
  | idx :: _ =>
      let* n := nth_error_res scaf idx in
      let* scaf := (if sn_last n =? 0 then Ok scaf else modify (sn_last n) (sn_set_next next) scaf) in
      let* scaf := modify idx (sn_add_child next) scaf in
      Ok (scaf, next)
  end.

(* build_node, src/lib/xmlparse.rs:8234-8276.  [cont] and [str] are how many content nodes and characters are left
   in the allocated block: taking more panics.  Going beyond [fuel] levels and siblings is [EFuel]. *)
Fixpoint build_node (fuel : nat) (scaf : list scafnode) (src cont str : nat) : res (model * nat * nat) :=
  match fuel with
  | O => Err EFuel
  | S fuel =>
      let* n := nth_error_res scaf src in
      match sn_type n with
      | CT_NAME =>
          match sn_name n with
          | None => Err EOob
          | Some name =>
              if S (length name) <=? str then Ok (Model CT_NAME (sn_quant n) (Some name) [], cont, str - S (length name))
              else Err EPanic
          end
      | t =>
          if sn_count n <=? cont then
            let* (l, cont, str) := build_nodes fuel scaf (sn_count n) (sn_first n) (cont - sn_count n) str in
            Ok (Model t (sn_quant n) None l, cont, str)
          else Err EPanic
      end
  end
(* the loop over the children; after each child nextsib is read *)
with build_nodes (fuel : nat) (scaf : list scafnode) (count cn cont str : nat) : res (list model * nat * nat) :=
  match fuel with
  | O => Err EFuel
  | S fuel =>
      match count with
      | O => Ok ([], cont, str)
      | S count =>
          let* (m, cont, str) := build_node fuel scaf cn cont str in
          let* n := nth_error_res scaf cn in
          let* (l, cont, str) := build_nodes fuel scaf count (sn_next n) cont str in
          Ok (m :: l, cont, str)
      end
  end.

(* build_model, src/lib/xmlparse.rs:8278-8299 *)
Definition build_model (scaf : list scafnode) (cslen : nat) : res model :=
  match scaf with
  | [] => Err EPanic
  | _ =>
      let* (m, _, _) := build_node (2 * S (length scaf)) scaf 0 (length scaf - 1) cslen in
      Ok m
  end.

(* the steps of doProlog *)
(* ELEMENT_NAME, 6607-6612 *)
Definition scaf_start (d : dtd) : dtd := set_d_inEldecl true (set_d_index [] (set_d_scaf [] d)).
(* GROUP_OPEN, 6442-6457 *)
Definition scaf_open (d : dtd) : res dtd :=
  let* (scaf, i) := next_part (d_scaf d) (d_index d) in
  let* scaf := modify i (sn_set_type CT_SEQ) scaf in
  Ok (set_d_index (i :: d_index d) (set_d_scaf scaf d)).
(* scaffold[index.last().unwrap()] = f(..) *)
Definition scaf_top (f : scafnode -> scafnode) (d : dtd) : res dtd :=
  match d_index d with
  | [] => Err EPanic
  | i :: _ => let* scaf := modify i f (d_scaf d) in Ok (set_d_scaf scaf d)
  end.
(* GROUP_CHOICE, 6486-6496; CONTENT_PCDATA, 6639-6643 *)
Definition scaf_choice : dtd -> res dtd :=
  scaf_top (fun n => match sn_type n with CT_MIXED => n | _ => sn_set_type CT_CHOICE n end).
Definition scaf_mixed : dtd -> res dtd := scaf_top (sn_set_type CT_MIXED).
(* CONTENT_ELEMENT*, 6748-6768 *)
Definition scaf_name (q : cquant) (name : bytes) (d : dtd) : res dtd :=
  let* (scaf, i) := next_part (d_scaf d) (d_index d) in
  let* scaf := modify i (fun n => sn_set_name name (sn_set_quant q (sn_set_type CT_NAME n))) scaf in
  Ok (set_d_cslen (d_cslen d + S (length name)) (set_d_scaf scaf d)).
(* GROUP_CLOSE*, 6783-6788: is the index empty now? *)
Definition scaf_close (q : cquant) (d : dtd) : res (dtd * bool) :=
  match d_index d with
  | [] => Err EPanic
  | i :: index =>
      let* scaf := modify i (sn_set_quant q) (d_scaf d) in
      Ok (set_d_index index (set_d_scaf scaf d), match index with [] => true | _ => false end)
  end.
(* after the last GROUP_CLOSE, 6797-6798 *)
Definition scaf_end (d : dtd) : dtd := set_d_cslen 0 (set_d_inEldecl false d).
