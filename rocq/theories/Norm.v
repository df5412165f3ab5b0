(* Model of the in-place normalisations of NUL-terminated strings, src/lib/xmlparse.rs.
   A string is an array of XML_Char (bytes); reading or writing outside it is an error. *)
From Coq Require Import List NArith Arith Bool.
From Verif Require Import Base.
Import ListNotations.
Local Open Scope N_scope.

Definition get (a : list N) (i : nat) : res N :=
  match nth_error a i with Some v => Ok v | None => Err EOob end.
Definition put (a : list N) (i : nat) (v : N) : res (list N) :=
  if (i <? length a)%nat then Ok (firstn i a ++ v :: skipn (S i) a) else Err EOob.

(* normalizeLines, first loop, src/lib/xmlparse.rs:7579-7587; [None]: returned without a CR *)
Fixpoint nl_find (fuel : nat) (a : list N) (s : nat) : res (option nat) :=
  match fuel with
  | O => Err EFuel
  | S f =>
      let* c := get a s in
      if c =? 0 then Ok None
      else if c =? 13 then Ok (Some s)
      else nl_find f a (S s)
  end.
(* normalizeLines, second loop, src/lib/xmlparse.rs:7589-7608 *)
Fixpoint nl_loop (fuel : nat) (a : list N) (s p : nat) : res (list N) :=
  match fuel with
  | O => Err EFuel
  | S f =>
      let* c := get a s in
      let* (a, s) :=
        (if c =? 13 then
           let* a := put a p 10 in
           let* d := get a (S s) in
           Ok (a, if d =? 10 then S (S s) else S s)
         else let* a := put a p c in Ok (a, S s)) in
      let* n := get a s in
      if n =? 0 then put a (S p) 0 else nl_loop f a s (S p)
  end.
(* normalizeLines, src/lib/xmlparse.rs:7575-7610 *)
Definition normalizeLines (a : list N) : res (list N) :=
  let* r := nl_find (S (length a)) a 0 in
  match r with
  | None => Ok a
  | Some s => nl_loop (S (length a)) a s s
  end.

(* normalizePublicId, loop, src/lib/xmlparse.rs:8118-8136.  Pointers are offsets from publicId. *)
Fixpoint pid_loop (fuel : nat) (a : list N) (s p : nat) : res (list N * nat) :=
  match fuel with
  | O => Err EFuel
  | S f =>
      let* c := get a s in
      if c =? 0 then Ok (a, p)
      else if (c =? 32) || (c =? 13) || (c =? 10) then
        match p with
        | O => pid_loop f a (S s) p
        | S q =>
            let* l := get a q in
            if l =? 32 then pid_loop f a (S s) p
            else let* a := put a p 32 in pid_loop f a (S s) (S p)
        end
      else let* a := put a p c in pid_loop f a (S s) (S p)
  end.
(* normalizePublicId, src/lib/xmlparse.rs:8115-8141 *)
Definition normalizePublicId (a : list N) : res (list N) :=
  let* (a, p) := pid_loop (S (length a)) a 0 0 in
  match p with
  | O => put a 0 0
  | S q =>
      let* l := get a q in
      if l =? 32 then put a q 0 else put a p 0
  end.
