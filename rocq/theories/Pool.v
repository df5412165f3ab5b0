(* Model of StringPool, src/string_pool.rs.

   The arena (bumpalo) is a list of blocks; a block is the storage of one vector, its length the vector's capacity.
   A finished string is a handle: which arena it lives in ([gen], counted up by clear), its block and its length.
   [oracle] decides what the allocator does at each reservation that needs room: fail, extend the block in place
   or move the vector to a new block, with any amount of extra room.  Moving leaves the old block behind.  The
   unused end of a block is filled with zeros (the code's resize); its contents are never read. *)
From Coq Require Import List NArith Bool Arith.
From Verif Require Import Base Encoding.
Import ListNotations.
Local Open Scope nat_scope.

Inductive alloc := AllocFails | AllocInPlace (extra : nat) | AllocMoves (extra : nat).

(* [cur]: the block of the current vector (None: nothing allocated yet); [cur_len]: its length;
   [tick]: how often the allocator was asked *)
Record pool := { arena : list bytes; gen : nat; cur : option nat; cur_len : nat; tick : nat }.
Record handle := { h_gen : nat; h_block : option nat; h_len : nat }.

Definition block (p : pool) (b : option nat) : bytes := match b with Some i => nth i (arena p) [] | None => [] end.
(* the current string: StringPool::current_slice, src/string_pool.rs:98-102 *)
Definition text (p : pool) : bytes := firstn (cur_len p) (block p (cur p)).
(* reading through a finished slice; after clear() it dangles *)
Definition read (p : pool) (h : handle) : res bytes :=
  if gen p =? h_gen h then Ok (firstn (h_len h) (block p (h_block h))) else Err EOob.

(* StringPool::try_new, src/string_pool.rs:39-47 *)
Definition pool0 : pool := {| arena := []; gen := 0; cur := None; cur_len := 0; tick := 0 |}.

Fixpoint set_nth {A} (i : nat) (v : A) (l : list A) : list A :=
  match l, i with
  | [], _ => []
  | _ :: t, O => v :: t
  | x :: t, S j => x :: set_nth j v t
  end.

Section Pool.
Variable oracle : nat -> alloc.

(* Vec::try_reserve(n) on the current vector *)
Definition reserve (n : nat) (p : pool) : pool * bool :=
  let b := block p (cur p) in
  if cur_len p + n <=? length b then (p, true)
  else
    let a := oracle (tick p) in
    let moved extra :=
      ({| arena := arena p ++ [firstn (cur_len p) b ++ repeat 0%N (n + extra)]; gen := gen p; cur := Some (length (arena p));
          cur_len := cur_len p; tick := S (tick p) |}, true) in
    match a with
    | AllocFails => ({| arena := arena p; gen := gen p; cur := cur p; cur_len := cur_len p; tick := S (tick p) |}, false)
    | AllocInPlace extra =>
        match cur p with
        | Some i => ({| arena := set_nth i (firstn (cur_len p) b ++ repeat 0%N (n + extra)) (arena p); gen := gen p; cur := cur p;
                        cur_len := cur_len p; tick := S (tick p) |}, true)
        | None => moved extra
        end
    | AllocMoves extra => moved extra
    end.

(* writing [out] at the end of the current vector, for which there is room *)
Definition push (out : bytes) (p : pool) : res pool :=
  match cur p with
  | None => match out with [] => Ok p | _ => Err EOob end
  | Some i =>
      let b := block p (cur p) in
      if cur_len p + length out <=? length b then
        Ok {| arena := set_nth i (firstn (cur_len p) b ++ out ++ repeat 0%N (length b - cur_len p - length out)) (arena p); gen := gen p;
              cur := cur p; cur_len := cur_len p + length out; tick := tick p |}
      else Err EOob
  end.

(* RentedBumpVec::append_char, src/string_pool.rs:305-313 *)
Definition append_char (c : N) (p : pool) : res (pool * bool) :=
  let '(p, ok) := reserve 1 p in
  if ok then let* p := push [c] p in Ok (p, true) else Ok (p, false).

(* append_c_string, src/string_pool.rs:151-163: [s] without the terminating NUL *)
Fixpoint append_chars (s : bytes) (p : pool) : res (pool * bool) :=
  match s with
  | [] => Ok (p, true)
  | c :: t => let* (p, ok) := append_char c p in if ok then append_chars t p else Ok (p, false)
  end.

(* RentedBumpVec::append, src/string_pool.rs:276-303 *)
Fixpoint append_loop (fuel : nat) (conv : bytes -> nat -> res convT) (buf : bytes) (p : pool) : res (pool * bool) :=
  match fuel with
  | O => Err EFuel
  | S f =>
      let '(p, ok) := reserve (Nat.max (length buf) 4) p in
      if negb ok then Ok (p, false)
      else
        let* (code, out, rest) := conv buf (length (block p (cur p)) - cur_len p) in
        let* p := push out p in
        match code with
        | COMPLETED | INPUT_INCOMPLETE => Ok (p, true)
        | OUTPUT_EXHAUSTED => append_loop f conv rest p
        end
  end.
Definition append (conv : bytes -> nat -> res convT) (buf : bytes) (p : pool) : res (pool * bool) :=
  append_loop (S (length buf)) conv buf p.

(* store_c_string, src/string_pool.rs:183-199 *)
Definition store_c_string (conv : bytes -> nat -> res convT) (buf : bytes) (p : pool) : res (pool * bool) :=
  let* (p, ok) := append conv buf p in
  if ok then append_char 0%N p else Ok (p, false).

(* finish_string, src/string_pool.rs:69-76; finish_string_cells, 78-86 *)
Definition finish_string (p : pool) : pool * handle :=
  ({| arena := arena p; gen := gen p; cur := None; cur_len := 0; tick := tick p |},
   {| h_gen := gen p; h_block := cur p; h_len := cur_len p |}).

(* copy_c_string, src/string_pool.rs:209-235 *)
Definition copy_c_string (s : bytes) (p : pool) : res (pool * option handle) :=
  let* (p, ok) := append_chars (s ++ [0%N]) p in
  if ok then let '(p, h) := finish_string p in Ok (p, Some h) else Ok (p, None).

(* copy_c_string_n, src/string_pool.rs:237-266 *)
Definition copy_c_string_n (s : bytes) (p : pool) : res (pool * option handle) :=
  let '(p, ok) := reserve (length s) p in
  if negb ok then Ok (p, None)
  else
    let* (p, ok) := append_chars s p in
    if ok then let '(p, h) := finish_string p in Ok (p, Some h) else Ok (p, None).

(* clear_current, src/string_pool.rs:88-91: the vector keeps its block *)
Definition clear_current (p : pool) : pool :=
  {| arena := arena p; gen := gen p; cur := cur p; cur_len := 0; tick := tick p |}.

(* replace_last_char, src/string_pool.rs:127-137 *)
Definition replace_last_char (c : N) (p : pool) : res pool :=
  match cur p, cur_len p with
  | Some i, S n =>
      let b := block p (cur p) in
      Ok {| arena := set_nth i (set_nth n c b) (arena p); gen := gen p; cur := cur p; cur_len := cur_len p; tick := tick p |}
  | _, _ => Err EPanic
  end.
(* backtrack, src/string_pool.rs:139-142 *)
Definition backtrack (p : pool) : res pool :=
  match cur_len p with
  | S n => Ok {| arena := arena p; gen := gen p; cur := cur p; cur_len := n; tick := tick p |}
  | O => Err EPanic
  end.
(* get_last_char, src/string_pool.rs:144-147 *)
Definition get_last_char (p : pool) : res N :=
  match cur_len p with
  | S n => match nth_error (text p) n with Some c => Ok c | None => Err EOob end
  | O => Err EPanic
  end.

(* clear, src/string_pool.rs:165-181 *)
Definition clear (p : pool) : pool := {| arena := []; gen := S (gen p); cur := None; cur_len := 0; tick := tick p |}.

(* Cell::set through a slice returned by finish_string_cells *)
Definition poke (h : handle) (i : nat) (v : N) (p : pool) : res pool :=
  match h_block h with
  | Some b =>
      if (gen p =? h_gen h) && (i <? h_len h) then
        Ok {| arena := set_nth b (set_nth i v (block p (Some b))) (arena p); gen := gen p; cur := cur p; cur_len := cur_len p; tick := tick p |}
      else Err EPanic
  | None => Err EPanic
  end.

(* the operations on a pool, and the finished strings its user keeps (dropped when the pool is cleared) *)
Inductive pool_op :=
| PAppend (conv : bytes -> nat -> res convT) (buf : bytes)
| PStore (conv : bytes -> nat -> res convT) (buf : bytes)
| PChar (c : N)
| PChars (s : bytes)
| PFinish
| PCopy (s : bytes)
| PCopyN (s : bytes)
| PClearCurrent
| PReplaceLast (c : N)
| PBacktrack
| PPoke (k i : nat) (v : N)
| PClear.

Definition pool_step (o : pool_op) (p : pool) (kept : list handle) : res (pool * list handle * bool) :=
  match o with
  | PAppend conv buf => let* (p, ok) := append conv buf p in Ok (p, kept, ok)
  | PStore conv buf => let* (p, ok) := store_c_string conv buf p in Ok (p, kept, ok)
  | PChar c => let* (p, ok) := append_char c p in Ok (p, kept, ok)
  | PChars s => let* (p, ok) := append_chars s p in Ok (p, kept, ok)
  | PFinish => let '(p, h) := finish_string p in Ok (p, kept ++ [h], true)
  | PCopy s => let* (p, h) := copy_c_string s p in
               match h with Some h => Ok (p, kept ++ [h], true) | None => Ok (p, kept, false) end
  | PCopyN s => let* (p, h) := copy_c_string_n s p in
                match h with Some h => Ok (p, kept ++ [h], true) | None => Ok (p, kept, false) end
  | PClearCurrent => Ok (clear_current p, kept, true)
  | PReplaceLast c => let* p := replace_last_char c p in Ok (p, kept, true)
  | PBacktrack => let* p := backtrack p in Ok (p, kept, true)
  | PPoke k i v =>
      match nth_error kept k with
      | Some h => let* p := poke h i v p in Ok (p, kept, true)
      | None => Err EPanic
      end
  | PClear => Ok (clear p, [], true)
  end.
(* the run stops at the first operation that reports failure *)
Fixpoint pool_run (os : list pool_op) (p : pool) (kept : list handle) : res (pool * list handle * bool) :=
  match os with
  | [] => Ok (p, kept, true)
  | o :: os =>
      let* (p, kept, ok) := pool_step o p kept in
      if ok then pool_run os p kept else Ok (p, kept, false)
  end.
End Pool.
