(* C47: string pools *)
From Coq Require Import List NArith Bool Arith.
From Verif Require Import Base Encoding SpecUnicode SpecConv SpecLex Pool SpecPool PoolLaws.
Import ListNotations.
Local Open Scope nat_scope.

(* After any sequence of operations, whatever the allocator did, the string being built and every string finished
   since the pool was last cleared are those the operations describe (SpecPool.v): the finished ones keep their text.
   From there every operation that makes sense succeeds unless the allocator fails. *)
Theorem C47_pool_strings : forall oracle os p kept, Forall sound_op os -> pool_run oracle os pool0 [] = Ok (p, kept, true) ->
  exists t l, strings_run os ([], []) (t, l) /\ text p = t /\ Forall2 (fun h s => read p h = Ok s) kept l /\
    forall o, sound_op o -> (exists a, strings_step o (t, l) a) ->
    exists p' kept' ok, pool_step oracle o p kept = Ok (p', kept', ok) /\ (ok = false -> exists n, oracle n = AllocFails).
Proof. exact pool_whole. Qed.
Print Assumptions C47_pool_strings.

(* every text in a supported or application-supplied encoding is converted to the UTF-8 form of its characters *)
Theorem C47_pool_text : forall e enc dom lat ns cs, text_encoding e enc dom lat ns -> Forall (fun c => dom c = true) cs ->
  converts (utf8Convert e) (flat_map enc cs) (utf8 cs).
Proof. exact te_converts. Qed.
Print Assumptions C47_pool_text.

(* an allocator that moves the vector at every second request; "h<e acute>" in Latin-1 and "z" in UTF-16 *)
Definition busy (n : nat) : alloc := if Nat.even n then AllocMoves 0 else AllocInPlace 1.
Definition history : list pool_op :=
  [PAppend (utf8Convert latin1_encoding) [104; 233]%N; PChar 33; PFinish; PStore (utf8Convert little2_encoding) [122; 0]%N; PFinish;
   PCopy [97; 98]%N; PPoke 0 0 72; PChars [1; 2; 3; 4; 5]%N; PBacktrack; PReplaceLast 9]%N.
Example C47_case : exists p kept, pool_run busy history pool0 [] = Ok (p, kept, true) /\
  text p = [1; 2; 3; 9]%N /\ map (read p) kept = [Ok [72; 195; 169; 33]; Ok [122; 0]; Ok [97; 98; 0]]%N.
Proof. do 2 eexists. split; [vm_compute; reflexivity|]. vm_compute. auto. Qed.
Example C47_case_sound : Forall sound_op history.
Proof.
  unfold history. repeat (apply Forall_cons; [|]); try apply Forall_nil; try exact I; cbn [sound_op].
  - exists (utf8 [104; 233]%N). apply (te_converts _ _ _ _ _ [104; 233]%N te_latin1). repeat (apply Forall_cons; [reflexivity|]). apply Forall_nil.
  - exists (utf8 [122]%N). apply (te_converts _ _ _ _ _ [122]%N te_utf16le). repeat (apply Forall_cons; [reflexivity|]). apply Forall_nil.
Qed.
