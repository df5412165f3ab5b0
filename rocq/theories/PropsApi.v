(* C30-C34: the calling interface and the input buffer (XML_Parse, XML_GetBuffer, XML_ParseBuffer,
   XML_StopParser, XML_ResumeParser, position queries).  [run] is the processor behind the interface,
   any function; [start] startParsing; [upd] the encoding's updatePosition. *)
From Coq Require Import List NArith ZArith Bool Arith.
From Verif Require Import Base Status TokMisc Api SpecApi ApiLaws ApiTop ApiDemo ApiResume.
Import ListNotations.
Local Open Scope nat_scope.

(* C30.  Every history of calls behaves like a parser that reads one growing document: each processor call gets
   exactly the bytes not yet consumed followed by the new ones (see [advances] in SpecApi.v), XML_GetBuffer(n) lends
   at least n bytes or reports the documented error ([call]), and what is left unread in the buffer is the
   unconsumed end of the document. *)
Theorem C30_stream : forall C (run : C -> XML_Parsing -> bool -> bytes -> res (prun C)) start upd is_child is_pe,
  in_bounds run -> forall c os s l,
  Forall small os -> steps run start upd os (fresh is_child is_pe c) = Ok (s, l) -> disciplined 0 0 os l ->
  exists m, calls run start is_child is_pe (machine0 c) os m l /\
    core s = m_core m /\ parsing s = m_status m /\ errorCode s = m_error m /\
    firstn (bufferEnd s - bufferStart s) (skipn (bufferStart s) (buffer s)) = skipn (m_used m) (m_doc m).
Proof. exact @stream. Qed.
Print Assumptions C30_stream.

(* XML_GetBuffer keeps up to 1024 consumed bytes in front of unread data, and they are the document's *)
Theorem C30_context : forall C (run : C -> XML_Parsing -> bool -> bytes -> res (prun C)) start upd is_child is_pe,
  in_bounds run -> forall c os s l n mem s' k,
  Forall small os -> steps run start upd os (fresh is_child is_pe c) = Ok (s, l) -> disciplined 0 0 os l -> (n <= i32_max)%Z ->
  getBuffer n mem s = Ok (s', Some k) -> bufferStart s < bufferEnd s ->
  Nat.min 1024 (bufferStart s) <= bufferStart s' /\
  exists m, calls run start is_child is_pe (machine0 c) os m l /\
    firstn (bufferStart s') (buffer s') = skipn (m_used m - bufferStart s') (firstn (m_used m) (m_doc m)).
Proof. exact @context. Qed.
Print Assumptions C30_context.

(* no such call panics unless the processor, startParsing or updatePosition does *)
Theorem C30_no_panic : forall C (run : C -> XML_Parsing -> bool -> bytes -> res (prun C)) start upd is_child is_pe,
  in_bounds run -> (forall c p f b, exists r, run c p f b = Ok r) -> (forall c, exists r, start c = Ok r) ->
  (forall c b p, exists r, upd c b p = Ok r) ->
  forall c os s l o a, Forall small (os ++ [o]) -> steps run start upd os (fresh is_child is_pe c) = Ok (s, l) ->
  disciplined 0 0 (os ++ [o]) (l ++ [a]) -> o <> OpLine -> o <> OpColumn -> exists r, step run start upd o s = Ok r.
Proof. exact @no_panic. Qed.
Print Assumptions C30_no_panic.

Example C30_example :
  in_bounds demo_run /\
  let os := [OpParse [97; 10; 98]%N false true; OpGetBuffer 2000 true; OpFill [99; 10; 100]%N; OpParseBuffer 2 false; OpParse [101; 10]%N true true] in
  exists s l, demo os = Ok (s, l) /\ Forall small os /\ disciplined 0 0 os l /\
    core s = [[97; 10; 98]; [98; 99; 10]; [101; 10]]%N /\
    l = [A_status ST_OK; A_room (Some 2041); A_unit; A_status ST_OK; A_status ST_OK] /\ parsing s = FINISHED.
Proof.
  split; [exact demo_bounds|]. cbv zeta. eexists _, _. split; [vm_compute; reflexivity|].
  split; [repeat (apply Forall_cons; [cbn; discriminate || exact I|]); apply Forall_nil|].
  split; [cbn; repeat split; repeat constructor|]. split; [vm_compute; reflexivity|]. split; [vm_compute; reflexivity|]. vm_compute; reflexivity.
Qed.
Example C30_example_context : exists s l s', demo [OpParse (repeat 10%N 1020 ++ [97; 98])%N false true] = Ok (s, l) /\
  getBuffer 100 true s = Ok (s', Some 1026) /\ bufferStart s < bufferEnd s /\ Nat.min 1024 (bufferStart s) = 1020 /\
  bufferStart s' = 1020 /\ length (buffer s) = 1024.
Proof. eexists _, _, _. split; [vm_compute; reflexivity|]. split; [vm_compute; reflexivity|]. split; [apply Nat.ltb_lt; vm_compute; reflexivity|]. vm_compute. auto. Qed.

(* C31.  Once a parse call has failed (answered ERROR for a reason other than refusing the call), every later parse
   or resume call answers ERROR and nothing behind the interface changes: no event is delivered.  The one exception
   to the first half is XML_Parse with no bytes and isFinal = 0: see the refutation. *)
Theorem C31_partial : forall C (run : C -> XML_Parsing -> bool -> bytes -> res (prun C)) start upd,
  (forall c p f b r, run c p f b = Ok r -> p <> INITIALIZED -> r_parsing r <> INITIALIZED) ->
  forall o s s1 os s2 l, is_parse_call o -> step run start upd o s = Ok (s1, A_status ST_ERROR) -> ~ refusal (errorCode s1) ->
  Forall no_setting os -> steps run start upd os s1 = Ok (s2, l) ->
  core s2 = core s1 /\ Forall2 stuck_answer os l.
Proof. exact @sticky. Qed.
Print Assumptions C31_partial.
(* what is missing for the full statement is false: an empty, non-final chunk is answered with OK in any running
   state, failed or not (src/lib/xmlparse.rs:2605-2608) *)
Theorem C31_refuted :
  exists s l, demo [OpParse [97; 0; 10]%N false true; OpParse [98]%N false true; OpParse [] false true] = Ok (s, l) /\
    l = [A_status ST_ERROR; A_status ST_ERROR; A_status ST_OK] /\ errorCode s = XE_INVALID_TOKEN.
Proof. eexists _, _. split; [vm_compute; reflexivity|]. vm_compute. auto. Qed.
Print Assumptions C31_refuted.
Example C31_example :
  exists s1 s2 l, step demo_run demo_start demo_upd (OpParse [97; 0; 10]%N false true) (fresh false false []) = Ok (s1, A_status ST_ERROR) /\
    ~ refusal (errorCode s1) /\
    steps demo_run demo_start demo_upd [OpParse [98]%N false true; OpGetBuffer 10 true; OpStop true; OpResume; OpParse [99]%N true true] s1 = Ok (s2, l) /\
    core s2 = [[97; 0; 10]]%N.
Proof.
  eexists _, _, _. split; [vm_compute; reflexivity|]. split; [cbn; intros [H|[H|[H|H]]]; discriminate|].
  split; [vm_compute; reflexivity|]. reflexivity.
Qed.

(* C32.  While suspended or finished, parsing is refused with the documented code and only the error code changes *)
Theorem C32_parse_refused : forall C (run : C -> XML_Parsing -> bool -> bytes -> res (prun C)) start upd s e,
  (parsing s = SUSPENDED /\ e = XE_SUSPENDED \/ parsing s = FINISHED /\ e = XE_FINISHED) ->
  (forall d f mem, step run start upd (OpParse d f mem) s = Ok (set_error e s, A_status ST_ERROR)) /\
  (forall n f, step run start upd (OpParseBuffer n f) s = Ok (set_error e s, A_status ST_ERROR)) /\
  (forall n mem, (0 <= n)%Z -> step run start upd (OpGetBuffer n mem) s = Ok (set_error e s, A_room None)).
Proof.
  intros C run start upd s e [(P & ->)|(P & ->)]; (split; [|split]); intros; cbn [step]; unfold parse, parseBuffer, enter, getBuffer;
    rewrite P; cbn [bind]; try reflexivity; replace (n <? 0)%Z with false by (symmetry; apply Z.ltb_ge; assumption); reflexivity.
Qed.
Print Assumptions C32_parse_refused.
(* resuming is refused unless suspended; stopping *)
Theorem C32_resume_stop : forall C (run : C -> XML_Parsing -> bool -> bytes -> res (prun C)) start upd s,
  (parsing s <> SUSPENDED -> step run start upd OpResume s = Ok (set_error XE_NOT_SUSPENDED s, A_status ST_ERROR)) /\
  (parsing s = FINISHED -> forall r, step run start upd (OpStop r) s = Ok (set_error XE_FINISHED s, A_status ST_ERROR)) /\
  (parsing s = SUSPENDED -> step run start upd (OpStop true) s = Ok (set_error XE_SUSPENDED s, A_status ST_ERROR)) /\
  (parsing s <> FINISHED -> step run start upd (OpStop false) s = Ok (set_parsing FINISHED s, A_status ST_OK)) /\
  (parsing s = INITIALIZED \/ parsing s = PARSING -> step run start upd (OpStop true) s =
     Ok (if param_entity s then (set_error XE_SUSPEND_PE s, A_status ST_ERROR) else (set_parsing SUSPENDED s, A_status ST_OK))).
Proof.
  intros C run start upd s. cbn [step]. unfold resumeParser, stopParser.
  split; [|split; [|split; [|split]]]; intros P; destruct (parsing s); try congruence; try reflexivity;
    try (destruct P; discriminate); destruct (param_entity s); reflexivity.
Qed.
Print Assumptions C32_resume_stop.
(* a finished parser stays finished and does nothing more, whatever is called *)
Theorem C32_finished_stays : forall C (run : C -> XML_Parsing -> bool -> bytes -> res (prun C)) start upd os s s' l,
  parsing s = FINISHED -> Forall no_setting os -> steps run start upd os s = Ok (s', l) ->
  parsing s' = FINISHED /\ core s' = core s /\ bufferStart s' = bufferStart s.
Proof. exact @finished_stays. Qed.
Print Assumptions C32_finished_stays.
(* resuming a suspended parser: the processor goes on where it was with the rest of the buffer, and the answer and the
   new status are what a parse call would have given; in particular the parser is finished after the last buffer *)
Theorem C32_resumed : forall C (run : C -> XML_Parsing -> bool -> bytes -> res (prun C)) start upd s s' a,
  parsing s = SUSPENDED -> failed s = false -> step run start upd OpResume s = Ok (s', a) ->
  exists r, run (core s) PARSING (finalBuffer s) (firstn (parseEndIdx s - bufferStart s) (skipn (bufferStart s) (buffer s))) = Ok r /\
    core s' = r_core r /\ errorCode s' = r_err r /\ finalBuffer s' = finalBuffer s /\
    match r_err r with
    | XE_NONE => failed s' = false /\ parsing s' = match r_parsing r with INITIALIZED | PARSING => if finalBuffer s then FINISHED else r_parsing r | p => p end /\
                 a = A_status (if parsing_eqb (r_parsing r) SUSPENDED then ST_SUSPENDED else ST_OK)
    | _ => failed s' = true /\ a = A_status ST_ERROR
    end.
Proof. exact @resumed. Qed.
Print Assumptions C32_resumed.
(* settings are refused while parsing or suspended *)
Theorem C32_settings_partial : forall C (run : C -> XML_Parsing -> bool -> bytes -> res (prun C)) start upd f s,
  parsing s = PARSING \/ parsing s = SUSPENDED -> step run start upd (OpSetting f) s = Ok (s, A_bool false).
Proof. intros C run start upd f s [P|P]; cbn [step]; unfold change_setting, setting_refused; rewrite P; reflexivity. Qed.
Print Assumptions C32_settings_partial.
(* but accepted again once finished *)
Theorem C32_settings_refuted : forall C (run : C -> XML_Parsing -> bool -> bytes -> res (prun C)) start upd f s,
  parsing s = FINISHED -> step run start upd (OpSetting f) s = Ok (set_core (f (core s)) s, A_bool true).
Proof. intros C run start upd f s P; cbn [step]; unfold change_setting, setting_refused; rewrite P; reflexivity. Qed.
Print Assumptions C32_settings_refuted.
Example C32_example : exists s l s2 l2, demo [OpParse [97; 33]%N false true] = Ok (s, l) /\ parsing s = SUSPENDED /\
  demo [OpParse [97; 33]%N false true; OpResume; OpParse [98]%N true true; OpStop false; OpResume; OpStop true; OpSetting (fun _ => [])] = Ok (s2, l2) /\
  l2 = [A_status ST_SUSPENDED; A_status ST_SUSPENDED; A_status ST_ERROR; A_status ST_OK; A_status ST_ERROR; A_status ST_ERROR; A_bool true].
Proof. eexists _, _, _, _. split; [vm_compute; reflexivity|]. split; [reflexivity|]. split; [vm_compute; reflexivity|]. reflexivity. Qed.

(* C33.  Position queries.  Applications that only use XML_Parse never make the line and column queries panic ... *)
Theorem C33_line_column_partial : forall C (run : C -> XML_Parsing -> bool -> bytes -> res (prun C)) start upd is_child is_pe,
  in_bounds run -> (forall c b p, exists r, upd c b p = Ok r) ->
  forall c os s l, Forall small os -> Forall no_buffer_calls os -> steps run start upd os (fresh is_child is_pe c) = Ok (s, l) ->
  (exists r, getCurrentLineNumber upd s = Ok r) /\ (exists r, getCurrentColumnNumber upd s = Ok r).
Proof. exact @line_ok. Qed.
Print Assumptions C33_line_column_partial.
(* ... and the byte index can be reported unless the event lies at the very end of a full buffer *)
Theorem C33_byte_index_partial : forall C (run : C -> XML_Parsing -> bool -> bytes -> res (prun C)) start upd is_child is_pe,
  in_bounds run -> forall c os s l p, Forall small os -> steps run start upd os (fresh is_child is_pe c) = Ok (s, l) -> disciplined 0 0 os l ->
  eventPtr s = Some p -> p < length (buffer s) -> exists z, getCurrentByteIndex s = Ok z.
Proof. exact @byte_index_ok. Qed.
Print Assumptions C33_byte_index_partial.
(* in general they do panic: XML_GetBuffer on a new parser and then XML_GetCurrentLineNumber, whatever the processor *)
Theorem C33_line_refuted : forall C (run : C -> XML_Parsing -> bool -> bytes -> res (prun C)) start upd is_child is_pe c,
  steps run start upd [OpGetBuffer 100 true; OpLine] (fresh is_child is_pe c) = Err EPanic.
Proof. reflexivity. Qed.
Print Assumptions C33_line_refuted.
(* a processor that leaves the event pointer behind the last byte of a full buffer of 1024 bytes *)
Theorem C33_byte_index_refuted :
  let run (c : unit) (p : XML_Parsing) (f : bool) (b : bytes) :=
    Ok {| r_core := c; r_err := XE_NONE; r_next := length b; r_event := Some (length b); r_event_end := Some (length b); r_parsing := p |} in
  exists s l, steps run (fun c => Ok (Some c)) (fun _ _ p => Ok p) [OpParse (repeat 32%N 1024) false true] (fresh false false tt) = Ok (s, l) /\
    l = [A_status ST_OK] /\ getCurrentByteIndex s = Err EPanic.
Proof. cbv zeta. eexists _, _. split; [vm_compute; reflexivity|]. split; reflexivity. Qed.
Print Assumptions C33_byte_index_refuted.
Example C33_example : let os := [OpParse [97; 10; 98]%N false true; OpLine; OpParse [10; 99]%N false true; OpColumn] in
  exists s l r, demo os = Ok (s, l) /\ Forall no_buffer_calls os /\ getCurrentLineNumber demo_upd s = Ok (r, 3%N) /\ getCurrentByteIndex s = Ok 2%Z.
Proof.
  cbv zeta. eexists _, _, _. split; [vm_compute; reflexivity|]. split; [repeat (apply Forall_cons; [exact I|]); apply Forall_nil|].
  split; vm_compute; reflexivity.
Qed.

(* C34.  The byte index that is reported is the document offset of the event (or -1 when there is none), and the
   input context is the end of the document with the event at the reported place *)
Theorem C34_byte_index : forall C (run : C -> XML_Parsing -> bool -> bytes -> res (prun C)) start upd is_child is_pe,
  in_bounds run -> forall c os s l z,
  Forall small os -> steps run start upd os (fresh is_child is_pe c) = Ok (s, l) -> disciplined 0 0 os l -> getCurrentByteIndex s = Ok z ->
  exists m, calls run start is_child is_pe (machine0 c) os m l /\
    (eventPtr s = None /\ z = (-1)%Z \/ exists e, m_event m = Some e /\ z = Z.of_nat e /\ e <= length (m_doc m)).
Proof. exact @byte_index. Qed.
Print Assumptions C34_byte_index.
Theorem C34_input_context : forall C (run : C -> XML_Parsing -> bool -> bytes -> res (prun C)) start upd is_child is_pe,
  in_bounds run -> forall c os s l t p,
  Forall small os -> steps run start upd os (fresh is_child is_pe c) = Ok (s, l) -> disciplined 0 0 os l -> getInputContext s = Some (t, p) ->
  exists m e pre, calls run start is_child is_pe (machine0 c) os m l /\
    m_event m = Some e /\ m_doc m = pre ++ t /\ e = length pre + p /\ p <= length t.
Proof. exact @input_context. Qed.
Print Assumptions C34_input_context.
Example C34_example :
  let os := [OpParse (repeat 10%N 1500) false true; OpParse (97 :: repeat 10 600)%N false true; OpParse (98 :: repeat 10 600)%N false true] in
  exists s l, demo os = Ok (s, l) /\ Forall small os /\ disciplined 0 0 os l /\ getCurrentByteIndex s = Ok 2101%Z /\
    option_map snd (getInputContext s) = Some 1024.
Proof.
  cbv zeta. eexists _, _. split; [vm_compute; reflexivity|].
  split; [repeat (apply Forall_cons; [unfold small; rewrite ?app_length; cbn [length]; rewrite ?repeat_length; vm_compute; discriminate|]); apply Forall_nil|].
  split; [cbn [disciplined]; exact I|]. split; vm_compute; reflexivity.
Qed.
