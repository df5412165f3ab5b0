(* What the calls of the API mean, without a buffer: the parser reads one growing document. *)
From Coq Require Import List NArith ZArith Bool Arith.
From Verif Require Import Base Status Api.
Import ListNotations.
Local Open Scope nat_scope.

(* [m_doc]: every byte handed over so far; [m_used]: how many of them the processor has consumed;
   [m_event]: the document offset of the last event; [m_room], [m_pending]: the size of the area last lent
   by XML_GetBuffer and what the application wrote there. *)
Record machine (C : Type) := {
  m_doc : bytes; m_used : nat; m_event : option nat;
  m_status : XML_Parsing; m_failed : bool; m_error : XML_Error; m_final : bool; m_core : C;
  m_room : nat; m_pending : bytes
}.
Arguments m_doc {C}. Arguments m_used {C}. Arguments m_event {C}. Arguments m_status {C}. Arguments m_failed {C}.
Arguments m_error {C}. Arguments m_final {C}. Arguments m_core {C}. Arguments m_room {C}. Arguments m_pending {C}.

Definition machine0 {C} (c : C) : machine C :=
  {| m_doc := []; m_used := 0; m_event := None; m_status := INITIALIZED; m_failed := false; m_error := XE_NONE;
     m_final := false; m_core := c; m_room := 0; m_pending := [] |}.

Section Spec.
Context {C : Type}.
Variable run : C -> XML_Parsing -> bool -> bytes -> res (prun C).
Variable start : C -> res (option C).
Variables is_child is_pe : bool.

Definition with_error (e : XML_Error) (m : machine C) : machine C :=
  {| m_doc := m_doc m; m_used := m_used m; m_event := m_event m; m_status := m_status m; m_failed := m_failed m;
     m_error := e; m_final := m_final m; m_core := m_core m; m_room := m_room m; m_pending := m_pending m |}.
Definition with_status (p : XML_Parsing) (m : machine C) : machine C :=
  {| m_doc := m_doc m; m_used := m_used m; m_event := m_event m; m_status := p; m_failed := m_failed m;
     m_error := m_error m; m_final := m_final m; m_core := m_core m; m_room := m_room m; m_pending := m_pending m |}.
Definition with_core (c : C) (m : machine C) : machine C :=
  {| m_doc := m_doc m; m_used := m_used m; m_event := m_event m; m_status := m_status m; m_failed := m_failed m;
     m_error := m_error m; m_final := m_final m; m_core := c; m_room := m_room m; m_pending := m_pending m |}.
Definition with_final (f : bool) (m : machine C) : machine C :=
  {| m_doc := m_doc m; m_used := m_used m; m_event := m_event m; m_status := m_status m; m_failed := m_failed m;
     m_error := m_error m; m_final := f; m_core := m_core m; m_room := m_room m; m_pending := m_pending m |}.
Definition with_area (n : nat) (d : bytes) (m : machine C) : machine C :=
  {| m_doc := m_doc m; m_used := m_used m; m_event := m_event m; m_status := m_status m; m_failed := m_failed m;
     m_error := m_error m; m_final := m_final m; m_core := m_core m; m_room := n; m_pending := d |}.

(* a parse call is accepted: the parser is neither suspended nor finished *)
Inductive begins : machine C -> machine C -> Prop :=
| begins_running m : m_status m = PARSING -> begins m m
| begins_child m : m_status m = INITIALIZED -> is_child = true -> begins m (with_status PARSING m)
| begins_first m c : m_status m = INITIALIZED -> is_child = false -> start (m_core m) = Ok (Some c) ->
    begins m (with_status PARSING (with_core c m)).
(* a parse call is refused *)
Inductive refused : machine C -> XML_Error -> Prop :=
| refused_suspended m : m_status m = SUSPENDED -> refused m XE_SUSPENDED
| refused_finished m : m_status m = FINISHED -> refused m XE_FINISHED
| refused_memory m : m_status m = INITIALIZED -> is_child = false -> start (m_core m) = Ok None -> refused m XE_NO_MEMORY.

(* an accepted parse call: the new bytes are appended to the document and the processor sees exactly
   what it has not consumed yet, then the new bytes.  After an error nothing is processed any more. *)
Inductive advances (data : bytes) (fin : bool) : machine C -> machine C -> XML_Status -> Prop :=
| advances_failed m : m_failed m = true ->
    advances data fin m
      {| m_doc := m_doc m ++ data; m_used := m_used m; m_event := m_event m; m_status := m_status m; m_failed := true;
         m_error := m_error m; m_final := fin; m_core := m_core m; m_room := 0; m_pending := [] |} ST_ERROR
| advances_runs m r : m_failed m = false ->
    run (m_core m) (m_status m) fin (skipn (m_used m) (m_doc m ++ data)) = Ok r ->
    advances data fin m
      {| m_doc := m_doc m ++ data;
         m_used := m_used m + r_next r;
         m_event := match r_event r with Some n => Some (m_used m + n) | None => m_event m end;
         m_status := match r_err r, r_parsing r with
                     | XE_NONE, (INITIALIZED | PARSING) => if fin then FINISHED else r_parsing r
                     | _, p => p
                     end;
         m_failed := negb (is_none (r_err r));
         m_error := r_err r; m_final := fin; m_core := r_core r; m_room := 0; m_pending := [] |}
      (match r_err r, r_parsing r with XE_NONE, SUSPENDED => ST_SUSPENDED | XE_NONE, _ => ST_OK | _, _ => ST_ERROR end).

(* the calls; XML_ResumeParser is not among them (see C29) *)
Inductive call : machine C -> op (C := C) -> machine C -> answer -> Prop :=
| call_parse m m1 m2 d f mem st : begins m m1 -> (d <> [] \/ f = true) -> advances d f m1 m2 st ->
    call m (OpParse d f mem) m2 (A_status st)
| call_parse_nothing m m1 mem : begins m m1 ->
    call m (OpParse [] false mem) (with_final false m1) (A_status ST_OK)
| call_parse_refused m d f mem e : refused m e -> call m (OpParse d f mem) (with_error e m) (A_status ST_ERROR)
| call_parse_memory m m1 d f mem : begins m m1 -> d <> [] ->
    (mem = false \/ (1073741824 < Z.of_nat (length d + (length (m_doc m) - m_used m) + 1024))%Z) ->
    call m (OpParse d f mem) (with_error XE_NO_MEMORY m1) (A_status ST_ERROR)
| call_buffer m n mem k : (0 <= n)%Z -> (n <= Z.of_nat k)%Z -> m_status m = INITIALIZED \/ m_status m = PARSING ->
    call m (OpGetBuffer n mem) (with_area k [] m) (A_room (Some k))
| call_buffer_refused m n mem e : refused m e -> e <> XE_NO_MEMORY -> (0 <= n)%Z ->
    call m (OpGetBuffer n mem) (with_area 0 [] (with_error e m)) (A_room None)
| call_buffer_negative m n mem : (n < 0)%Z ->
    call m (OpGetBuffer n mem) (with_area 0 [] (with_error XE_NO_MEMORY m)) (A_room None)
| call_buffer_memory m n mem : m_status m = INITIALIZED \/ m_status m = PARSING ->
    (mem = false \/ (1073741824 < n + Z.of_nat (length (m_doc m) - m_used m + 1024))%Z) ->
    call m (OpGetBuffer n mem) (with_area 0 [] (with_error XE_NO_MEMORY m)) (A_room None)
| call_fill m d : call m (OpFill d) (with_area (m_room m) d m) A_unit
| call_parse_buffer m m1 m2 n f st : begins m m1 -> advances (firstn n (m_pending m)) f m1 m2 st ->
    call m (OpParseBuffer n f) m2 (A_status st)
| call_parse_buffer_refused m n f e : refused m e -> call m (OpParseBuffer n f) (with_error e m) (A_status ST_ERROR)
| call_stop m : m_status m <> FINISHED -> call m (OpStop false) (with_status FINISHED m) (A_status ST_OK)
| call_suspend m : m_status m = INITIALIZED \/ m_status m = PARSING -> is_pe = false ->
    call m (OpStop true) (with_status SUSPENDED m) (A_status ST_OK)
| call_suspend_pe m : m_status m = INITIALIZED \/ m_status m = PARSING -> is_pe = true ->
    call m (OpStop true) (with_error XE_SUSPEND_PE m) (A_status ST_ERROR)
| call_suspend_again m : m_status m = SUSPENDED -> call m (OpStop true) (with_error XE_SUSPENDED m) (A_status ST_ERROR)
| call_stop_finished m r : m_status m = FINISHED -> call m (OpStop r) (with_error XE_FINISHED m) (A_status ST_ERROR)
| call_line m n : call m OpLine m (A_num n)
| call_column m n : call m OpColumn m (A_num n)
| call_setting m f : m_status m = INITIALIZED \/ m_status m = FINISHED -> call m (OpSetting f) (with_core (f (m_core m)) m) (A_bool true)
| call_setting_refused m f : m_status m = PARSING \/ m_status m = SUSPENDED -> call m (OpSetting f) m (A_bool false).

Inductive calls : machine C -> list (op (C := C)) -> machine C -> list answer -> Prop :=
| calls_nil m : calls m [] m []
| calls_cons m o m1 a os m2 l : call m o m1 a -> calls m1 os m2 l -> calls m (o :: os) m2 (a :: l).

(* the discipline XML_GetBuffer imposes on the application, seen from its calls and their answers: it writes
   at most as much as it was last lent and hands over at most what it wrote; it does not resume *)
Fixpoint disciplined (room written : nat) (os : list (op (C := C))) (l : list answer) : Prop :=
  match os, l with
  | [], _ => True
  | OpGetBuffer _ _ :: os, A_room (Some k) :: l => disciplined k 0 os l
  | OpFill d :: os, _ :: l => length d <= room /\ disciplined room (length d) os l
  | OpParseBuffer n _ :: os, _ :: l => n <= written /\ disciplined 0 0 os l
  | OpResume :: _, _ => False
  | (OpGetBuffer _ _ | OpParse _ _ _) :: os, _ :: l => disciplined 0 0 os l
  | _ :: os, _ :: l => disciplined room written os l
  | _, [] => True
  end.

(* a processor stays inside the bytes it is given *)
Definition in_bounds : Prop := forall c p f b r, run c p f b = Ok r ->
  r_next r <= length b /\ (forall n, r_event r = Some n -> n <= length b).

(* lengths are C ints *)
Definition small (o : op (C := C)) : Prop :=
  match o with
  | OpParse d _ _ => (Z.of_nat (length d) <= i32_max)%Z
  | OpGetBuffer n _ => (n <= i32_max)%Z
  | _ => True
  end.

(* histories of XML_Parse and XML_StopParser, position queries and settings *)
Definition no_buffer_calls (o : op (C := C)) : Prop :=
  match o with OpParse _ _ _ | OpStop _ | OpLine | OpColumn | OpSetting _ => True | _ => False end.

(* what may be answered by a parser that has failed *)
Definition stuck_answer (o : op (C := C)) (a : answer) : Prop :=
  match o with
  | OpParse [] false _ => True
  | OpParse _ _ _ | OpParseBuffer _ _ | OpResume => a = A_status ST_ERROR
  | _ => True
  end.
Definition no_setting (o : op (C := C)) : Prop := match o with OpSetting _ => False | _ => True end.


(* the error codes with which a call is refused rather than failed *)
Definition refusal (e : XML_Error) : Prop := e = XE_SUSPENDED \/ e = XE_FINISHED \/ e = XE_NO_MEMORY \/ e = XE_NOT_SUSPENDED.
Definition is_parse_call (o : op (C := C)) : Prop := match o with OpParse _ _ _ | OpParseBuffer _ _ | OpResume => True | _ => False end.
End Spec.
