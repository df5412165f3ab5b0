(* Model of attribute values and entity values: storeAttributeValue, appendAttributeValue and
   storeEntityValue, src/lib/xmlparse.rs:7142-7573. *)
From Coq Require Import List NArith ZArith Bool.
From Verif Require Import Base Encoding Tok TokMisc Status Role State.
Import ListNotations.
Local Open Scope N_scope.

(* m_eventPtr := next, where [None] is a null pointer *)
Definition set_event_opt (t : enctype) (buf : bytes) (n : option nat) : P unit :=
  if is_internal t then pret tt
  else match n with
       | Some n => do b <- inc n buf; upd (set_ev (Some (length b)))
       | None => upd (set_ev None)
       end.

(* the name in a reference: buf.inc_start(min).with_end(next).dec_end(min) *)
Definition ref_name (e : EncImpl) (buf : bytes) (n : nat) : P bytes :=
  do b <- inc (minbpc e) (firstn n buf);
  dec (minbpc e) b.

(* a token whose end the tokeniser has written *)
Definition need (n : option nat) : P nat := match n with Some n => pret n | None => die EPanic end.

(* pool.is_empty() || pool.get_last_char() == 0x20 *)
Definition at_space (acc : bytes) : bool := match rev acc with [] => true | c :: _ => c =? 32 end.

(* appendAttributeValue, src/lib/xmlparse.rs:7163-7381.  [acc] is the string under construction.
   [prolog]: pool is m_dtd.pool.  Each token takes one step of fuel, and so does entering an entity. *)
Fixpoint appendAttributeValue (fuel : nat) (prolog : bool) (t : enctype) (isCdata : bool) (buf acc : bytes) : P bytes :=
  match fuel with
  | O => die EFuel
  | S fuel =>
      do e <- encoding t;
      do (tok, n) <- lift (attributeValueTok e buf);
      let continue n acc := do rest <- inc n buf; appendAttributeValue fuel prolog t isCdata rest acc in
      match tok with
      | T_NONE => pret acc
      | T_INVALID => set_event_opt t buf n ;;; fail XE_INVALID_TOKEN
      | T_PARTIAL => set_event t buf ;;; fail XE_INVALID_TOKEN
      | T_CHAR_REF =>
          do c <- lift (charRefNumber e buf);
          if (c <? 0)%Z then set_event t buf ;;; fail XE_BAD_CHAR_REF
          else
            do n <- need n;
            if negb isCdata && (c =? 32)%Z && at_space acc then continue n acc
            else continue n (acc ++ XmlUtf8Encode c)
      | T_DATA_CHARS =>
          do n <- need n;
          do s <- lift (conv e (firstn n buf));
          continue n (acc ++ s)
      | T_TRAILING_CR | T_ATTRIBUTE_VALUE_S | T_DATA_NEWLINE =>
          do n <- (if tok_eqb tok T_TRAILING_CR then pret (minbpc e) else need n);
          continue n (if negb isCdata && at_space acc then acc else acc ++ [32])
      | T_ENTITY_REF =>
          do n <- need n;
          do name <- ref_name e buf n;
          do ch <- lift (predefinedEntityName e name);
          if negb (ch =? 0) then continue n (acc ++ [ch])
          else
            do name <- lift (conv e name);
            do d <- get s_dtd;
            do documentEntity <- get (fun s => doc (s_role s));
            do no_open <- get (fun s => match s_open s with [] => true | _ => false end);
            let check :=
              if prolog then documentEntity && (if d_standalone d then no_open else negb (d_hasPE d))
              else negb (d_hasPE d) || d_standalone d in
            match look name (d_gents d) with
            | None => if check then fail XE_UNDEFINED_ENTITY else continue n acc
            | Some ent =>
                if check && negb (e_is_internal ent) then fail XE_ENTITY_DECLARED_IN_PE
                else if e_open ent then set_event t buf ;;; fail XE_RECURSIVE_ENTITY_REF
                else match e_notation ent, e_text ent with
                     | Some _, _ => set_event t buf ;;; fail XE_BINARY_ENTITY_REF
                     | None, None => set_event t buf ;;; fail XE_ATTRIBUTE_EXTERNAL_ENTITY_REF
                     | None, Some text =>
                         upd_entity (false, name) (set_e_open true) ;;;
                         do r <- try (appendAttributeValue fuel prolog EInternal isCdata text acc);
                         upd_entity (false, name) (set_e_open false) ;;;
                         match r with
                         | inl x => fail x
                         | inr acc => continue n acc
                         end
                     end
            end
      | _ => set_event t buf ;;; fail XE_UNEXPECTED_STATE
      end
  end.

(* storeAttributeValue, src/lib/xmlparse.rs:7142-7161 *)
Definition storeAttributeValue (fuel : nat) (prolog : bool) (t : enctype) (isCdata : bool) (buf : bytes) : P bytes :=
  do acc <- appendAttributeValue fuel prolog t isCdata buf [];
  if negb isCdata && negb (is_nil acc) && at_space acc then pret (removelast acc) else pret acc.

(* append to the string in m_dtd.entityValuePool *)
Definition append_ev (s : bytes) : P unit := upd_dtd (fun d => set_d_ev (d_ev d ++ s) d).

(* storeEntityValue, src/lib/xmlparse.rs:7383-7573.  The text goes to entityValuePool, which a parser for an
   external parameter entity shares.  [ext e] is the external entity handler called for the parameter
   entity [e]: was its answer nonzero?  inEntityValue is set by [storeEntityValue] below for the whole
   recursion: nested calls find it set and restore it to that.  An error is a result, not a [Fail]: the
   caller uses the text that was stored before it. *)
Section EV.
Variable ext : option bytes -> option bytes -> option bytes -> option bytes -> P bool.
Fixpoint entity_value (fuel : nat) (t : enctype) (buf : bytes) : P XML_Error :=
  match fuel with
  | O => die EFuel
  | S fuel =>
      do e <- encoding t;
      do (tok, n) <- lift (entityValueTok e buf);
      let continue n := do rest <- inc n buf; entity_value fuel t rest in
      match tok with
      | T_PARAM_ENTITY_REF =>
          do isParam <- get s_isParam;
          if isParam || is_internal t then
            do n <- need n;
            do name <- ref_name e buf n;
            do name <- lift (conv e name);
            do d <- get s_dtd;
            match look name (d_pents d) with
            | None => upd_dtd (fun d => set_d_keep (d_standalone d) d) ;;; pret XE_NONE
            | Some ent =>
                if e_open ent then set_event t buf ;;; pret XE_RECURSIVE_ENTITY_REF
                else match e_sys ent with
                     | Some _ =>
                         do on <- handler h_external;
                         if on then
                           upd_dtd (set_d_peRead false) ;;;
                           upd_entity (true, name) (set_e_open true) ;;;
                           do ok <- ext None (e_base ent) (e_sys ent) (e_pub ent);
                           upd_entity (true, name) (set_e_open false) ;;;
                           if negb ok then pret XE_EXTERNAL_ENTITY_HANDLING
                           else
                             upd_dtd (fun d => if d_peRead d then d else set_d_keep (d_standalone d) d) ;;;
                             continue n
                         else
                           upd_dtd (fun d => set_d_keep (d_standalone d) d) ;;;
                           continue n
                     | None =>
                         upd_entity (true, name) (set_e_open true) ;;;
                         do r <- entity_value fuel EInternal (match e_text ent with Some s => s | None => [] end);
                         upd_entity (true, name) (set_e_open false) ;;;
                         match r with XE_NONE => continue n | _ => pret r end
                     end
            end
          else upd (set_ev (Some (length buf))) ;;; pret XE_PARAM_ENTITY_REF
      | T_NONE => pret XE_NONE
      | T_ENTITY_REF | T_DATA_CHARS =>
          do n <- need n;
          do s <- lift (conv e (firstn n buf));
          append_ev s ;;; continue n
      | T_TRAILING_CR | T_DATA_NEWLINE =>
          do n <- (if tok_eqb tok T_TRAILING_CR then pret (minbpc e) else need n);
          append_ev [10] ;;; continue n
      | T_CHAR_REF =>
          do c <- lift (charRefNumber e buf);
          if (c <? 0)%Z then set_event t buf ;;; pret XE_BAD_CHAR_REF
          else do n <- need n; append_ev (XmlUtf8Encode c) ;;; continue n
      | T_PARTIAL => set_event t buf ;;; pret XE_INVALID_TOKEN
      | T_INVALID => set_event_opt t buf n ;;; pret XE_INVALID_TOKEN
      | _ => set_event t buf ;;; pret XE_UNEXPECTED_STATE
      end
  end.

Definition storeEntityValue (fuel : nat) (t : enctype) (buf : bytes) : P XML_Error :=
  do old <- get s_inEV;
  upd (set_inEV true) ;;;
  do r <- entity_value fuel t buf;
  upd (set_inEV old) ;;;
  pret r.
End EV.
