(** Model of /repo/src/lib.rs: CskkContext and its public operations. *)
From Verif Require Import Str Keys Modes KanaBuilder FormChanger DictTypes Parser Lru
  Dictionary CState.

(** lib.rs:55 *)
Definition REGISTER_MODE_STACK_MAX : nat := 10.

(** lib.rs:65-74.  [x_stack] is the Vec of states with the current (innermost) state FIRST;
    the Rust vector has it last.  Dictionaries are indices into a store shared by all the
    contexts ([Arc<CskkDictionary>]). *)
Record ctx := mkCtx {
  x_stack : list cstate; x_cmd : command_rule; x_kb : kb; x_kf : kana_form;
  x_am : ascii_map; x_dicts : list nat; x_cfg : config }.
Record world := mkW { w_store : list dict; w_ctx : ctx }.

Definition set_stack (s : list cstate) (w : world) : world :=
  let c := w_ctx w in
  mkW (w_store w) (mkCtx s (x_cmd c) (x_kb c) (x_kf c) (x_am c) (x_dicts c) (x_cfg c)).
Definition set_store (d : list dict) (w : world) : world := mkW d (w_ctx w).
Definition set_cfg (f : config) (w : world) : world :=
  let c := w_ctx w in
  mkW (w_store w) (mkCtx (x_stack c) (x_cmd c) (x_kb c) (x_kf c) (x_am c) (x_dicts c) f).

(** lib.rs:1533-1551 (new_empty) and 1489-1510 (new), 1555-1578: the rule, the form changers
    and the dictionaries are given. *)
Definition ctx_new (x : xkb) (r : rule) (kf : kana_form) (am : ascii_map) (ds : list nat)
           (i : imode) (c : cmode) : ctx :=
  mkCtx [st_new i c] (r_command r) (kb_new x r) kf am ds default_config.
Definition ctx_new_empty (kf : kana_form) (am : ascii_map) (ds : list nat)
           (i : imode) (c : cmode) : ctx :=
  mkCtx [st_new i c] empty_command_rule kb_empty kf am ds default_config.

(** The state monad with panics. *)
Definition M (A : Type) := world -> res (A * world).
Definition ret {A} (a : A) : M A := fun w => Ok (a, w).
Definition bind {A B} (m : M A) (f : A -> M B) : M B := fun w =>
  match m w with Ok (a, w') => f a w' | Panic r => Panic r end.
Declare Scope m_scope.
Delimit Scope m_scope with m.
Notation "x <- a ;; b" := (bind a (fun x => b)) (at level 61, a at next level, right associativity) : m_scope.
Notation "a ;; b" := (bind a (fun _ => b)) (at level 61, right associativity) : m_scope.
Open Scope m_scope.
Definition lift {A} (r : res A) : M A := fun w =>
  match r with Ok a => Ok (a, w) | Panic e => Panic e end.
Definition get : M world := fun w => Ok (w, w).
Definition when (b : bool) (m : M unit) : M unit := if b then m else ret tt.

(** lib.rs:1406-1412, current_state_ref / current_state (panics on an empty stack) *)
Definition cur : M cstate := fun w =>
  match x_stack (w_ctx w) with s :: _ => Ok (s, w) | [] => Panic PanicEmptyStack end.
Definition modcur (f : cstate -> cstate) : M unit := fun w =>
  match x_stack (w_ctx w) with
  | s :: r => Ok (tt, set_stack (f s :: r) w)
  | [] => Panic PanicEmptyStack
  end.

Definition empty_dict : dict := mkDict false DEmpty.
Definition ctx_dicts (w : world) : list dict :=
  map (fun i => nth i (w_store w) empty_dict) (x_dicts (w_ctx w)).
Fixpoint update_nth {A} (i : nat) (f : A -> A) (l : list A) : list A :=
  match l, i with
  | [], _ => []
  | x :: r, O => f x :: r
  | x :: r, S j => x :: update_nth j f r
  end.
(** the loops [for cskkdict in self.dictionaries.iter_mut()] (lib.rs:494-496, 516-518);
    dictionary/mod.rs:70-82 and 88-104 take the lock of one dictionary at a time *)
Definition upd_dicts (ids : list nat) (f : dict -> dict) (st : list dict) : list dict :=
  fold_left (fun acc i => update_nth i f acc) ids st.
Definition for_dicts (f : dict -> dict) : M unit := fun w =>
  Ok (tt, set_store (upd_dicts (x_dicts (w_ctx w)) f (w_store w)) w).

Section Ctx.
Variable X : xkb.
Variable dbg : bool.

(* ---------------------------------------------------------------- output *)
(** lib.rs:412-426, retrieve_output (the outermost state) with [is_polling] *)
Definition poll_output : M (option str) := fun w =>
  match rev (x_stack (w_ctx w)) with
  | [] => Panic PanicEmptyStack
  | top :: inner =>
      if is_nil (s_conf top) then Ok (None, w)
      else Ok (Some (s_conf top), set_stack (rev (flush_confirmed top :: inner)) w)
  end.

(** lib.rs:437-442 *)
Definition append_converted (t : str) : M unit := fun w =>
  modcur (fun s => push_string (adjust_kana_string (x_kf (w_ctx w)) (s_imode s) t) s) w.
(** lib.rs:455-461 *)
Definition set_carry_over (u : list N) : M unit :=
  modcur (fun s => let s' := set_pre u s in if is_nil u then set_cap false s' else s').
(** lib.rs:466-470 *)
Definition update_candidate_list : M unit :=
  s <- cur ;; w <- get ;;
  cs <- lift (get_all_candidates (ctx_dicts w) (get_composite_key s)) ;;
  modcur (set_new_candidate_list cs).
(** lib.rs:475-479 *)
Definition update_completion_list : M unit :=
  s <- cur ;; w <- get ;;
  cs <- lift (get_all_complete (ctx_dicts w) (get_composite_key s)) ;;
  modcur (set_new_candidate_list cs).
(** lib.rs:482-504 *)
Definition purge_current : M unit :=
  s <- cur ;;
  match cl_current (s_list s) with
  | Some c => for_dicts (fun d => purge_candidate d (cl_key (s_list s)) c)
  | None => ret tt
  end ;;
  modcur clear_all.
(** lib.rs:508-535 *)
Definition confirm_current : M unit :=
  s <- cur ;; w <- get ;;
  match cl_current (s_list s) with
  | Some c =>
      for_dicts (fun d => select_candidate d c) ;;
      modcur (fun s => reset_to_default (clear_unconfirmed
        (push_string (c_output c ++ adjust_kana_string (x_kf (w_ctx w)) (s_imode s) (s_okuri s)) s)))
  | None => ret tt
  end.
(** lib.rs:537-550 *)
Definition confirm_as (i : imode) : M unit :=
  w <- get ;;
  modcur (fun s =>
    let adjusted := match i with
                    | Zenkaku => adjust_ascii_string (x_am (w_ctx w)) (s_comp s)
                    | _ => adjust_kana_string (x_kf (w_ctx w)) i (s_comp s)
                    end in
    clear_unconfirmed (push_string_for adjusted Direct s)).
(** lib.rs:554-557 *)
Definition set_composition_mode (c : cmode) : M unit := modcur (change_composition_mode c).
(** lib.rs:562-571 *)
Definition enter_register_mode (prev : cmode) : M unit := fun w =>
  if Nat.ltb (length (x_stack (w_ctx w))) REGISTER_MODE_STACK_MAX then
    match x_stack (w_ctx w) with
    | s :: r => Ok (tt, set_stack (st_new Hiragana Direct :: change_from_old_mode Register prev s :: r) w)
    | [] => Panic PanicEmptyStack
    end
  else Ok (tt, w).
(** lib.rs:573-578: pop while there is more than one state, then clear *)
Definition reset_state_stack : M unit := fun w =>
  match rev (x_stack (w_ctx w)) with
  | [] => Panic PanicEmptyStack
  | top :: _ => Ok (tt, set_stack [clear_all top] w)
  end.
(** lib.rs:583-591 *)
Definition abort_register_mode : M bool := fun w =>
  match x_stack (w_ctx w) with
  | _ :: _ :: _ => Ok (true, set_stack (tl (x_stack (w_ctx w))) w)
  | _ => Ok (false, w)
  end.
(** lib.rs:605-652: the candidates of a registration *)
Definition registered_candidates (ds : list dict) (s : cstate) (confirmed : str)
  : res (list candidate) :=
  let key := cl_key (s_list s) in
  let okuri := negb (is_nil (s_okuri s)) in
  let n := numeric_entry_count confirmed in
  if negb (Nat.eqb n 0) && Nat.eqb n (numeric_string_count (ck_to key)) then
    let '(dk, ns) := to_numeric_key key in
    rmap (map (fun o => mkCand (ck_to dk) (ck_okuri dk) okuri confirmed None o))
         (replace_numeric_string ds confirmed ns)
  else Ok [mkCand (ck_to key) (ck_okuri key) okuri confirmed None confirmed].
(** lib.rs:594-657 *)
Definition exit_register_mode (confirmed : str) : M unit := fun w0 =>
  match x_stack (w_ctx w0) with
  | _ :: _ :: _ =>
      (if is_nil confirmed then modcur abort_to_previous_mode
       else
         modcur (set_cmode Direct) ;;
         s <- cur ;; w <- get ;;
         cs <- lift (registered_candidates (ctx_dicts w) s confirmed) ;;
         modcur (add_new_candidates cs) ;;
         confirm_current) (set_stack (tl (x_stack (w_ctx w0))) w0)
  | _ => Ok (tt, w0)
  end.
(** lib.rs:659-662 *)
Definition set_input_mode (i : imode) : M unit := modcur (set_imode i).
(** lib.rs:671-716 *)
Definition output_converted_kana_if_any (i : imode) (c : cmode) : M bool :=
  s <- cur ;; w <- get ;;
  match convert_greedy (x_kb (w_ctx w)) (s_pre s) with
  | None => ret false
  | Some (kana, carry) =>
      match c with
      | Direct =>
          modcur (fun s => clear_preconverted
                    (push_string_for (adjust_kana_string (x_kf (w_ctx w)) i kana) Direct s)) ;;
          set_carry_over carry ;; ret true
      | PreComposition =>
          modcur (fun s => clear_preconverted (push_string_for kana PreComposition s)) ;;
          set_carry_over carry ;; ret true
      | PreCompositionOkurigana =>
          modcur (fun s => clear_preconverted (push_string_for kana PreCompositionOkurigana s)) ;;
          set_carry_over carry ;; ret true
      | _ => ret false
      end
  end.

(** lib.rs:775-805 *)
Definition transition_by_capital (k : keyev) (initial : cmode) (done_ : bool) : M bool :=
  s <- cur ;;
  if is_upper k && negb done_ && cmode_eqb initial Direct then
    set_composition_mode PreComposition ;; modcur (set_cap true) ;; ret true
  else if is_upper k && negb (is_nil (s_comp s)) && negb done_ && cmode_eqb initial PreComposition then
    set_composition_mode PreCompositionOkurigana ;; modcur (set_cap true) ;; ret true
  else ret false.

(** lib.rs:1290-1313 *)
Definition try_next_candidate (c : cmode) (i : imode) : M unit :=
  if negb (cmode_eqb c CompositionSelection) then
    output_converted_kana_if_any i c ;;
    update_candidate_list ;;
    s <- cur ;;
    if negb (is_nil (s_comp s)) && cl_is_empty (s_list s) then enter_register_mode c
    else if negb (cl_is_empty (s_list s)) then set_composition_mode CompositionSelection
    else ret tt
  else
    s <- cur ;;
    b <- lift (cl_has_next dbg (s_list s)) ;;
    if negb b then enter_register_mode c
    else s' <- lift (st_forward dbg s) ;; modcur (fun _ => s').

(** lib.rs:1316-1340 *)
Definition try_next_completion (c : cmode) (i : imode) : M unit :=
  if negb (cmode_eqb c Completion) then
    output_converted_kana_if_any i c ;;
    update_completion_list ;;
    s <- cur ;;
    if negb (is_nil (s_comp s)) && cl_is_empty (s_list s) then ret tt
    else if negb (cl_is_empty (s_list s)) then set_composition_mode Completion
    else ret tt
  else
    s <- cur ;;
    b <- lift (cl_has_next dbg (s_list s)) ;;
    if negb b then ret tt
    else s' <- lift (st_forward dbg s) ;; modcur (fun _ => s') ;; set_composition_mode Completion.

(** lib.rs:1354-1368: the first keyword that ends, but is not, the reading *)
Definition matching_keyword (kws : list str) (raw : str) : option str :=
  find (fun w => negb (str_eqb raw w) && is_suffixb w raw) kws.
(** lib.rs:1344-1376 *)
Definition auto_start_henkan : M unit :=
  s <- cur ;;
  if negb (cmode_eqb (s_cmode s) PreComposition) then lift (Panic PanicDebugAssert)
  else
    w <- get ;;
    match matching_keyword (cf_auto (x_cfg (w_ctx w))) (ck_to (get_composite_key s)) with
    | None => ret tt
    | Some kw =>
        modcur (fun s => set_converted_to_postfix kw
                  (Nat.iter (length kw) (fun s => snd (st_delete s)) s)) ;;
        s' <- cur ;;
        try_next_candidate PreComposition (s_imode s')
    end.

(** lib.rs:810-865 *)
Definition input_converted_kana (converted : str) (carry : list N) (did_change : bool)
           (initial_unprocessed : list N) : M unit :=
  s <- cur ;;
  match s_cmode s with
  | Direct => append_converted converted ;; set_carry_over carry
  | PreComposition =>
      modcur (push_string converted) ;; set_carry_over carry ;; auto_start_henkan
  | PreCompositionOkurigana =>
      (if did_change && negb (is_nil initial_unprocessed) && negb (is_nil carry)
       then modcur (push_string_for converted PreComposition)
       else modcur (push_string converted)) ;;
      set_carry_over carry ;;
      s1 <- cur ;;
      if is_nil carry && negb (is_nil (s_comp s1)) then
        update_candidate_list ;;
        s2 <- cur ;;
        if cl_is_empty (s_list s2) then enter_register_mode (s_cmode s2)
        else set_composition_mode CompositionSelection
      else ret tt
  | _ => ret tt
  end.

(** lib.rs:1380-1404 *)
Definition input_as_continuous_kana (k : keyev) : M bool :=
  s <- cur ;; w <- get ;;
  match s_cmode s with
  | Direct | PreComposition | PreCompositionOkurigana =>
      modcur (set_pre (next_unprocessed_state (x_kb (w_ctx w)) k (s_pre s))) ;; ret true
  | _ => ret false
  end.

(** lib.rs:1583-1598 *)
Definition abort : M unit :=
  modcur (fun s => clear_candidate_list (consolidate (clear_preconverted s))) ;;
  s <- cur ;;
  (match s_cmode s with Direct => abort_register_mode ;; ret tt | _ => ret tt end) ;;
  modcur abort_to_previous_mode ;;
  s1 <- cur ;;
  when (cmode_eqb (s_cmode s) PreCompositionOkurigana && cmode_eqb (s_cmode s1) PreComposition)
       (modcur abort_to_previous_mode).

(** lib.rs:1188-1286.  [inl] continues with the next instruction, [inr b] returns [b]. *)
Definition run_instr (ins : instr) (c0 : cmode) (i0 : imode) : M (unit + bool) :=
  let go (m : M unit) : M (unit + bool) := m ;; ret (inl tt) in
  match ins with
  | IChangeCompositionMode c => go (set_composition_mode c)
  | IChangeInputMode i => go (set_input_mode i)
  | IForceKanaConvert i => go (output_converted_kana_if_any i c0 ;; ret tt)
  | IClearUnconvertedInputs => go (modcur clear_preconverted)
  | IClearKanaConvertedInputs => go (modcur clear_kanas)
  | IClearUnconfirmedInputs => go (modcur clear_unconfirmed)
  | IAbort => go abort
  | IConfirmComposition => go confirm_current
  | IPassthroughKeyEvent => ret (inr false)
  | IConfirmAs i => go (confirm_as i)
  | IConfirmDirect =>
      w <- get ;;
      if Nat.ltb 1 (length (x_stack (w_ctx w))) then
        s <- cur ;; exit_register_mode (s_conf s) ;; ret (inr true)
      else ret (inr false)
  | IPurge => go purge_current
  | INextCandidatePointer =>
      go (s <- cur ;; s' <- lift (st_forward dbg s) ;; modcur (fun _ => s'))
  | IPreviousCandidatePointer => go (modcur st_backward)
  | IDelete => s <- cur ;; modcur (fun s => snd (st_delete s)) ;; ret (inr (fst (st_delete s)))
  | ITryNextCandidate => go (try_next_candidate c0 i0)
  | ITryPreviousCandidate =>
      go (s <- cur ;;
          if negb (cmode_eqb (s_cmode s) CompositionSelection) then ret tt
          else if negb (cl_has_previous (s_list s)) then
            modcur (fun s => clear_candidate_list (consolidate s)) ;;
            set_composition_mode PreComposition
          else modcur st_backward)
  | ITryNextCompletion => go (try_next_completion c0 i0)
  | ITryPreviousCompletion =>
      go (s <- cur ;;
          if negb (cmode_eqb (s_cmode s) Completion) then ret tt
          else if cl_has_previous (s_list s) then modcur st_backward else ret tt)
  | IFinishKeyEvent => ret (inl tt)
  end.
Fixpoint run_instrs (l : list instr) (c0 : cmode) (i0 : imode) (result : bool) : M bool :=
  match l with
  | [] => ret result
  | i :: r => o <- run_instr i c0 i0 ;;
              match o with inl _ => run_instrs r c0 i0 result | inr b => ret b end
  end.
Definition process_instructions (l : list instr) (c0 : cmode) (i0 : imode) : M bool :=
  run_instrs l c0 i0 (negb (is_nil l)).

(** lib.rs:919-930; the precedence of && and || as in the code *)
Definition will_be_processed (b : kb) (k : keyev) (i : imode) (c : cmode) (u : list N) : bool :=
  is_modifierless_input k
  && (has_rom2kana_conversion i c && (can_continue b k u || can_continue b k []))
  || (negb (has_rom2kana_conversion i c) && is_ascii_inputtable k).

(** lib.rs:1140-1143, the common end of the branches of the kana input *)
Definition finish_kana_input : M bool :=
  s <- cur ;;
  (if cmode_eqb (s_cmode s) PreComposition then auto_start_henkan else ret tt) ;; ret true.

(** lib.rs:998-1029 and its end: comma and period *)
Definition input_periods (i1 : imode) (c1 : cmode) (conv : str) : M bool :=
  output_converted_kana_if_any i1 c1 ;;
  modcur clear_preconverted ;;
  s2 <- cur ;;
  match s_cmode s2 with
  | Direct => append_converted conv ;; finish_kana_input
  | PreComposition | PreCompositionOkurigana =>
      modcur (push_string conv) ;; modcur clear_preconverted ;; finish_kana_input
  | _ => ret false
  end.

(** lib.rs:1110-1137 and its end: keys the kana builder cannot use *)
Definition input_direct_char (k : keyev) (key_char : N) (i1 : imode) (c1 : cmode) : M bool :=
  if is_ascii_inputtable k then
    output_converted_kana_if_any i1 c1 ;;
    modcur clear_preconverted ;;
    s2 <- cur ;;
    match s_cmode s2 with
    | Direct | PreComposition | PreCompositionOkurigana =>
        modcur (push_string [key_char]) ;; finish_kana_input
    | _ => ret false
    end
  else ret false.

(** lib.rs:997-1144: a key with a character that completes no conversion *)
Definition input_unconverted (k : keyev) (u : list N) (key_char : N) (c1 : cmode) : M bool :=
  s1 <- cur ;; w <- get ;;
  let b := x_kb (w_ctx w) in
  let i1 := s_imode s1 in
  match convert_periods key_char (cf_period (x_cfg (w_ctx w))) (cf_comma (x_cfg (w_ctx w))) with
  | Some conv => input_periods i1 c1 conv
  | None =>
    if can_continue b k u then input_as_continuous_kana k ;; finish_kana_input
    else if is_upper k && can_continue_lower b k u then
      transition_by_capital k c1 (s_cap s1) ;;
      input_as_continuous_kana (to_lower k) ;; finish_kana_input
    else match convert_non_partial b (combine_raw k []) with
    | Some (conv, carry) => input_converted_kana conv carry false u ;; ret true
    | None =>
    match convert_non_partial b (combine_lower k []) with
    | Some (conv, carry) =>
        if is_upper k then
          did <- transition_by_capital k c1 false ;;
          input_converted_kana conv carry did u ;; ret true
        else finish_kana_input
    | None =>
      if can_continue b k [] then
        output_converted_kana_if_any i1 c1 ;;
        modcur clear_preconverted ;;
        input_as_continuous_kana k ;; finish_kana_input
      else if can_continue_lower b k [] then
        transition_by_capital k c1 (s_cap s1) ;;
        output_converted_kana_if_any i1 c1 ;;
        modcur clear_preconverted ;;
        input_as_continuous_kana (to_lower k) ;; finish_kana_input
      else input_direct_char k key_char i1 c1
    end
    end
  end.

(** lib.rs:939-1144: kana input *)
Definition input_kana (k : keyev) (u : list N) : M bool :=
  s1 <- cur ;; w <- get ;;
  let b := x_kb (w_ctx w) in
  let c1 := s_cmode s1 in
  let unconverted :=
    match get_symbol_char X k with
    | Some ch => input_unconverted k u ch c1
    | None => ret false
    end in
  match convert_non_partial b (combine_raw k u) with
  | Some (conv, carry) => input_converted_kana conv carry false u ;; ret true
  | None =>
      if is_upper k then
        match convert_non_partial b (combine_lower k u) with
        | Some (conv, carry) =>
            did <- transition_by_capital k c1 (s_cap s1) ;;
            input_converted_kana conv carry did u ;; ret true
        | None => unconverted
        end
      else unconverted
  end.

(** lib.rs:1145-1181: input in modes without kana conversion *)
Definition input_plain (k : keyev) : M bool :=
  s <- cur ;; w <- get ;;
  match s_cmode s with
  | Direct =>
      match get_symbol_char X k with
      | None => ret false
      | Some ch =>
          match s_imode s with
          | Ascii => modcur (push_string [ch]) ;; ret true
          | Zenkaku => append_converted (adjust_ascii_char (x_am (w_ctx w)) ch) ;; ret true
          | _ => ret false
          end
      end
  | Abbreviation =>
      match get_symbol_char X k with
      | None => ret false
      | Some ch => modcur (push_string [ch]) ;; ret true
      end
  | _ => ret false
  end.

(** lib.rs:912-1183: everything after the command dispatch *)
Definition input_key (k : keyev) (c0 : cmode) (u : list N) : M bool :=
  if negb (is_modifierless_input k) then ret false
  else
    s <- cur ;; w <- get ;;
    (if (match c0 with CompositionSelection | Completion => true | _ => false end)
        && will_be_processed (x_kb (w_ctx w)) k (s_imode s) (s_cmode s) u
     then confirm_current else ret tt) ;;
    s1 <- cur ;;
    if has_rom2kana_conversion (s_imode s1) (s_cmode s1) && is_modifierless_input k
    then input_kana k u
    else if is_ascii_inputtable k && is_modifierless_input k then input_plain k
    else ret false.

(** lib.rs:890-893 *)
Definition skip_command (b : kb) (k : keyev) (i : imode) (c : cmode) (u : list N) : bool :=
  is_modifierless_input k
  && (has_rom2kana_conversion i c
      && (match convert_non_partial b (combine_lower k u) with Some _ => true | None => false end
          || match convert_non_partial b (combine_raw k u) with Some _ => true | None => false end)).

(** lib.rs:873-1184, process_key_event_inner_v2 *)
Definition process_key_event_inner (k : keyev) : M bool :=
  s <- cur ;; w <- get ;;
  let c0 := s_cmode s in
  let i0 := s_imode s in
  let u := s_pre s in
  if skip_command (x_kb (w_ctx w)) k i0 c0 u then input_key k c0 u
  else
    mi <- lift (get_instruction dbg (x_cmd (w_ctx w)) k i0 c0) ;;
    match mi with
    | Some l => process_instructions l c0 i0
    | None => input_key k c0 u
    end.

(** lib.rs:722-729 *)
Definition process_key_event (k : keyev) : M bool :=
  if has_mod k M_RELEASE then ret false else process_key_event_inner k.

(** lib.rs:1449-1458, 1444-1446 *)
Fixpoint process_key_events (ks : list keyev) : M bool :=
  match ks with
  | [] => ret true
  | k :: r => process_key_event k ;; process_key_events r
  end.

(** [as i32] of a usize *)
Definition as_i32 (n : N) : Z :=
  let m := (Z.of_N n mod 2 ^ 32)%Z in if (m <? 2 ^ 31)%Z then m else (m - 2 ^ 32)%Z.
(** lib.rs:269-294 *)
Definition select_candidate_at (i : Z) : M bool :=
  s <- cur ;;
  let len := cl_len (s_list s) in
  if N.eqb len 0 then ret false
  else
    (if (i <? 0)%Z then
       modcur (fun s => clear_candidate_list (consolidate s)) ;;
       set_composition_mode PreComposition
     else if (as_i32 len <=? i)%Z then
       modcur (fun s => snd (set_candidate_pointer (len - 1) s)) ;;
       enter_register_mode CompositionSelection
     else modcur (fun s => snd (set_candidate_pointer (Z.to_N i) s))) ;;
    ret true.
(** lib.rs:304-310 *)
Definition confirm_candidate_at (i : N) : M bool :=
  s <- cur ;;
  modcur (fun s => snd (set_candidate_pointer i s)) ;;
  if fst (set_candidate_pointer i s) then confirm_current ;; ret true else ret false.

(* -------------------------------------------------------------- observers *)
(** lib.rs:364-378, get_preedit: outermost state first *)
Definition is_register (s : cstate) : bool := cmode_eqb (s_cmode s) Register.
Definition get_preedit (c : ctx) : str :=
  flat_map (fun s => preedit_string X (x_kf c) (s_imode s) s
                     ++ (if is_register s then U "【" else [])) (rev (x_stack c))
  ++ flat_map (fun s => if is_register s then U "】" else []) (rev (x_stack c)).
(** lib.rs:385-392 *)
Definition get_preedit_detail (c : ctx) : list state_info :=
  map (fun s => preedit_detail X (x_kf c) (s_imode s) s) (rev (x_stack c)).
(** lib.rs:1418-1437; [&self] *)
Definition will_process (k : keyev) (w : world) : res bool :=
  match x_stack (w_ctx w) with
  | [] => Panic PanicEmptyStack
  | s :: _ =>
      rmap (fun mi =>
        (match mi with Some _ => true | None => false end)
        || (is_modifierless_input k
            && ((has_rom2kana_conversion (s_imode s) (s_cmode s)
                 && (can_continue (x_kb (w_ctx w)) k (s_pre s)
                     || can_continue (x_kb (w_ctx w)) k []))
                || (negb (has_rom2kana_conversion (s_imode s) (s_cmode s))
                    && is_ascii_inputtable k))))
      (get_instruction dbg (x_cmd (w_ctx w)) k (s_imode s) (s_cmode s))
  end.

(* -------------------------------------------------------------- histories *)
(** The mutating public API of a context (lib.rs:81-325, 353, 722, 767, 1462-1486; capi.rs
    forwards to these).  [OOther] is whatever other contexts, other threads or
    skk_context_reload_dictionary (lib.rs:749-765) did to the shared dictionaries between two
    calls on this context; saving (lib.rs:731-747) is in SaveFs.v. *)
Inductive op :=
| OKey (k : keyev) | OPoll | OReset | OSetCompositionMode (c : cmode) | OSetInputMode (i : imode)
| OSelectAt (i : Z) | OConfirmAt (i : N)
| OSetAutoStart (l : list str) | OSetPeriod (p : period_style) | OSetComma (p : comma_style)
| OSetRule (r : rule) | OSetDictionaries (ds : list nat) | OOther (st : list dict).
Inductive out := OutUnit | OutBool (b : bool) | OutText (t : option str).

Definition exec (o : op) : M out :=
  match o with
  | OKey k => b <- process_key_event k ;; ret (OutBool b)
  | OPoll => t <- poll_output ;; ret (OutText t)
  | OReset => reset_state_stack ;; ret OutUnit
  | OSetCompositionMode c => set_composition_mode c ;; ret OutUnit
  | OSetInputMode i => set_input_mode i ;; ret OutUnit
  | OSelectAt i => b <- select_candidate_at i ;; ret (OutBool b)
  | OConfirmAt i => b <- confirm_candidate_at i ;; ret (OutBool b)
  | OSetAutoStart l => fun w =>
      Ok (OutUnit, set_cfg (mkConfig l (cf_period (x_cfg (w_ctx w))) (cf_comma (x_cfg (w_ctx w)))) w)
  | OSetPeriod p => fun w =>
      Ok (OutUnit, set_cfg (mkConfig (cf_auto (x_cfg (w_ctx w))) p (cf_comma (x_cfg (w_ctx w)))) w)
  | OSetComma p => fun w =>
      Ok (OutUnit, set_cfg (mkConfig (cf_auto (x_cfg (w_ctx w))) (cf_period (x_cfg (w_ctx w))) p) w)
  | OSetRule r => fun w => (* lib.rs:1480-1486 *)
      let c := w_ctx w in
      Ok (OutUnit, mkW (w_store w) (mkCtx (x_stack c) (r_command r) (kb_new X r) (x_kf c) (x_am c)
                                          (x_dicts c) (x_cfg c)))
  | OSetDictionaries ds => fun w => (* lib.rs:767-769 *)
      let c := w_ctx w in
      Ok (OutUnit, mkW (w_store w) (mkCtx (x_stack c) (x_cmd c) (x_kb c) (x_kf c) (x_am c)
                                          ds (x_cfg c)))
  | OOther st => fun w => Ok (OutUnit, set_store st w)
  end.
Fixpoint run (ops : list op) : M (list out) :=
  match ops with
  | [] => ret []
  | o :: r => x <- exec o ;; xs <- run r ;; ret (x :: xs)
  end.
End Ctx.
