(** The API at the granularity of single dictionary accesses.  Each context belongs to one
    thread (its methods take [&mut self]); what threads share are the dictionaries, each behind
    its own mutex (dictionary/mod.rs:37-45).  A dictionary is locked for exactly one query or
    update at a time and never while another lock is held (dictionary/mod.rs:95-132, 164-194,
    289-319), so an API call is a program of atomic accesses with local computation between
    them.  The functions are those of Context.v and Dictionary.v, access by access; P_Fine.v
    proves that running them without interference is running Context.v.
    Simplifications: saving and reloading files (lib.rs:731-765) are not calls of this model;
    asking a dictionary that is not completable for completions takes no lock in the code. *)
From Verif Require Import Str Keys Modes KanaBuilder FormChanger DictTypes Parser Lru
  Dictionary CState Context.

(** What is done to one dictionary under its lock. *)
Inductive access := ALookup (k : ckey) | AComplete (k : ckey) | ASelect (c : candidate)
                  | APurge (k : ckey) (c : candidate).
Inductive answer := AnsEntry (o : option entry) | AnsEntries (l : list entry) | AnsDone.
(** dictionary/mod.rs:95-106 (confirm_candidate), 112-132 (purge_candidate), 172-178 (complete),
    297-302 (lookup): the guarded section. *)
Definition guarded (a : access) (d : dict) : res (answer * dict) :=
  match a with
  | ALookup k => rmap (fun o => (AnsEntry o, d)) (lookup d k)
  | AComplete k => rmap (fun l => (AnsEntries l, d))
                        (if d_completable d then complete d k else Ok [])
  | ASelect c => Ok (AnsDone, select_candidate d c)
  | APurge k c => Ok (AnsDone, purge_candidate d k c)
  end.

(** Programs: a sequence of accesses with local computation, or a panic. *)
Inductive prog (A : Type) :=
| Done (a : A)
| Crash (r : reason)
| Acc (i : nat) (a : access) (k : answer -> prog A).
Arguments Done {A} a.
Arguments Crash {A} r.
Arguments Acc {A} i a k.
Fixpoint pbind {A B} (p : prog A) (f : A -> prog B) : prog B :=
  match p with
  | Done a => f a
  | Crash r => Crash r
  | Acc i a k => Acc i a (fun x => pbind (k x) f)
  end.
Definition pmap {A B} (f : A -> B) (p : prog A) : prog B := pbind p (fun a => Done (f a)).
Definition of_res {A} (r : res A) : prog A := match r with Ok a => Done a | Panic e => Crash e end.

(** Running a program with nobody else about. *)
Fixpoint alone {A} (p : prog A) (st : list dict) : res (A * list dict) :=
  match p with
  | Done a => Ok (a, st)
  | Crash r => Panic r
  | Acc i a k =>
      match guarded a (nth i st empty_dict) with
      | Ok (x, d) => alone (k x) (update_nth i (fun _ => d) st)
      | Panic r => Panic r
      end
  end.

(* -------------------------------------------- dictionary/mod.rs, by accesses *)
Definition f_lookup (i : nat) (k : ckey) : prog (option entry) :=
  Acc i (ALookup k) (fun x => match x with AnsEntry o => Done o | _ => Done None end).
Definition f_complete (i : nat) (k : ckey) : prog (list entry) :=
  Acc i (AComplete k) (fun x => match x with AnsEntries l => Done l | _ => Done [] end).
(** lib.rs:494-496, 516-518: the loops over the dictionaries of the context *)
Fixpoint f_each (a : access) (ids : list nat) : prog unit :=
  match ids with [] => Done tt | i :: r => Acc i a (fun _ => f_each a r) end.
(** mod.rs:287-319 *)
Fixpoint f_in_order (ids : list nat) (k : ckey) : prog (list dcand) :=
  match ids with
  | [] => Done []
  | i :: r => pbind (f_lookup i k) (fun oe =>
              pmap (fun l => dict_candidates k oe ++ l) (f_in_order r k))
  end.
Fixpoint pseq {A B} (f : A -> prog B) (l : list A) : prog (list B) :=
  match l with
  | [] => Done []
  | x :: r => pbind (f x) (fun y => pmap (cons y) (pseq f r))
  end.
(** mod.rs:199-210, 215-225 *)
Definition f_exact (ids : list nat) (k : ckey) : prog (list candidate) :=
  pbind (f_in_order ids k) (fun l =>
  of_res (res_map (candidate_of_dcand k) (dedup_candidates dcand_cmp dc_kouho l))).
(** mod.rs:405-490 *)
Definition f_template_texts (ids : list nat) (t : N) (n : str) : prog (list str) :=
  if N.eqb t 52 then pmap (map c_kouho) (f_exact ids (mkCK n None))
  else of_res (template_texts [] t n).
(** mod.rs:392-494 *)
Fixpoint f_replace_templates (ids : list nat) (ts : list N) (ns : list str) (cur : list str)
  : prog (list str) :=
  match ts, ns with
  | t :: ts', n :: ns' =>
      match cur with
      | [] => Done []
      | _ => pbind (f_template_texts ids t n) (fun reps =>
             f_replace_templates ids ts' ns'
               (flat_map (fun text => map (fun r => replacen1 [35%N; t] r text) reps) cur))
      end
  | _, _ => Done cur
  end.
Definition f_replace_numeric_string (ids : list nat) (kouho : str) (ns : list str) : prog (list str) :=
  f_replace_templates ids (templates kouho) ns [kouho].
(** mod.rs:373-389 *)
Definition f_replace_numeric_match (ids : list nat) (ns : list str) (c : candidate)
  : prog (list candidate) :=
  pmap (map (with_output c)) (f_replace_numeric_string ids (c_kouho c) ns).
(** mod.rs:128-133 and 188-236 *)
Definition f_all_candidates (ids : list nat) (k : ckey) : prog (list candidate) :=
  pbind (f_exact ids k) (fun exact =>
    let '(k', ns) := to_numeric_key k in
    if ckey_eqb k' k then Done exact
    else pbind (f_exact ids k') (fun cs =>
         pmap (fun ll => exact ++ concat ll) (pseq (f_replace_numeric_match ids ns) cs))).
(** mod.rs:140-185 *)
Fixpoint f_complete_in_order (ids : list nat) (k : ckey) : prog (list ccand) :=
  match ids with
  | [] => Done []
  | i :: r =>
      pbind (f_complete i k) (fun es =>
      pmap (fun l =>
        flat_map (fun e => match entry_candidates (ck_okuri k) e with
                           | Some cs => map (fun c => mkCC (e_midashi e) (ck_okuri k)
                                                           (dc_kouho c) (dc_annot c)) cs
                           | None => []
                           end) es ++ l)
        (f_complete_in_order r k))
  end.
Definition f_all_complete (ids : list nat) (k : ckey) : prog (list candidate) :=
  pmap (fun l => map candidate_of_ccand (dedup_candidates ccand_cmp cc_kouho l))
       (f_complete_in_order ids k).

(* ------------------------------------------------ lib.rs, by accesses *)
(** A context method: from the context to a program. *)
Definition F (A : Type) := ctx -> prog (A * ctx).
Definition f_ret {A} (a : A) : F A := fun c => Done (a, c).
Definition f_bind {A B} (m : F A) (f : A -> F B) : F B := fun c =>
  pbind (m c) (fun '(a, c') => f a c').
Declare Scope f_scope.
Delimit Scope f_scope with f.
Notation "x <- a ;; b" := (f_bind a (fun x => b)) (at level 61, a at next level, right associativity) : f_scope.
Notation "a ;; b" := (f_bind a (fun _ => b)) (at level 61, right associativity) : f_scope.
Local Open Scope f_scope.
Definition f_prog {A} (p : prog A) : F A := fun c => pbind p (fun a => Done (a, c)).
Definition f_lift {A} (r : res A) : F A := fun c =>
  match r with Ok a => Done (a, c) | Panic e => Crash e end.
Definition f_get : F ctx := fun c => Done (c, c).
Definition f_when (b : bool) (m : F unit) : F unit := if b then m else f_ret tt.
Definition set_stk (s : list cstate) (c : ctx) : ctx :=
  mkCtx s (x_cmd c) (x_kb c) (x_kf c) (x_am c) (x_dicts c) (x_cfg c).
(** lib.rs:1406-1412 *)
Definition f_cur : F cstate := fun c =>
  match x_stack c with s :: _ => Done (s, c) | [] => Crash PanicEmptyStack end.
Definition f_modcur (f : cstate -> cstate) : F unit := fun c =>
  match x_stack c with
  | s :: r => Done (tt, set_stk (f s :: r) c)
  | [] => Crash PanicEmptyStack
  end.

Section Fine.
Variable X : xkb.
Variable dbg : bool.

(* ---------------------------------------------------------------- output *)
(** lib.rs:412-426; Context.v poll_output *)
Definition f_poll_output : F (option str) := fun w =>
  match rev (x_stack w) with
  | [] => Crash PanicEmptyStack
  | top :: inner =>
      if is_nil (s_conf top) then Done (None, w)
      else Done (Some (s_conf top), set_stk (rev (flush_confirmed top :: inner)) w)
  end.
(** lib.rs:437-442 *)
Definition f_append_converted (t : str) : F unit := fun w =>
  f_modcur (fun s => push_string (adjust_kana_string (x_kf w) (s_imode s) t) s) w.
(** lib.rs:455-461 *)
Definition f_set_carry_over (u : list N) : F unit :=
  f_modcur (fun s => let s' := set_pre u s in if is_nil u then set_cap false s' else s').
(** lib.rs:466-470: one lock for every dictionary consulted *)
Definition f_update_candidate_list : F unit :=
  s <- f_cur ;; w <- f_get ;;
  cs <- f_prog (f_all_candidates (x_dicts w) (get_composite_key s)) ;;
  f_modcur (set_new_candidate_list cs).
(** lib.rs:475-479 *)
Definition f_update_completion_list : F unit :=
  s <- f_cur ;; w <- f_get ;;
  cs <- f_prog (f_all_complete (x_dicts w) (get_composite_key s)) ;;
  f_modcur (set_new_candidate_list cs).
(** lib.rs:482-504: one lock for every dictionary updated *)
Definition f_purge_current : F unit :=
  s <- f_cur ;; w <- f_get ;;
  match cl_current (s_list s) with
  | Some c => f_prog (f_each (APurge (cl_key (s_list s)) c) (x_dicts w))
  | None => f_ret tt
  end ;;
  f_modcur clear_all.
(** lib.rs:508-535 *)
Definition f_confirm_current : F unit :=
  s <- f_cur ;; w <- f_get ;;
  match cl_current (s_list s) with
  | Some c =>
      f_prog (f_each (ASelect c) (x_dicts w)) ;;
      f_modcur (fun s => reset_to_default (clear_unconfirmed
        (push_string (c_output c ++ adjust_kana_string (x_kf w) (s_imode s) (s_okuri s)) s)))
  | None => f_ret tt
  end.
(** lib.rs:537-550 *)
Definition f_confirm_as (i : imode) : F unit :=
  w <- f_get ;;
  f_modcur (fun s =>
    let adjusted := match i with
                    | Zenkaku => adjust_ascii_string (x_am w) (s_comp s)
                    | _ => adjust_kana_string (x_kf w) i (s_comp s)
                    end in
    clear_unconfirmed (push_string_for adjusted Direct s)).
(** lib.rs:554-557 *)
Definition f_set_composition_mode (c : cmode) : F unit := f_modcur (change_composition_mode c).
(** lib.rs:562-571 *)
Definition f_enter_register_mode (prev : cmode) : F unit := fun w =>
  if Nat.ltb (length (x_stack w)) REGISTER_MODE_STACK_MAX then
    match x_stack w with
    | s :: r => Done (tt, set_stk (st_new Hiragana Direct :: change_from_old_mode Register prev s :: r) w)
    | [] => Crash PanicEmptyStack
    end
  else Done (tt, w).
(** lib.rs:573-578 *)
Definition f_reset_state_stack : F unit := fun w =>
  match rev (x_stack w) with
  | [] => Crash PanicEmptyStack
  | top :: _ => Done (tt, set_stk [clear_all top] w)
  end.
(** lib.rs:583-591 *)
Definition f_abort_register_mode : F bool := fun w =>
  match x_stack w with
  | _ :: _ :: _ => Done (true, set_stk (tl (x_stack w)) w)
  | _ => Done (false, w)
  end.
(** lib.rs:605-652: the candidates of a registration *)
Definition f_registered_candidates (ids : list nat) (s : cstate) (confirmed : str)
  : prog (list candidate) :=
  let key := cl_key (s_list s) in
  let okuri := negb (is_nil (s_okuri s)) in
  let n := numeric_entry_count confirmed in
  if negb (Nat.eqb n 0) && Nat.eqb n (numeric_string_count (ck_to key)) then
    let '(dk, ns) := to_numeric_key key in
    pmap (map (fun o => mkCand (ck_to dk) (ck_okuri dk) okuri confirmed None o))
         (f_replace_numeric_string ids confirmed ns)
  else Done [mkCand (ck_to key) (ck_okuri key) okuri confirmed None confirmed].
(** lib.rs:594-657 *)
Definition f_exit_register_mode (confirmed : str) : F unit := fun w0 =>
  match x_stack w0 with
  | _ :: _ :: _ =>
      (if is_nil confirmed then f_modcur abort_to_previous_mode
       else
         f_modcur (set_cmode Direct) ;;
         s <- f_cur ;; w <- f_get ;;
         cs <- f_prog (f_registered_candidates (x_dicts w) s confirmed) ;;
         f_modcur (add_new_candidates cs) ;;
         f_confirm_current) (set_stk (tl (x_stack w0)) w0)
  | _ => Done (tt, w0)
  end.
(** lib.rs:659-662 *)
Definition f_set_input_mode (i : imode) : F unit := f_modcur (set_imode i).
(** lib.rs:671-716 *)
Definition f_output_converted_kana_if_any (i : imode) (c : cmode) : F bool :=
  s <- f_cur ;; w <- f_get ;;
  match convert_greedy (x_kb w) (s_pre s) with
  | None => f_ret false
  | Some (kana, carry) =>
      match c with
      | Direct =>
          f_modcur (fun s => clear_preconverted
                    (push_string_for (adjust_kana_string (x_kf w) i kana) Direct s)) ;;
          f_set_carry_over carry ;; f_ret true
      | PreComposition =>
          f_modcur (fun s => clear_preconverted (push_string_for kana PreComposition s)) ;;
          f_set_carry_over carry ;; f_ret true
      | PreCompositionOkurigana =>
          f_modcur (fun s => clear_preconverted (push_string_for kana PreCompositionOkurigana s)) ;;
          f_set_carry_over carry ;; f_ret true
      | _ => f_ret false
      end
  end.

(** lib.rs:775-805 *)
Definition f_transition_by_capital (k : keyev) (initial : cmode) (done_ : bool) : F bool :=
  s <- f_cur ;;
  if is_upper k && negb done_ && cmode_eqb initial Direct then
    f_set_composition_mode PreComposition ;; f_modcur (set_cap true) ;; f_ret true
  else if is_upper k && negb (is_nil (s_comp s)) && negb done_ && cmode_eqb initial PreComposition then
    f_set_composition_mode PreCompositionOkurigana ;; f_modcur (set_cap true) ;; f_ret true
  else f_ret false.

(** lib.rs:1290-1313 *)
Definition f_try_next_candidate (c : cmode) (i : imode) : F unit :=
  if negb (cmode_eqb c CompositionSelection) then
    f_output_converted_kana_if_any i c ;;
    f_update_candidate_list ;;
    s <- f_cur ;;
    if negb (is_nil (s_comp s)) && cl_is_empty (s_list s) then f_enter_register_mode c
    else if negb (cl_is_empty (s_list s)) then f_set_composition_mode CompositionSelection
    else f_ret tt
  else
    s <- f_cur ;;
    b <- f_lift (cl_has_next dbg (s_list s)) ;;
    if negb b then f_enter_register_mode c
    else s' <- f_lift (st_forward dbg s) ;; f_modcur (fun _ => s').

(** lib.rs:1316-1340 *)
Definition f_try_next_completion (c : cmode) (i : imode) : F unit :=
  if negb (cmode_eqb c Completion) then
    f_output_converted_kana_if_any i c ;;
    f_update_completion_list ;;
    s <- f_cur ;;
    if negb (is_nil (s_comp s)) && cl_is_empty (s_list s) then f_ret tt
    else if negb (cl_is_empty (s_list s)) then f_set_composition_mode Completion
    else f_ret tt
  else
    s <- f_cur ;;
    b <- f_lift (cl_has_next dbg (s_list s)) ;;
    if negb b then f_ret tt
    else s' <- f_lift (st_forward dbg s) ;; f_modcur (fun _ => s') ;; f_set_composition_mode Completion.

(** lib.rs:1344-1376 *)
Definition f_auto_start_henkan : F unit :=
  s <- f_cur ;;
  if negb (cmode_eqb (s_cmode s) PreComposition) then f_lift (Panic PanicDebugAssert)
  else
    w <- f_get ;;
    match matching_keyword (cf_auto (x_cfg w)) (ck_to (get_composite_key s)) with
    | None => f_ret tt
    | Some kw =>
        f_modcur (fun s => set_converted_to_postfix kw
                  (Nat.iter (length kw) (fun s => snd (st_delete s)) s)) ;;
        s' <- f_cur ;;
        f_try_next_candidate PreComposition (s_imode s')
    end.

(** lib.rs:810-865 *)
Definition f_input_converted_kana (converted : str) (carry : list N) (did_change : bool)
           (initial_unprocessed : list N) : F unit :=
  s <- f_cur ;;
  match s_cmode s with
  | Direct => f_append_converted converted ;; f_set_carry_over carry
  | PreComposition =>
      f_modcur (push_string converted) ;; f_set_carry_over carry ;; f_auto_start_henkan
  | PreCompositionOkurigana =>
      (if did_change && negb (is_nil initial_unprocessed) && negb (is_nil carry)
       then f_modcur (push_string_for converted PreComposition)
       else f_modcur (push_string converted)) ;;
      f_set_carry_over carry ;;
      s1 <- f_cur ;;
      if is_nil carry && negb (is_nil (s_comp s1)) then
        f_update_candidate_list ;;
        s2 <- f_cur ;;
        if cl_is_empty (s_list s2) then f_enter_register_mode (s_cmode s2)
        else f_set_composition_mode CompositionSelection
      else f_ret tt
  | _ => f_ret tt
  end.

(** lib.rs:1380-1404 *)
Definition f_input_as_continuous_kana (k : keyev) : F bool :=
  s <- f_cur ;; w <- f_get ;;
  match s_cmode s with
  | Direct | PreComposition | PreCompositionOkurigana =>
      f_modcur (set_pre (next_unprocessed_state (x_kb w) k (s_pre s))) ;; f_ret true
  | _ => f_ret false
  end.

(** lib.rs:1583-1598 *)
Definition f_abort : F unit :=
  f_modcur (fun s => clear_candidate_list (consolidate (clear_preconverted s))) ;;
  s <- f_cur ;;
  (match s_cmode s with Direct => f_abort_register_mode ;; f_ret tt | _ => f_ret tt end) ;;
  f_modcur abort_to_previous_mode ;;
  s1 <- f_cur ;;
  f_when (cmode_eqb (s_cmode s) PreCompositionOkurigana && cmode_eqb (s_cmode s1) PreComposition)
       (f_modcur abort_to_previous_mode).

(** lib.rs:1188-1286.  [inl] continues with the next instruction, [inr b] returns [b]. *)
Definition f_run_instr (ins : instr) (c0 : cmode) (i0 : imode) : F (unit + bool) :=
  let go (m : F unit) : F (unit + bool) := m ;; f_ret (inl tt) in
  match ins with
  | IChangeCompositionMode c => go (f_set_composition_mode c)
  | IChangeInputMode i => go (f_set_input_mode i)
  | IForceKanaConvert i => go (f_output_converted_kana_if_any i c0 ;; f_ret tt)
  | IClearUnconvertedInputs => go (f_modcur clear_preconverted)
  | IClearKanaConvertedInputs => go (f_modcur clear_kanas)
  | IClearUnconfirmedInputs => go (f_modcur clear_unconfirmed)
  | IAbort => go f_abort
  | IConfirmComposition => go f_confirm_current
  | IPassthroughKeyEvent => f_ret (inr false)
  | IConfirmAs i => go (f_confirm_as i)
  | IConfirmDirect =>
      w <- f_get ;;
      if Nat.ltb 1 (length (x_stack w)) then
        s <- f_cur ;; f_exit_register_mode (s_conf s) ;; f_ret (inr true)
      else f_ret (inr false)
  | IPurge => go f_purge_current
  | INextCandidatePointer =>
      go (s <- f_cur ;; s' <- f_lift (st_forward dbg s) ;; f_modcur (fun _ => s'))
  | IPreviousCandidatePointer => go (f_modcur st_backward)
  | IDelete => s <- f_cur ;; f_modcur (fun s => snd (st_delete s)) ;; f_ret (inr (fst (st_delete s)))
  | ITryNextCandidate => go (f_try_next_candidate c0 i0)
  | ITryPreviousCandidate =>
      go (s <- f_cur ;;
          if negb (cmode_eqb (s_cmode s) CompositionSelection) then f_ret tt
          else if negb (cl_has_previous (s_list s)) then
            f_modcur (fun s => clear_candidate_list (consolidate s)) ;;
            f_set_composition_mode PreComposition
          else f_modcur st_backward)
  | ITryNextCompletion => go (f_try_next_completion c0 i0)
  | ITryPreviousCompletion =>
      go (s <- f_cur ;;
          if negb (cmode_eqb (s_cmode s) Completion) then f_ret tt
          else if cl_has_previous (s_list s) then f_modcur st_backward else f_ret tt)
  | IFinishKeyEvent => f_ret (inl tt)
  end.
Fixpoint f_run_instrs (l : list instr) (c0 : cmode) (i0 : imode) (result : bool) : F bool :=
  match l with
  | [] => f_ret result
  | i :: r => o <- f_run_instr i c0 i0 ;;
              match o with inl _ => f_run_instrs r c0 i0 result | inr b => f_ret b end
  end.
Definition f_process_instructions (l : list instr) (c0 : cmode) (i0 : imode) : F bool :=
  f_run_instrs l c0 i0 (negb (is_nil l)).

(** lib.rs:1140-1143, the common end of the branches of the kana input *)
Definition f_finish_kana_input : F bool :=
  s <- f_cur ;;
  (if cmode_eqb (s_cmode s) PreComposition then f_auto_start_henkan else f_ret tt) ;; f_ret true.

(** lib.rs:998-1029 and its end: comma and period *)
Definition f_input_periods (i1 : imode) (c1 : cmode) (conv : str) : F bool :=
  f_output_converted_kana_if_any i1 c1 ;;
  f_modcur clear_preconverted ;;
  s2 <- f_cur ;;
  match s_cmode s2 with
  | Direct => f_append_converted conv ;; f_finish_kana_input
  | PreComposition | PreCompositionOkurigana =>
      f_modcur (push_string conv) ;; f_modcur clear_preconverted ;; f_finish_kana_input
  | _ => f_ret false
  end.

(** lib.rs:1110-1137 and its end: keys the kana builder cannot use *)
Definition f_input_direct_char (k : keyev) (key_char : N) (i1 : imode) (c1 : cmode) : F bool :=
  if is_ascii_inputtable k then
    f_output_converted_kana_if_any i1 c1 ;;
    f_modcur clear_preconverted ;;
    s2 <- f_cur ;;
    match s_cmode s2 with
    | Direct | PreComposition | PreCompositionOkurigana =>
        f_modcur (push_string [key_char]) ;; f_finish_kana_input
    | _ => f_ret false
    end
  else f_ret false.

(** lib.rs:997-1144: a key with a character that completes no conversion *)
Definition f_input_unconverted (k : keyev) (u : list N) (key_char : N) (c1 : cmode) : F bool :=
  s1 <- f_cur ;; w <- f_get ;;
  let b := x_kb w in
  let i1 := s_imode s1 in
  match convert_periods key_char (cf_period (x_cfg w)) (cf_comma (x_cfg w)) with
  | Some conv => f_input_periods i1 c1 conv
  | None =>
    if can_continue b k u then f_input_as_continuous_kana k ;; f_finish_kana_input
    else if is_upper k && can_continue_lower b k u then
      f_transition_by_capital k c1 (s_cap s1) ;;
      f_input_as_continuous_kana (to_lower k) ;; f_finish_kana_input
    else match convert_non_partial b (combine_raw k []) with
    | Some (conv, carry) => f_input_converted_kana conv carry false u ;; f_ret true
    | None =>
    match convert_non_partial b (combine_lower k []) with
    | Some (conv, carry) =>
        if is_upper k then
          did <- f_transition_by_capital k c1 false ;;
          f_input_converted_kana conv carry did u ;; f_ret true
        else f_finish_kana_input
    | None =>
      if can_continue b k [] then
        f_output_converted_kana_if_any i1 c1 ;;
        f_modcur clear_preconverted ;;
        f_input_as_continuous_kana k ;; f_finish_kana_input
      else if can_continue_lower b k [] then
        f_transition_by_capital k c1 (s_cap s1) ;;
        f_output_converted_kana_if_any i1 c1 ;;
        f_modcur clear_preconverted ;;
        f_input_as_continuous_kana (to_lower k) ;; f_finish_kana_input
      else f_input_direct_char k key_char i1 c1
    end
    end
  end.

(** lib.rs:939-1144: kana input *)
Definition f_input_kana (k : keyev) (u : list N) : F bool :=
  s1 <- f_cur ;; w <- f_get ;;
  let b := x_kb w in
  let c1 := s_cmode s1 in
  let unconverted :=
    match get_symbol_char X k with
    | Some ch => f_input_unconverted k u ch c1
    | None => f_ret false
    end in
  match convert_non_partial b (combine_raw k u) with
  | Some (conv, carry) => f_input_converted_kana conv carry false u ;; f_ret true
  | None =>
      if is_upper k then
        match convert_non_partial b (combine_lower k u) with
        | Some (conv, carry) =>
            did <- f_transition_by_capital k c1 (s_cap s1) ;;
            f_input_converted_kana conv carry did u ;; f_ret true
        | None => unconverted
        end
      else unconverted
  end.

(** lib.rs:1145-1181: input in modes without kana conversion *)
Definition f_input_plain (k : keyev) : F bool :=
  s <- f_cur ;; w <- f_get ;;
  match s_cmode s with
  | Direct =>
      match get_symbol_char X k with
      | None => f_ret false
      | Some ch =>
          match s_imode s with
          | Ascii => f_modcur (push_string [ch]) ;; f_ret true
          | Zenkaku => f_append_converted (adjust_ascii_char (x_am w) ch) ;; f_ret true
          | _ => f_ret false
          end
      end
  | Abbreviation =>
      match get_symbol_char X k with
      | None => f_ret false
      | Some ch => f_modcur (push_string [ch]) ;; f_ret true
      end
  | _ => f_ret false
  end.

(** lib.rs:912-1183: everything after the command dispatch *)
Definition f_input_key (k : keyev) (c0 : cmode) (u : list N) : F bool :=
  if negb (is_modifierless_input k) then f_ret false
  else
    s <- f_cur ;; w <- f_get ;;
    (if (match c0 with CompositionSelection | Completion => true | _ => false end)
        && will_be_processed (x_kb w) k (s_imode s) (s_cmode s) u
     then f_confirm_current else f_ret tt) ;;
    s1 <- f_cur ;;
    if has_rom2kana_conversion (s_imode s1) (s_cmode s1) && is_modifierless_input k
    then f_input_kana k u
    else if is_ascii_inputtable k && is_modifierless_input k then f_input_plain k
    else f_ret false.

(** lib.rs:873-1184, process_key_event_inner_v2 *)
Definition f_process_key_event_inner (k : keyev) : F bool :=
  s <- f_cur ;; w <- f_get ;;
  let c0 := s_cmode s in
  let i0 := s_imode s in
  let u := s_pre s in
  if skip_command (x_kb w) k i0 c0 u then f_input_key k c0 u
  else
    mi <- f_lift (get_instruction dbg (x_cmd w) k i0 c0) ;;
    match mi with
    | Some l => f_process_instructions l c0 i0
    | None => f_input_key k c0 u
    end.

(** lib.rs:722-729 *)
Definition f_process_key_event (k : keyev) : F bool :=
  if has_mod k M_RELEASE then f_ret false else f_process_key_event_inner k.

(** lib.rs:269-294 *)
Definition f_select_candidate_at (i : Z) : F bool :=
  s <- f_cur ;;
  let len := cl_len (s_list s) in
  if N.eqb len 0 then f_ret false
  else
    (if (i <? 0)%Z then
       f_modcur (fun s => clear_candidate_list (consolidate s)) ;;
       f_set_composition_mode PreComposition
     else if (as_i32 len <=? i)%Z then
       f_modcur (fun s => snd (set_candidate_pointer (len - 1) s)) ;;
       f_enter_register_mode CompositionSelection
     else f_modcur (fun s => snd (set_candidate_pointer (Z.to_N i) s))) ;;
    f_ret true.
(** lib.rs:304-310 *)
Definition f_confirm_candidate_at (i : N) : F bool :=
  s <- f_cur ;;
  f_modcur (fun s => snd (set_candidate_pointer i s)) ;;
  if fst (set_candidate_pointer i s) then f_confirm_current ;; f_ret true else f_ret false.


(** The API calls.  [OOther] is not one: interference is explicit in this model. *)
Definition f_exec (o : op) : F out :=
  match o with
  | OKey k => b <- f_process_key_event k ;; f_ret (OutBool b)
  | OPoll => t <- f_poll_output ;; f_ret (OutText t)
  | OReset => f_reset_state_stack ;; f_ret OutUnit
  | OSetCompositionMode c => f_set_composition_mode c ;; f_ret OutUnit
  | OSetInputMode i => f_set_input_mode i ;; f_ret OutUnit
  | OSelectAt i => b <- f_select_candidate_at i ;; f_ret (OutBool b)
  | OConfirmAt i => b <- f_confirm_candidate_at i ;; f_ret (OutBool b)
  | OSetAutoStart l => fun c =>
      Done (OutUnit, mkCtx (x_stack c) (x_cmd c) (x_kb c) (x_kf c) (x_am c) (x_dicts c)
                           (mkConfig l (cf_period (x_cfg c)) (cf_comma (x_cfg c))))
  | OSetPeriod p => fun c =>
      Done (OutUnit, mkCtx (x_stack c) (x_cmd c) (x_kb c) (x_kf c) (x_am c) (x_dicts c)
                           (mkConfig (cf_auto (x_cfg c)) p (cf_comma (x_cfg c))))
  | OSetComma p => fun c =>
      Done (OutUnit, mkCtx (x_stack c) (x_cmd c) (x_kb c) (x_kf c) (x_am c) (x_dicts c)
                           (mkConfig (cf_auto (x_cfg c)) (cf_period (x_cfg c)) p))
  | OSetRule r => fun c =>
      Done (OutUnit, mkCtx (x_stack c) (r_command r) (kb_new X r) (x_kf c) (x_am c)
                           (x_dicts c) (x_cfg c))
  | OSetDictionaries ds => fun c =>
      Done (OutUnit, mkCtx (x_stack c) (x_cmd c) (x_kb c) (x_kf c) (x_am c) ds (x_cfg c))
  | OOther _ => f_ret OutUnit
  end.

(* ------------------------------------------------------------------ threads *)
(** What a thread is doing: between two calls; computing or about to take a lock; inside a
    guarded section; gone by a panic. *)
Inductive phase :=
| Idle
| Running (p : prog (out * ctx))
| Holding (i : nat) (a : access) (k : answer -> prog (out * ctx))
| Dead (r : reason).
(** A thread owns a context, has calls to make and has made some. *)
Record thread := mkThread {
  t_ctx : ctx; t_todo : list op; t_made : list (op * out); t_phase : phase }.
(** [y_poisoned]: mutexes whose holder panicked; [y_log]: the guarded sections in the order in
    which they happened, with the thread. *)
Record sys := mkSys {
  y_store : list dict; y_threads : list thread; y_poisoned : list nat;
  y_log : list (nat * nat * access) }.
Definition holds_lock (i : nat) (t : thread) : bool :=
  match t_phase t with Holding j _ _ => Nat.eqb i j | _ => false end.
Definition locked (i : nat) (y : sys) : bool := existsb (holds_lock i) (y_threads y).
Definition set_phase (p : phase) (t : thread) : thread :=
  mkThread (t_ctx t) (t_todo t) (t_made t) p.
Definition set_thread (n : nat) (t : thread) (y : sys) : sys :=
  mkSys (y_store y) (update_nth n (fun _ => t) (y_threads y)) (y_poisoned y) (y_log y).
(** One step of thread [n]; a thread waiting for a lock stays where it is.
    [std::sync::Mutex]: lock() waits for the holder; a panic of the holder poisons the mutex,
    and lock().unwrap() panics on a poisoned one. *)
Definition tstep (n : nat) (y : sys) : sys :=
  match nth_error (y_threads y) n with
  | None => y
  | Some t =>
      match t_phase t with
      | Dead _ => y
      | Idle => match t_todo t with
                | [] => y
                | o :: _ => set_thread n (set_phase (Running (f_exec o (t_ctx t))) t) y
                end
      | Running (Done (x, c)) =>
          set_thread n (mkThread c (tl (t_todo t))
                          (t_made t ++ match t_todo t with o :: _ => [(o, x)] | [] => [] end) Idle) y
      | Running (Crash r) => set_thread n (set_phase (Dead r) t) y
      | Running (Acc i a k) =>
          if locked i y then y
          else if existsb (Nat.eqb i) (y_poisoned y) then set_thread n (set_phase (Dead PanicUnwrap) t) y
          else set_thread n (set_phase (Holding i a k) t) y
      | Holding i a k =>
          match guarded a (nth i (y_store y) empty_dict) with
          | Ok (x, d) =>
              mkSys (update_nth i (fun _ => d) (y_store y))
                    (update_nth n (fun _ => set_phase (Running (k x)) t) (y_threads y))
                    (y_poisoned y) (y_log y ++ [(n, i, a)])
          | Panic r =>
              mkSys (y_store y) (update_nth n (fun _ => set_phase (Dead r) t) (y_threads y))
                    (i :: y_poisoned y) (y_log y)
          end
      end
  end.
(** A schedule says which thread moves next. *)
Definition sched (l : list nat) (y : sys) : sys := fold_left (fun y n => tstep n y) l y.
(** Threads about to make their calls over these dictionaries. *)
Definition launch (st : list dict) (ts : list (ctx * list op)) : sys :=
  mkSys st (map (fun x => mkThread (fst x) (snd x) [] Idle) ts) [] [].
End Fine.
