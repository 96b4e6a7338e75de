(** Model of the observing part of /repo/src/capi.rs and of the observers of /repo/src/lib.rs
    as functions that may panic.  A C string pointer is [option str]: NULL is [None].
    Allocation and freeing are not modelled. *)
From Verif Require Import Str Keys Modes FormChanger DictTypes Dictionary CState Context.

(** std::ffi::CString::new: an error when the text contains NUL *)
Definition c_string (s : str) : option str := if existsb (N.eqb 0) s then None else Some s.
(** [CString::new(s).unwrap_or_default()] *)
Definition c_default (s : str) : str := match c_string s with Some t => t | None => [] end.
(** [CString::new(s).unwrap()] *)
Definition c_unwrap (s : str) : res str := match c_string s with Some t => Ok t | None => Panic PanicUnwrap end.
Definition c_opt_default (o : option str) : option str := option_map c_default o.
Definition c_opt_unwrap (o : option str) : res (option str) :=
  match o with Some s => rmap Some (c_unwrap s) | None => Ok None end.

(** lib.rs:1406-1408 current_state_ref: [expect] on an empty stack *)
Definition current_state_ref (w : world) : res cstate :=
  match x_stack (w_ctx w) with s :: _ => Ok s | [] => Panic PanicEmptyStack end.
(** lib.rs:335-348 *)
Definition get_current_input_mode (w : world) : res imode := rmap s_imode (current_state_ref w).
Definition get_current_composition_mode (w : world) : res cmode := rmap s_cmode (current_state_ref w).
(** lib.rs:201-207 *)
Definition get_current_to_composite (w : world) : res str :=
  rmap (fun s => ck_to (get_composite_key s)) (current_state_ref w).
(** lib.rs:218-220 *)
Definition get_current_candidate_count (w : world) : res N :=
  rmap (fun s => cl_len (s_list s)) (current_state_ref w).
(** lib.rs:231-236 *)
Definition get_current_candidates (w : world) : res (list candidate) :=
  rmap (fun s => cl_list (s_list s)) (current_state_ref w).
(** lib.rs:246-259; None is Err *)
Definition get_current_candidate_cursor_position (w : world) : res (option N) :=
  rmap (fun s => if cl_is_empty (s_list s) then None else Some (cl_cur (s_list s))) (current_state_ref w).

(** capi.rs:507-524 *)
Definition c_get_preedit (X : xkb) (w : world) : option str := c_string (get_preedit X (w_ctx w)).
(** capi.rs:854-866 *)
Definition c_get_current_to_composite (w : world) : res (option str) :=
  rmap c_string (get_current_to_composite w).
(** capi.rs:870-872: [as c_uint] *)
Definition c_get_current_candidate_count (w : world) : res N :=
  rmap (fun n => (n mod 2 ^ 32)%N) (get_current_candidate_count w).
(** capi.rs:946-960 *)
Definition c_get_current_candidate_cursor_position (w : world) : res Z :=
  rmap (fun o => match o with
                 | Some n => if (2 ^ 31 - 1 <? Z.of_N n)%Z then (-2)%Z else Z.of_N n
                 | None => (-1)%Z
                 end) (get_current_candidate_cursor_position w).
(** capi.rs:890-920: what is written to the buffer; None is the return value -1, otherwise the
    return value is the number of texts written.  Simplification: the partial contents of the
    buffer after a failure and the truncation of the count to c_int are left out. *)
Definition c_get_current_candidates (w : world) (buf_size offset : N) : res (option (list str)) :=
  rmap (fun cs =>
      fold_right (fun c acc => match c_string (c_output c), acc with
                               | Some t, Some l => Some (t :: l)
                               | _, _ => None
                               end) (Some []) (firstn (N.to_nat buf_size) (skipn (N.to_nat offset) cs)))
    (get_current_candidates w).
(** capi.rs:482-495 and lib.rs:93-98: the pointer returned (the empty text when there is
    nothing to poll) *)
Definition c_poll_output : M (option str) := fun w =>
  match poll_output w with
  | Ok (o, w') => Ok (c_string (match o with Some t => t | None => [] end), w')
  | Panic r => Panic r
  end.

(** capi.rs:656-686 *)
Definition convert_precomposition_data (conf kana : str) (okuri unconverted : option str)
  : res (str * str * option str * option str) :=
  rmap (fun u => (c_default conf, c_default kana, c_opt_default okuri, u)) (c_opt_unwrap unconverted).
(** capi.rs:562-654; the fields of the structures in the order of [state_info], a pointer being
    an option.  [okuri] of a completion is always NULL. *)
Definition convert_state_info (d : state_info) : res state_info :=
  match d with
  | SDirect c u => rmap (SDirect (c_default c)) (c_opt_unwrap u)
  | SPreComposition c k o u =>
      rmap (fun '(c', k', o', u') => SPreComposition c' k' o' u') (convert_precomposition_data c k o u)
  | SPreCompositionOkurigana c k o u =>
      rmap (fun '(c', k', o', u') => SPreCompositionOkurigana c' k' o' u') (convert_precomposition_data c k o u)
  | SRegister c k o p =>
      rmap (fun p' => SRegister (c_default c) (c_default k) (c_opt_default o) p') (c_opt_unwrap p)
  | SCompositionSelection c t o a =>
      rbind (c_unwrap c) (fun c' => rmap (fun t' =>
        SCompositionSelection c' t' (c_opt_default o) (c_opt_default a)) (c_unwrap t))
  | SComplete c origin m t _ a =>
      rbind (c_unwrap c) (fun c' => rbind (c_unwrap origin) (fun origin' =>
      rbind (c_unwrap m) (fun m' => rbind (c_unwrap t) (fun t' =>
      rmap (fun a' => SComplete c' origin' m' t' None a') (c_opt_unwrap a)))))
  end.
(** capi.rs:537-559 *)
Definition c_get_preedit_detail (X : xkb) (w : world) : res (list state_info) :=
  res_map convert_state_info (get_preedit_detail X (w_ctx w)).
