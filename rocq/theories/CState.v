(** Model of /repo/src/candidate_list.rs and /repo/src/cskkstate.rs. *)
From Verif Require Import Str Keys Modes FormChanger DictTypes.

(* --------------------------------------------------------- candidate list *)
(** candidate_list.rs:6-13; the cursor is a usize. *)
Record clist := mkCL { cl_key : ckey; cl_cur : N; cl_list : list candidate }.
(** candidate_list.rs:16-22 *)
Definition cl_new : clist := mkCL (mkCK [] None) 0 [].
Definition cl_len (l : clist) : N := N.of_nat (length (cl_list l)).
(** candidate_list.rs:24-28 *)
Definition cl_set (k : ckey) (cs : list candidate) (_ : clist) : clist := mkCL k 0 cs.
(** candidate_list.rs:36-43 *)
Definition cl_set_pointer (i : N) (l : clist) : bool * clist :=
  if N.ltb i (cl_len l) then (true, mkCL (cl_key l) i (cl_list l)) else (false, l).
(** candidate_list.rs:53-63; None is Err *)
Definition cl_current (l : clist) : option candidate := nth_error (cl_list l) (N.to_nat (cl_cur l)).
(** candidate_list.rs:65-71: the cursor is len - added, never an underflow *)
Definition cl_add (cs : list candidate) (l : clist) : clist :=
  let all := cl_list l ++ cs in
  mkCL (cl_key l) (N.of_nat (length all) - N.of_nat (length cs)) all.
(** candidate_list.rs:77-79 *)
Definition cl_is_empty (l : clist) : bool := is_nil (cl_list l).
(** candidate_list.rs:81-83 *)
Definition cl_has_previous (l : clist) : bool := negb (N.eqb (cl_cur l) 0).
(** candidate_list.rs:85-87: [len - 1] underflows on an empty list *)
Definition cl_has_next (dbg : bool) (l : clist) : res bool :=
  rmap (fun m => negb (N.eqb (cl_cur l) m)) (usize_sub dbg (cl_len l) 1).
(** candidate_list.rs:89-97 *)
Definition cl_forward (dbg : bool) (l : clist) : res clist :=
  rbind (usize_sub dbg (cl_len l) 1) (fun m =>
    if N.ltb (cl_cur l) m
    then rmap (fun c => mkCL (cl_key l) c (cl_list l)) (usize_add dbg (cl_cur l) 1)
    else Ok l).
(** candidate_list.rs:99-107 *)
Definition cl_backward (l : clist) : clist :=
  if N.ltb 0 (cl_cur l) then mkCL (cl_key l) (cl_cur l - 1) (cl_list l) else l.
(** candidate_list.rs:109-113 *)
Definition cl_clear (_ : clist) : clist := cl_new.

(* ------------------------------------------------------------------ state *)
(** cskkstate.rs:15 *)
Definition HISTORY_MAX : nat := 20.
(** cskkstate.rs:22-51.  The history is oldest first. *)
Record cstate := mkSt {
  s_imode : imode; s_cmode : cmode; s_default : cmode; s_hist : list cmode;
  s_pre : list N; s_raw : str; s_comp : str; s_okuri : str; s_list : clist;
  s_cokuri : str; s_conf : str; s_cap : bool; s_use : bool }.

Definition set_imode v s := mkSt v (s_cmode s) (s_default s) (s_hist s) (s_pre s) (s_raw s)
  (s_comp s) (s_okuri s) (s_list s) (s_cokuri s) (s_conf s) (s_cap s) (s_use s).
Definition set_cmode v s := mkSt (s_imode s) v (s_default s) (s_hist s) (s_pre s) (s_raw s)
  (s_comp s) (s_okuri s) (s_list s) (s_cokuri s) (s_conf s) (s_cap s) (s_use s).
Definition set_hist v s := mkSt (s_imode s) (s_cmode s) (s_default s) v (s_pre s) (s_raw s)
  (s_comp s) (s_okuri s) (s_list s) (s_cokuri s) (s_conf s) (s_cap s) (s_use s).
Definition set_pre v s := mkSt (s_imode s) (s_cmode s) (s_default s) (s_hist s) v (s_raw s)
  (s_comp s) (s_okuri s) (s_list s) (s_cokuri s) (s_conf s) (s_cap s) (s_use s).
Definition set_raw v s := mkSt (s_imode s) (s_cmode s) (s_default s) (s_hist s) (s_pre s) v
  (s_comp s) (s_okuri s) (s_list s) (s_cokuri s) (s_conf s) (s_cap s) (s_use s).
Definition set_comp v s := mkSt (s_imode s) (s_cmode s) (s_default s) (s_hist s) (s_pre s)
  (s_raw s) v (s_okuri s) (s_list s) (s_cokuri s) (s_conf s) (s_cap s) (s_use s).
Definition set_okuri v s := mkSt (s_imode s) (s_cmode s) (s_default s) (s_hist s) (s_pre s)
  (s_raw s) (s_comp s) v (s_list s) (s_cokuri s) (s_conf s) (s_cap s) (s_use s).
Definition set_list v s := mkSt (s_imode s) (s_cmode s) (s_default s) (s_hist s) (s_pre s)
  (s_raw s) (s_comp s) (s_okuri s) v (s_cokuri s) (s_conf s) (s_cap s) (s_use s).
Definition set_cokuri v s := mkSt (s_imode s) (s_cmode s) (s_default s) (s_hist s) (s_pre s)
  (s_raw s) (s_comp s) (s_okuri s) (s_list s) v (s_conf s) (s_cap s) (s_use s).
Definition set_conf v s := mkSt (s_imode s) (s_cmode s) (s_default s) (s_hist s) (s_pre s)
  (s_raw s) (s_comp s) (s_okuri s) (s_list s) (s_cokuri s) v (s_cap s) (s_use s).
Definition set_cap v s := mkSt (s_imode s) (s_cmode s) (s_default s) (s_hist s) (s_pre s)
  (s_raw s) (s_comp s) (s_okuri s) (s_list s) (s_cokuri s) (s_conf s) v (s_use s).
Definition set_use v s := mkSt (s_imode s) (s_cmode s) (s_default s) (s_hist s) (s_pre s)
  (s_raw s) (s_comp s) (s_okuri s) (s_list s) (s_cokuri s) (s_conf s) (s_cap s) v.

(** cskkstate.rs:138-154 *)
Definition st_new (i : imode) (c : cmode) : cstate :=
  mkSt i c c [] [] [] [] [] cl_new [] [] false false.
(** cskkstate.rs:562-565 *)
Definition clear_candidate_list (s : cstate) : cstate :=
  set_cokuri [] (set_list (cl_clear (s_list s)) s).
(** cskkstate.rs:172-175 *)
Definition clear_preconverted (s : cstate) : cstate := set_cap false (set_pre [] s).
(** cskkstate.rs:178-184 *)
Definition clear_kanas (s : cstate) : cstate :=
  set_use false (set_okuri [] (set_comp [] (clear_preconverted s))).
(** cskkstate.rs:187-191 *)
Definition clear_unconfirmed (s : cstate) : cstate :=
  clear_kanas (clear_candidate_list (set_raw [] s)).
(** cskkstate.rs:194-198 *)
Definition clear_all (s : cstate) : cstate := set_hist [] (clear_unconfirmed (set_conf [] s)).
(** cskkstate.rs:201-203 *)
Definition flush_confirmed (s : cstate) : cstate := set_conf [] s.

(** cskkstate.rs:208-253 *)
Definition st_delete (s : cstate) : bool * cstate :=
  match s_cmode s with
  | Direct =>
      if negb (is_nil (s_pre s)) then (true, set_pre (str_pop (s_pre s)) s)
      else (negb (is_nil (s_conf s)), set_conf (str_pop (s_conf s)) s)
  | PreComposition | Abbreviation =>
      if negb (is_nil (s_pre s)) then (true, set_pre (str_pop (s_pre s)) s)
      else
        let s' := set_raw (str_pop (s_raw s)) (set_comp (str_pop (s_comp s)) s) in
        (true, if is_nil (s_comp s) then set_cmode Direct s' else s')
  | PreCompositionOkurigana =>
      let '(deleted, s') :=
        if negb (is_nil (s_pre s)) then (true, set_pre (str_pop (s_pre s)) s)
        else (negb (is_nil (s_okuri s)),
              set_raw (str_pop (s_raw s)) (set_okuri (str_pop (s_okuri s)) s)) in
      (deleted, if is_nil (s_pre s') && is_nil (s_okuri s') then set_cmode PreComposition s' else s')
  | _ => (false, s)
  end.

(** cskkstate.rs:262-294 *)
Definition push_string_for (w : str) (c : cmode) (s : cstate) : cstate :=
  match c with
  | Direct | CompositionSelection | Completion => set_conf (s_conf s ++ w) s
  | PreComposition | Abbreviation => set_raw (s_raw s ++ w) (set_comp (s_comp s ++ w) s)
  | PreCompositionOkurigana => set_use true (set_okuri (s_okuri s ++ w) s)
  | Register => s
  end.
(** cskkstate.rs:257-259 *)
Definition push_string (w : str) (s : cstate) : cstate := push_string_for w (s_cmode s) s.
(** cskkstate.rs:299-307 *)
Definition consolidate (s : cstate) : cstate :=
  set_use false (set_okuri []
    (set_raw (s_raw s ++ s_okuri s) (set_comp (s_comp s ++ s_okuri s) s))).
(** cskkstate.rs:310-313 *)
Definition set_converted_to_postfix (w : str) (s : cstate) : cstate :=
  set_use false (set_okuri w s).
(** cskkstate.rs:470-479 *)
Definition get_composite_key (s : cstate) : ckey :=
  if s_use s && negb (is_nil (s_okuri s)) then mkCK (s_raw s) (Some (s_okuri s))
  else mkCK (s_raw s) None.
(** VecDeque::pop_back *)
Definition abort_to_previous_mode (s : cstate) : cstate :=
  (* cskkstate.rs:489-500 *)
  match last_opt (s_hist s) with
  | Some PreCompositionOkurigana =>
      set_cmode PreComposition (consolidate (set_hist (removelast (s_hist s)) s))
  | Some m => set_cmode m (set_hist (removelast (s_hist s)) s)
  | None => set_cmode (s_default s) s
  end.
(** cskkstate.rs:504-507 *)
Definition reset_to_default (s : cstate) : cstate := set_cmode (s_default s) (set_hist [] s).
(** cskkstate.rs:520-530: push_back, then pop_front when longer than the maximum *)
Definition push_history (m : cmode) (h : list cmode) : list cmode :=
  let h' := h ++ [m] in
  if Nat.ltb HISTORY_MAX (length h') then tl h' else h'.
Definition change_from_old_mode (new old : cmode) (s : cstate) : cstate :=
  set_cmode new (set_hist (push_history old (s_hist s)) s).
(** cskkstate.rs:509-516 *)
Definition change_composition_mode (new : cmode) (s : cstate) : cstate :=
  change_from_old_mode new (s_cmode s) s.
(** cskkstate.rs:548-550 *)
Definition set_candidate_pointer (i : N) (s : cstate) : bool * cstate :=
  let '(b, l) := cl_set_pointer i (s_list s) in (b, set_list l s).
(** cskkstate.rs:554-560 *)
Definition add_new_candidates (cs : list candidate) (s : cstate) : cstate :=
  set_cokuri (s_okuri s) (set_list (cl_add cs (s_list s)) s).
(** cskkstate.rs:568-572 *)
Definition set_new_candidate_list (cs : list candidate) (s : cstate) : cstate :=
  set_cokuri (s_okuri s) (set_list (cl_set (get_composite_key s) cs (s_list s)) s).
(** cskkstate.rs:539-545 *)
Definition st_forward (dbg : bool) (s : cstate) : res cstate :=
  rmap (fun l => set_list l s) (cl_forward dbg (s_list s)).
Definition st_backward (s : cstate) : cstate := set_list (cl_backward (s_list s)) s.

(* ---------------------------------------------------------------- preedit *)
(** cskkstate.rs:58-135, CskkStateInfo and its data *)
Inductive state_info :=
| SDirect (confirmed : str) (unconverted : option str)
| SPreComposition (confirmed kana : str) (okuri unconverted : option str)
| SPreCompositionOkurigana (confirmed kana : str) (okuri unconverted : option str)
| SCompositionSelection (confirmed composited : str) (okuri annotation : option str)
| SRegister (confirmed kana : str) (okuri postfix : option str)
| SComplete (confirmed origin midashi completed : str) (okuri annotation : option str).

(** cskkstate.rs:378-388 *)
Definition unconverted_text (x : xkb) (s : cstate) : option str :=
  if is_nil (s_pre s) then None else Some (flat_map (xk_name x) (s_pre s)).
(** cskkstate.rs:373-467 *)
Definition preedit_detail (x : xkb) (kf : kana_form) (i : imode) (s : cstate) : state_info :=
  let unconverted := unconverted_text x s in
  let okuri := if is_nil (s_okuri s) then None else Some (adjust_kana_string kf i (s_okuri s)) in
  let kana := adjust_kana_string kf i (s_comp s) in
  let cand := match cl_current (s_list s) with Some c => c | None => default_candidate end in
  match s_cmode s with
  | Direct => SDirect (s_conf s) unconverted
  | PreComposition | Abbreviation => SPreComposition (s_conf s) kana okuri unconverted
  | PreCompositionOkurigana => SPreCompositionOkurigana (s_conf s) kana okuri unconverted
  | Register =>
      if s_use s then SRegister (s_conf s) kana okuri None
      else SRegister (s_conf s) kana None okuri
  | CompositionSelection => SCompositionSelection (s_conf s) (c_output cand) okuri (c_annot cand)
  | Completion => SComplete (s_conf s) (s_comp s) (c_midashi cand) (c_output cand) okuri (c_annot cand)
  end.
Definition odef (o : option str) : str := match o with Some s => s | None => [] end.
(** cskkstate.rs:317-368 *)
Definition render (d : state_info) : str :=
  match d with
  | SDirect c u => c ++ odef u
  | SPreComposition c k _ u => c ++ U "▽" ++ k ++ odef u
  | SPreCompositionOkurigana c k o u => c ++ U "▽" ++ k ++ U "*" ++ odef o ++ odef u
  | SCompositionSelection c t o _ => c ++ U "▼" ++ t ++ odef o
  | SRegister _ k (Some o) p => U "▼" ++ k ++ U "*" ++ o ++ odef p
  | SRegister _ k None p => U "▼" ++ k ++ odef p
  | SComplete c _ _ t o _ => c ++ U "■" ++ t ++ odef o
  end.
Definition preedit_string (x : xkb) (kf : kana_form) (i : imode) (s : cstate) : str :=
  render (preedit_detail x kf i s).
