(** Model of the functions of /repo/src/capi.rs that work on one context and take their arguments from C:
    numbers, and texts as bytes.  A C string is the list of its bytes before the NUL, a pointer that may be
    NULL an option.  Pointers that are neither NULL nor valid are not modelled; freeing is in CMem.v and
    Handles.v, observers in CApi.v. *)
From Verif Require Import Str Keys Modes KanaBuilder FormChanger DictTypes Dictionary CState Context CApi Encoding.

Definition bytes := list N.
Inductive text_call :=
| TKeyEvents (b : bytes)                                  (* skk_context_process_key_events *)
| TKeyEvent (keysym modifier : N) (is_release : bool)     (* skk_key_event_new_from_fcitx_keyevent, skk_context_process_key_event *)
| TPoll | TReset | TSetInputMode (i : imode)
| TSelectAt (i : Z) | TConfirmAt (i : N)
| TKeywords (l : list (option bytes))                     (* skk_context_set_auto_start_henkan_keywords *)
| TSetPeriod (p : period_style) | TSetComma (p : comma_style)
| TSetRule (b : bytes).                                   (* skk_context_set_rule *)
Inductive text_answer := ABool (b : bool) | AText (p : option str) | AInt (z : Z) | ANothing.
Inductive text_result := TDone (a : text_answer) (w : world) | TPanics | TUndefined.

(** CStr::to_str; [None] is Err *)
Definition to_str (b : bytes) : option str := utf8_read b.

Section CText.
Variable X : xkb.
Variable dbg : bool.
(** what CskkRuleMetadata::load_metadata and load_rule find (Setup.v); [None] is Err *)
Variable find_rule : str -> res (option rule).

(** a call of Context.v, its answer turned into one of C *)
Definition through (o : op) (f : out -> text_answer) (w : world) : text_result :=
  match exec X dbg o w with Ok (x, w') => TDone (f x) w' | Panic _ => TPanics end.
Definition as_bool (o : out) : text_answer := ABool (match o with OutBool b => b | _ => false end).
Definition as_nothing (_ : out) : text_answer := ANothing.
(** lib.rs:1449-1458 (process_key_events): true whatever the keys did *)
Fixpoint press (ks : list keyev) (w : world) : res world :=
  match ks with
  | [] => Ok w
  | k :: r => match exec X dbg (OKey k) w with Ok (_, w1) => press r w1 | Panic e => Panic e end
  end.
(** capi.rs:995-1000: keywords that are not UTF-8 are left out; a NULL is given to CStr::from_ptr, which
    is undefined behaviour ([None]) *)
Fixpoint keywords (l : list (option bytes)) : option (list str) :=
  match l with
  | [] => Some []
  | None :: _ => None
  | Some b :: r => match keywords r with
                   | Some ts => Some (match to_str b with Some t => t :: ts | None => ts end)
                   | None => None
                   end
  end.

Definition text_step (k : text_call) (w : world) : text_result :=
  match k with
  (* capi.rs:436-450, lib.rs:1444-1446: the unwrap of a text that is no key sequence *)
  | TKeyEvents b =>
      match to_str b with
      | None => TDone (ABool false) w
      | Some t => match deserialize_seq X t with
                  | Ok (Some ks) => match press ks w with Ok w' => TDone (ABool true) w' | Panic _ => TPanics end
                  | Ok None | Panic _ => TPanics
                  end
      end
  (* capi.rs:828-836, 463-469 *)
  | TKeyEvent s m r => through (OKey (from_fcitx_keyevent s m r)) as_bool w
  (* capi.rs:482-495 *)
  | TPoll => match c_poll_output w with Ok (p, w') => TDone (AText p) w' | Panic _ => TPanics end
  (* capi.rs:842-844 *)
  | TReset => through OReset as_nothing w
  (* capi.rs:385-387 *)
  | TSetInputMode i => through (OSetInputMode i) as_nothing w
  (* capi.rs:966-968 *)
  | TSelectAt i => through (OSelectAt i) as_bool w
  (* capi.rs:975-977 *)
  | TConfirmAt i => through (OConfirmAt i) as_bool w
  (* capi.rs:985-1003: what is compared with NULL is the first keyword *)
  | TKeywords [] | TKeywords (None :: _) => through (OSetAutoStart []) as_nothing w
  | TKeywords l => match keywords l with
                   | Some ts => through (OSetAutoStart ts) as_nothing w
                   | None => TUndefined
                   end
  (* capi.rs:1009-1022 *)
  | TSetPeriod p => through (OSetPeriod p) as_nothing w
  | TSetComma p => through (OSetComma p) as_nothing w
  (* capi.rs:413-430 *)
  | TSetRule b =>
      match to_str b with
      | None => TDone (AInt (-1)) w
      | Some id => match find_rule id with
                   | Ok (Some r) => through (OSetRule r) (fun _ => AInt 0) w
                   | Ok None => TDone (AInt (-1)) w
                   | Panic _ => TPanics
                   end
      end
  end.
Inductive text_run_result := TAll (l : list text_answer) (w : world) | TRunPanics | TRunUndefined.
Fixpoint text_run (ks : list text_call) (w : world) : text_run_result :=
  match ks with
  | [] => TAll [] w
  | k :: r => match text_step k w with
              | TDone a w1 => match text_run r w1 with TAll l w2 => TAll (a :: l) w2 | x => x end
              | TPanics => TRunPanics
              | TUndefined => TRunUndefined
              end
  end.
End CText.
