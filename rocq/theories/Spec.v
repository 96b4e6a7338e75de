(** Vocabulary of the property statements about contexts: worlds a user can reach through
    the public API, and what the user can observe of them. *)
From Verif Require Import Str Keys Modes KanaBuilder FormChanger DictTypes Dictionary CState Context.

(** A freshly created context (skk_context_new / skk_context_new_empty) over some dictionaries. *)
Definition started (X : xkb) (w : world) : Prop :=
  exists st kf am ds i c,
    (exists r, w = mkW st (ctx_new X r kf am ds i c)) \/ w = mkW st (ctx_new_empty kf am ds i c).

(** Reached from a fresh context by some finite sequence of API calls. *)
Definition reachable (X : xkb) (dbg : bool) (w : world) : Prop :=
  exists w0 ops outs, started X w0 /\ run X dbg ops w0 = Ok (outs, w).

(** Observations (lib.rs:1406, 353-362, 328-350): the current frame, the outermost frame. *)
Definition current (w : world) : option cstate := hd_error (x_stack (w_ctx w)).
Definition outermost (w : world) : option cstate := hd_error (rev (x_stack (w_ctx w))).
Definition frames (w : world) : list cstate := x_stack (w_ctx w).
(** candidate count and cursor position shown to the user *)
Definition candidate_count (s : cstate) : N := N.of_nat (length (cl_list (s_list s))).
Definition cursor (s : cstate) : N := cl_cur (s_list s).

(** Dictionary number [i] of the store. *)
Definition dict_at (i : nat) (w : world) : option dict := nth_error (w_store w) i.
Definition read_only (d : dict) : Prop :=
  match d_kind d with DUser _ _ => False | _ => True end.

(** Pending keys that some key sequence of the conversion table starts with. *)
Definition completable (X : xkb) (r : rule) (u : list N) : Prop :=
  exists k v, In (k, v) (r_conversion r) /\ exists rest, keysyms_from_str X k = u ++ rest.

(** The confirmed text waiting in the outermost frame: what poll_output would return. *)
Definition confirmed_text (w : world) : str :=
  match outermost w with Some s => s_conf s | None => [] end.
(** The commands a rule binds, restricted. *)
Definition rule_avoids (bad : instr -> bool) (cr : command_rule) : Prop :=
  forall c i k l, In (k, l) (cr c i) -> forall x, In x l -> bad x = false.
(** The instructions a key event can run under a rule, in whatever mode. *)
Definition key_runs (cr : command_rule) (k : keyev) (x : instr) : Prop :=
  exists c i k' l, In (k', l) (cr c i) /\ key_eqb (command_key k) k' = true /\ In x l.
(** A plain key press (at most SHIFT held) that types the printable ASCII key [ch]. *)
Definition types (X : xkb) (k : keyev) (ch : N) : Prop :=
  (kmods k = M_NONE \/ kmods k = M_SHIFT) /\ (32 <= ksym k <= 126)%N /\ xk_char X (ksym k) = Some ch.
(** The rule binds no command to the key in these modes (SHIFT is ignored on capitals). *)
Definition unbound (cr : command_rule) (c : cmode) (i : imode) (k : keyev) : Prop :=
  forall k' l, In (k', l) (cr c i) -> k' <> command_key k.
(** The rule binds the key to the instruction list in these modes. *)
Definition bound (cr : command_rule) (c : cmode) (i : imode) (k : keyev) (l : list instr) : Prop :=
  assoc_key (command_key k) (cr c i) = Some l.
(** Input modes in which romaji becomes kana. *)
Definition kana_mode (i : imode) : Prop := i = Hiragana \/ i = Katakana \/ i = HankakuKatakana.
(** The world with another current frame / another stack; everything else the same. *)
Definition with_frames (l : list cstate) (w : world) : world :=
  mkW (w_store w) (mkCtx l (x_cmd (w_ctx w)) (x_kb (w_ctx w)) (x_kf (w_ctx w)) (x_am (w_ctx w))
                         (x_dicts (w_ctx w)) (x_cfg (w_ctx w))).
