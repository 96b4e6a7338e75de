(** Several threads (Fine.v) while dictionaries are being saved and reloaded: lib.rs:731-765
    (CskkContext::save_dictionary, reload_dictionary) go over the dictionaries of a context one at a time,
    each under its own lock, so what the other threads see of such a call is, for one dictionary after
    another, one step at a moment when nobody else holds that lock.  Which thread makes the call does not
    matter: it only names the dictionaries.

    Simplifications: one such step is atomic (the lock is held from the first to the last system call, and
    no other file or dictionary is touched); the writing may fail at any point (SaveFs.v), the process is not
    killed in this model (that is C37); every dictionary has its own file (Life.v). *)
From Verif Require Import Str Keys Modes KanaBuilder FormChanger DictTypes Parser Lru Dictionary
  CState Context Spec SaveFs Life Fine.

(** The threads over their dictionaries and, for each dictionary, its file. *)
Record busy := mkB { b_sys : sys; b_files : list fs }.
(** Thread [n] moves; dictionary [i] is saved; dictionary [i] is reloaded. *)
Inductive event := Move (n : nat) | SaveDict (i : nat) | ReloadDict (i : nat).
Definition with_dict (i : nat) (d : dict) (y : sys) : sys :=
  mkSys (update_nth i (fun _ => d) (y_store y)) (y_threads y) (y_poisoned y) (y_log y).
(** The lock of dictionary [i] can be had: lib.rs:735, 753. *)
Definition can_lock (i : nat) (y : sys) : Prop := locked i y = false /\ ~ In i (y_poisoned y).
(** lib.rs:731-747, 749-765, one dictionary *)
Inductive happens (X : xkb) (dbg : bool) (enc : nat -> str -> bool) : event -> busy -> busy -> Prop :=
| hp_move n y fl : happens X dbg enc (Move n) (mkB y fl) (mkB (tstep X dbg n y) fl)
| hp_save i y fl d f d' f' : can_lock i y -> nth_error (y_store y) i = Some d -> nth_error fl i = Some f ->
    save_one (enc i) d f d' f' ->
    happens X dbg enc (SaveDict i) (mkB y fl) (mkB (with_dict i d' y) (update_nth i (fun _ => f') fl))
| hp_reload i y fl d f d' : can_lock i y -> nth_error (y_store y) i = Some d -> nth_error fl i = Some f ->
    reload_one d f d' -> happens X dbg enc (ReloadDict i) (mkB y fl) (mkB (with_dict i d' y) fl).
