(** Several contexts over shared dictionaries.  In the code a dictionary is an
    [Arc<CskkDictionary>] with a lock (dictionary/mod.rs:37-52, 70-104) and may be given to any
    number of contexts (lib.rs:767-769, set_dictionaries).
    Simplification: one API call of one context is one step, so schedules interleave whole
    calls, not the single dictionary accesses inside a call. *)
From Verif Require Import Str Keys Modes KanaBuilder FormChanger DictTypes Dictionary CState Context.

Record multi := mkMulti { m_store : list dict; m_ctxs : list ctx }.
Section Multi.
Variable X : xkb.
Variable dbg : bool.
(** Context number [i] performs [o]. *)
Definition mstep (i : nat) (o : op) (m : multi) : res (out * multi) :=
  match nth_error (m_ctxs m) i with
  | None => Ok (OutUnit, m)
  | Some c => match exec X dbg o (mkW (m_store m) c) with
              | Ok (x, w) => Ok (x, mkMulti (w_store w) (update_nth i (fun _ => w_ctx w) (m_ctxs m)))
              | Panic e => Panic e
              end
  end.
(** A schedule; the trace tells who did what with what answer. *)
Fixpoint mrun (sched : list (nat * op)) (m : multi) : res (list (nat * op * out) * multi) :=
  match sched with
  | [] => Ok ([], m)
  | (i, o) :: r => rbind (mstep i o m) (fun '(x, m1) =>
                   rmap (fun '(t, m2) => ((i, o, x) :: t, m2)) (mrun r m1))
  end.
End Multi.
