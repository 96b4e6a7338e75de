(** Abstract view of /repo/src/dictionary/lru_ordered_map.rs: the recency list (most
    recently used first) of bindings with distinct keys.  LruPtr.v models the linked list,
    the sorted key vector and the hash map, and T_Lru.v proves that they refine this. *)
From Verif Require Import Str.

Definition lmap (V : Type) := list (str * V).
Definition lpeek {V} (k : str) (m : lmap V) : option V := assoc_str k m.
Definition lremove {V} (k : str) (m : lmap V) : lmap V :=
  filter (fun '(k', _) => negb (str_eqb k k')) m.
(** lru_ordered_map.rs:255-278, push *)
Definition lpush {V} (k : str) (v : V) (m : lmap V) : lmap V := (k, v) :: lremove k m.
(** lru_ordered_map.rs:282-298, get_mut followed by an update [f] of the value: moves the
    entry to the front; nothing happens when the key is absent. *)
Definition lupdate {V} (k : str) (f : V -> V) (m : lmap V) : lmap V :=
  match lpeek k m with
  | Some v => (k, f v) :: lremove k m
  | None => m
  end.
(** lru_ordered_map.rs:357-364, iter_lru *)
Definition liter_lru {V} (m : lmap V) : list (str * V) := m.
(** lru_ordered_map.rs:348-355, iter_sorted: by increasing key *)
Fixpoint linsert_sorted {V} (kv : str * V) (l : list (str * V)) : list (str * V) :=
  match l with
  | [] => [kv]
  | kv' :: r => if str_ltb (fst kv') (fst kv) then kv' :: linsert_sorted kv r else kv :: l
  end.
Definition liter_sorted {V} (m : lmap V) : list (str * V) := fold_right linsert_sorted [] m.
