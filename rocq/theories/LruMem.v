(** Model of the end of an LruOrderedMap's life (lru_ordered_map.rs:222-235): the struct has no [Drop] of
    its own, so dropping it drops its fields: the vector of keys and the hash map with the boxed nodes; the raw
    pointers to the two markers, which [new] made with [Box::into_raw] (lru_ordered_map.rs:241-254), are just
    forgotten.  A map is dropped when its dictionary is, and when the dictionary is reloaded
    (set_dictionary in user_dictionary.rs and static_dict.rs:64-67: the new maps are assigned over the old ones).

    Simplification: only nodes are counted; the reference-counted key texts go with the nodes, the vector and
    the hash map that own them. *)
From Verif Require Import Str Lru LruPtr DictTypes.

Section LruMem.
Context {V : Type}.
(** Freeing a Box; freeing what is not allocated is undefined behaviour ([None]). *)
Definition free_node (a : nat) (h : heap V) : option (heap V) := obind (h a) (fun _ => Some (hfree h a)).
Fixpoint free_nodes (l : list nat) (h : heap V) : option (heap V) :=
  match l with
  | [] => Some h
  | a :: r => obind (free_node a h) (free_nodes r)
  end.
(** Dropping the map: the nodes the hash map owns. *)
Definition ptr_drop (l : lru V) : option (heap V) := free_nodes (map snd (l_map l)) (l_heap l).
End LruMem.
