(** Model of /repo/src/dictionary/lru_ordered_map.rs with its heap: nodes linked by raw
    pointers, a vector of sorted keys and a hash map from keys to nodes.  Lru.v is the
    abstract view; T_Lru.v proves that this refines it.

    Keys are [String]s (the only instance used, file_dictionary.rs:11-14); values are of any
    type.  An address is a [nat]; 0 is the null pointer.  A dereference of an address that is
    not allocated is undefined behaviour: the operation is then [None].  The Box of a node
    does not move when it is put into the hash map. *)
From Verif Require Import Str Lru DictTypes.

Section LruPtr.
Context {V : Type}.

(** lru_ordered_map.rs:8-16 *)
Record node := mkNode { n_key : option str; n_val : option V; n_prev : nat; n_next : nat }.
Definition heap := nat -> option node.
(** lru_ordered_map.rs:222-235 *)
Record lru := mkLru { l_heap : heap; l_fresh : nat; l_keys : list str;
                      l_head : nat; l_tail : nat; l_map : list (str * nat) }.

Definition hset (h : heap) (a : nat) (n : node) : heap := fun b => if Nat.eqb b a then Some n else h b.
Definition hfree (h : heap) (a : nat) : heap := fun b => if Nat.eqb b a then None else h b.
Definition obind {A B} (o : option A) (f : A -> option B) : option B :=
  match o with Some a => f a | None => None end.

(** Writing one field through a pointer. *)
Definition set_next (a q : nat) (h : heap) : option heap :=
  obind (h a) (fun n => Some (hset h a (mkNode (n_key n) (n_val n) (n_prev n) q))).
Definition set_prev (a p : nat) (h : heap) : option heap :=
  obind (h a) (fun n => Some (hset h a (mkNode (n_key n) (n_val n) p (n_next n)))).
Definition set_val (a : nat) (v : option V) (h : heap) : option heap :=
  obind (h a) (fun n => Some (hset h a (mkNode (n_key n) v (n_prev n) (n_next n)))).

(** lru_ordered_map.rs:18-26 and 241-254, new: the two markers at addresses 1 and 2 *)
Definition lru_new : lru :=
  let h := hset (hset (fun _ => None) 1 (mkNode None None 0 2)) 2 (mkNode None None 1 0) in
  mkLru h 3 [] 1 2 [].

(** lru_ordered_map.rs:366-371, detach *)
Definition detach (a : nat) (h : heap) : option heap :=
  obind (h a) (fun n => obind (set_next (n_prev n) (n_next n) h) (fun h1 =>
  obind (h1 a) (fun n1 => set_prev (n_next n1) (n_prev n1) h1))).
(** lru_ordered_map.rs:373-380, attach *)
Definition attach (head a : nat) (h : heap) : option heap :=
  obind (h head) (fun n => obind (set_next a (n_next n) h) (fun h1 =>
  obind (set_prev a head h1) (fun h2 =>
  obind (set_next head a h2) (fun h3 =>
  obind (h3 a) (fun n3 => set_prev (n_next n3) a h3))))).

(** [keys.partition_point(|x| x < k)] on the sorted vector: the number of smaller keys;
    [keys.insert(idx, k)]. *)
Fixpoint partition_point (k : str) (l : list str) : nat :=
  match l with
  | [] => 0
  | x :: r => if str_ltb x k then S (partition_point k r) else 0
  end.
Definition insert_at {A} (i : nat) (x : A) (l : list A) : list A := firstn i l ++ x :: skipn i l.

Definition map_remove (k : str) (m : list (str * nat)) : list (str * nat) :=
  filter (fun e => negb (str_eqb k (fst e))) m.

(** lru_ordered_map.rs:256-279, push *)
Definition ptr_push (k : str) (v : V) (l : lru) : option lru :=
  match assoc_str k (l_map l) with
  | Some a =>
      obind (set_val a (Some v) (l_heap l)) (fun h1 =>
      obind (detach a h1) (fun h2 =>
      obind (attach (l_head l) a h2) (fun h3 =>
      Some (mkLru h3 (l_fresh l) (l_keys l) (l_head l) (l_tail l) (l_map l)))))
  | None =>
      let a := l_fresh l in
      obind (attach (l_head l) a (hset (l_heap l) a (mkNode (Some k) (Some v) 0 0))) (fun h1 =>
      Some (mkLru h1 (S a) (insert_at (partition_point k (l_keys l)) k (l_keys l))
                  (l_head l) (l_tail l) ((k, a) :: l_map l)))
  end.
(** lru_ordered_map.rs:283-300 and 305-318, get_mut followed by an update of the value, and
    get (update by the identity); the result is the value before. *)
Definition ptr_get_mut (k : str) (f : V -> V) (l : lru) : option (option V * lru) :=
  match assoc_str k (l_map l) with
  | Some a =>
      obind (detach a (l_heap l)) (fun h1 =>
      obind (attach (l_head l) a h1) (fun h2 =>
      obind (h2 a) (fun n =>
      obind (set_val a (option_map f (n_val n)) h2) (fun h3 =>
      Some (n_val n, mkLru h3 (l_fresh l) (l_keys l) (l_head l) (l_tail l) (l_map l))))))
  | None => Some (None, l)
  end.
(** lru_ordered_map.rs:322-328, peek *)
Definition ptr_peek (k : str) (l : lru) : option (option V) :=
  match assoc_str k (l_map l) with
  | Some a => obind (l_heap l a) (fun n => Some (n_val n))
  | None => Some None
  end.
(** lru_ordered_map.rs:333-346, remove; [binary_search_by] on the sorted vector of distinct
    keys finds the key if it is there.  The node is dropped at the end. *)
Definition ptr_remove (k : str) (l : lru) : option (option V * lru) :=
  match assoc_str k (l_map l) with
  | Some a =>
      obind (detach a (l_heap l)) (fun h1 =>
      obind (h1 a) (fun n =>
      let keys := match position (str_eqb k) (l_keys l) with
                  | Some i => remove_nth i (l_keys l)
                  | None => l_keys l
                  end in
      Some (n_val n, mkLru (hfree h1 a) (l_fresh l) keys (l_head l) (l_tail l) (map_remove k (l_map l)))))
  | None => Some (None, l)
  end.

(** lru_ordered_map.rs:54-69 and 357-364: [len] = number of keys steps from head.next *)
Fixpoint walk (len : nat) (a : nat) (h : heap) : option (list (option str * option V)) :=
  match len with
  | O => Some []
  | S n => obind (h a) (fun nd => obind (walk n (n_next nd) h) (fun r => Some ((n_key nd, n_val nd) :: r)))
  end.
Definition ptr_iter_lru (l : lru) : option (list (option str * option V)) :=
  obind (l_heap l (l_head l)) (fun n => walk (length (l_keys l)) (n_next n) (l_heap l)).
(** lru_ordered_map.rs:72-87, next_back of the recency iterator: it hands out the element at
    the front pointer (and moves the back pointer). *)
Fixpoint walk_back (len : nat) (a e : nat) (h : heap) : option (list (option str * option V)) :=
  match len with
  | O => Some []
  | S n => obind (h a) (fun nd => obind (h e) (fun ne =>
           obind (walk_back n a (n_prev ne) h) (fun r => Some ((n_key nd, n_val nd) :: r))))
  end.
Definition ptr_iter_lru_back (l : lru) : option (list (option str * option V)) :=
  obind (l_heap l (l_head l)) (fun n => obind (l_heap l (l_tail l)) (fun t =>
  walk_back (length (l_keys l)) (n_next n) (n_prev t) (l_heap l))).
(** lru_ordered_map.rs:166-179 and 348-355, iter_sorted.  A key without a node would end the
    iteration (and fail a debug assertion). *)
Fixpoint sorted_from (keys : list str) (l : lru) : option (list (option str * option V)) :=
  match keys with
  | [] => Some []
  | k :: r => match assoc_str k (l_map l) with
              | None => Some []
              | Some a => obind (l_heap l a) (fun nd =>
                          obind (sorted_from r l) (fun rest => Some ((n_key nd, n_val nd) :: rest)))
              end
  end.
Definition ptr_iter_sorted (l : lru) : option (list (option str * option V)) := sorted_from (l_keys l) l.
(** lru_ordered_map.rs:193-206, next_back of the sorted iterator: [key_vec.get(end).unwrap()]
    with [end] = the length: the first call panics on a non-empty map ([None]). *)
Definition ptr_iter_sorted_back_first (l : lru) : res (option str) :=
  if Nat.ltb 0 (length (l_keys l)) then
    match nth_error (l_keys l) (length (l_keys l)) with
    | Some k => Ok (Some k)
    | None => Panic PanicUnwrap
    end
  else Ok None.
End LruPtr.
Arguments node : clear implicits.
Arguments lru : clear implicits.
Arguments heap : clear implicits.
