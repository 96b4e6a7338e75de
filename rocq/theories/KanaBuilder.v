(** Model of /repo/src/kana_builder.rs and of the parts of sequence_trie 0.3.6 it uses. *)
From Verif Require Import Str Keys Modes.

(** SequenceTrie<Keysym, V>: a node has an optional value and children by key.
    The HashMap of children is an association list. *)
Inductive trie (V : Type) := Node (v : option V) (ch : list (N * trie V)).
Arguments Node {V} v ch.
Definition tempty {V} : trie V := Node None [].
Definition tvalue {V} (t : trie V) : option V := match t with Node v _ => v end.
Definition tchildren {V} (t : trie V) := match t with Node _ ch => ch end.
(** SequenceTrie::is_leaf: no children *)
Definition is_leaf {V} (t : trie V) : bool := is_nil (tchildren t).

(** SequenceTrie::get_node *)
Fixpoint get_node {V} (t : trie V) (k : list N) : option (trie V) :=
  match k with
  | [] => Some t
  | x :: r => match assoc_N x (tchildren t) with
              | Some t' => get_node t' r
              | None => None
              end
  end.
Fixpoint set_N {A} (k : N) (v : A) (l : list (N * A)) : list (N * A) :=
  match l with
  | [] => [(k, v)]
  | (k', v') :: r => if N.eqb k k' then (k, v) :: r else (k', v') :: set_N k v r
  end.
(** SequenceTrie::insert: walk the key, creating missing nodes, then set the value. *)
Fixpoint tinsert {V} (k : list N) (val : V) (t : trie V) : trie V :=
  match k with
  | [] => Node (Some val) (tchildren t)
  | x :: r =>
      let child := match assoc_N x (tchildren t) with Some c => c | None => tempty end in
      Node (tvalue t) (set_N x (tinsert r val child) (tchildren t))
  end.
(** SequenceTrie::get: value of the node *)
Definition tget {V} (t : trie V) (k : list N) : option V :=
  match get_node t k with Some n => tvalue n | None => None end.

(** kana_builder.rs:10-11, 21-23 *)
Definition kb := trie (str * list N).

(** kana_builder.rs:166-177, converter_from_hashmap; the iteration order of the HashMap is
    the order of the list. *)
Definition converter_from_map (x : xkb) (m : list (str * (str * str))) : kb :=
  fold_left (fun t '(k, (carry, conv)) =>
               tinsert (keysyms_from_str x k) (conv, keysyms_from_str x carry) t) m tempty.
(** kana_builder.rs:179-190 *)
Definition kb_new (x : xkb) (r : rule) : kb := converter_from_map x (r_conversion r).
Definition kb_empty : kb := tempty.

(** kana_builder.rs:57-59 *)
Definition convert_greedy (b : kb) (k : list N) : option (str * list N) := tget b k.
(** kana_builder.rs:62-69 *)
Definition convert_non_partial (b : kb) (k : list N) : option (str * list N) :=
  match get_node b k with
  | Some n => if is_leaf n then tvalue n else None
  | None => None
  end.
(** kana_builder.rs:74-93 *)
Definition convert_periods (c : N) (p : period_style) (cm : comma_style) : option str :=
  if N.eqb c 46 then Some (match p with PeriodJa => U "。" | PeriodEn => U "．" end)
  else if N.eqb c 44 then Some (match cm with CommaJa => U "、" | CommaEn => U "，" end)
  else None.
(** kana_builder.rs:120-126 *)
Definition uncapitalize (k : N) : N :=
  if N.leb KEY_A k && N.leb k KEY_Z then (k + 32)%N else k.
(** kana_builder.rs:100-105 *)
Definition combine_lower (k : keyev) (u : list N) : list N := u ++ [uncapitalize (ksym k)].
(** kana_builder.rs:112-117 *)
Definition combine_raw (k : keyev) (u : list N) : list N := u ++ [ksym k].
(** kana_builder.rs:132-164 *)
Definition can_continue (b : kb) (k : keyev) (u : list N) : bool :=
  match get_node b (combine_raw k u) with Some _ => true | None => false end.
Definition can_continue_lower (b : kb) (k : keyev) (u : list N) : bool :=
  match get_node b (combine_lower k u) with Some _ => true | None => false end.
(** kana_builder.rs:36-54 *)
Definition next_unprocessed_state (b : kb) (k : keyev) (u : list N) : list N :=
  if can_continue b k u then combine_raw k u
  else if can_continue_lower b k u then combine_lower k u
  else if can_continue b k [] then [ksym k]
  else [].
