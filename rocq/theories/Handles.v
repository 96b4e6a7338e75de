(** Model of the life of dictionaries and contexts in /repo/src/capi.rs.  A dictionary handle is a
    Box around an [Arc<CskkDictionary>] (capi.rs:24-26), a context owns a [Vec<Arc<CskkDictionary>>]
    (lib.rs:84, 767-769).  An Arc is a number, its strong count is explicit, its contents are the
    dictionary of that number in the store; a count that would go below zero, or the use of an Arc
    whose count is zero or of a Box that is not live, is undefined behaviour.
    When the count reaches zero the dictionary is destroyed: from then on its place holds [junk],
    anything at all.
    Simplifications: addresses are never used twice, the count does not overflow. *)
From Verif Require Import Str Keys Modes KanaBuilder FormChanger DictTypes Dictionary CState Context CMem.

Record shared := mkShared {
  g_store : list dict;          (* what the Arcs point to *)
  g_count : list nat;           (* their strong counts *)
  g_boxes : list (N * nat);     (* live dictionary handles, and their Arc *)
  g_ctxs : list (N * ctx);      (* live contexts *)
  g_next : N }.
Definition no_handles : shared := mkShared [] [] [] [] 0.

(** Arc::clone and the drop of an Arc *)
Definition arc_count (s : shared) (i : nat) : nat := nth i (g_count s) 0.
Definition set_count (c : list nat) (s : shared) : shared :=
  mkShared (g_store s) c (g_boxes s) (g_ctxs s) (g_next s).
Definition arc_clone (i : nat) (s : shared) : option shared :=
  if Nat.eqb (arc_count s i) 0 then None else Some (set_count (update_nth i S (g_count s)) s).
Definition arc_drop (junk : dict) (i : nat) (s : shared) : option shared :=
  match arc_count s i with
  | 0 => None
  | 1 => Some (mkShared (update_nth i (fun _ => junk) (g_store s)) (update_nth i pred (g_count s))
                        (g_boxes s) (g_ctxs s) (g_next s))
  | _ => Some (set_count (update_nth i pred (g_count s)) s)
  end.
(** the same for every element of a Vec of Arcs *)
Fixpoint each_arc (f : nat -> shared -> option shared) (l : list nat) (s : shared) : option shared :=
  match l with
  | [] => Some s
  | i :: r => match f i s with Some s1 => each_arc f r s1 | None => None end
  end.

Definition lookup {A} (a : N) (l : list (N * A)) : option A :=
  option_map snd (find (fun p => N.eqb a (fst p)) l).
Definition without {A} (a : N) (l : list (N * A)) : list (N * A) :=
  filter (fun p => negb (N.eqb a (fst p))) l.

(** capi.rs:1105-1110: the Box is taken, its Arc cloned, the Box given back; an element that is not a
    live handle is undefined behaviour *)
Fixpoint clone_boxes (hs : list N) (s : shared) : option (list nat * shared) :=
  match hs with
  | [] => Some ([], s)
  | h :: r =>
      match lookup h (g_boxes s) with
      | None => None
      | Some i => match arc_clone i s with
                  | None => None
                  | Some s1 => match clone_boxes r s1 with
                               | Some (l, s2) => Some (i :: l, s2)
                               | None => None
                               end
                  end
      end
  end.
Fixpoint no_nulls (hs : list ptr) : option (list N) :=
  match hs with
  | [] => Some []
  | None :: _ => None
  | Some a :: r => option_map (cons a) (no_nulls r)
  end.
(** capi.rs:1094-1112 (dictionaries_from_c_repr).  [dictionary_array] is a reference to the first
    pointer of the array, so what line 1099 compares with NULL is the first element; a NULL further on is
    given to [Box::from_raw], which is undefined behaviour. *)
Definition dictionaries_from_c_repr (hs : list ptr) (s : shared) : option (list nat * shared) :=
  match hs with
  | [] | None :: _ => Some ([], s)
  | Some _ :: _ => match no_nulls hs with Some l => clone_boxes l s | None => None end
  end.

(** Box::into_raw(Box::new(..)) *)
Definition give_box (i : nat) (s : shared) : N * shared :=
  (g_next s, mkShared (g_store s) (g_count s) ((g_next s, i) :: g_boxes s) (g_ctxs s) (N.succ (g_next s))).
Definition give_ctx (c : ctx) (s : shared) : N * shared :=
  (g_next s, mkShared (g_store s) (g_count s) (g_boxes s) ((g_next s, c) :: g_ctxs s) (N.succ (g_next s))).
Definition set_ctx (a : N) (c : ctx) (st : list dict) (s : shared) : shared :=
  mkShared st (g_count s) (g_boxes s) (map (fun p => if N.eqb a (fst p) then (a, c) else p) (g_ctxs s)) (g_next s).

(** The calls.  What depends on files is part of the call: the dictionary that was loaded, the rule
    that was found. *)
Inductive ccall :=
| CDictNew (d : option dict)                               (* skk_file_dict_new, skk_user_dict_new, skk_empty_dict_new *)
| CContextNew (r : option rule) (kf : kana_form) (am : ascii_map) (hs : list ptr)        (* skk_context_new *)
| CContextFallback (r : option rule) (kf : kana_form) (am : ascii_map) (hs : list ptr)   (* .._new_with_empty_fallback *)
| CSetDictionaries (c : N) (hs : list ptr)                   (* skk_context_set_dictionaries *)
| CUse (c : N) (o : op)                                    (* the calls that work on one context *)
| CFreeDictionary (p : ptr) | CFreeContext (p : ptr).
Inductive canswer := APtr (p : ptr) | AOut (o : out) | AUnit.
Inductive coutcome := CDone (a : canswer) (s : shared) | CPanics | CUndefined.

Section Handles.
Variable X : xkb.
Variable dbg : bool.
Variable junk : dict.
(** a function with a context whose Arcs are all alive; anything else is undefined *)
Definition alive (s : shared) (l : list nat) : bool := forallb (fun i => negb (Nat.eqb (arc_count s i) 0)) l.

Definition ccall_step (k : ccall) (s : shared) : coutcome :=
  match k with
  (* capi.rs:305-378 *)
  | CDictNew None => CDone (APtr None) s
  | CDictNew (Some d) =>
      let s1 := mkShared (g_store s ++ [d]) (g_count s ++ [1]) (g_boxes s) (g_ctxs s) (g_next s) in
      let '(a, s2) := give_box (length (g_store s)) s1 in CDone (APtr (Some a)) s2
  (* capi.rs:253-266, lib.rs:1489-1510: on an error the Vec is dropped *)
  | CContextNew r kf am hs =>
      match dictionaries_from_c_repr hs s with
      | None => CUndefined
      | Some (v, s1) =>
          match r with
          | Some r => let '(a, s2) := give_ctx (ctx_new X r kf am v Hiragana Direct) s1 in CDone (APtr (Some a)) s2
          | None => match each_arc (arc_drop junk) v s1 with Some s2 => CDone (APtr None) s2 | None => CUndefined end
          end
      end
  (* capi.rs:280-294, lib.rs:1515-1525: [new] gets a clone of the Vec; the clone is dropped when it
     fails, the original when it does not *)
  | CContextFallback r kf am hs =>
      match dictionaries_from_c_repr hs s with
      | None => CUndefined
      | Some (v, s1) =>
          match each_arc arc_clone v s1 with
          | None => CUndefined
          | Some s2 =>
              match each_arc (arc_drop junk) v s2 with
              | None => CUndefined
              | Some s3 =>
                  let c := match r with
                           | Some r => ctx_new X r kf am v Hiragana Direct
                           | None => ctx_new_empty kf am v Hiragana Direct
                           end in
                  let '(a, s4) := give_ctx c s3 in CDone (APtr (Some a)) s4
              end
          end
      end
  (* capi.rs:809-816, lib.rs:767-769: the old Vec is dropped after the new one is in place *)
  | CSetDictionaries a hs =>
      match lookup a (g_ctxs s) with
      | None => CUndefined
      | Some c =>
          match dictionaries_from_c_repr hs s with
          | None => CUndefined
          | Some (v, s1) =>
              match exec X dbg (OSetDictionaries v) (mkW (g_store s1) c) with
              | Ok (_, w) => match each_arc (arc_drop junk) (x_dicts c) (set_ctx a (w_ctx w) (w_store w) s1) with
                             | Some s2 => CDone AUnit s2
                             | None => CUndefined
                             end
              | Panic _ => CPanics
              end
          end
      end
  (* the functions with a [&mut CskkContext] *)
  | CUse a o =>
      match lookup a (g_ctxs s) with
      | None => CUndefined
      | Some c =>
          if alive s (x_dicts c) then
            match exec X dbg o (mkW (g_store s) c) with
            | Ok (x, w) => CDone (AOut x) (set_ctx a (w_ctx w) (w_store w) s)
            | Panic _ => CPanics
            end
          else CUndefined
      end
  (* capi.rs:760-765 *)
  | CFreeDictionary None => CDone AUnit s
  | CFreeDictionary (Some a) =>
      match lookup a (g_boxes s) with
      | None => CUndefined
      | Some i => match arc_drop junk i (mkShared (g_store s) (g_count s) (without a (g_boxes s)) (g_ctxs s) (g_next s)) with
                  | Some s1 => CDone AUnit s1
                  | None => CUndefined
                  end
      end
  (* capi.rs:745-750 *)
  | CFreeContext None => CDone AUnit s
  | CFreeContext (Some a) =>
      match lookup a (g_ctxs s) with
      | None => CUndefined
      | Some c => match each_arc (arc_drop junk) (x_dicts c)
                          (mkShared (g_store s) (g_count s) (g_boxes s) (without a (g_ctxs s)) (g_next s)) with
                  | Some s1 => CDone AUnit s1
                  | None => CUndefined
                  end
      end
  end.
Inductive cresult := RDone (l : list canswer) (s : shared) | RPanics | RUndefined.
Fixpoint ccalls (ks : list ccall) (s : shared) : cresult :=
  match ks with
  | [] => RDone [] s
  | k :: r => match ccall_step k s with
              | CDone a s1 => match ccalls r s1 with RDone l s2 => RDone (a :: l) s2 | x => x end
              | CPanics => RPanics
              | CUndefined => RUndefined
              end
  end.
End Handles.
