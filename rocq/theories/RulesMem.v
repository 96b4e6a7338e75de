(** The list of rules in the C API: skk_get_rules and skk_free_rules (capi.rs:27-56, 758-777,
    1052-1089).  Here allocations have contents and, for arrays, a capacity: what an allocation is
    given back as must be what it was allocated as (std: Vec::from_raw_parts, "capacity needs to be
    the capacity that the pointer was allocated with", and GlobalAlloc::dealloc, "layout must be
    the same layout"), anything else is undefined behaviour ([None]). *)
From Verif Require Import Str CApi.

(** capi.rs:27-32: three pointers *)
Record rule_ffi := mkRuleFfi { f_id : N; f_name : N; f_description : N }.
Inductive block := BText (s : str) | BRules (capacity : nat) (l : list rule_ffi).
Record rheap := mkRh { rh_next : N; rh_live : list (N * block) }.
Definition R (A : Type) := rheap -> option (A * rheap).
Definition rret {A} (a : A) : R A := fun h => Some (a, h).
Definition rthen {A B} (m : R A) (f : A -> R B) : R B := fun h =>
  match m h with Some (a, h') => f a h' | None => None end.
Definition ralloc (b : block) : R N := fun h =>
  Some (rh_next h, mkRh (N.succ (rh_next h)) ((rh_next h, b) :: rh_live h)).
Fixpoint take (a : N) (l : list (N * block)) : option (block * list (N * block)) :=
  match l with
  | [] => None
  | (x, b) :: r => if N.eqb a x then Some (b, r) else option_map (fun p => (fst p, (x, b) :: snd p)) (take a r)
  end.
(** CString::from_raw and drop: the length is that of the text found there *)
Definition free_text (a : N) : R unit := fun h =>
  match take a (rh_live h) with
  | Some (BText _, l) => Some (tt, mkRh (rh_next h) l)
  | _ => None
  end.
(** deallocation of the buffer of a Vec with this capacity (no buffer when it is zero) *)
Definition free_buffer (a : N) (capacity : nat) : R unit := fun h =>
  match capacity with
  | O => Some (tt, h)
  | _ => match take a (rh_live h) with
         | Some (BRules c _, l) => if Nat.eqb c capacity then Some (tt, mkRh (rh_next h) l) else None
         | _ => None
         end
  end.

(** capi.rs:34-46: the three conversions come first, an error drops what was made *)
Definition rules_ffi_new (r : str * str * str) : R (option rule_ffi) :=
  match c_string (fst (fst r)), c_string (snd (fst r)), c_string (snd r) with
  | Some i, Some n, Some d =>
      rthen (ralloc (BText i)) (fun i => rthen (ralloc (BText n)) (fun n =>
      rthen (ralloc (BText d)) (fun d => rret (Some (mkRuleFfi i n d)))))
  | _, _, _ => rret None
  end.
(** capi.rs:48-56 *)
Definition drop_rule (f : rule_ffi) : R unit :=
  rthen (free_text (f_id f)) (fun _ => rthen (free_text (f_name f)) (fun _ => free_text (f_description f))).
Fixpoint drop_rules (l : list rule_ffi) : R unit :=
  match l with [] => rret tt | f :: r => rthen (drop_rule f) (fun _ => drop_rules r) end.

(** A Vec of CskkRulesFfi: buffer (not meaningful for capacity 0), capacity, elements. *)
Record vec := mkVec { v_ptr : N; v_cap : nat; v_elems : list rule_ffi }.
Definition vec_new : vec := mkVec 0 0 [].
(** Vec::push: when full, reallocate to max(2*capacity, 4) elements
    (alloc::raw_vec, grow_amortized with MIN_NON_ZERO_CAP = 4 for elements of 24 bytes) *)
Definition grown (cap : nat) : nat := Nat.max (2 * cap) 4.
Definition vec_push (v : vec) (f : rule_ffi) : R vec :=
  if Nat.eqb (length (v_elems v)) (v_cap v) then
    rthen (free_buffer (v_ptr v) (v_cap v)) (fun _ =>
    rthen (ralloc (BRules (grown (v_cap v)) (v_elems v ++ [f]))) (fun a =>
    rret (mkVec a (grown (v_cap v)) (v_elems v ++ [f]))))
  else rthen (free_buffer (v_ptr v) (v_cap v)) (fun _ => fun h => (* write in place *)
    Some (mkVec (v_ptr v) (v_cap v) (v_elems v ++ [f]),
          mkRh (rh_next h) ((v_ptr v, BRules (v_cap v) (v_elems v ++ [f])) :: rh_live h))).
Definition vec_drop (v : vec) : R unit :=
  rthen (drop_rules (v_elems v)) (fun _ => free_buffer (v_ptr v) (v_cap v)).
(** capi.rs:1065-1068; false when [?] left the loop *)
Fixpoint push_rules (rs : list (str * str * str)) (v : vec) : R (bool * vec) :=
  match rs with
  | [] => rret (true, v)
  | r :: rest => rthen (rules_ffi_new r) (fun o =>
                 match o with
                 | None => rret (false, v)
                 | Some f => rthen (vec_push v f) (fun v => push_rules rest v)
                 end)
  end.
(** capi.rs:1058-1089: the pointer (NULL is None) and what is written to [length], if anything.
    [set_len] leaves the capacity alone.  [available] is get_available_rules. *)
Definition get_rules (available : option (list (str * str * str))) : R (option N * option nat) :=
  match available with
  | None => rret (None, None)
  | Some rs =>
      rthen (push_rules rs vec_new) (fun '(ok, v) =>
      if ok && N.ltb (N.of_nat (length rs)) (2 ^ 32) then
        if Nat.ltb 0 (length rs) then rret (Some (v_ptr v), Some (length rs))
        else rthen (vec_drop v) (fun _ => rret (None, Some (length rs)))
      else rthen (vec_drop v) (fun _ => rret (None, None)))
  end.
(** capi.rs:774-777: a null pointer is no pointer of a Vec *)
Definition free_rules (p : option N) (len : nat) : R unit :=
  match p with
  | None => fun _ => None
  | Some a => fun h =>
      match take a (rh_live h) with
      | Some (BRules _ l, _) =>
          if Nat.ltb (length l) len then None
          else rthen (drop_rules (firstn len l)) (fun _ => free_buffer a len) h
      | _ => None
      end
  end.
