(** Model of the ownership of memory in /repo/src/capi.rs.  The heap is the set of allocations
    handed out with [into_raw] (or a forgotten [Vec]) and not yet taken back; an address is a
    number that is never used twice.  Taking back an address that is not live is undefined
    behaviour ([None]).  The contents of the allocations are those of CApi.v and are left out
    here; a [Vec] given away is taken to have capacity equal to its length (capi.rs:548-549). *)
From Verif Require Import Str Keys Modes FormChanger DictTypes Dictionary CState Context CApi.

Record heap := mkHeap { h_next : N; h_live : list N }.
Definition empty_heap : heap := mkHeap 0 [].
Definition H (A : Type) := heap -> option (A * heap).
Definition hret {A} (a : A) : H A := fun h => Some (a, h).
Definition hbind {A B} (m : H A) (f : A -> H B) : H B := fun h =>
  match m h with Some (a, h') => f a h' | None => None end.
(** CString::into_raw, Box::into_raw, a Vec in ManuallyDrop *)
Definition halloc : H N := fun h => Some (h_next h, mkHeap (N.succ (h_next h)) (h_next h :: h_live h)).
(** CString::from_raw, Box::from_raw, Vec::from_raw_parts, then drop *)
Fixpoint remove_one (a : N) (l : list N) : option (list N) :=
  match l with
  | [] => None
  | x :: r => if N.eqb a x then Some r else option_map (cons x) (remove_one a r)
  end.
Definition hfree (a : N) : H unit := fun h =>
  match remove_one a (h_live h) with
  | Some l => Some (tt, mkHeap (h_next h) l)
  | None => None
  end.
(** a pointer: NULL is None *)
Definition ptr := option N.
(** NULL or a fresh string *)
Definition hptr (o : option str) : H ptr :=
  match o with Some _ => hbind halloc (fun a => hret (Some a)) | None => hret None end.
(** [if !p.is_null() { drop(CString::from_raw(p)) }] *)
Definition hdrop (p : ptr) : H unit := match p with Some a => hfree a | None => hret tt end.
Fixpoint hseq {A} (f : A -> H unit) (l : list A) : H unit :=
  match l with [] => hret tt | x :: r => hbind (f x) (fun _ => hseq f r) end.
Fixpoint hmap {A B} (f : A -> H B) (l : list A) : H (list B) :=
  match l with
  | [] => hret []
  | x :: r => hbind (f x) (fun y => hbind (hmap f r) (fun ys => hret (y :: ys)))
  end.

(** capi.rs:62-231, the structures *)
Inductive ffi :=
| FDirect (confirmed unconverted : ptr)
| FPreComposition (confirmed kana okuri unconverted : ptr)
| FPreCompositionOkurigana (confirmed kana okuri unconverted : ptr)
| FCompositionSelection (confirmed composited okuri annotation : ptr)
| FRegister (confirmed kana okuri postfix : ptr)
| FComplete (confirmed origin origin_okuri midashi completed okuri annotation : ptr).
(** capi.rs:562-686: the allocations made for the texts of CApi.convert_state_info *)
Definition to_ffi (d : state_info) : H ffi :=
  match d with
  | SDirect c u => hbind (hptr (Some c)) (fun c => hbind (hptr u) (fun u => hret (FDirect c u)))
  | SPreComposition c k o u =>
      hbind (hptr (Some c)) (fun c => hbind (hptr (Some k)) (fun k => hbind (hptr o) (fun o =>
      hbind (hptr u) (fun u => hret (FPreComposition c k o u)))))
  | SPreCompositionOkurigana c k o u =>
      hbind (hptr (Some c)) (fun c => hbind (hptr (Some k)) (fun k => hbind (hptr o) (fun o =>
      hbind (hptr u) (fun u => hret (FPreCompositionOkurigana c k o u)))))
  | SRegister c k o p =>
      hbind (hptr (Some c)) (fun c => hbind (hptr (Some k)) (fun k => hbind (hptr o) (fun o =>
      hbind (hptr p) (fun p => hret (FRegister c k o p)))))
  | SCompositionSelection c t o a =>
      hbind (hptr (Some c)) (fun c => hbind (hptr (Some t)) (fun t => hbind (hptr o) (fun o =>
      hbind (hptr a) (fun a => hret (FCompositionSelection c t o a)))))
  | SComplete c origin m t _ a =>
      hbind (hptr (Some c)) (fun c => hbind (hptr (Some origin)) (fun origin => hbind (hptr (Some m)) (fun m =>
      hbind (hptr (Some t)) (fun t => hbind (hptr a) (fun a =>
      hret (FComplete c origin None m t None a))))))
  end.
(** The Drop instances, capi.rs:83-94, 108-125, 147-164, 179-196, 215-238.
    The one of CompleteDataFfi does not drop [completed_midashi]. *)
Definition drop_ffi (f : ffi) : H unit :=
  match f with
  | FDirect c u => hseq hdrop [c; u]
  | FPreComposition c k o u | FPreCompositionOkurigana c k o u => hseq hdrop [c; k; o; u]
  | FCompositionSelection c t o a => hseq hdrop [c; t; o; a]
  | FRegister c k o p => hseq hdrop [c; k; o; p]
  | FComplete c origin oo _ t o a => hseq hdrop [c; origin; oo; t; o; a]
  end.

(** What a C client holds. *)
Inductive handle :=
| HString (p : ptr)                       (* poll_output, get_preedit, get_current_to_composite *)
| HDetail (v : ptr) (l : list ffi)        (* get_preedit_detail: the array and its elements *)
| HCandidates (l : list N)                (* get_current_candidates: the filled part of the buffer *)
| HKey (k : keyev) (a : N).               (* key_event_new_from_fcitx_keyevent *)

(** capi.rs:482-524, 854-866: one string or NULL *)
Definition give_string (o : option str) : H handle := hbind (hptr o) (fun p => hret (HString p)).
(** capi.rs:537-559: NULL for no elements *)
Definition give_detail (ds : list state_info) : H handle :=
  hbind (hmap to_ffi ds) (fun l =>
    if is_nil l then hret (HDetail None l) else hbind halloc (fun v => hret (HDetail (Some v) l))).
(** capi.rs:890-920: on a text with NUL the strings written so far are taken back *)
Fixpoint fill_candidates (cs : list candidate) (written : list N) : H (option (list N)) :=
  match cs with
  | [] => hret (Some written)
  | c :: r =>
      match c_string (c_output c) with
      | Some _ => hbind halloc (fun a => fill_candidates r (written ++ [a]))
      | None => hbind (hseq hfree written) (fun _ => hret None)
      end
  end.
Definition give_candidates (cs : list candidate) : H handle :=
  hbind (fill_candidates cs []) (fun o => hret (HCandidates (match o with Some l => l | None => [] end))).
(** capi.rs:826-834 *)
Definition give_key (k : keyev) : H handle := hbind halloc (fun a => hret (HKey k a)).
(** skk_free_string (713-719), skk_free_preedit_detail (694-700), skk_free_candidate_list (932-943);
    a key event is freed by process_key_event (capi.rs:466-469) *)
Definition take_back (h : handle) : H unit :=
  match h with
  | HString p => hdrop p
  | HDetail None _ => hret tt
  | HDetail (Some v) l => hbind (hseq drop_ffi l) (fun _ => hfree v)
  | HCandidates l => hseq hfree l
  | HKey _ a => hfree a
  end.

(** A client: a context, the heap, what it holds, and the completions it has freed. *)
Record client := mkClient { k_world : world; k_heap : heap; k_holds : list handle }.
Inductive call :=
| KOp (o : op)                       (* the calls that hand out nothing *)
| KPoll | KPreedit | KComposite | KDetail | KCandidates (size offset : N)
| KKey (k : keyev)                   (* making a key event *)
| KPress (i : nat)                   (* process_key_event with the i-th thing held, a key event *)
| KFree (i : nat).                   (* freeing the i-th thing held with its function *)
Inductive outcome := Done (c : client) | Panics | Undefined.
Definition take_nth {A} (i : nat) (l : list A) : option (A * list A) :=
  match nth_error l i with Some x => Some (x, firstn i l ++ skipn (S i) l) | None => None end.
Section Client.
Context (X : xkb) (dbg : bool).
Definition hand_out (m : H handle) (w : world) (c : client) : outcome :=
  match m (k_heap c) with
  | Some (h, hp) => Done (mkClient w hp (h :: k_holds c))
  | None => Undefined
  end.
Definition client_step (k : call) (c : client) : outcome :=
  let w := k_world c in
  match k with
  | KOp o => match exec X dbg o w with Ok (_, w') => Done (mkClient w' (k_heap c) (k_holds c)) | Panic _ => Panics end
  | KPoll => match c_poll_output w with Ok (o, w') => hand_out (give_string o) w' c | Panic _ => Panics end
  | KPreedit => hand_out (give_string (c_get_preedit X w)) w c
  | KComposite => match c_get_current_to_composite w with Ok o => hand_out (give_string o) w c | Panic _ => Panics end
  | KDetail => match c_get_preedit_detail X w with Ok ds => hand_out (give_detail ds) w c | Panic _ => Panics end
  | KCandidates size offset =>
      match get_current_candidates w with
      | Ok cs => hand_out (give_candidates (firstn (N.to_nat size) (skipn (N.to_nat offset) cs))) w c
      | Panic _ => Panics
      end
  | KKey k => hand_out (give_key k) w c
  | KPress i =>
      match take_nth i (k_holds c) with
      | Some (HKey k a, rest) =>
          match exec X dbg (OKey k) w with
          | Ok (_, w') => match hfree a (k_heap c) with
                          | Some (_, hp) => Done (mkClient w' hp rest)
                          | None => Undefined
                          end
          | Panic _ => Panics
          end
      | _ => Done c
      end
  | KFree i =>
      match take_nth i (k_holds c) with
      | Some (HKey _ _, _) => Done c
      | Some (h, rest) => match take_back h (k_heap c) with
                          | Some (_, hp) => Done (mkClient w hp rest)
                          | None => Undefined
                          end
      | None => Done c
      end
  end.
Fixpoint client_run (ks : list call) (c : client) : outcome :=
  match ks with
  | [] => Done c
  | k :: r => match client_step k c with Done c' => client_run r c' | o => o end
  end.
End Client.
