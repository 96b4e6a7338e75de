(** Model of the life of a program that uses the library: typing, saving, reloading, and being started
    again on the dictionary files it left behind (lib.rs:731-765; dictionary/mod.rs:532-534;
    user_dictionary.rs:29-39, 64-117, 164-166; static_dict.rs:17-28, 52-54; file_dictionary.rs:23-32).

    Simplifications: one context (several contexts over the same dictionaries: Multi.v, Fine.v); every
    dictionary has its own file, and nobody else writes to it; a file's contents are the text it decodes
    to (SaveFs.v). *)
From Verif Require Import Str Keys Modes KanaBuilder FormChanger DictTypes Parser Lru Dictionary CState Context Spec SaveFs.

(** The program and, for each dictionary, its file. *)
Record living := mkL { l_world : world; l_files : list fs }.
(** What the program does: an API call; saving; reloading; ending, and starting again with the context
    [x]. *)
Inductive deed := Do (o : op) | Save | Reload | Restart (x : ctx).

(** One dictionary is saved (user_dictionary.rs:67-117; a static or empty dictionary has nothing to save:
    mod.rs:532-534).  The writing may fail at any point; the error is logged (lib.rs:741-744). *)
Inductive save_one (enc : str -> bool) : dict -> fs -> dict -> fs -> Prop :=
| so_user c e b f r u f' : save_dictionary enc (mkU e b, f) r (u, f') ->
    save_one enc (mkDict c (DUser e b)) f (mkDict c (DUser (u_ents u) (u_change u))) f'
| so_static c e f : save_one enc (mkDict c (DStatic e)) f (mkDict c (DStatic e)) f
| so_empty c f : save_one enc (mkDict c DEmpty) f (mkDict c DEmpty) f.
(** CskkContext::save_dictionary (lib.rs:731-747): the context's dictionaries one after another.
    [enc i] is the encoding of dictionary [i].  An index that names no dictionary stands for an empty one
    (Context.v). *)
Inductive save_all (enc : nat -> str -> bool) : list nat -> list dict -> list fs -> list dict -> list fs -> Prop :=
| sa_done ds fl : save_all enc [] ds fl ds fl
| sa_none i ids ds fl ds' fl' : nth_error ds i = None -> save_all enc ids ds fl ds' fl' -> save_all enc (i :: ids) ds fl ds' fl'
| sa_next i ids ds fl d f d' f' ds' fl' : nth_error ds i = Some d -> nth_error fl i = Some f ->
    save_one (enc i) d f d' f' ->
    save_all enc ids (update_nth i (fun _ => d') ds) (update_nth i (fun _ => f') fl) ds' fl' ->
    save_all enc (i :: ids) ds fl ds' fl'.
(** One dictionary is reloaded (file_dictionary.rs:23-32): its contents become what the file holds,
    has_change stays as it is; a file that cannot be read leaves it alone (the error is logged,
    lib.rs:759-762). *)
Definition with_contents (t : str) (d : dict) : dict :=
  mkDict (d_completable d) match d_kind d with DStatic _ => DStatic (load_text t) | DUser _ b => DUser (load_text t) b | DEmpty => DEmpty end.
Inductive reload_one : dict -> fs -> dict -> Prop :=
| ro_read d f t : f_main f = Some t -> reload_one d f (with_contents t d)
| ro_fails d f : reload_one d f d.
(** CskkContext::reload_dictionary (lib.rs:749-765) *)
Inductive reload_all : list nat -> list dict -> list fs -> list dict -> Prop :=
| ra_done ds fl : reload_all [] ds fl ds
| ra_none i ids ds fl ds' : nth_error ds i = None -> reload_all ids ds fl ds' -> reload_all (i :: ids) ds fl ds'
| ra_next i ids ds fl d f d' ds' : nth_error ds i = Some d -> nth_error fl i = Some f -> reload_one d f d' ->
    reload_all ids (update_nth i (fun _ => d') ds) fl ds' -> reload_all (i :: ids) ds fl ds'.
(** A dictionary made from its file (user_dictionary.rs:29-39, static_dict.rs:17-28): of the same kind,
    has_change unset. *)
Inductive open_one : dict -> fs -> dict -> Prop :=
| oo_user c e b f t : f_main f = Some t -> open_one (mkDict c (DUser e b)) f (mkDict c (DUser (load_text t) false))
| oo_static c e f t : f_main f = Some t -> open_one (mkDict c (DStatic e)) f (mkDict c (DStatic (load_text t)))
| oo_empty c f : open_one (mkDict c DEmpty) f (mkDict c DEmpty).
Inductive open_all : list dict -> list fs -> list dict -> Prop :=
| oa_nil : open_all [] [] []
| oa_cons d f d' ds fl ds' : open_one d f d' -> open_all ds fl ds' -> open_all (d :: ds) (f :: fl) (d' :: ds').

(** One deed, with what the API returned. *)
Inductive live (X : xkb) (dbg : bool) (enc : nat -> str -> bool) : deed -> living -> list out -> living -> Prop :=
| lv_do o w fl r w' : (forall st, o <> OOther st) -> exec X dbg o w = Ok (r, w') ->
    live X dbg enc (Do o) (mkL w fl) [r] (mkL w' fl)
| lv_save w fl ds' fl' : save_all enc (x_dicts (w_ctx w)) (w_store w) fl ds' fl' ->
    live X dbg enc Save (mkL w fl) [] (mkL (set_store ds' w) fl')
| lv_reload w fl ds' : reload_all (x_dicts (w_ctx w)) (w_store w) fl ds' ->
    live X dbg enc Reload (mkL w fl) [] (mkL (set_store ds' w) fl)
| lv_restart x w fl ds' : open_all (w_store w) fl ds' -> started X (mkW ds' x) ->
    live X dbg enc (Restart x) (mkL w fl) [] (mkL (mkW ds' x) fl).
