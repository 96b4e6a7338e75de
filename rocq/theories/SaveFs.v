(** Model of saving a user dictionary (/repo/src/dictionary/user_dictionary.rs:64-117), of
    reloading it (file_dictionary.rs:23-32, 86-142; user_dictionary.rs:164-166) and of the two
    files involved.

    A file's contents are the text it decodes to.  [enc] tells which lines the dictionary's
    encoding can represent (encode_string, user_dictionary.rs:190-217); trusted: decoding an
    encoded line gives the line back, and the ASCII headers can always be encoded. *)
From Verif Require Import Str Keys Modes FormChanger DictTypes Parser Lru Dictionary.

Definition ari_header : str := U ";; okuri-ari entries.".
Definition nasi_header : str := U ";; okuri-nasi entries.".
(** user_dictionary.rs:86-112: the lines in the order written; a line that cannot be encoded is
    left out. *)
Definition entry_lines (enc : str -> bool) (m : lmap entry) : list str :=
  filter enc (map (fun kv => entry_to_string (snd kv)) (liter_lru m)).
Definition save_lines (enc : str -> bool) (d : dents) : list str :=
  ari_header :: entry_lines enc (d_ari d) ++ nasi_header :: entry_lines enc (d_nashi d).
Definition save_text (enc : str -> bool) (d : dents) : str :=
  flat_map (fun l => l ++ [10%N]) (save_lines enc d).

(** The dictionary file and its .BAK; [None]: no such file. *)
Record fs := mkFs { f_main : option str; f_bak : option str }.
(** A saving process: where it is.  The writer is buffered, so what is not yet on disk at a
    given moment is some rest of the text. *)
Inductive saver := AtRename | AtCreate | Writing (rest : str) | Saved | Failed.
(** user_dictionary.rs:69-113, one step; every system call may fail. *)
Inductive save_step (text : str) : fs * saver -> fs * saver -> Prop :=
| st_rename old bak : save_step text (mkFs (Some old) bak, AtRename) (mkFs None (Some old), AtCreate)
| st_rename_fails f : save_step text (f, AtRename) (f, Failed)
| st_create bak : save_step text (mkFs None bak, AtCreate) (mkFs (Some []) bak, Writing text)
| st_create_fails f : save_step text (f, AtCreate) (f, Failed)
| st_write done chunk rest bak : chunk <> [] ->
    save_step text (mkFs (Some done) bak, Writing (chunk ++ rest)) (mkFs (Some (done ++ chunk)) bak, Writing rest)
| st_write_fails f rest : save_step text (f, Writing rest) (f, Failed)
| st_flushed f : save_step text (f, Writing []) (f, Saved).
Inductive save_steps (text : str) : fs * saver -> fs * saver -> Prop :=
| ss_refl x : save_steps text x x
| ss_step x y z : save_steps text x y -> save_step text y z -> save_steps text x z.

(** A user dictionary with its file, as the library holds it: contents and has_change. *)
Record udict := mkU { u_ents : dents; u_change : bool }.
(** save_dictionary (user_dictionary.rs:67-117) run to its end: the result is [Some saved?] or
    [None] for an error. *)
Inductive save_dictionary (enc : str -> bool) : udict * fs -> option bool -> udict * fs -> Prop :=
| sd_unchanged d f : save_dictionary enc (mkU d false, f) (Some false) (mkU d false, f)
| sd_saved d f f' : save_steps (save_text enc d) (f, AtRename) (f', Saved) ->
    save_dictionary enc (mkU d true, f) (Some true) (mkU d false, f')
| sd_failed d f f' : save_steps (save_text enc d) (f, AtRename) (f', Failed) ->
    save_dictionary enc (mkU d true, f) None (mkU d true, f').
(** The same with a file system where only the impossible fails: renaming a missing file
    (user_dictionary.rs:69). *)
Definition save_working (enc : str -> bool) (u : udict) (f : fs) : option bool * (udict * fs) :=
  if u_change u then
    match f_main f with
    | Some old => (Some true, (mkU (u_ents u) false, mkFs (Some (save_text enc (u_ents u))) (Some old)))
    | None => (None, (u, f))
    end
  else (Some false, (u, f)).
(** reload (file_dictionary.rs:23-32): replaces the contents; has_change stays; an unreadable
    file leaves everything. *)
Definition reload (u : udict) (f : fs) : udict :=
  match f_main f with
  | Some t => mkU (load_text t) (u_change u)
  | None => u
  end.
(** UserDictionary::new (user_dictionary.rs:29-39) *)
Definition open_dictionary (f : fs) : option udict :=
  option_map (fun t => mkU (load_text t) false) (f_main f).
