(** Model of several programs saving one dictionary file (/repo/src/dictionary/user_dictionary.rs:67-113, 190-217),
    step by step and in any order.  A path names a file, and a writer keeps the file it created even when the path
    goes to another: renaming moves the name, not the writer.

    As in SaveFs.v a file's contents are the text it decodes to, and the writer is buffered: what is written at a
    time is some piece of the text.  Simplifications: every save goes to the same path (several user dictionaries
    opened on one file, in one program or in several); there is nobody else on the file system. *)
From Coq Require Import List NArith.
Import ListNotations.
From Verif Require Import Str SaveFs.

(** The disk: which file the path and {path}.BAK name, and the contents of all files there ever were. *)
Record disk := mkDisk { k_main : option nat; k_bak : option nat; k_data : list str }.
Definition contents_of (d : disk) (o : option nat) : option str := match o with Some i => nth_error (k_data d) i | None => None end.
(** What a reader finds, as in SaveFs.v. *)
Definition as_fs (d : disk) : fs := mkFs (contents_of d (k_main d)) (contents_of d (k_bak d)).
Fixpoint set_nth (i : nat) (s : str) (l : list str) : list str :=
  match l, i with
  | [], _ => []
  | _ :: r, O => s :: r
  | x :: r, S i => x :: set_nth i s r
  end.
(** rename(path, path.BAK) (user_dictionary.rs:69): an existing .BAK loses its name. *)
Definition do_rename (d : disk) : option disk :=
  match k_main d with Some i => Some (mkDisk None (Some i) (k_data d)) | None => None end.
(** File::create(path) (user_dictionary.rs:70): an existing file is emptied, and written over from its beginning. *)
Definition do_create (d : disk) : disk * nat :=
  match k_main d with
  | Some i => (mkDisk (Some i) (k_bak d) (set_nth i [] (k_data d)), i)
  | None => (mkDisk (Some (length (k_data d))) (k_bak d) (k_data d ++ [[]]), length (k_data d))
  end.
(** Writing at a position of a file: over what is there, after filling up what is missing. *)
Definition write_at (pos : nat) (chunk s : str) : str :=
  firstn pos s ++ repeat 0%N (pos - length s) ++ chunk ++ skipn (pos + length chunk) s.
Definition do_write (i pos : nat) (chunk : str) (d : disk) : disk :=
  mkDisk (k_main d) (k_bak d) (set_nth i (write_at pos chunk (nth i (k_data d) [])) (k_data d)).

(** Where one save is: not begun; refused (the renaming failed: nothing was done); between renaming and creating;
    writing to file [i], at a position, with a rest still to be written; done; failed after the renaming. *)
Inductive phase := NotBegun | Refused | Renamed | Busy (i pos : nat) (rest : str) | Done | Broken.
(** One step of a save that writes [text] (user_dictionary.rs:69-113); every system call may fail. *)
Inductive one_step (text : str) : disk -> phase -> disk -> phase -> Prop :=
| on_rename d d' : do_rename d = Some d' -> one_step text d NotBegun d' Renamed
| on_refuse d : one_step text d NotBegun d Refused
| on_create d d' i : do_create d = (d', i) -> one_step text d Renamed d' (Busy i 0 text)
| on_create_fails d : one_step text d Renamed d Broken
| on_write d i pos chunk rest : chunk <> [] ->
    one_step text d (Busy i pos (chunk ++ rest)) (do_write i pos chunk d) (Busy i (pos + length chunk) rest)
| on_write_fails d i pos rest : one_step text d (Busy i pos rest) d Broken
| on_flushed d i pos : one_step text d (Busy i pos []) d Done.
(** All saves: each its text and where it is.  Any of them may be the next to move; one that stops moving was
    killed. *)
Record saving := mkSaving { sv_text : str; sv_phase : phase }.
Fixpoint put (n : nat) (p : phase) (l : list saving) : list saving :=
  match l, n with
  | [], _ => []
  | x :: r, O => mkSaving (sv_text x) p :: r
  | x :: r, S n => x :: put n p r
  end.
Inductive move : disk * list saving -> nat -> disk * list saving -> Prop :=
| mv d l n x d' p' : nth_error l n = Some x -> one_step (sv_text x) d (sv_phase x) d' p' -> move (d, l) n (d', put n p' l).
(** A schedule: the saves in the order in which they moved, the latest first, and the states between. *)
Inductive moves : disk * list saving -> list nat -> disk * list saving -> Prop :=
| mvs_none x : moves x [] x
| mvs_next x tr y n z : moves x tr y -> move y n z -> moves x (n :: tr) z.

(** A program that reads the file meanwhile (load_dictionary, file_dictionary.rs:87-142: File::open, then one read
    after another until one returns nothing): not begun; the file could not be opened; reading file [i], with the
    text got so far; at the end. *)
Inductive reader := NotOpened | NoFile | Reading (i : nat) (got : str) | Got (t : str).
Inductive read_step : disk -> reader -> reader -> Prop :=
| rd_open d i : k_main d = Some i -> read_step d NotOpened (Reading i [])
| rd_no_file d : k_main d = None -> read_step d NotOpened NoFile
| rd_some d i got chunk rest s : nth_error (k_data d) i = Some s -> chunk <> [] -> skipn (length got) s = chunk ++ rest ->
    read_step d (Reading i got) (Reading i (got ++ chunk))
| rd_end d i got s : nth_error (k_data d) i = Some s -> skipn (length got) s = [] -> read_step d (Reading i got) (Got got).
(** Saves and the reader together, in any order. *)
Inductive goings : disk * list saving * reader -> disk * list saving * reader -> Prop :=
| gn_none x : goings x x
| gn_save x d l q n d' l' : goings x (d, l, q) -> move (d, l) n (d', l') -> goings x (d', l', q)
| gn_read x d l q q' : goings x (d, l, q) -> read_step d q q' -> goings x (d, l, q').
