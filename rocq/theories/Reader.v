(** Model of the loop that reads a dictionary (file_dictionary.rs:86-142) over a reader that may
    fail.  Dictionary.load_lines is what the loop does to lines that could be read. *)
From Verif Require Import Str DictTypes Parser Lru Dictionary.

(** What a call of next on [reader.lines()] gives (file_dictionary.rs:102-104). *)
Inductive item := ILine (l : str) | IError | IEnd.
(** The n-th call. *)
Definition line_reader := nat -> item.
(** file_dictionary.rs:102-139: the loop from the i-th call on, with what was read so far; [d] is what
    it has read when it is left.  An error is logged and the loop goes on (136-138). *)
Inductive load_loop (rd : line_reader) : nat -> bool * dents -> dents -> Prop :=
| ll_end i st : rd i = IEnd -> load_loop rd i st (snd st)
| ll_line i st l d : rd i = ILine l -> load_loop rd (S i) (load_line st l) d -> load_loop rd i st d
| ll_error i st d : rd i = IError -> load_loop rd (S i) st d -> load_loop rd i st d.

(** What can be opened for reading (file_dictionary.rs:91).  Simplification: the text is the decoded
    one. *)
Inductive source :=
| RegularFile (t : str)
| Directory              (* opening one for reading succeeds on Linux; read(2) fails with EISDIR *)
| FailingFile (t : str). (* as a disk or a network file system may: after [t] every read fails *)
Definition of_lines (ls : list str) (after : item) : line_reader := fun n =>
  match nth_error ls n with Some l => ILine l | None => after end.
(** Lines::next asks the reader again at every call, also after an error.  Simplification: of a file
    that fails within a line the lines before are read; then every call fails. *)
Definition lines_of_source (s : source) : line_reader :=
  match s with
  | RegularFile t => of_lines (text_lines t) IEnd
  | Directory => fun _ => IError
  | FailingFile t => of_lines (text_lines t) IError
  end.
(** CskkDictionary::new_static_dict, new_user_dict and reload (dictionary/mod.rs:55-79; static_dict.rs:18-27;
    user_dictionary.rs:28-39; file_dictionary.rs:23-27): [None] as source: the file cannot be opened, an
    error is returned. *)
Inductive opens (s : option source) : option dents -> Prop :=
| op_error : s = None -> opens s None
| op_loaded src d : s = Some src -> load_loop (lines_of_source src) 0 (true, dents_empty) d -> opens s (Some d).
