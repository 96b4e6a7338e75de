(** Model of the character encodings of dictionary files: reading (file_dictionary.rs:86-142), writing line
    by line (user_dictionary.rs:67-117, 190-217) and the labels that name encodings
    (user_dictionary.rs:30, 73-75; file_dictionary.rs:91-95).

    Trusted about the crates encoding_rs and encoding_rs_io (their documentation and the Encoding
    Standard): which bytes UTF-8, UTF-16 and EUC-JP use; that new_encoder gives the encoder of the output
    encoding, which is UTF-8 for UTF-16; the contract of
    encode_from_utf8_to_vec_without_replacement ([encoder_call] below); that a reader without an encoding
    passes the bytes on.  Encoders with a state (ISO-2022-JP) are not modelled.  Malformed input is
    decoded to some text we say nothing about ([lossy]); files do not begin with a byte order mark. *)
From Verif Require Import Str Keys Modes FormChanger DictTypes Parser Lru Dictionary SaveFs.

(** * Encodings *)
(** What a character is written as; [None]: cannot be written. *)
Definition charset := N -> option (list N).
Local Open Scope N_scope.
(** Unicode scalar values: what a Rust char holds. *)
Definition scalar (c : N) : bool := (c <? 55296) || ((57344 <=? c) && (c <? 1114112)).
Definition utf8 : charset := fun c =>
  if negb (scalar c) then None
  else if c <? 128 then Some [c]
  else if c <? 2048 then Some [192 + c / 64; 128 + c mod 64]
  else if c <? 65536 then Some [224 + c / 4096; 128 + (c / 64) mod 64; 128 + c mod 64]
  else Some [240 + c / 262144; 128 + (c / 4096) mod 64; 128 + (c / 64) mod 64; 128 + c mod 64].
Definition tail (b : N) : bool := (128 <=? b) && (b <? 192).
(** Well-formed UTF-8; [None]: malformed (truncated, overlong, surrogates, out of range). *)
Fixpoint utf8_read (l : list N) : option str :=
  match l with
  | [] => Some []
  | b :: r =>
      if b <? 128 then option_map (cons b) (utf8_read r)
      else if b <? 194 then None
      else if b <? 224 then
        match r with
        | b1 :: r1 => if tail b1 then option_map (cons ((b - 192) * 64 + (b1 - 128))) (utf8_read r1) else None
        | _ => None
        end
      else if b <? 240 then
        match r with
        | b1 :: b2 :: r2 =>
            let c := (b - 224) * 4096 + (b1 - 128) * 64 + (b2 - 128) in
            if tail b1 && tail b2 && (2048 <=? c) && scalar c then option_map (cons c) (utf8_read r2) else None
        | _ => None
        end
      else if b <? 245 then
        match r with
        | b1 :: b2 :: b3 :: r3 =>
            let c := (b - 240) * 262144 + (b1 - 128) * 4096 + (b2 - 128) * 64 + (b3 - 128) in
            if tail b1 && tail b2 && tail b3 && (65536 <=? c) && scalar c then option_map (cons c) (utf8_read r3) else None
        | _ => None
        end
      else None
  end.
(** Well-formed UTF-16, little endian. *)
Fixpoint utf16_read (l : list N) : option str :=
  match l with
  | [] => Some []
  | a :: b :: r =>
      let u := b * 256 + a in
      if (u <? 55296) || (57344 <=? u) then option_map (cons u) (utf16_read r)
      else if u <? 56320 then
        match r with
        | a1 :: b1 :: r1 =>
            let v := b1 * 256 + a1 in
            if (56320 <=? v) && (v <? 57344) then option_map (cons (65536 + (u - 55296) * 1024 + (v - 56320))) (utf16_read r1) else None
        | _ => None
        end
      else None
  | _ => None
  end.
(** EUC-JP over a table of JIS X 0208: [jis] gives the pointer of a character, [sij] the character.  The
    encoder writes the yen sign and the overline as the ASCII bytes of backslash and tilde, and the minus
    sign as the fullwidth hyphen-minus (Encoding Standard, 12.1.2). *)
Definition eucjp (jis : N -> option N) : charset := fun c =>
  if c <? 128 then Some [c]
  else if c =? 165 then Some [92]
  else if c =? 8254 then Some [126]
  else if (65377 <=? c) && (c <=? 65439) then Some [142; c - 65377 + 161]
  else match jis (if c =? 8722 then 65293 else c) with
       | Some p => Some [p / 94 + 161; p mod 94 + 161]
       | None => None
       end.
Fixpoint eucjp_read (sij : N -> option N) (l : list N) : option str :=
  match l with
  | [] => Some []
  | b :: r =>
      if b <? 128 then option_map (cons b) (eucjp_read sij r)
      else match r with
        | [] => None
        | b1 :: r1 =>
            if b =? 142 then
              if (161 <=? b1) && (b1 <=? 223) then option_map (cons (65377 - 161 + b1)) (eucjp_read sij r1) else None
            else if (161 <=? b) && (b <=? 254) && (161 <=? b1) && (b1 <=? 254) then
              match sij ((b - 161) * 94 + (b1 - 161)) with
              | Some c => option_map (cons c) (eucjp_read sij r1)
              | None => None
              end
            else None
        end
  end.
Local Close Scope N_scope.

(** The encodings a label can name.  [Other] stands for any encoding that writes and reads character by
    character. *)
Inductive encoding := Utf8 | Utf16le | Eucjp (jis sij : N -> option N) | Other (cs : charset) (rd : list N -> option str) | Replacement.
(** Encoding::for_label_no_replacement *)
Definition no_replacement (e : option encoding) : option encoding := match e with Some Replacement => None | _ => e end.
(** What Encoding::new_encoder encodes to: the output encoding. *)
Definition writes (e : encoding) : charset :=
  match e with
  | Utf8 | Utf16le | Replacement => utf8
  | Eucjp jis _ => eucjp jis
  | Other cs _ => cs
  end.
Definition reads (e : encoding) : list N -> option str :=
  match e with
  | Utf8 => utf8_read
  | Utf16le => utf16_read
  | Eucjp _ sij => eucjp_read sij
  | Other _ rd => rd
  | Replacement => fun _ => None
  end.

(** * Writing one line *)
(** The bytes of a text, if it can be written. *)
Fixpoint bytes_of (cs : charset) (s : str) : option (list N) :=
  match s with
  | [] => Some []
  | c :: r => match cs c, bytes_of cs r with Some b, Some bs => Some (b ++ bs) | _, _ => None end
  end.
Inductive enc_result := InputEmpty | OutputFull | Unmappable.
(** One call of encode_from_utf8_to_vec_without_replacement on a buffer with [cap] bytes of room: the
    result, the number of characters read, the bytes written.  The encoder may stop for lack of room after
    any character, but in an empty buffer it gets ahead. *)
Inductive encoder_call (cs : charset) (cap : nat) : str -> enc_result -> nat -> list N -> Prop :=
| ec_all s bs : bytes_of cs s = Some bs -> length bs <= cap -> encoder_call cs cap s InputEmpty (length s) bs
| ec_full s r bs : bytes_of cs s = Some bs -> length bs <= cap -> s <> [] -> r <> [] ->
    encoder_call cs cap (s ++ r) OutputFull (length s) bs
| ec_unmappable s c r bs : bytes_of cs s = Some bs -> length bs <= cap -> cs c = None ->
    encoder_call cs cap (s ++ c :: r) Unmappable (S (length s)) bs.
(** encode_string (user_dictionary.rs:190-217): [Some] the bytes or [None] for an error. *)
Inductive encode_string (cs : charset) (cap : nat) : str -> option (list N) -> Prop :=
| es_nothing_read s r bs : encoder_call cs cap s r 0 bs -> encode_string cs cap s None
| es_unmappable s n bs : encoder_call cs cap s Unmappable n bs -> n <> 0 -> encode_string cs cap s None
| es_done s n bs : encoder_call cs cap s InputEmpty n bs -> n <> 0 -> encode_string cs cap s (Some bs)
| es_more s n bs res : encoder_call cs cap s OutputFull n bs -> n <> 0 -> encode_string cs cap (skipn n s) res ->
    encode_string cs cap s (option_map (app bs) res).
(** user_dictionary.rs:26 *)
Definition BUF_SIZE : nat := Eval vm_compute in N.to_nat 1024.

(** * Files *)
(** A dictionary file and its .BAK, as bytes. *)
Record files := mkFiles { b_main : option (list N); b_bak : option (list N) }.
(** The entries' lines that are written: those that encode_string accepts (user_dictionary.rs:91-99,
    103-111). *)
Inductive written_lines (cs : charset) (cap : nat) : list str -> list N -> Prop :=
| wl_nil : written_lines cs cap [] []
| wl_some l ls bs rest : encode_string cs cap (l ++ [10%N]) (Some bs) -> written_lines cs cap ls rest -> written_lines cs cap (l :: ls) (bs ++ rest)
| wl_none l ls rest : encode_string cs cap (l ++ [10%N]) None -> written_lines cs cap ls rest -> written_lines cs cap (l :: ls) rest.
(** user_dictionary.rs:86-112 *)
Inductive written_file (cs : charset) (cap : nat) (d : dents) : list N -> Prop :=
| wf_file h1 b1 h2 b2 :
    encode_string cs cap (ari_header ++ [10%N]) (Some h1) -> written_lines cs cap (map (fun kv => entry_to_string (snd kv)) (liter_lru (d_ari d))) b1 ->
    encode_string cs cap (nasi_header ++ [10%N]) (Some h2) -> written_lines cs cap (map (fun kv => entry_to_string (snd kv)) (liter_lru (d_nashi d))) b2 ->
    written_file cs cap d (h1 ++ b1 ++ h2 ++ b2).
(** save_dictionary (user_dictionary.rs:67-117) when no system call fails, of a dictionary whose label names
    [e] ([None]: no encoding). *)
Inductive save_outcome := NotNeeded | Written (f : files) | SaveError | SavePanics (f : files).
Inductive save_file (e : option encoding) : udict -> files -> save_outcome -> Prop :=
| sf_unchanged d f : save_file e (mkU d false) f NotNeeded
| sf_no_file d f : b_main f = None -> save_file e (mkU d true) f SaveError
| sf_no_encoding d f old : b_main f = Some old -> e = None ->
    (* lines 69-75: renamed and created, then expect panics *)
    save_file e (mkU d true) f (SavePanics (mkFiles (Some []) (Some old)))
| sf_written d f old enc bs : b_main f = Some old -> e = Some enc -> written_file (writes enc) BUF_SIZE d bs ->
    save_file e (mkU d true) f (Written (mkFiles (Some bs) (Some old))).
(** load_dictionary (file_dictionary.rs:87-142): with an encoding the bytes are decoded; without one they
    are passed on, and a line that is not UTF-8 is left out (136-138). *)
Definition read_file (lossy : list N -> str) (e : option encoding) (bs : list N) : dents :=
  match no_replacement e with
  | Some enc => load_text match reads enc bs with Some t => t | None => lossy bs end
  | None => load_lines (flat_map (fun l => match utf8_read l with Some t => [t] | None => [] end) (text_lines bs))
  end.
