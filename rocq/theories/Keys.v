(** Model of /repo/src/keyevent.rs. *)
From Verif Require Import Str.
Local Open Scope N_scope.

(** xkbcommon is an external library: [keysym_from_name] (0 = KEY_NoSymbol when the name is
    unknown), the first character of [keysym_to_utf8] and [keysym_get_name] are parameters of
    the model.  Used at keyevent.rs:151-168, keyevent.rs:217-219 and cskkstate.rs:384. *)
Record xkb := mkXkb { xk_from_name : str -> N; xk_char : N -> option N; xk_name : N -> str }.

(** keyevent.rs:78-81, struct CskkKeyEvent; the bitflags (u32) are an [N]. *)
Record keyev := mkKey { ksym : N; kmods : N }.

(** keyevent.rs:12-58, SkkKeyModifier. *)
Definition M_NONE := 0.
Definition M_SHIFT := 1.
Definition M_CAPS_LOCK := 2.
Definition M_CONTROL := 4.
Definition M_ALT := 8.        (* = MOD1 *)
Definition M_NUM_LOCK := 16.  (* = MOD2 *)
Definition M_HYPER := 32.     (* = MOD3 *)
Definition M_SUPER := 64.     (* = MOD4 *)
Definition M_MOD5 := 128.
Definition M_MOUSE_PRESSED := 256.
Definition M_L_SHIFT := 2 ^ 22.
Definition M_R_SHIFT := 2 ^ 23.
Definition M_USLEEP := 2 ^ 24.
Definition M_SUPER2 := 2 ^ 26.
Definition M_HYPER2 := 2 ^ 27.
Definition M_META := 2 ^ 28.
Definition M_RELEASE := 2 ^ 30.
Definition M_REPEAT := 2 ^ 31.
Definition NON_DUMMY_MASK :=
  fold_right N.lor 0 [M_SHIFT; M_CAPS_LOCK; M_CONTROL; M_ALT; M_NUM_LOCK; M_HYPER; M_SUPER;
                      M_MOUSE_PRESSED; M_SUPER2; M_HYPER2; M_META; M_REPEAT].
(** All declared flags: what [from_bits_truncate] keeps (keyevent.rs:98). *)
Definition ALL_FLAGS :=
  fold_right N.lor 0 [M_SHIFT; M_CAPS_LOCK; M_CONTROL; M_ALT; M_NUM_LOCK; M_HYPER; M_SUPER;
                      M_MOD5; M_MOUSE_PRESSED; M_L_SHIFT; M_R_SHIFT; M_USLEEP; M_SUPER2;
                      M_HYPER2; M_META; M_RELEASE; M_REPEAT].

(** Key symbols used by the code (xkbcommon-keysyms.h). *)
Definition KEY_NoSymbol := 0.
Definition KEY_VoidSymbol := 16777215.  (* 0xffffff *)
Definition KEY_space := 32.
Definition KEY_asciitilde := 126.
Definition KEY_A := 65.
Definition KEY_Z := 90.
Definition KEY_Tab := 65289.            (* 0xff09 *)
Definition KEY_ISO_Left_Tab := 65056.   (* 0xfe20 *)

Definition key_eqb (a b : keyev) : bool :=
  N.eqb (ksym a) (ksym b) && N.eqb (kmods a) (kmods b).
Lemma key_eqb_eq a b : key_eqb a b = true <-> a = b.
Proof.
  unfold key_eqb; destruct a, b; cbn.
  rewrite andb_true_iff, !N.eqb_eq. split; [intros [-> ->]; reflexivity | intros [= -> ->]; auto].
Qed.

(** keyevent.rs:97-115, from_fcitx_keyevent. *)
Definition from_fcitx_keyevent (keysym raw_modifier : N) (is_release : bool) : keyev :=
  let m := N.land (N.land raw_modifier ALL_FLAGS) NON_DUMMY_MASK in
  let m := if is_release then N.lor m M_RELEASE else m in
  let k := if N.eqb keysym KEY_ISO_Left_Tab then KEY_Tab else keysym in
  mkKey k m.

(** keyevent.rs:123-138, from_keysym_with_flags. *)
Definition from_keysym_with_flags (keysym : N) (ctrl shift alt : bool) : keyev :=
  mkKey keysym (N.lor (if ctrl then M_CONTROL else 0)
               (N.lor (if shift then M_SHIFT else 0) (if alt then M_ALT else 0))).

(** keyevent.rs:151-168, keysyms_from_str.  Simplification: names without NUL (the
    xkbcommon wrapper builds a CString). *)
Definition keysyms_from_str (x : xkb) (s : str) : list N :=
  flat_map (fun w0 =>
    let w := trim w0 in
    let k := xk_from_name x w in
    if N.eqb k KEY_NoSymbol
    then filter (fun k' => negb (N.eqb k' KEY_NoSymbol)) (map (fun c => xk_from_name x [c]) w)
    else [k]) (split_on 32 s).

(** keyevent.rs:174-177 *)
Definition is_ascii_inputtable (k : keyev) : bool :=
  N.leb KEY_space (ksym k) && N.leb (ksym k) KEY_asciitilde.
(** keyevent.rs:182-184 *)
Definition is_upper (k : keyev) : bool := N.leb KEY_A (ksym k) && N.leb (ksym k) KEY_Z.
(** keyevent.rs:190-197 *)
Definition to_lower (k : keyev) : keyev :=
  if is_upper k then mkKey (ksym k + 32) (kmods k) else k.
(** keyevent.rs:202-204: no modifier but SHIFT *)
Definition is_modifierless_input (k : keyev) : bool :=
  N.eqb (N.ldiff (kmods k) M_SHIFT) 0.
(** keyevent.rs:217-219 *)
Definition get_symbol_char (x : xkb) (k : keyev) : option N := xk_char x (ksym k).
Definition has_mod (k : keyev) (m : N) : bool := N.eqb (N.land (kmods k) m) m.

(** [keysym_from_name]: the Rust wrapper builds a C string and panics on an interior NUL. *)
Definition keysym_from_name (x : xkb) (w : str) : res N :=
  if existsb (N.eqb 0) w then Panic PanicUnwrap else Ok (xk_from_name x w).

(** keyevent.rs:297-325, the word loop of the parenthesised form. *)
Fixpoint paren_words (x : xkb) (ws : list str) (m sym : N) : res (N * N) :=
  match ws with
  | [] => Ok (m, sym)
  | w :: r =>
      if str_eqb w (U "control") then paren_words x r (N.lor m M_CONTROL) sym
      else if str_eqb w (U "meta") then paren_words x r (N.lor m M_META) sym
      else if str_eqb w (U "alt") then paren_words x r (N.lor m M_ALT) sym
      else if str_eqb w (U "lshift") then paren_words x r (N.lor (N.lor m M_L_SHIFT) M_SHIFT) sym
      else if str_eqb w (U "rshift") then paren_words x r (N.lor (N.lor m M_R_SHIFT) M_SHIFT) sym
      else if str_eqb w (U "shift") then paren_words x r (N.lor m M_SHIFT) sym
      else rbind (keysym_from_name x w) (fun k => paren_words x r m k)
  end.

(** keyevent.rs:327-349: [&key[0..2]] on a string of more than two bytes panics when byte 2
    is not a character boundary. *)
Definition slice02 (key : str) : res str :=
  match key with
  | c1 :: r =>
      match char_len c1 with
      | 1%nat => match r with
                 | c2 :: _ => if Nat.eqb (char_len c2) 1 then Ok [c1; c2] else Panic PanicIndex
                 | [] => Panic PanicIndex
                 end
      | 2%nat => Ok [c1]
      | _ => Panic PanicIndex
      end
  | [] => Panic PanicIndex
  end.

Inductive parse_result := PErr | PKey (k : keyev).

(** keyevent.rs:354-363 *)
Definition finish_parse (m sym : N) : parse_result :=
  if N.eqb sym KEY_VoidSymbol then PErr
  else if N.eqb sym KEY_NoSymbol then PErr
  else PKey (mkKey sym m).

(** keyevent.rs:288-365, FromStr (and from_string_representation, 213-215). *)
Definition key_from_str (x : xkb) (s : str) : res parse_result :=
  let key := trim s in
  if is_prefixb (U "(") key && is_suffixb (U ")") key then
    let inner := trim_end_matches 41 (trim_start_matches 40 key) in
    rbind (paren_words x (split_on 32 inner) 0 KEY_VoidSymbol)
          (fun '(m, sym) => Ok (finish_parse m sym))
  else
    let simple m name :=
        rbind (keysym_from_name x name) (fun sym => Ok (finish_parse m sym)) in
    if Nat.ltb 2 (byte_len key) then
      rbind (slice02 key) (fun p =>
        if str_eqb p (U "C-") then simple M_CONTROL (skipn 2 key)
        else if str_eqb p (U "M-") then simple M_META (skipn 2 key)
        else if str_eqb p (U "A-") then simple M_ALT (skipn 2 key)
        else if str_eqb p (U "G-") then simple M_MOD5 (skipn 2 key)
        else simple 0 key)
    else simple 0 key.

(** keyevent.rs:274-285, next_tok (a prefix of the text up to and including the first
    closing paren, or up to the first space). *)
Fixpoint take_until_incl (c : N) (s : str) : option str :=
  match s with
  | [] => None
  | x :: r => if N.eqb x c then Some [x]
              else match take_until_incl c r with Some t => Some (x :: t) | None => None end
  end.
Fixpoint take_until (c : N) (s : str) : str :=
  match s with
  | [] => []
  | x :: r => if N.eqb x c then [] else x :: take_until c r
  end.
Definition next_tok (keys : str) : option str :=
  if is_prefixb (U "(") keys then take_until_incl 41 keys else Some (take_until 32 keys).

(** keyevent.rs:237-262, deserialize_seq; [None] is Err.  The recursion is on fuel: each
    round consumes a non-empty token. *)
Fixpoint deserialize_seq_fuel (x : xkb) (fuel : nat) (keys0 : str) (cur : list keyev)
  : res (option (list keyev)) :=
  match fuel with
  | O => Panic PanicExpect
  | S f =>
      let keys := trim keys0 in
      if is_nil keys then Ok (Some cur) else
      match next_tok keys with
      | None => Ok None
      | Some tok =>
          rbind (key_from_str x tok) (fun pr =>
            match pr with
            | PErr => Ok None
            | PKey k => deserialize_seq_fuel x f (skipn (length tok) keys) (cur ++ [k])
            end)
      end
  end.
Definition deserialize_seq (x : xkb) (keys : str) : res (option (list keyev)) :=
  deserialize_seq_fuel x (S (length keys)) keys [].

(** A concrete xkb instance covering printable ASCII, for examples and the default rule.
    Names as in xkbcommon-keysyms.h. *)
Definition ascii_names : list (str * N) :=
  Eval vm_compute in
  [(U "space", 32); (U "exclam", 33); (U "quotedbl", 34); (U "numbersign", 35);
   (U "dollar", 36); (U "percent", 37); (U "ampersand", 38); (U "apostrophe", 39);
   (U "parenleft", 40); (U "parenright", 41); (U "asterisk", 42); (U "plus", 43);
   (U "comma", 44); (U "minus", 45); (U "period", 46); (U "slash", 47);
   (U "colon", 58); (U "semicolon", 59); (U "less", 60); (U "equal", 61);
   (U "greater", 62); (U "question", 63); (U "at", 64); (U "bracketleft", 91);
   (U "backslash", 92); (U "bracketright", 93); (U "asciicircum", 94);
   (U "underscore", 95); (U "grave", 96); (U "braceleft", 123); (U "bar", 124);
   (U "braceright", 125); (U "asciitilde", 126);
   (U "BackSpace", 65288); (U "Tab", 65289); (U "Return", 65293); (U "Escape", 65307);
   (U "Left", 65361); (U "Up", 65362); (U "Right", 65363); (U "Down", 65364);
   (U "Delete", 65535);
   (* two and three letter names that a rule has to avoid (rule.toml, comment) *)
   (U "mu", 181); (U "ff", 2531); (U "ht", 2530); (U "cr", 2532); (U "lf", 2533);
   (U "nl", 2536); (U "vt", 2537); (U "ae", 230); (U "AE", 198); (U "oe", 5053); (U "OE", 5052);
   (U "ch", 65184); (U "Ch", 65185); (U "CH", 65186); (U "eth", 240); (U "ETH", 208);
   (U "yen", 165); (U "End", 65367);
   (U "Shift_L", 65505); (U "Shift_R", 65506); (U "Control_L", 65507); (U "Control_R", 65508)].
Definition is_alnum (c : N) : bool :=
  (N.leb 48 c && N.leb c 57) || (N.leb 65 c && N.leb c 90) || (N.leb 97 c && N.leb c 122).
Definition ascii_xkb : xkb :=
  {| xk_from_name := fun s =>
       match s with
       | [c] => if is_alnum c then c else 0
       | _ => match assoc_str s ascii_names with Some k => k | None => 0 end
       end;
     xk_char := fun k =>
       if N.leb 32 k && N.leb k 126 then Some k
       else assoc_N k [(65288, 8); (65289, 9); (65293, 13); (65307, 27); (65535, 127)];
     xk_name := fun k =>
       if is_alnum k then [k]
       else match find (fun p => N.eqb (snd p) k) ascii_names with
            | Some (n, _) => n
            | None => U "NoSymbol"
            end |}.
