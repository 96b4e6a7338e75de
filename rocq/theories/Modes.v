(** Model of /repo/src/skk_modes.rs, /repo/src/command_handler/*.rs, the data of
    /repo/src/rule.rs and /repo/src/config.rs. *)
From Verif Require Import Str Keys.

(** skk_modes.rs:10-21 *)
Inductive imode := Hiragana | Katakana | HankakuKatakana | Zenkaku | Ascii.
(** skk_modes.rs:44-61 *)
Inductive cmode := Direct | PreComposition | PreCompositionOkurigana | CompositionSelection
                 | Abbreviation | Register | Completion.

Definition imode_eqb (a b : imode) : bool :=
  match a, b with
  | Hiragana, Hiragana | Katakana, Katakana | HankakuKatakana, HankakuKatakana
  | Zenkaku, Zenkaku | Ascii, Ascii => true
  | _, _ => false
  end.
Definition cmode_eqb (a b : cmode) : bool :=
  match a, b with
  | Direct, Direct | PreComposition, PreComposition
  | PreCompositionOkurigana, PreCompositionOkurigana
  | CompositionSelection, CompositionSelection | Abbreviation, Abbreviation
  | Register, Register | Completion, Completion => true
  | _, _ => false
  end.
Lemma imode_eqb_eq a b : imode_eqb a b = true <-> a = b.
Proof. destruct a, b; cbn; split; congruence. Qed.
Lemma cmode_eqb_eq a b : cmode_eqb a b = true <-> a = b.
Proof. destruct a, b; cbn; split; congruence. Qed.

(** skk_modes.rs:23-37 (None = Err) *)
Definition imode_from_str (s : str) : option imode :=
  assoc_str s [(U "Hiragana", Hiragana); (U "Katakana", Katakana);
               (U "HankakuKatakana", HankakuKatakana); (U "Zenkaku", Zenkaku);
               (U "Ascii", Ascii)].
(** skk_modes.rs:63-78 (None = Err) *)
Definition cmode_from_str (s : str) : option cmode :=
  assoc_str s [(U "Direct", Direct); (U "PreComposition", PreComposition);
               (U "PreCompositionOkurigana", PreCompositionOkurigana);
               (U "CompositionSelection", CompositionSelection);
               (U "Abbreviation", Abbreviation); (U "Register", Register);
               (U "Completion", Completion)].

(** skk_modes.rs:80-90 *)
Definition has_rom2kana_conversion (i : imode) (c : cmode) : bool :=
  match c with
  | Direct | PreComposition | PreCompositionOkurigana =>
      match i with Hiragana | Katakana | HankakuKatakana => true | _ => false end
  | _ => false
  end.

(** skk_modes.rs:94-110 *)
Inductive period_style := PeriodJa | PeriodEn.
Inductive comma_style := CommaJa | CommaEn.

(** command_handler/instruction.rs:8-45 *)
Inductive instr :=
| IAbort | IChangeInputMode (m : imode) | IForceKanaConvert (m : imode)
| IClearUnconvertedInputs | IClearKanaConvertedInputs | IClearUnconfirmedInputs
| IChangeCompositionMode (c : cmode)
| IFinishKeyEvent | IPassthroughKeyEvent | ITryNextCandidate | ITryPreviousCandidate
| INextCandidatePointer | IPreviousCandidatePointer | IConfirmComposition
| IConfirmAs (m : imode) | IConfirmDirect | IPurge | IDelete
| ITryNextCompletion | ITryPreviousCompletion.

(** command_handler/instruction.rs:51-82, the literal names. *)
Definition simple_instr (s : str) : option instr :=
  assoc_str s
   [(U "Abort", IAbort); (U "ClearUnconvertedInputs", IClearUnconvertedInputs);
    (U "ClearKanaConvertedInputs", IClearKanaConvertedInputs);
    (U "ClearUnconfirmedInputs", IClearUnconfirmedInputs);
    (U "FinishKeyEvent", IFinishKeyEvent);
    (U "NextCandidatePointer", INextCandidatePointer);
    (U "PreviousCandidatePointer", IPreviousCandidatePointer);
    (U "ConfirmComposition", IConfirmComposition); (U "ConfirmDirect", IConfirmDirect);
    (U "Purge", IPurge); (U "Delete", IDelete); (U "TryNextCandidate", ITryNextCandidate);
    (U "TryPreviousCandidate", ITryPreviousCandidate);
    (U "PassthroughKeyEvent", IPassthroughKeyEvent);
    (U "TryNextCompletion", ITryNextCompletion);
    (U "TryPreviousCompletion", ITryPreviousCompletion);
    (U "ConfirmAsHiragana", IConfirmAs Hiragana);
    (U "ConfirmAsKatakana", IConfirmAs Katakana);
    (U "ConfirmAsJISX0201", IConfirmAs HankakuKatakana);
    (U "FlushPreviousCarryOver", IClearUnconvertedInputs);
    (U "FlushConvertedKana", IClearKanaConvertedInputs);
    (U "DeleteDirect", IDelete); (U "DeletePrecomposition", IDelete)].

(** The regexes of instruction.rs:84-88 and 105-109, any characters (greedy) followed by a
    parenthesised mode name, searched unanchored: the leftmost match starts at the beginning of the first line that contains
    some parenthesised mode name, and the repetition is greedy, so the last such name of that line is
    taken; the dot matches anything but a newline. *)
Definition starts_mode (names : list str) (s : str) : option str :=
  find (fun m => is_prefixb ((40%N :: m) ++ [41%N]) s) names.
Fixpoint last_mode (names : list str) (line : str) : option (str * str) :=
  match line with
  | [] => None
  | c :: r => match last_mode names r with
              | Some (p, m) => Some (c :: p, m)
              | None => match starts_mode names line with
                        | Some m => Some ([], m)
                        | None => None
                        end
              end
  end.
Fixpoint first_some {A B} (f : A -> option B) (l : list A) : option B :=
  match l with [] => None | x :: r => match f x with Some y => Some y | None => first_some f r end end.
Definition mode_captures (names : list str) (s : str) : option (str * str) :=
  first_some (last_mode names) (split_on 10 s).

Definition imode_names : list str :=
  [U "Hiragana"; U "Katakana"; U "HankakuKatakana"; U "Zenkaku"; U "Ascii"].
Definition cmode_names : list str :=
  [U "Direct"; U "PreComposition"; U "PreCompositionOkurigana"; U "CompositionSelection";
   U "Abbreviation"; U "Register"; U "Completion"].

(** command_handler/instruction.rs:50-124, FromStr; [Ok None] is Err, and the two [expect]s
    are panics. *)
Definition instr_from_str (s : str) : res (option instr) :=
  match simple_instr s with
  | Some i => Ok (Some i)
  | None =>
      let second :=
        match mode_captures cmode_names s with
        | Some (p, m) =>
            match cmode_from_str m with
            | None => Panic PanicExpect
            | Some c => if str_eqb p (U "ChangeCompositionMode")
                        then Ok (Some (IChangeCompositionMode c)) else Ok None
            end
        | None => Ok None
        end in
      match mode_captures imode_names s with
      | Some (p, m) =>
          match imode_from_str m with
          | None => Panic PanicExpect
          | Some i =>
              if str_eqb p (U "ChangeInputMode") then Ok (Some (IChangeInputMode i))
              else if str_eqb p (U "ForceKanaConvert") then Ok (Some (IForceKanaConvert i))
              else if str_eqb p (U "ConfirmAs") then Ok (Some (IConfirmAs i))
              else if str_eqb p (U "OutputNNIfAny") then Ok (Some (IForceKanaConvert i))
              else second
          end
      | None => second
      end
  end.

(** rule.rs:30-91: for every composition mode but Register and every input mode, a map from
    key events to instruction lists.  A HashMap is an association list (first match); the
    Register row is never read (rule.rs:69-73). *)
Definition command_rule := cmode -> imode -> list (keyev * list instr).
(** rule.rs:10-14 *)
Record rule := mkRule { r_conversion : list (str * (str * str)); r_command : command_rule }.
(** rule.rs:46-56 *)
Definition empty_command_rule : command_rule := fun _ _ => [].

Fixpoint assoc_key {A} (k : keyev) (l : list (keyev * A)) : option A :=
  match l with
  | [] => None
  | (k', v) :: r => if key_eqb k k' then Some v else assoc_key k r
  end.

(** command_handler/configurable_command_handler.rs:25-45 with rule.rs:58-76 (debug_assert
    in Register mode) and rule.rs:104-115. *)
Definition command_key (k : keyev) : keyev :=
  if is_upper k then mkKey (ksym k) (N.ldiff (kmods k) M_SHIFT) else k.
Definition get_instruction (dbg : bool) (cr : command_rule) (k : keyev) (i : imode) (c : cmode)
  : res (option (list instr)) :=
  match c with
  | Register => if dbg then Panic PanicDebugAssert else Ok None
  | _ => Ok (assoc_key (command_key k) (cr c i))
  end.

(** config.rs:3-8 and 10-23 *)
Record config := mkConfig { cf_auto : list str; cf_period : period_style; cf_comma : comma_style }.
Definition default_config : config :=
  mkConfig [U "。"; U "、"; U "」"; U "』"] PeriodJa CommaJa.
