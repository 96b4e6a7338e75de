(** C74: a whole typing session - typing, deleting, converting, changing one's mind, completing, registering - step by step. *)
From Verif Require Import Str Keys Modes KanaBuilder FormChanger DictTypes Parser Lru
  Dictionary CState Context DefaultRule Demo Spec P_Monad P_Frames P_Inv P_Kana P_Step T_Keys T_Predict T_Dedup T_Offered T_Convert.
From Verif Require Import T_Frames T_Romaji T_Word T_Sentence T_Delete.
From Verif Require T_Auto.

(** ** Specification *)
(** What the user is doing: nothing in particular; typing the reading of a word ([c]: in kana or as an
    abbreviation); typing its okurigana, [o] so far; looking at candidate number [j] of the list [cs] for the entry [key] with the okurigana
    [okuri], in a conversion ([m] is CompositionSelection) or a completion ([m] is Completion). *)
Inductive phase :=
| Idle
| Reading (c : cmode) (yomi : str)
| Tail (yomi : str) (o : str)
| Choosing (m : cmode) (key : ckey) (okuri : str) (cs : list candidate) (j : nat).
(** The scene: input mode, phase, keys pending, whether a capital may be among them, text confirmed,
    where giving up leads to (the last element first), dictionaries. *)
Record scene := mkSc { sc_mode : imode; sc_phase : phase; sc_keys : list N; sc_cap : bool; sc_text : str; sc_back : list cmode; sc_dicts : list dict }.

Section Rules.
Context (X : xkb) (r : rule) (cr : command_rule) (kf : kana_form) (am : ascii_map) (cf : config) (ids : list nat).
(** With the reading [yomi], writing [more] completes no auto-start keyword. *)
Definition calm (yomi more : str) : Prop :=
  forall p q kw before, more = p ++ q -> In kw (cf_auto cf) -> yomi ++ p = before ++ kw -> before = [].
(** The key [k] writes [t], with the keys [v] pending, and leaves nothing pending. *)
Definition writes (i : imode) (v : list N) (k : N) (t : str) : Prop :=
  (entry X r (v ++ [k]) t [] /\ forall x, ~ completable X r ((v ++ [k]) ++ [x]))
  \/ exists extra v' t1, forced X r v extra v' /\ ~ completable X r (v ++ [k]) /\ ~ completable X r [k] /\ sign X cr kf cf PreComposition i k t1 /\ t = extra ++ t1.
(** The entry asked for with the okurigana [o]. *)
Definition okuri_key (yomi o : str) : ckey := mkCK yomi (if is_nil o then None else Some o).
(** Asking for candidates with the keys [v] pending, while a reading [yomi] is typed: with the conversion key, with
    okurigana, or by completing an auto-start keyword; while okurigana is typed: by finishing it, or with the conversion key.
    Yields the entry asked for, the okurigana, the keys left pending, and the modes passed. *)
Inductive looks_up (i : imode) (v : list N) (cap : bool) : phase -> list op -> ckey -> str -> list N -> bool -> list cmode -> Prop :=
| by_key c yomi k extra v' : commands cr c i k [ITryNextCandidate] -> outside X r v k -> forced X r v extra v' ->
    looks_up i v cap (Reading c yomi) [OKey k] (mkCK (yomi ++ extra) None) [] v' cap [c]
| by_okuri yomi f keys caps ps : cap = false -> yomi <> [] ->
    spelled X r cr kf cf PreCompositionOkurigana i true [] [] keys ps -> shifted X r cr PreComposition i v f keys caps -> concat ps <> [] ->
    looks_up i v cap (Reading PreComposition yomi) (map press caps) (mkCK (yomi ++ f) (Some (concat ps))) (concat ps) [] false [PreComposition; PreCompositionOkurigana]
(* the shift key pressed only for a later key of the syllable, or for the second of two equal consonants *)
| by_late_okuri yomi l rest f ps : cap = false -> yomi <> [] -> late_okuri X r cr kf cf i v l rest f ps -> concat ps <> [] ->
    looks_up i v cap (Reading PreComposition yomi) (map press ((l - 32)%N :: rest)) (mkCK (yomi ++ f) (Some (concat ps))) (concat ps) [] false [PreComposition; PreCompositionOkurigana]
| by_keyword yomi k t body kw : writes i v k t -> yomi ++ t = body ++ kw -> T_Auto.first_keyword (cf_auto cf) body kw ->
    looks_up i v cap (Reading PreComposition yomi) [press k] (mkCK body None) kw [] false [PreComposition]
| by_tail yomi o keys ps : keys <> [] -> spelled X r cr kf cf PreCompositionOkurigana i true [] v keys ps -> o ++ concat ps <> [] ->
    looks_up i v cap (Tail yomi o) (map press keys) (mkCK yomi (Some (o ++ concat ps))) (o ++ concat ps) [] false [PreCompositionOkurigana]
| by_tail_key yomi o k extra v' : commands cr PreCompositionOkurigana i k [ITryNextCandidate] -> outside X r v k -> forced X r v extra v' ->
    (o ++ extra = [] -> forall kana carry, ~ entry X r v kana carry) ->
    looks_up i v cap (Tail yomi o) [OKey k] (okuri_key yomi (o ++ extra)) (o ++ extra) v' cap [PreCompositionOkurigana].
(** The mode one is in again after coming back to [m]. *)
Inductive resumes : cmode -> cmode -> Prop :=
| resumes_reading : resumes PreComposition PreComposition
| resumes_abbreviation : resumes Abbreviation Abbreviation
| resumes_okuri : resumes PreCompositionOkurigana PreComposition.
(** What a key that confirms the candidate does besides: input mode and text afterwards. *)
Inductive finishes (i : imode) (t : str) : list instr -> imode -> str -> Prop :=
| finishes_only : finishes i t [IConfirmComposition] i t
| finishes_direct : finishes i t [IConfirmComposition; IChangeCompositionMode Direct] i t
| finishes_mode i' : finishes i t [IConfirmComposition; IChangeInputMode i'] i' t
| finishes_erase t0 x : t = t0 ++ [x] -> finishes i t [IConfirmComposition; IDelete] i t0.
Definition completions (st : list dict) (key : ckey) (cs : list candidate) : Prop :=
  get_all_complete (map (fun n => nth n st empty_dict) ids) key = Ok cs /\ (N.of_nat (length cs) < 2 ^ 64)%N.
Definition purged (key : ckey) (c : candidate) (st : list dict) : list dict := upd_dicts ids (fun d => purge_candidate d key c) st.
Definition list_mode (m : cmode) : Prop := m = CompositionSelection \/ m = Completion.
Definition word_mode (c : cmode) : Prop := c = PreComposition \/ c = Abbreviation.
(** Which keys lead from which scene to which, at the nesting depth [n]. *)
Inductive session : nat -> scene -> list op -> scene -> Prop :=
| nothing n S : session n S [] S
| andthen n S1 o1 S2 o2 S3 : session n S1 o1 S2 -> session n S2 o2 S3 -> session n S1 (o1 ++ o2) S3
(* only the last 20 modes are remembered *)
| forget n i ph v cap t old back st : session n (mkSc i ph v cap t (old ++ back) st) [] (mkSc i ph v cap t back st)
(* idle *)
| i_kana n i v t b st keys v' ps : kana_mode i -> spelled X r cr kf cf Direct i false v' v keys ps ->
    session n (mkSc i Idle v false t b st) (map press keys) (mkSc i Idle v' false (t ++ concat (map (adjust_kana_string kf i) ps)) b st)
| i_ascii n t b st ks chs : Forall2 (types X) ks chs -> Forall (unbound cr Direct Ascii) ks ->
    session n (mkSc Ascii Idle [] false t b st) (map OKey ks) (mkSc Ascii Idle [] false (t ++ chs) b st)
| i_zenkaku n t b st ks chs ts : Forall2 (types X) ks chs -> Forall2 (full_width am) chs ts -> Forall (unbound cr Direct Zenkaku) ks ->
    session n (mkSc Zenkaku Idle [] false t b st) (map OKey ks) (mkSc Zenkaku Idle [] false (t ++ concat ts) b st)
| i_switch n i v t b st k i0 i1 extra v' : kana_mode i ->
    commands cr Direct i k [IForceKanaConvert i0; IChangeInputMode i1; IClearUnconfirmedInputs] -> outside X r v k -> forced X r v extra v' ->
    session n (mkSc i Idle v false t b st) [OKey k] (mkSc i1 Idle [] false (t ++ adjust_kana_string kf i0 extra) b st)
| i_switch_plain n i v t b st k i1 : commands cr Direct i k [IChangeInputMode i1] -> (kana_mode i -> outside X r v k) ->
    session n (mkSc i Idle v false t b st) [OKey k] (mkSc i1 Idle v false t b st)
| i_erase_key n i u x t b st k : commands cr Direct i k [IDelete] -> (kana_mode i -> outside X r (u ++ [x]) k) ->
    session n (mkSc i Idle (u ++ [x]) false t b st) [OKey k] (mkSc i Idle u false t b st)
| i_erase n i t x b st k : commands cr Direct i k [IDelete] -> (kana_mode i -> outside X r [] k) ->
    session n (mkSc i Idle [] false (t ++ [x]) b st) [OKey k] (mkSc i Idle [] false t b st)
| i_ignore n i v t b st k : commands cr Direct i k [IFinishKeyEvent] -> (kana_mode i -> outside X r v k) ->
    session n (mkSc i Idle v false t b st) [OKey k] (mkSc i Idle v false t b st)
(* beginning a word: with a capital, pending romaji is written first; with the key for it *)
| i_capital n i v t b st f keys caps v' ps : kana_mode i -> spelled X r cr kf cf PreComposition i false v' [] keys ps ->
    shifted X r cr Direct i v f keys caps -> no_keyword (cf_auto cf) (concat ps) ->
    session n (mkSc i Idle v false t b st) (map press caps)
      (mkSc i (Reading PreComposition (concat ps)) v' (negb (is_nil v')) (t ++ adjust_kana_string kf i f) [Direct] st)
| i_late n i v t b st l rest v' ps : kana_mode i -> spelled X r cr kf cf PreComposition i false v' v (l :: rest) ps ->
    late X r cr Direct i v l -> no_keyword (cf_auto cf) (concat ps) ->
    session n (mkSc i Idle v false t b st) (map press ((l - 32)%N :: rest)) (mkSc i (Reading PreComposition (concat ps)) v' (negb (is_nil v')) t [Direct] st)
| i_begin n i t b st k c : kana_mode i -> word_mode c -> commands cr Direct i k [IChangeCompositionMode c] -> outside X r [] k ->
    session n (mkSc i Idle [] false t b st) [OKey k] (mkSc i (Reading c []) [] false t [Direct] st)
(* typing the reading *)
| r_kana n i y v cap t b st keys v' ps : kana_mode i -> spelled X r cr kf cf PreComposition i false v' v keys ps -> calm y (concat ps) ->
    session n (mkSc i (Reading PreComposition y) v cap t b st) (map press keys)
      (mkSc i (Reading PreComposition (y ++ concat ps)) v' (cap && (negb (is_nil v') || is_nil keys)) t b st)
| r_letters n i y t b st ks chs : Forall2 (types X) ks chs -> Forall (unbound cr Abbreviation i) ks ->
    session n (mkSc i (Reading Abbreviation y) [] false t b st) (map OKey ks) (mkSc i (Reading Abbreviation (y ++ chs)) [] false t b st)
| r_erase_key n i c y u x cap t b st k : word_mode c -> commands cr c i k [IDelete] -> outside X r (u ++ [x]) k ->
    session n (mkSc i (Reading c y) (u ++ [x]) cap t b st) [OKey k] (mkSc i (Reading c y) u cap t b st)
| r_erase n i c y x cap t b st k : word_mode c -> commands cr c i k [IDelete] -> outside X r [] k ->
    session n (mkSc i (Reading c (y ++ [x])) [] cap t b st) [OKey k] (mkSc i (Reading c y) [] cap t b st)
| r_leave n i c t b st k : word_mode c -> commands cr c i k [IDelete] -> outside X r [] k ->
    session n (mkSc i (Reading c []) [] false t b st) [OKey k] (mkSc i Idle [] false t b st)
| r_ignore n i c y v cap t b st k : word_mode c -> commands cr c i k [IFinishKeyEvent] -> outside X r v k ->
    session n (mkSc i (Reading c y) v cap t b st) [OKey k] (mkSc i (Reading c y) v cap t b st)
(* confirming the reading as it is, or giving it up *)
| r_confirm n i c y v cap t b st k i1 i2 extra v' : word_mode c ->
    commands cr c i k [IForceKanaConvert i1; IConfirmAs i2; IChangeCompositionMode Direct] -> outside X r v k -> forced X r v extra v' ->
    session n (mkSc i (Reading c y) v cap t b st) [OKey k] (mkSc i Idle [] false (t ++ in_form kf am i2 (y ++ extra)) [] st)
| r_confirm_plain n i c y v cap t b st k i2 : word_mode c -> commands cr c i k [IConfirmAs i2; IChangeCompositionMode Direct] -> outside X r v k ->
    session n (mkSc i (Reading c y) v cap t b st) [OKey k] (mkSc i Idle [] false (t ++ in_form kf am i2 y) [] st)
| r_give_up n i c y v cap t b st k : word_mode c -> commands cr c i k [IClearUnconfirmedInputs; IAbort] -> outside X r v k ->
    session n (mkSc i (Reading c y) v cap t (b ++ [Direct]) st) [OKey k] (mkSc i Idle [] false t b st)
| r_give_up_to n i c m c' y v cap t b st k : word_mode c -> commands cr c i k [IClearUnconfirmedInputs; IAbort] -> outside X r v k -> resumes m c' ->
    session n (mkSc i (Reading c y) v cap t (b ++ [m]) st) [OKey k] (mkSc i (Reading c' []) [] false t b st)
(* okurigana: beginning it with a capital, at once or late, or with the second of two equal consonants; typing it; erasing keys
   (not a finished character, see C20); confirming the reading without it; giving up *)
| o_begin n i y v t b st l x f caps : kana_mode i -> y <> [] -> completable X r ([l] ++ [x]) -> shifted X r cr PreComposition i v f [l] caps -> length b < 20 ->
    session n (mkSc i (Reading PreComposition y) v false t b st) (map press caps) (mkSc i (Tail (y ++ f) []) [l] (is_nil v) t (b ++ [PreComposition]) st)
| o_late n i y v t b st l x : kana_mode i -> y <> [] -> late X r cr PreComposition i v l -> completable X r ((v ++ [l]) ++ [x]) -> length b < 20 ->
    session n (mkSc i (Reading PreComposition y) v false t b st) [press (l - 32)%N] (mkSc i (Tail y []) (v ++ [l]) true t (b ++ [PreComposition]) st)
| o_double n i y v t b st l f carry : kana_mode i -> y <> [] -> v <> [] -> late X r cr PreComposition i v l -> entry X r (v ++ [l]) f carry ->
    (forall x, ~ completable X r ((v ++ [l]) ++ [x])) -> carry <> [] -> length b < 20 ->
    session n (mkSc i (Reading PreComposition y) v false t b st) [press (l - 32)%N] (mkSc i (Tail (y ++ f) []) carry true t (b ++ [PreComposition]) st)
| o_kana n i y o v cap t b st keys v' ps : kana_mode i -> v' <> [] -> spelled X r cr kf cf PreCompositionOkurigana i true v' v keys ps ->
    (ps <> [] -> o ++ concat ps <> []) ->
    session n (mkSc i (Tail y o) v cap t b st) (map press keys) (mkSc i (Tail y (o ++ concat ps)) v' cap t b st)
| o_erase_key n i y o u x cap t b st k : commands cr PreCompositionOkurigana i k [IDelete] -> outside X r (u ++ [x]) k -> u <> [] \/ o <> [] ->
    session n (mkSc i (Tail y o) (u ++ [x]) cap t b st) [OKey k] (mkSc i (Tail y o) u cap t b st)
| o_erase_last n i y x cap t b st k : commands cr PreCompositionOkurigana i k [IDelete] -> outside X r [x] k ->
    session n (mkSc i (Tail y []) [x] cap t b st) [OKey k] (mkSc i (Reading PreComposition y) [] cap t b st)
| o_ignore n i y o v cap t b st k : commands cr PreCompositionOkurigana i k [IFinishKeyEvent] -> outside X r v k ->
    session n (mkSc i (Tail y o) v cap t b st) [OKey k] (mkSc i (Tail y o) v cap t b st)
| o_confirm n i y o v cap t b st k i1 i2 : commands cr PreCompositionOkurigana i k [IForceKanaConvert i1; IConfirmAs i2; IChangeCompositionMode Direct] -> outside X r v k ->
    session n (mkSc i (Tail y o) v cap t b st) [OKey k] (mkSc i Idle [] false (t ++ in_form kf am i2 y) [] st)
| o_confirm_plain n i y o v cap t b st k i2 : commands cr PreCompositionOkurigana i k [IConfirmAs i2; IChangeCompositionMode Direct] -> outside X r v k ->
    session n (mkSc i (Tail y o) v cap t b st) [OKey k] (mkSc i Idle [] false (t ++ in_form kf am i2 y) [] st)
| o_give_up n i y o v cap t b st k : commands cr PreCompositionOkurigana i k [IClearUnconfirmedInputs; IAbort] -> outside X r v k ->
    session n (mkSc i (Tail y o) v cap t (b ++ [Direct; PreComposition]) st) [OKey k] (mkSc i Idle [] false t b st)
| o_give_up_to n i y o v cap t b st k m c' : commands cr PreCompositionOkurigana i k [IClearUnconfirmedInputs; IAbort] -> outside X r v k -> resumes m c' ->
    session n (mkSc i (Tail y o) v cap t (b ++ [m; PreComposition]) st) [OKey k] (mkSc i (Reading c' []) [] false t b st)
(* asking for candidates and completions *)
| r_ask n i ph v cap t b st ops key o v' cap' p cs : kana_mode i -> looks_up i v cap ph ops key o v' cap' p ->
    offered ids st key cs -> cs <> [] -> length (b ++ p) <= 20 ->
    session n (mkSc i ph v cap t b st) ops (mkSc i (Choosing CompositionSelection key o cs 0) v' cap' t (b ++ p) st)
| r_complete n i c y v cap t b st k extra v' cs : word_mode c -> commands cr c i k [ITryNextCompletion] -> outside X r v k -> forced X r v extra v' ->
    completions st (mkCK (y ++ extra) None) cs -> cs <> [] -> length b < 20 ->
    session n (mkSc i (Reading c y) v cap t b st) [OKey k] (mkSc i (Choosing Completion (mkCK (y ++ extra) None) [] cs 0) v' cap t (b ++ [c]) st)
| r_complete_none n i c y v cap t b st k extra v' : word_mode c -> commands cr c i k [ITryNextCompletion] -> outside X r v k -> forced X r v extra v' ->
    completions st (mkCK (y ++ extra) None) [] ->
    session n (mkSc i (Reading c y) v cap t b st) [OKey k] (mkSc i (Reading c (y ++ extra)) v' cap t b st)
(* no candidate: a word is registered, or not *)
| r_register n i ph v cap t b st ops key o v' cap' p ops3 i3 t3 b3 st3 k : kana_mode i -> looks_up i v cap ph ops key o v' cap' p ->
    offered ids st key [] -> ck_to key <> [] -> n < 10 ->
    session (S n) (mkSc Hiragana Idle [] false [] [] st) ops3 (mkSc i3 Idle [] false t3 b3 st3) -> t3 <> [] -> numeric_entry_count t3 = 0 ->
    commands cr Direct i3 k [IConfirmDirect] -> (kana_mode i3 -> outside X r [] k) ->
    session n (mkSc i ph v cap t b st) (ops ++ ops3 ++ [OKey k])
      (mkSc i Idle [] false (t ++ t3 ++ adjust_kana_string kf i o) [] (taught ids (new_word key o t3) st3))
| r_refuse n i ph v cap t b st ops key o v' cap' p m c' ops3 i3 v3 t3 b3 st3 k : kana_mode i -> looks_up i v cap ph ops key o v' cap' (p ++ [m]) ->
    offered ids st key [] -> ck_to key <> [] -> n < 10 -> length (b ++ p ++ [m]) <= 20 -> resumes m c' -> (m <> PreCompositionOkurigana -> o = []) ->
    session (S n) (mkSc Hiragana Idle [] false [] [] st) ops3 (mkSc i3 Idle v3 false t3 b3 st3) ->
    refuses cr i3 t3 k -> (kana_mode i3 -> outside X r v3 k) ->
    session n (mkSc i ph v cap t b st) (ops ++ ops3 ++ [OKey k]) (mkSc i (Reading c' (ck_to key ++ o)) v' cap' t (b ++ p) st3)
(* among candidates *)
| c_next n i key o cs j v cap t b st k : commands cr CompositionSelection i k [ITryNextCandidate] -> S j < length cs ->
    session n (mkSc i (Choosing CompositionSelection key o cs j) v cap t b st) [OKey k] (mkSc i (Choosing CompositionSelection key o cs (S j)) v cap t b st)
| c_previous n i key o cs j v cap t b st k : commands cr CompositionSelection i k [ITryPreviousCandidate] ->
    session n (mkSc i (Choosing CompositionSelection key o cs (S j)) v cap t b st) [OKey k] (mkSc i (Choosing CompositionSelection key o cs j) v cap t b st)
| c_back n i key o cs v cap t b st k : commands cr CompositionSelection i k [ITryPreviousCandidate] -> length b < 20 ->
    session n (mkSc i (Choosing CompositionSelection key o cs 0) v cap t b st) [OKey k]
      (mkSc i (Reading PreComposition (ck_to key ++ o)) v cap t (b ++ [CompositionSelection]) st)
| c_forward n i m key o cs j v cap t b st k : list_mode m -> commands cr m i k [INextCandidatePointer] ->
    session n (mkSc i (Choosing m key o cs j) v cap t b st) [OKey k] (mkSc i (Choosing m key o cs (if Nat.ltb (S j) (length cs) then S j else j)) v cap t b st)
| c_backward n i m key o cs j v cap t b st k : list_mode m -> commands cr m i k [IPreviousCandidatePointer] ->
    session n (mkSc i (Choosing m key o cs j) v cap t b st) [OKey k] (mkSc i (Choosing m key o cs (j - 1)) v cap t b st)
| c_cancel n i m key o cs j v cap t b m' c' st k : list_mode m -> commands cr m i k [IAbort] -> resumes m' c' ->
    session n (mkSc i (Choosing m key o cs j) v cap t (b ++ [m']) st) [OKey k] (mkSc i (Reading c' (ck_to key ++ o)) [] false t b st)
| c_confirm n i m key o cs j v cap t b st k l c i' t' : list_mode m -> nth_error cs j = Some c -> commands cr m i k l ->
    finishes i (t ++ c_output c ++ adjust_kana_string kf i o) l i' t' ->
    session n (mkSc i (Choosing m key o cs j) v cap t b st) [OKey k] (mkSc i' Idle [] false t' [] (taught ids c st))
| c_go_on n i m key o cs j cap t b st k c S' : list_mode m -> nth_error cs j = Some c -> (exists ch, types X k ch) -> unbound cr m i k -> unbound cr Direct i k ->
    session n (mkSc i Idle [] false (t ++ c_output c ++ adjust_kana_string kf i o) [] (taught ids c st)) [OKey k] S' ->
    session n (mkSc i (Choosing m key o cs j) [] cap t b st) [OKey k] S'
(* purging the candidate; the text confirmed before goes with it *)
| c_purge n i m key o cs j v cap t b st k c : list_mode m -> nth_error cs j = Some c -> commands cr m i k [IPurge; IChangeCompositionMode Direct] ->
    session n (mkSc i (Choosing m key o cs j) v cap t b st) [OKey k] (mkSc i Idle [] false [] [] (purged key c st))
(* beyond the last candidate: a word is registered, or not *)
| c_register n i key o cs j v cap t b st next ops3 i3 t3 b3 st3 k : commands cr CompositionSelection i next [ITryNextCandidate] -> S j = length cs -> n < 10 ->
    session (S n) (mkSc Hiragana Idle [] false [] [] st) ops3 (mkSc i3 Idle [] false t3 b3 st3) -> t3 <> [] -> numeric_entry_count t3 = 0 ->
    commands cr Direct i3 k [IConfirmDirect] -> (kana_mode i3 -> outside X r [] k) ->
    session n (mkSc i (Choosing CompositionSelection key o cs j) v cap t b st) (OKey next :: ops3 ++ [OKey k])
      (mkSc i Idle [] false (t ++ t3 ++ adjust_kana_string kf i o) [] (taught ids (new_word key o t3) st3))
| c_refuse n i key o cs j v cap t b st next ops3 i3 v3 t3 b3 st3 k : commands cr CompositionSelection i next [ITryNextCandidate] -> S j = length cs -> n < 10 ->
    length b < 20 -> session (S n) (mkSc Hiragana Idle [] false [] [] st) ops3 (mkSc i3 Idle v3 false t3 b3 st3) ->
    refuses cr i3 t3 k -> (kana_mode i3 -> outside X r v3 k) ->
    session n (mkSc i (Choosing CompositionSelection key o cs j) v cap t b st) (OKey next :: ops3 ++ [OKey k])
      (mkSc i (Choosing CompositionSelection key o cs j) v cap t b st3).
End Rules.
(** Whether the entry asked for is one with okurigana. *)
Definition okuri_entry (key : ckey) : bool := match ck_okuri key with Some _ => true | None => false end.
(** A frame that is as the scene says. *)
Definition ends {A} (l h : list A) : Prop := exists h0, h = h0 ++ l.
Definition in_phase (ph : phase) (s : cstate) : Prop :=
  match ph with
  | Idle => s_cmode s = Direct /\ s_raw s = [] /\ s_comp s = [] /\ s_okuri s = [] /\ s_use s = false /\ s_cap s = false
  | Reading c y => s_cmode s = c /\ word_mode c /\ s_raw s = y /\ s_comp s = y /\ s_okuri s = [] /\ s_use s = false /\ (c = Abbreviation -> s_pre s = [])
  | Tail y o => s_cmode s = PreCompositionOkurigana /\ s_raw s = y /\ s_comp s = y /\ y <> [] /\ s_okuri s = o /\ s_use s = negb (is_nil o)
  | Choosing m key o cs j => s_cmode s = m /\ list_mode m /\ cl_list (s_list s) = cs /\ cursor s = N.of_nat j /\ j < length cs
      /\ (N.of_nat (length cs) < 2 ^ 64)%N /\ cl_key (s_list s) = key /\ s_raw s = ck_to key /\ s_comp s = ck_to key /\ s_okuri s = o /\ get_composite_key s = key
  end.
Definition shows_scene (S : scene) (s : cstate) : Prop :=
  in_phase (sc_phase S) s /\ s_imode s = sc_mode S /\ s_pre s = sc_keys S /\ s_conf s = sc_text S /\ s_default s = Direct
  /\ (s_cap s = true -> sc_cap S = true) /\ ends (sc_back S) (s_hist s) /\ length (s_hist s) <= 20.
(** What is displayed. *)
Definition display (X : xkb) (kf : kana_form) (S : scene) : str :=
  match sc_phase S with
  | Idle => sc_text S ++ flat_map (xk_name X) (sc_keys S)
  | Reading c y => sc_text S ++ U "▽" ++ adjust_kana_string kf (sc_mode S) y ++ flat_map (xk_name X) (sc_keys S)
  | Tail y o => sc_text S ++ U "▽" ++ adjust_kana_string kf (sc_mode S) y ++ U "*" ++ adjust_kana_string kf (sc_mode S) o ++ flat_map (xk_name X) (sc_keys S)
  | Choosing m key o cs j =>
      sc_text S ++ (match m with Completion => U "■" | _ => U "▼" end)
      ++ match nth_error cs j with Some c => c_output c | None => [] end ++ adjust_kana_string kf (sc_mode S) o
  end.

(** ** Proofs *)
Lemma last_opt_snoc {A} (l : list A) x : last_opt (l ++ [x]) = Some x.
Proof. induction l as [|a [|b l] IH]; [reflexivity|reflexivity|exact IH]. Qed.
Lemma push_len m h : length h <= 20 -> length (push_history m h) <= 20.
Proof.
  intros H. unfold push_history. cbv zeta. change HISTORY_MAX with 20. destruct (Nat.ltb_spec 20 (length (h ++ [m]))) as [L|L]; [|exact L].
  rewrite app_length in L. cbn [length] in L. destruct h as [|a h]; cbn [app tl length] in *; [lia|]. rewrite app_length. cbn [length]. lia.
Qed.
Lemma push_ends m l h : ends l h -> length l < 20 -> ends (l ++ [m]) (push_history m h).
Proof.
  intros [h0 ->] Hl. unfold push_history. cbv zeta. change HISTORY_MAX with 20. rewrite <- app_assoc.
  destruct (Nat.ltb_spec 20 (length (h0 ++ l ++ [m]))) as [L|L]; [|exists h0; reflexivity].
  rewrite !app_length in L. cbn [length] in L. destruct h0 as [|a h0]; [cbn [length] in L; lia|]. exists h0. reflexivity.
Qed.
Lemma pop_ends (m : cmode) (l h : list cmode) : ends (l ++ [m]) h -> last_opt h = Some m /\ ends l (removelast h).
Proof.
  intros [h0 ->]. rewrite app_assoc. split; [apply last_opt_snoc|]. rewrite removelast_last. now exists h0.
Qed.
Lemma pop_len (h : list cmode) : length h <= 20 -> length (removelast h) <= 20.
Proof. intros H. rewrite removelast_firstn_len, firstn_length. lia. Qed.
Lemma push_pop_ends (m : cmode) (l h : list cmode) : ends l h -> length l < 20 -> ends l (removelast (push_history m h)).
Proof. intros H Hl. exact (proj2 (pop_ends m l _ (push_ends m l h H Hl))). Qed.
Lemma ends_nil {A} (h : list A) : ends [] h. Proof. exists h. now rewrite app_nil_r. Qed.

Section Session.
Context (X : xkb) (dbg : bool) (r : rule) (Hd : distinct_keys X r) (Hrows : rows_have_keys X r).
Notation yes := yes.
Definition grown (v : list N) (b : bool) (extra : str) (s : cstate) : cstate := pending v b (set_raw (s_raw s ++ extra) (set_comp (s_comp s ++ extra) s)).
Lemma force_word w s fr c v extra v' i : x_kb (w_ctx w) = kb_new X r -> word_mode c -> (c = Abbreviation -> v = []) -> s_pre s = v -> forced X r v extra v' ->
  exists b o, (b = true -> s_cap s = true) /\ (c = Abbreviation -> v' = []) /\ output_converted_kana_if_any i c (with_frames (s :: fr) w) = Ok (o, with_frames (grown v' b extra s :: fr) w).
Proof.
  intros Hb Hc Hv Hp Hf. unfold output_converted_kana_if_any. unfold bind at 1, cur at 1. cbn [x_stack w_ctx with_frames]. unfold bind at 1, get at 1.
  cbn [x_kb x_kf w_ctx with_frames]. rewrite Hp, Hb.
  destruct (forced_some X r Hd _ _ _ Hf) as [[E He]|(E & -> & ->)]; rewrite E.
  - destruct Hc as [->| ->]; [|exfalso; rewrite (Hv eq_refl) in He; exact (Hrows _ _ He)].
    exists false, true. split; [discriminate|]. split; [discriminate|]. unfold set_carry_over, modcur, bind, ret. cbn [x_stack w_ctx with_frames set_stack].
    refine (f_equal (fun z => Ok (true, with_frames (z :: fr) w)) _). destruct v'; reflexivity.
  - exists (s_cap s), false. split; [auto|]. split; [exact Hv|]. unfold ret. refine (f_equal (fun z => Ok (false, with_frames (z :: fr) w)) _).
    unfold grown. rewrite !app_nil_r, <- Hp. destruct s; reflexivity.
Qed.
Lemma word_command w s fr k l c i v : x_kb (w_ctx w) = kb_new X r -> s_cmode s = c -> s_imode s = i -> s_pre s = v -> word_mode c -> outside X r v k ->
  commands (x_cmd (w_ctx w)) c i k l -> process_key_event X dbg k (with_frames (s :: fr) w) = process_instructions dbg l c i (with_frames (s :: fr) w).
Proof.
  intros Hb Hm Hi Hp Hc Ho Hk. apply (command_step X dbg r Hd w s fr k l c i Hb Hm Hi); [destruct Hc as [->| ->]; discriminate|rewrite Hp; exact Ho|exact Hk].
Qed.
Lemma list_command w s fr k l m i : s_cmode s = m -> s_imode s = i -> list_mode m ->
  commands (x_cmd (w_ctx w)) m i k l -> process_key_event X dbg k (with_frames (s :: fr) w) = process_instructions dbg l m i (with_frames (s :: fr) w).
Proof.
  intros Hm Hi Hl Hk. rewrite (command_step_plain X dbg w s fr k l); [now rewrite Hm, Hi|destruct Hl; congruence| |now rewrite Hm, Hi].
  rewrite Hm. destruct Hl as [->| ->]; destruct (s_imode s); reflexivity.
Qed.
(** asking for candidates *)
Lemma word_key s : s_use s = false -> get_composite_key s = mkCK (s_raw s) None.
Proof. intros H. unfold get_composite_key. now rewrite H. Qed.
Lemma ask_step w s fr c k v extra v' cs : x_kb (w_ctx w) = kb_new X r -> s_cmode s = c -> word_mode c -> (c = Abbreviation -> v = []) -> s_pre s = v -> s_use s = false ->
  s_comp s = s_raw s -> commands (x_cmd (w_ctx w)) c (s_imode s) k [ITryNextCandidate] -> outside X r v k -> forced X r v extra v' ->
  get_all_candidates (ctx_dicts w) (mkCK (s_raw s ++ extra) None) = Ok cs -> (cs = [] -> s_raw s ++ extra <> []) ->
  exists b, (b = true -> s_cap s = true) /\ (c = Abbreviation -> v' = []) /\ process_key_event X dbg k (with_frames (s :: fr) w)
    = Ok (true, with_frames (offered_frames c cs (grown v' b extra s) fr) w).
Proof.
  intros Hb Hm Hc Hv Hp Huse Hraw Hk Ho Hf Hcs Hne.
  rewrite (word_command w s fr k _ c (s_imode s) v Hb Hm eq_refl Hp Hc Ho Hk).
  destruct (force_word w s fr c v extra v' (s_imode s) Hb Hc Hv Hp Hf) as (b & o & Hb' & Hv' & E). set (s2 := grown v' b extra s) in *.
  exists b. split; [exact Hb'|]. split; [exact Hv'|].
  apply one_instruction. cbn [run_instr]. unfold try_next_candidate.
  assert (Ec : cmode_eqb c CompositionSelection = false) by (destruct Hc as [->| ->]; reflexivity). rewrite Ec. cbn [negb].
  unfold bind at 1. unfold bind at 1. rewrite E. unfold bind at 1. unfold update_candidate_list. unfold bind at 1, cur at 1. cbn [x_stack w_ctx with_frames].
  unfold bind at 1, get at 1. unfold bind at 1, lift at 1. rewrite (word_key s2 Huse). change (s_raw s2) with (s_raw s ++ extra).
  match goal with |- context [ctx_dicts ?ww] => change (ctx_dicts ww) with (ctx_dicts w) end. rewrite Hcs.
  unfold modcur at 1. cbn [x_stack w_ctx with_frames set_stack]. unfold bind at 1, cur at 1. cbn [x_stack w_ctx with_frames set_stack].
  destruct cs as [|c0 cs].
  - assert (E1 : is_nil (s_comp (set_new_candidate_list [] s2)) = false).
    { change (s_comp (set_new_candidate_list [] s2)) with (s_comp s ++ extra). rewrite Hraw. specialize (Hne eq_refl). now destruct (s_raw s ++ extra). }
    assert (El : cl_is_empty (s_list (set_new_candidate_list [] s2)) = true) by reflexivity.
    rewrite E1, El. cbn [negb andb]. unfold enter_register_mode. cbn [x_stack w_ctx with_frames set_stack]. unfold offered_frames, waiting. cbn [length].
    change REGISTER_MODE_STACK_MAX with 10. destruct (Nat.ltb (S (length fr)) 10); reflexivity.
  - assert (El : cl_is_empty (s_list (set_new_candidate_list (c0 :: cs) s2)) = false) by reflexivity.
    rewrite El. rewrite andb_false_r. cbn [negb]. reflexivity.
Qed.
(** What asking leaves behind. *)
Definition looked (i : imode) (key : ckey) (o : str) (v' : list N) (cap' : bool) (t : str) (m : cmode) (s2 : cstate) : Prop :=
  s_imode s2 = i /\ s_conf s2 = t /\ s_default s2 = Direct /\ get_composite_key s2 = key /\ s_okuri s2 = o /\ s_use s2 = okuri_entry key /\ s_pre s2 = v'
  /\ s_comp s2 = ck_to key /\ s_raw s2 = ck_to key /\ (s_cap s2 = true -> cap' = true) /\ s_cmode s2 = m.
Lemma calm_auto cf0 yomi more p q : calm cf0 yomi more -> more = p ++ q -> no_auto (cf_auto cf0) (yomi ++ p).
Proof.
  intros H E. unfold no_auto, matching_keyword. destruct (find _ (cf_auto cf0)) as [kw|] eqn:F; [exfalso|reflexivity].
  apply find_some in F as [Hin F]. apply andb_prop in F as [F1 F2]. apply is_suffixb_spec in F2 as [before F2].
  rewrite (H p q kw before E Hin F2) in F2. cbn [app] in F2. subst kw. rewrite str_eqb_refl in F1. discriminate.
Qed.
Definition cut (body kw : str) (s : cstate) : cstate := set_converted_to_postfix kw (set_raw body (set_comp body s)).
Lemma auto_exact w s fr body kw cs : s_cmode s = PreComposition -> s_pre s = [] ->
  s_comp s = body ++ kw -> s_raw s = body ++ kw -> T_Auto.first_keyword (cf_auto (x_cfg (w_ctx w))) body kw ->
  x_kb (w_ctx w) = kb_new X r -> get_all_candidates (ctx_dicts w) (mkCK body None) = Ok cs ->
  auto_start_henkan dbg (with_frames (s :: fr) w) = Ok (tt, with_frames (offered_frames PreComposition cs (cut body kw s) fr) w).
Proof.
  intros Hc Hp Hcomp Hraw Hkw Hb Hcs.
  assert (Hg : convert_greedy (x_kb (w_ctx w)) [] = None).
  { rewrite Hb. destruct (forced_some X r Hd [] [] []) as [[_ E]|(E & _ & _)]; [right; split; [exact Hrows|split; reflexivity]|exfalso; exact (Hrows _ _ E)|exact E]. }
  unfold auto_start_henkan. sxu. rewrite Hc. sxu.
  replace (ck_to (get_composite_key s)) with (s_raw s) by (unfold get_composite_key; destruct (_ && _); reflexivity).
  rewrite Hraw, (T_Auto.first_keyword_spec _ _ _ Hkw). sxu. rewrite (T_Auto.delete_keyword kw s body Hc Hp Hcomp Hraw).
  unfold try_next_candidate, output_converted_kana_if_any, update_candidate_list, set_composition_mode. sxu.
  cbn [set_converted_to_postfix set_use set_okuri set_raw set_comp s_pre]. rewrite Hp, Hg. sxu.
  match goal with |- context [get_all_candidates ?a ?b] =>
    change (get_all_candidates a b) with (get_all_candidates (ctx_dicts w) (mkCK body None)) end. rewrite Hcs.
  sx.
  match goal with |- context [set_new_candidate_list cs ?x] => change x with (cut body kw s) end.
  set (s1 := set_new_candidate_list cs (cut body kw s)).
  change (s_comp s1) with body. unfold cl_is_empty. change (cl_list (s_list s1)) with cs.
  destruct Hkw as [Hbn _]. assert (Hn : is_nil body = false) by (destruct body; [congruence|reflexivity]). rewrite Hn. cbn [negb andb].
  destruct cs as [|c0 cs]; cbn [is_nil negb].
  - unfold enter_register_mode, REGISTER_MODE_STACK_MAX. cbn [w_ctx x_stack length]. unfold offered_frames, waiting. cbn [length].
    destruct (Nat.ltb (Datatypes.S (length fr)) 10); reflexivity.
  - reflexivity.
Qed.
Lemma keyword_step w s fr i y v k t body kw cs : x_kb (w_ctx w) = kb_new X r -> kana_mode i -> s_cmode s = PreComposition -> s_imode s = i -> s_pre s = v ->
  s_raw s = y -> s_comp s = y -> writes X r (x_cmd (w_ctx w)) (x_kf (w_ctx w)) (x_cfg (w_ctx w)) i v k t -> y ++ t = body ++ kw ->
  T_Auto.first_keyword (cf_auto (x_cfg (w_ctx w))) body kw -> get_all_candidates (ctx_dicts w) (mkCK body None) = Ok cs ->
  process_key_event X dbg (mkKey k 0) (with_frames (s :: fr) w) = Ok (true, with_frames (offered_frames PreComposition cs (cut body kw (pending [] false s)) fr) w).
Proof.
  intros Hb Hi Hm Him Hp Hraw Hcomp Hw Ht Hkw Hcs. subst i.
  assert (Hx : forall s1, s1 = pending [] false (set_raw (y ++ t) (set_comp (y ++ t) s)) ->
    auto_start_henkan dbg (with_frames (s1 :: fr) w) = Ok (tt, with_frames (offered_frames PreComposition cs (cut body kw (pending [] false s)) fr) w)).
  { intros s1 ->. change (cut body kw (pending [] false s)) with (cut body kw (pending [] false (set_raw (y ++ t) (set_comp (y ++ t) s)))).
    apply (auto_exact w _ fr body kw cs); try assumption; try reflexivity. }
  destruct Hw as [[He Hno]|(extra & v' & t1 & Hf & Hn1 & Hn2 & Hsg & ->)].
  - rewrite (row_step X dbg r Hd w s fr PreComposition v k t [] Hb Hm ltac:(unfold typing_mode; auto) Hi Hp He Hno).
    unfold input_converted_kana. unfold bind at 1, cur at 1. cbn [x_stack w_ctx with_frames]. rewrite Hm.
    unfold set_carry_over. sxu. unfold push_string. rewrite Hm. cbn [is_nil].
    match goal with |- context [auto_start_henkan dbg ?W] => change W with (with_frames (set_cap false (set_pre [] (push_string_for t PreComposition s)) :: fr) w) end.
    rewrite Hx; [reflexivity|]. cbn [push_string_for]. rewrite Hraw, Hcomp. reflexivity.
  - rewrite (sign_finish X dbg r Hd w s fr PreComposition v k t1 extra v' Hb Hm (or_intror eq_refl) Hi Hp Hf Hn1 Hn2 Hsg).
    unfold finish_kana_input. unfold bind at 1, cur at 1. cbn [x_stack w_ctx with_frames].
    change (s_cmode (pending [] false (put (x_kf (w_ctx w)) PreComposition [extra; t1] s))) with (s_cmode s). rewrite Hm. cbn [cmode_eqb]. unfold bind at 1.
    rewrite Hx; [reflexivity|]. cbn [put concat]. rewrite app_nil_r, Hraw, Hcomp. reflexivity.
Qed.
(** the conversion key while okurigana is typed *)
Lemma ask_tail w s fr i k y o v extra v' cs : x_kb (w_ctx w) = kb_new X r -> s_cmode s = PreCompositionOkurigana -> s_imode s = i -> s_pre s = v ->
  s_raw s = y -> s_comp s = y -> y <> [] -> s_okuri s = o -> s_use s = negb (is_nil o) ->
  commands (x_cmd (w_ctx w)) PreCompositionOkurigana i k [ITryNextCandidate] -> outside X r v k -> forced X r v extra v' ->
  (o ++ extra = [] -> forall kana carry, ~ entry X r v kana carry) ->
  get_all_candidates (ctx_dicts w) (okuri_key y (o ++ extra)) = Ok cs ->
  exists s2, s_imode s2 = s_imode s /\ s_conf s2 = s_conf s /\ s_default s2 = s_default s /\ get_composite_key s2 = okuri_key y (o ++ extra) /\ s_okuri s2 = o ++ extra
    /\ s_use s2 = negb (is_nil (o ++ extra)) /\ s_pre s2 = v' /\ s_comp s2 = y /\ s_raw s2 = y /\ (s_cap s2 = true -> s_cap s = true) /\ s_cmode s2 = PreCompositionOkurigana /\ s_hist s2 = s_hist s
    /\ process_key_event X dbg k (with_frames (s :: fr) w) = Ok (true, with_frames (offered_frames PreCompositionOkurigana cs s2 fr) w).
Proof.
  intros Hb Hm Hi Hp Hraw Hcomp Hy Hok Huse Hk Ho Hf Hnone Hcs.
  assert (Hx : exists s2 z, output_converted_kana_if_any i PreCompositionOkurigana (with_frames (s :: fr) w) = Ok (z, with_frames (s2 :: fr) w)
    /\ s_imode s2 = s_imode s /\ s_conf s2 = s_conf s /\ s_default s2 = s_default s /\ s_okuri s2 = o ++ extra
    /\ s_use s2 = negb (is_nil (o ++ extra)) /\ s_pre s2 = v' /\ s_comp s2 = y /\ s_raw s2 = y /\ (s_cap s2 = true -> s_cap s = true) /\ s_cmode s2 = PreCompositionOkurigana /\ s_hist s2 = s_hist s).
  { unfold output_converted_kana_if_any. unfold bind at 1, cur at 1. cbn [x_stack w_ctx with_frames]. unfold bind at 1, get at 1. cbn [x_kb x_kf w_ctx with_frames]. rewrite Hp, Hb.
    destruct (forced_some X r Hd _ _ _ Hf) as [[E He]|(E & -> & ->)]; rewrite E.
    - assert (Hne : o ++ extra <> []) by (intros E0; exact (Hnone E0 _ _ He)).
      exists (carried v' (clear_preconverted (push_string_for extra PreCompositionOkurigana s))), true.
      split; [unfold set_carry_over, modcur, bind, ret; cbn [x_stack w_ctx with_frames set_stack]; reflexivity|].
      assert (Eu : true = negb (is_nil (o ++ extra))) by (destruct (o ++ extra); [congruence|reflexivity]).
      destruct v'; cbn; rewrite Hok; repeat (split; [first [reflexivity|assumption|discriminate]|]); reflexivity.
    - exists s, false. split; [reflexivity|]. rewrite app_nil_r. repeat (split; [first [reflexivity|assumption]|]). split; [auto|]. split; [exact Hm|reflexivity]. }
  destruct Hx as (s2 & z & E & A1 & A2 & A3 & A5 & A6 & A7 & A8 & A9 & A10 & A11 & A12).
  assert (Ekey : get_composite_key s2 = okuri_key y (o ++ extra)).
  { unfold get_composite_key, okuri_key. rewrite A5, A6, A9. destruct (o ++ extra); reflexivity. }
  exists s2. repeat (split; [assumption|]).
  rewrite (command_step X dbg r Hd w s fr k _ PreCompositionOkurigana i Hb Hm Hi ltac:(discriminate) ltac:(rewrite Hp; exact Ho) Hk).
  apply one_instruction. cbn [run_instr]. unfold try_next_candidate. cbn [cmode_eqb negb].
  unfold bind at 1. unfold bind at 1. rewrite E. unfold bind at 1. unfold update_candidate_list. unfold bind at 1, cur at 1. cbn [x_stack w_ctx with_frames].
  unfold bind at 1, get at 1. unfold bind at 1, lift at 1. rewrite Ekey.
  match goal with |- context [ctx_dicts ?ww] => change (ctx_dicts ww) with (ctx_dicts w) end. rewrite Hcs.
  unfold modcur at 1. cbn [x_stack w_ctx with_frames set_stack]. unfold bind at 1, cur at 1. cbn [x_stack w_ctx with_frames set_stack].
  assert (E1 : is_nil (s_comp (set_new_candidate_list cs s2)) = false).
  { change (s_comp (set_new_candidate_list cs s2)) with (s_comp s2). rewrite A8. destruct y; [congruence|reflexivity]. }
  destruct cs as [|c0 cs].
  - assert (El : cl_is_empty (s_list (set_new_candidate_list [] s2)) = true) by reflexivity.
    rewrite E1, El. cbn [negb andb]. unfold enter_register_mode. cbn [x_stack w_ctx with_frames set_stack]. unfold offered_frames, waiting. cbn [length].
    change REGISTER_MODE_STACK_MAX with 10. destruct (Nat.ltb (S (length fr)) 10); reflexivity.
  - assert (El : cl_is_empty (s_list (set_new_candidate_list (c0 :: cs) s2)) = false) by reflexivity.
    rewrite El. rewrite andb_false_r. cbn [negb]. reflexivity.
Qed.
Lemma looks_up_run w s fr i ph v cap t b ops key o v' cap' p cs : x_kb (w_ctx w) = kb_new X r -> kana_mode i ->
  looks_up X r (x_cmd (w_ctx w)) (x_kf (w_ctx w)) (x_cfg (w_ctx w)) i v cap ph ops key o v' cap' p ->
  shows_scene (mkSc i ph v cap t b (w_store w)) s ->
  get_all_candidates (ctx_dicts w) key = Ok cs -> (cs = [] -> ck_to key <> []) ->
  exists p' m s2, p = p' ++ [m] /\ looked i key o v' cap' t m s2 /\ (m = PreCompositionOkurigana \/ (word_mode m /\ ck_okuri key = None /\ p' = [] /\ (m = Abbreviation -> v' = [])))
    /\ (length (b ++ p) <= 20 -> ends (b ++ p') (s_hist s2)) /\ length (s_hist s2) <= 20
    /\ run X dbg ops (with_frames (s :: fr) w) = Ok (yes ops, with_frames (offered_frames m cs s2 fr) w).
Proof.
  intros Hb Hi H Hs Hcs Hne.
  destruct H as [c y k extra v' Hk Ho Hf|y f keys caps ps -> Hy Hsp Hsh Hps|y l rest f ps -> Hy Hla Hps|y k t' body kw Hw Hyt Hkw|y o keys ps Hks Hsp Hps|y o k extra v' Hk Ho Hf Hnone].
  1-4: destruct Hs as ((Hm & Hc & Hraw & Hcomp & Hok & Huse & Hab) & Him & Hp & Hco & Hdef & Hcap & Hen & Hlen).
  5-6: destruct Hs as ((Hm & Hraw & Hcomp & Hy & Hok & Huse) & Him & Hp & Hco & Hdef & Hcap & Hen & Hlen).
  all: cbn [sc_phase sc_mode sc_keys sc_text sc_cap sc_back] in *.
  - cbn [ck_to] in Hne.
    destruct (ask_step w s fr c k v extra v' cs Hb Hm Hc ltac:(intros E; rewrite <- Hp; exact (Hab E)) Hp Huse ltac:(congruence) ltac:(rewrite Him; exact Hk) Ho Hf
      ltac:(rewrite Hraw; exact Hcs) ltac:(rewrite Hraw; exact Hne)) as (b1 & Hb1 & Hv' & E).
    exists [], c, (grown v' b1 extra s). split; [reflexivity|]. split.
    { split; [exact Him|]. split; [exact Hco|]. split; [exact Hdef|]. split; [rewrite word_key by exact Huse; cbn; now rewrite Hraw|].
      split; [exact Hok|]. split; [exact Huse|]. split; [reflexivity|]. split; [cbn; now rewrite Hcomp|]. split; [cbn; now rewrite Hraw|]. split; [intros E1; apply Hcap, Hb1; exact E1|exact Hm]. }
    split; [right; auto|]. split; [intros _; rewrite app_nil_r; exact Hen|]. split; [exact Hlen|]. exact (run_key X dbg _ _ _ E).
  - assert (Hcap0 : s_cap s = false) by (destruct (s_cap s); [discriminate (Hcap eq_refl)|reflexivity]). clear Hcap. cbn [ck_to] in *. subst i.
    pose proof (okurigana_run X dbg r Hd w s fr v f keys caps ps cs Hb Hm Hp Hok Hcap0 ltac:(congruence) Hi Hsp Hsh ltac:(rewrite Hraw; exact Hcs) Hps) as E2. apply run_presses in E2.
    eexists [PreComposition], PreCompositionOkurigana, _. split; [reflexivity|]. split; [|split; [now left|split; [|split; [|exact E2]]]].
    + split; [reflexivity|]. split; [exact Hco|]. split; [exact Hdef|]. split; [|split; [reflexivity|split; [|split; [reflexivity|]]]].
      * unfold get_composite_key. cbn [set_use set_okuri change_composition_mode change_from_old_mode set_cmode set_hist pending set_cap set_pre put set_raw set_comp s_use s_okuri s_raw].
        rewrite Hraw. cbn [concat]. rewrite app_nil_r. destruct (concat ps); [congruence|reflexivity].
      * cbn. destruct ps; [cbn in Hps; congruence|reflexivity].
      * cbn. rewrite app_nil_r. split; [now rewrite Hcomp|]. split; [now rewrite Hraw|]. split; [discriminate|reflexivity].
    + intros Hl. rewrite app_length in Hl. cbn [length] in Hl.
      match goal with |- ends _ (s_hist ?x) => change (s_hist x) with (push_history (s_cmode s) (s_hist s)) end. rewrite Hm. apply push_ends; [exact Hen|lia].
    + match goal with |- length (s_hist ?x) <= 20 => change (s_hist x) with (push_history (s_cmode s) (s_hist s)) end. now apply push_len.
  - assert (Hcap0 : s_cap s = false) by (destruct (s_cap s); [discriminate (Hcap eq_refl)|reflexivity]). clear Hcap. cbn [ck_to] in *. subst i.
    pose proof (late_okurigana_run X dbg r Hd w s fr v l rest f ps cs Hb Hm Hp Hok Hcap0 ltac:(congruence) Hi Hla ltac:(rewrite Hraw; exact Hcs) Hps) as E2. apply run_presses in E2.
    eexists [PreComposition], PreCompositionOkurigana, _. split; [reflexivity|]. split; [|split; [now left|split; [|split; [|exact E2]]]].
    + split; [reflexivity|]. split; [exact Hco|]. split; [exact Hdef|]. split; [|split; [reflexivity|split; [|split; [reflexivity|]]]].
      * unfold get_composite_key. cbn [set_use set_okuri change_composition_mode change_from_old_mode set_cmode set_hist pending set_cap set_pre put set_raw set_comp s_use s_okuri s_raw].
        rewrite Hraw. cbn [concat]. rewrite app_nil_r. destruct (concat ps); [congruence|reflexivity].
      * cbn. destruct ps; [cbn in Hps; congruence|reflexivity].
      * cbn. rewrite app_nil_r. split; [now rewrite Hcomp|]. split; [now rewrite Hraw|]. split; [discriminate|reflexivity].
    + intros Hl. rewrite app_length in Hl. cbn [length] in Hl.
      match goal with |- ends _ (s_hist ?x) => change (s_hist x) with (push_history (s_cmode s) (s_hist s)) end. rewrite Hm. apply push_ends; [exact Hen|lia].
    + match goal with |- length (s_hist ?x) <= 20 => change (s_hist x) with (push_history (s_cmode s) (s_hist s)) end. now apply push_len.
  - pose proof (keyword_step w s fr i y v k t' body kw cs Hb Hi Hm Him Hp Hraw Hcomp Hw Hyt Hkw Hcs) as E.
    exists [], PreComposition, (cut body kw (pending [] false s)). split; [reflexivity|]. split.
    { split; [exact Him|]. split; [exact Hco|]. split; [exact Hdef|]. split; [reflexivity|]. split; [reflexivity|]. split; [reflexivity|]. split; [reflexivity|].
      split; [reflexivity|]. split; [reflexivity|]. split; [discriminate|exact Hm]. }
    split; [right; split; [now left|split; [reflexivity|split; [reflexivity|discriminate]]]|]. split; [intros _; rewrite app_nil_r; exact Hen|]. split; [exact Hlen|].
    exact (run_key X dbg _ _ _ E).
  - cbn [ck_to] in Hne. set (s1 := carried [] (put (x_kf (w_ctx w)) PreCompositionOkurigana ps s)).
    assert (Ep : put (x_kf (w_ctx w)) PreCompositionOkurigana ps s = set_use true (set_okuri (o ++ concat ps) s)).
    { destruct ps; [|cbn [put]; now rewrite Hok]. cbn [put concat] in *. rewrite app_nil_r in *. rewrite <- Hok. assert (Hu : s_use s = true) by (rewrite Huse; destruct o; [congruence|reflexivity]).
      rewrite <- Hu. destruct s; reflexivity. }
    assert (Ekey : get_composite_key s1 = mkCK y (Some (o ++ concat ps))).
    { unfold get_composite_key, s1, carried. rewrite Ep. cbn [is_nil set_cap set_pre set_use set_okuri s_use s_okuri s_raw]. rewrite Hraw. destruct (o ++ concat ps); [congruence|reflexivity]. }
    pose proof (okuri_run_any X dbg r Hd w i v keys ps cs Hb Hi Hsp s fr (or_intror Hks) Hm Him Hp ltac:(congruence)) as E. cbv zeta in E. fold s1 in E.
    rewrite Ekey in E. specialize (E Hcs). apply run_presses in E.
    exists [], PreCompositionOkurigana, s1. split; [reflexivity|]. split; [|split; [now left|split; [|split; [|exact E]]]].
    + unfold looked. rewrite Ekey. unfold s1, carried. rewrite Ep.
      split; [exact Him|]. split; [exact Hco|]. split; [exact Hdef|]. split; [reflexivity|]. split; [reflexivity|]. split; [reflexivity|]. split; [reflexivity|].
      split; [exact Hcomp|]. split; [exact Hraw|]. split; [discriminate|exact Hm].
    + intros _. rewrite app_nil_r. unfold s1, carried. rewrite Ep. exact Hen.
    + unfold s1, carried. rewrite Ep. exact Hlen.
  - cbn [okuri_key ck_to] in Hne.
    destruct (ask_tail w s fr i k y o v extra v' cs Hb Hm Him Hp Hraw Hcomp Hy Hok Huse Hk Ho Hf Hnone Hcs) as (s2 & A1 & A2 & A3 & A4 & A5 & A6 & A7 & A8 & A9 & A10 & A11 & Eh & E).
    exists [], PreCompositionOkurigana, s2. split; [reflexivity|]. split; [|split; [now left|split; [|split; [|exact (run_key X dbg _ _ _ E)]]]].
    + split; [congruence|]. split; [congruence|]. split; [congruence|]. split; [exact A4|]. split; [exact A5|]. split; [rewrite A6; unfold okuri_entry, okuri_key; cbn [ck_okuri]; destruct (o ++ extra); reflexivity|].
      split; [exact A7|]. split; [exact A8|]. split; [exact A9|]. split; [auto|exact A11].
    + intros _. rewrite app_nil_r. rewrite Eh. exact Hen.
    + now rewrite Eh.
Qed.


(** ** the rules, one by one *)
Lemma scene_idle i v cap t b st s : shows_scene (mkSc i Idle v cap t b st) s ->
  idle_with v s /\ s_imode s = i /\ s_conf s = t /\ s_default s = Direct /\ ends b (s_hist s) /\ length (s_hist s) <= 20.
Proof.
  intros ((H1 & H2 & H3 & H4 & H5 & H6) & Hi & Hp & Hc & Hd' & _ & He & Hl). cbn [sc_mode sc_keys sc_text sc_back] in *.
  unfold idle_with. auto 12.
Qed.
Lemma idle_scene i v cap t b st s : idle_with v s -> s_imode s = i -> s_conf s = t -> s_default s = Direct -> ends b (s_hist s) -> length (s_hist s) <= 20 ->
  shows_scene (mkSc i Idle v cap t b st) s.
Proof.
  intros (H1 & H2 & H3 & H4 & H5 & H6 & H7) Hi Hc Hd' He Hl. unfold shows_scene, in_phase. cbn [sc_phase sc_mode sc_keys sc_text sc_back sc_cap].
  split; [auto 10|]. repeat (split; [assumption|]). split; [rewrite H7; discriminate|]. auto.
Qed.
Lemma confirmed_idle text s s' i cap t st : confirmed text s s' -> s_default s = Direct -> s_imode s = i -> s_conf s ++ text = t ->
  shows_scene (mkSc i Idle [] cap t [] st) s'.
Proof.
  intros (Hc & Hi & Hd' & Hm & Hp & Hraw & Hcomp & Hok & Huse & Hcap & _ & Hh) Hdef Hi1 Ht. apply idle_scene; try congruence.
  - unfold idle_with. repeat split; try assumption. congruence.
  - rewrite Hh. exists []. reflexivity.
  - rewrite Hh. cbn. lia.
Qed.
(** steps in the current frame only *)
Definition leads (w : world) (s : cstate) (fr : list cstate) (ops : list op) (w' : world) (S' : scene) : Prop :=
  exists s', run X dbg ops (with_frames (s :: fr) w) = Ok (yes ops, with_frames (s' :: fr) w') /\ shows_scene S' s'.
Lemma leads_key w s fr k s' w' S' : process_key_event X dbg k (with_frames (s :: fr) w) = Ok (true, with_frames (s' :: fr) w') -> shows_scene S' s' ->
  leads w s fr [OKey k] w' S'.
Proof. intros E H. exists s'. split; [exact (run_key X dbg _ _ _ E)|exact H]. Qed.
Lemma plain_run ks (w : world) s fr s' : run X dbg (map OKey ks) (with_frames (s :: fr) w) = Ok (map (fun _ => OutBool true) ks, with_frames (s' :: fr) w) ->
  run X dbg (map OKey ks) (with_frames (s :: fr) w) = Ok (yes (map OKey ks), with_frames (s' :: fr) w).
Proof. intros ->. rewrite map_repeat_true. unfold yes. now rewrite map_length. Qed.
Lemma do_i_kana w s fr i v t b keys v' ps : x_kb (w_ctx w) = kb_new X r -> kana_mode i ->
  spelled X r (x_cmd (w_ctx w)) (x_kf (w_ctx w)) (x_cfg (w_ctx w)) Direct i false v' v keys ps -> shows_scene (mkSc i Idle v false t b (w_store w)) s ->
  leads w s fr (map press keys) w (mkSc i Idle v' false (t ++ concat (map (adjust_kana_string (x_kf (w_ctx w)) i) ps)) b (w_store w)).
Proof.
  intros Hb Hi Hs Hsc. apply scene_idle in Hsc as ((Hm & Hp & Hraw & Hcomp & Hok & Huse & Hcap) & Hi0 & Ht & Hdef & He & Hl).
  destruct (spells_run X dbg r Hd w Direct i v' v keys ps Hb (or_introl eq_refl) Hi Hs s fr Hm Hi0 Hp ltac:(intros _; exact Hcap) ltac:(discriminate)) as (b1 & Hv & E).
  rewrite (Hv (or_intror Hcap)) in E. apply run_presses in E. eexists. split; [exact E|].
  apply idle_scene; [repeat split; assumption|exact Hi0|cbn; now rewrite Hi0, Ht|exact Hdef|exact He|exact Hl].
Qed.
Lemma do_i_ascii w s fr t b ks chs : Forall2 (types X) ks chs -> Forall (unbound (x_cmd (w_ctx w)) Direct Ascii) ks ->
  shows_scene (mkSc Ascii Idle [] false t b (w_store w)) s -> leads w s fr (map OKey ks) w (mkSc Ascii Idle [] false (t ++ chs) b (w_store w)).
Proof.
  intros Hks Hu Hsc. apply scene_idle in Hsc as (Hid & Hi0 & Ht & Hdef & He & Hl). pose proof Hid as (Hm & _).
  pose proof (C08_ascii_transparent X dbg ks chs (with_frames (s :: fr) w) s fr eq_refl Hm Hi0 Hks Hu) as E.
  eexists. split; [rewrite E, map_repeat_true; unfold yes; rewrite map_length; reflexivity|].
  apply idle_scene; [exact Hid|exact Hi0|cbn; now rewrite Ht|exact Hdef|exact He|exact Hl].
Qed.
Lemma do_i_zenkaku w s fr t b ks chs ts : Forall2 (types X) ks chs -> Forall2 (full_width (x_am (w_ctx w))) chs ts -> Forall (unbound (x_cmd (w_ctx w)) Direct Zenkaku) ks ->
  shows_scene (mkSc Zenkaku Idle [] false t b (w_store w)) s -> leads w s fr (map OKey ks) w (mkSc Zenkaku Idle [] false (t ++ concat ts) b (w_store w)).
Proof.
  intros Hks Hz Hu Hsc. apply scene_idle in Hsc as (Hid & Hi0 & Ht & Hdef & He & Hl). pose proof Hid as (Hm & _).
  pose proof (C09_zenkaku X dbg ks chs ts (with_frames (s :: fr) w) s fr eq_refl Hm Hi0 Hks Hz Hu) as E.
  eexists. split; [rewrite E, map_repeat_true; unfold yes; rewrite map_length; reflexivity|].
  apply idle_scene; [exact Hid|exact Hi0|cbn; now rewrite Ht|exact Hdef|exact He|exact Hl].
Qed.
Lemma do_i_switch w s fr i v t b k i0 i1 extra v' : x_kb (w_ctx w) = kb_new X r -> kana_mode i ->
  commands (x_cmd (w_ctx w)) Direct i k [IForceKanaConvert i0; IChangeInputMode i1; IClearUnconfirmedInputs] -> outside X r v k -> forced X r v extra v' ->
  shows_scene (mkSc i Idle v false t b (w_store w)) s ->
  leads w s fr [OKey k] w (mkSc i1 Idle [] false (t ++ adjust_kana_string (x_kf (w_ctx w)) i0 extra) b (w_store w)).
Proof.
  intros Hb Hi Hk Ho Hf Hsc. apply scene_idle in Hsc as (Hid & Hi0 & Ht & Hdef & He & Hl). subst i.
  destruct (switch_step X dbg r Hd w s fr v k i0 i1 extra v' Hb Hid Hi Hk Ho Hf) as (s1 & E & Hid1 & Hi1 & Hc1 & Hd1 & Hh1).
  apply (leads_key _ _ _ _ _ _ _ E). apply idle_scene; try congruence.
Qed.
Lemma do_i_switch_plain w s fr i v t b k i1 : x_kb (w_ctx w) = kb_new X r ->
  commands (x_cmd (w_ctx w)) Direct i k [IChangeInputMode i1] -> (kana_mode i -> outside X r v k) -> shows_scene (mkSc i Idle v false t b (w_store w)) s ->
  leads w s fr [OKey k] w (mkSc i1 Idle v false t b (w_store w)).
Proof.
  intros Hb Hk Ho Hsc. apply scene_idle in Hsc as (Hid & Hi0 & Ht & Hdef & He & Hl). subst i. pose proof Hid as (Hm & Hp & _).
  pose proof (direct_step X dbg r Hd w s fr k _ Hb Hm ltac:(rewrite Hp; exact Ho) Hk) as E.
  apply (leads_key w s fr k (set_imode i1 s) w); [rewrite E; reflexivity|]. apply idle_scene; auto.
Qed.
Lemma do_i_erase_key w s fr i u x t b k : x_kb (w_ctx w) = kb_new X r ->
  commands (x_cmd (w_ctx w)) Direct i k [IDelete] -> (kana_mode i -> outside X r (u ++ [x]) k) -> shows_scene (mkSc i Idle (u ++ [x]) false t b (w_store w)) s ->
  leads w s fr [OKey k] w (mkSc i Idle u false t b (w_store w)).
Proof.
  intros Hb Hk Ho Hsc. apply scene_idle in Hsc as (Hid & Hi0 & Ht & Hdef & He & Hl). subst i. pose proof Hid as (Hm & Hp & Hr).
  pose proof (direct_step X dbg r Hd w s fr k _ Hb Hm ltac:(rewrite Hp; exact Ho) Hk) as E.
  apply (leads_key w s fr k (set_pre u s) w).
  - rewrite E. unfold process_instructions. cbn [run_instrs run_instr]. unfold bind at 1. unfold bind at 1, cur at 1. cbn [x_stack w_ctx with_frames].
    unfold bind at 1, modcur at 1. cbn [x_stack w_ctx with_frames]. rewrite (delete_pending s u x Direct Hm ltac:(auto) Hp). reflexivity.
  - apply idle_scene; auto. split; [exact Hm|]. split; [reflexivity|exact Hr].
Qed.
Lemma do_i_erase w s fr i t x b k : x_kb (w_ctx w) = kb_new X r ->
  commands (x_cmd (w_ctx w)) Direct i k [IDelete] -> (kana_mode i -> outside X r [] k) -> shows_scene (mkSc i Idle [] false (t ++ [x]) b (w_store w)) s ->
  leads w s fr [OKey k] w (mkSc i Idle [] false t b (w_store w)).
Proof.
  intros Hb Hk Ho Hsc. apply scene_idle in Hsc as (Hid & Hi0 & Ht & Hdef & He & Hl). subst i. pose proof Hid as (Hm & Hp & Hr).
  pose proof (direct_step X dbg r Hd w s fr k _ Hb Hm ltac:(rewrite Hp; exact Ho) Hk) as E.
  apply (leads_key w s fr k (set_conf t s) w).
  - rewrite E. unfold process_instructions. cbn [run_instrs run_instr]. unfold bind at 1. unfold bind at 1, cur at 1. cbn [x_stack w_ctx with_frames].
    unfold bind at 1, modcur at 1. cbn [x_stack w_ctx with_frames]. rewrite (delete_conf s Hm Hp), Ht. cbn [fst snd].
    rewrite drop_last_one, removelast_last. destruct t; reflexivity.
  - apply idle_scene; auto.
Qed.
Lemma do_i_ignore w s fr i v t b k : x_kb (w_ctx w) = kb_new X r ->
  commands (x_cmd (w_ctx w)) Direct i k [IFinishKeyEvent] -> (kana_mode i -> outside X r v k) -> shows_scene (mkSc i Idle v false t b (w_store w)) s ->
  leads w s fr [OKey k] w (mkSc i Idle v false t b (w_store w)).
Proof.
  intros Hb Hk Ho Hsc. pose proof Hsc as Hsc'. apply scene_idle in Hsc as (Hid & Hi0 & Ht & Hdef & He & Hl). subst i. pose proof Hid as (Hm & Hp & _).
  pose proof (direct_step X dbg r Hd w s fr k _ Hb Hm ltac:(rewrite Hp; exact Ho) Hk) as E.
  apply (leads_key w s fr k s w); [rewrite E; reflexivity|exact Hsc'].
Qed.
Lemma back_direct h : length h <= 20 -> ends [Direct] (push_history Direct h) /\ length (push_history Direct h) <= 20.
Proof. intros H. split; [apply (push_ends Direct [] h (ends_nil h)); cbn; lia|now apply push_len]. Qed.
Lemma do_i_capital w s fr i v t b f keys caps v' ps : x_kb (w_ctx w) = kb_new X r -> kana_mode i ->
  spelled X r (x_cmd (w_ctx w)) (x_kf (w_ctx w)) (x_cfg (w_ctx w)) PreComposition i false v' [] keys ps ->
  shifted X r (x_cmd (w_ctx w)) Direct i v f keys caps -> no_keyword (cf_auto (x_cfg (w_ctx w))) (concat ps) -> shows_scene (mkSc i Idle v false t b (w_store w)) s ->
  leads w s fr (map press caps) w (mkSc i (Reading PreComposition (concat ps)) v' (negb (is_nil v')) (t ++ adjust_kana_string (x_kf (w_ctx w)) i f) [Direct] (w_store w)).
Proof.
  intros Hb Hi Hs Hsh Hk Hsc. apply scene_idle in Hsc as (Hid & Hi0 & Ht & Hdef & He & Hl). subst i.
  destruct (reading_run X dbg r Hd w s fr v f v' keys caps ps Hb Hid Hi Hs Hsh Hk) as (b1 & Hb1 & E). apply run_presses in E.
  destruct Hid as (Hm & Hp & Hraw & Hcomp & Hok & Huse & Hcap). destruct (back_direct _ Hl) as [B1 B2].
  eexists. split; [exact E|]. unfold shows_scene. cbn [sc_phase sc_mode sc_keys sc_text sc_back sc_cap].
  split; [|split; [reflexivity|split; [reflexivity|split; [cbn; now rewrite Ht|split; [exact Hdef|split; [|split]]]]]].
  - unfold in_phase. split; [reflexivity|]. split; [now left|]. split; [reflexivity|]. split; [reflexivity|]. split; [exact Hok|]. split; [exact Huse|discriminate].
  - intros Hc. destruct v'; [|reflexivity]. rewrite (Hb1 eq_refl) in Hc. discriminate.
  - match goal with |- ends _ (s_hist ?x) => change (s_hist x) with (push_history (s_cmode s) (s_hist s)) end. rewrite Hm. exact B1.
  - match goal with |- length (s_hist ?x) <= _ => change (s_hist x) with (push_history (s_cmode s) (s_hist s)) end. rewrite Hm. exact B2.
Qed.
Lemma do_i_late w s fr i v t b l rest v' ps : x_kb (w_ctx w) = kb_new X r -> kana_mode i ->
  spelled X r (x_cmd (w_ctx w)) (x_kf (w_ctx w)) (x_cfg (w_ctx w)) PreComposition i false v' v (l :: rest) ps ->
  late X r (x_cmd (w_ctx w)) Direct i v l -> no_keyword (cf_auto (x_cfg (w_ctx w))) (concat ps) -> shows_scene (mkSc i Idle v false t b (w_store w)) s ->
  leads w s fr (map press ((l - 32)%N :: rest)) w (mkSc i (Reading PreComposition (concat ps)) v' (negb (is_nil v')) t [Direct] (w_store w)).
Proof.
  intros Hb Hi Hs Hsh Hk Hsc. apply scene_idle in Hsc as (Hid & Hi0 & Ht & Hdef & He & Hl). subst i.
  destruct (late_reading_run X dbg r Hd w s fr v v' l rest ps Hb Hid Hi Hs Hsh Hk) as (b1 & Hb1 & E). apply run_presses in E.
  destruct Hid as (Hm & Hp & Hraw & Hcomp & Hok & Huse & Hcap). destruct (back_direct _ Hl) as [B1 B2].
  eexists. split; [exact E|]. unfold shows_scene. cbn [sc_phase sc_mode sc_keys sc_text sc_back sc_cap].
  split; [|split; [reflexivity|split; [reflexivity|split; [exact Ht|split; [exact Hdef|split; [|split]]]]]].
  - unfold in_phase. split; [reflexivity|]. split; [now left|]. split; [reflexivity|]. split; [reflexivity|]. split; [exact Hok|]. split; [exact Huse|discriminate].
  - intros Hc. destruct v'; [|reflexivity]. rewrite (Hb1 eq_refl) in Hc. discriminate.
  - match goal with |- ends _ (s_hist ?x) => change (s_hist x) with (push_history (s_cmode s) (s_hist s)) end. rewrite Hm. exact B1.
  - match goal with |- length (s_hist ?x) <= _ => change (s_hist x) with (push_history (s_cmode s) (s_hist s)) end. rewrite Hm. exact B2.
Qed.
Lemma do_i_begin w s fr i t b k c : x_kb (w_ctx w) = kb_new X r -> kana_mode i -> word_mode c ->
  commands (x_cmd (w_ctx w)) Direct i k [IChangeCompositionMode c] -> outside X r [] k -> shows_scene (mkSc i Idle [] false t b (w_store w)) s ->
  leads w s fr [OKey k] w (mkSc i (Reading c []) [] false t [Direct] (w_store w)).
Proof.
  intros Hb Hi Hc Hk Ho Hsc. apply scene_idle in Hsc as (Hid & Hi0 & Ht & Hdef & He & Hl). subst i. destruct Hid as (Hm & Hp & Hraw & Hcomp & Hok & Huse & Hcap).
  pose proof (direct_step X dbg r Hd w s fr k _ Hb Hm ltac:(rewrite Hp; auto) Hk) as E. destruct (back_direct _ Hl) as [B1 B2].
  apply (leads_key w s fr k (change_composition_mode c s) w); [rewrite E; reflexivity|].
  unfold shows_scene. cbn [sc_phase sc_mode sc_keys sc_text sc_back sc_cap].
  split; [|split; [reflexivity|split; [exact Hp|split; [exact Ht|split; [exact Hdef|split; [|split]]]]]].
  - unfold in_phase. repeat (split; [first [reflexivity|assumption]|]). intros _. exact Hp.
  - change (s_cap s = true -> false = true). now rewrite Hcap.
  - change (ends [Direct] (push_history (s_cmode s) (s_hist s))). rewrite Hm. exact B1.
  - change (length (push_history (s_cmode s) (s_hist s)) <= 20). rewrite Hm. exact B2.
Qed.
(** reading *)
Definition reads_frame (i : imode) (c : cmode) (y : str) (v : list N) (cap : bool) (t : str) (b : list cmode) (s : cstate) : Prop :=
  s_cmode s = c /\ word_mode c /\ s_raw s = y /\ s_comp s = y /\ s_okuri s = [] /\ s_use s = false /\ (c = Abbreviation -> s_pre s = [])
  /\ s_imode s = i /\ s_pre s = v /\ s_conf s = t /\ s_default s = Direct /\ (s_cap s = true -> cap = true) /\ ends b (s_hist s) /\ length (s_hist s) <= 20.
Lemma scene_reads i c y v cap t b st s : shows_scene (mkSc i (Reading c y) v cap t b st) s <-> reads_frame i c y v cap t b s.
Proof.
  unfold shows_scene, in_phase, reads_frame. cbn [sc_phase sc_mode sc_keys sc_text sc_back sc_cap]. intuition auto.
Qed.
Lemma do_r_kana w s fr i y v cap t b keys v' ps : x_kb (w_ctx w) = kb_new X r -> kana_mode i ->
  spelled X r (x_cmd (w_ctx w)) (x_kf (w_ctx w)) (x_cfg (w_ctx w)) PreComposition i false v' v keys ps -> calm (x_cfg (w_ctx w)) y (concat ps) ->
  shows_scene (mkSc i (Reading PreComposition y) v cap t b (w_store w)) s ->
  leads w s fr (map press keys) w (mkSc i (Reading PreComposition (y ++ concat ps)) v' (cap && (negb (is_nil v') || is_nil keys)) t b (w_store w)).
Proof.
  intros Hb Hi Hs Hcalm Hsc. apply scene_reads in Hsc as (Hm & Hc & Hraw & Hcomp & Hok & Huse & Hab & Hi0 & Hp & Ht & Hdef & Hcap & He & Hl).
  destruct (spells_run_any X dbg r Hd w PreComposition i v' v keys ps Hb (or_intror eq_refl) Hi Hs s fr Hm Hi0 Hp) as (b1 & Hb1 & E).
  { intros _ p q Epq. rewrite Hraw. exact (calm_auto _ _ _ p q Hcalm Epq). }
  apply run_presses in E. eexists. split; [exact E|]. apply scene_reads. unfold reads_frame.
  split; [exact Hm|]. split; [exact Hc|]. split; [cbn; now rewrite Hraw|]. split; [cbn; now rewrite Hcomp|]. split; [exact Hok|]. split; [exact Huse|].
  split; [discriminate|]. split; [exact Hi0|]. split; [reflexivity|]. split; [exact Ht|]. split; [exact Hdef|]. split; [|split; [exact He|exact Hl]].
  intros Hc1. cbn in Hc1. subst b1.
  assert (Hs1 : s_cap s = true) by (destruct (s_cap s); [reflexivity|discriminate (Hb1 (or_introl eq_refl))]). rewrite (Hcap Hs1). cbn [andb].
  destruct v' as [|? ?]; [|reflexivity]. destruct keys as [|k0 ks]; [reflexivity|]. exact (eq_sym (Hb1 (or_intror (conj eq_refl (fun _ E0 => eq_ind (k0 :: ks) (fun l => match l with [] => False | _ => True end) I [] E0))))).
Qed.
Lemma do_r_letters w s fr i y t b ks chs : Forall2 (types X) ks chs -> Forall (unbound (x_cmd (w_ctx w)) Abbreviation i) ks ->
  shows_scene (mkSc i (Reading Abbreviation y) [] false t b (w_store w)) s ->
  leads w s fr (map OKey ks) w (mkSc i (Reading Abbreviation (y ++ chs)) [] false t b (w_store w)).
Proof.
  intros Hks Hu Hsc. apply scene_reads in Hsc as (Hm & Hc & Hraw & Hcomp & Hok & Huse & Hab & Hi0 & Hp & Ht & Hdef & Hcap & He & Hl). subst i.
  eexists. split; [exact (abbreviation_run X dbg ks chs w s fr Hm Hks Hu)|]. apply scene_reads. unfold reads_frame. cbn.
  rewrite Hraw, Hcomp. auto 20.
Qed.
Lemma delete_word s u x c : s_cmode s = c -> word_mode c -> s_pre s = u ++ [x] -> st_delete s = (true, set_pre u s).
Proof. intros Hm Hc Hp. unfold st_delete. rewrite Hm, Hp. unfold str_pop. rewrite pop_snoc. destruct Hc as [-> | ->]; destruct u; reflexivity. Qed.
Lemma delete_step w s fr k c i v : x_kb (w_ctx w) = kb_new X r -> s_cmode s = c -> s_imode s = i -> s_pre s = v -> word_mode c -> outside X r v k ->
  commands (x_cmd (w_ctx w)) c i k [IDelete] -> process_key_event X dbg k (with_frames (s :: fr) w) = Ok (fst (st_delete s), with_frames (snd (st_delete s) :: fr) w).
Proof.
  intros Hb Hm Hi Hp Hc Ho Hk. rewrite (word_command w s fr k _ c i v Hb Hm Hi Hp Hc Ho Hk). unfold process_instructions. cbn [run_instrs run_instr is_nil negb].
  unfold bind, cur, modcur, ret. cbn [x_stack w_ctx with_frames]. destruct (st_delete s) as [b s']. reflexivity.
Qed.
Lemma do_r_erase_key w s fr i c y u x cap t b k : x_kb (w_ctx w) = kb_new X r -> commands (x_cmd (w_ctx w)) c i k [IDelete] -> outside X r (u ++ [x]) k ->
  shows_scene (mkSc i (Reading c y) (u ++ [x]) cap t b (w_store w)) s -> leads w s fr [OKey k] w (mkSc i (Reading c y) u cap t b (w_store w)).
Proof.
  intros Hb Hk Ho Hsc. apply scene_reads in Hsc as (Hm & Hc & Hraw & Hcomp & Hok & Huse & Hab & Hi0 & Hp & Ht & Hdef & Hcap & He & Hl).
  pose proof (delete_step w s fr k c i _ Hb Hm Hi0 Hp Hc Ho Hk) as E. rewrite (delete_word s u x c Hm Hc Hp) in E.
  apply (leads_key _ _ _ _ _ _ _ E). apply scene_reads. unfold reads_frame. cbn.
  assert (Hab' : c = Abbreviation -> u = []). { intros Ec. specialize (Hab Ec). rewrite Hp in Hab. destruct u; discriminate. }
  auto 20.
Qed.
Lemma delete_char s y x c : s_cmode s = c -> word_mode c -> s_pre s = [] -> s_raw s = y ++ [x] -> s_comp s = y ++ [x] -> st_delete s = (true, set_raw y (set_comp y s)).
Proof.
  intros Hm Hc Hp Hraw Hcomp. unfold st_delete. rewrite Hm, Hp, Hraw, Hcomp. unfold str_pop. rewrite pop_snoc.
  assert (En : is_nil (y ++ [x]) = false) by (destruct y; reflexivity). rewrite En. destruct Hc as [-> | ->]; reflexivity.
Qed.
Lemma do_r_erase w s fr i c y x cap t b k : x_kb (w_ctx w) = kb_new X r -> commands (x_cmd (w_ctx w)) c i k [IDelete] -> outside X r [] k ->
  shows_scene (mkSc i (Reading c (y ++ [x])) [] cap t b (w_store w)) s -> leads w s fr [OKey k] w (mkSc i (Reading c y) [] cap t b (w_store w)).
Proof.
  intros Hb Hk Ho Hsc. apply scene_reads in Hsc as (Hm & Hc & Hraw & Hcomp & Hok & Huse & Hab & Hi0 & Hp & Ht & Hdef & Hcap & He & Hl).
  pose proof (delete_step w s fr k c i _ Hb Hm Hi0 Hp Hc Ho Hk) as E. rewrite (delete_char s y x c Hm Hc Hp Hraw Hcomp) in E.
  apply (leads_key _ _ _ _ _ _ _ E). apply scene_reads. unfold reads_frame. cbn. auto 20.
Qed.
Lemma do_r_leave w s fr i c t b k : x_kb (w_ctx w) = kb_new X r -> commands (x_cmd (w_ctx w)) c i k [IDelete] -> outside X r [] k ->
  shows_scene (mkSc i (Reading c []) [] false t b (w_store w)) s -> leads w s fr [OKey k] w (mkSc i Idle [] false t b (w_store w)).
Proof.
  intros Hb Hk Ho Hsc. apply scene_reads in Hsc as (Hm & Hc & Hraw & Hcomp & Hok & Huse & Hab & Hi0 & Hp & Ht & Hdef & Hcap & He & Hl).
  pose proof (delete_step w s fr k c i _ Hb Hm Hi0 Hp Hc Ho Hk) as E.
  assert (Ed : st_delete s = (true, set_cmode Direct (set_raw [] (set_comp [] s)))).
  { unfold st_delete. rewrite Hm, Hp, Hraw, Hcomp. destruct Hc as [-> | ->]; reflexivity. }
  rewrite Ed in E. apply (leads_key _ _ _ _ _ _ _ E). apply idle_scene; auto. unfold idle_with. cbn.
  assert (Hcap0 : s_cap s = false) by (destruct (s_cap s); [discriminate (Hcap eq_refl)|reflexivity]). auto 10.
Qed.
Lemma do_r_ignore w s fr i c y v cap t b k : x_kb (w_ctx w) = kb_new X r -> commands (x_cmd (w_ctx w)) c i k [IFinishKeyEvent] -> outside X r v k ->
  shows_scene (mkSc i (Reading c y) v cap t b (w_store w)) s -> leads w s fr [OKey k] w (mkSc i (Reading c y) v cap t b (w_store w)).
Proof.
  intros Hb Hk Ho Hsc. pose proof Hsc as Hsc'. apply scene_reads in Hsc as (Hm & Hc & Hraw & Hcomp & Hok & Huse & Hab & Hi0 & Hp & Ht & Hdef & Hcap & He & Hl).
  apply (leads_key w s fr k s w); [|exact Hsc']. rewrite (word_command w s fr k _ c i v Hb Hm Hi0 Hp Hc Ho Hk). reflexivity.
Qed.
Lemma do_r_confirm w s fr i c y v cap t b k i1 i2 extra v' : x_kb (w_ctx w) = kb_new X r ->
  commands (x_cmd (w_ctx w)) c i k [IForceKanaConvert i1; IConfirmAs i2; IChangeCompositionMode Direct] -> outside X r v k -> forced X r v extra v' ->
  shows_scene (mkSc i (Reading c y) v cap t b (w_store w)) s ->
  leads w s fr [OKey k] w (mkSc i Idle [] false (t ++ in_form (x_kf (w_ctx w)) (x_am (w_ctx w)) i2 (y ++ extra)) [] (w_store w)).
Proof.
  intros Hb Hk Ho Hf Hsc. apply scene_reads in Hsc as (Hm & Hc & Hraw & Hcomp & Hok & Huse & Hab & Hi0 & Hp & Ht & Hdef & Hcap & He & Hl).
  destruct (force_word w s fr c v extra v' i1 Hb Hc ltac:(intros E; rewrite <- Hp; exact (Hab E)) Hp Hf) as (b1 & o & _ & _ & E).
  pose proof (word_command w s fr k _ c i v Hb Hm Hi0 Hp Hc Ho Hk) as E1.
  set (s1 := grown v' b1 extra s) in *.
  set (s2 := change_composition_mode Direct (clear_unconfirmed (push_string_for (in_form (x_kf (w_ctx w)) (x_am (w_ctx w)) i2 (s_comp s1)) Direct s1))).
  apply (leads_key w s fr k s2 w).
  - rewrite E1. unfold process_instructions. cbn [run_instrs run_instr is_nil negb]. unfold bind at 1. unfold bind at 1. unfold bind at 1. rewrite E. reflexivity.
  - apply idle_scene; [repeat split; reflexivity|exact Hi0| |exact Hdef|apply ends_nil|].
    + change (s_conf s ++ in_form (x_kf (w_ctx w)) (x_am (w_ctx w)) i2 (s_comp s ++ extra) = t ++ in_form (x_kf (w_ctx w)) (x_am (w_ctx w)) i2 (y ++ extra)). now rewrite Ht, Hcomp.
    + change (length (push_history (s_cmode s) (s_hist s)) <= 20). now apply push_len.
Qed.
Lemma do_r_confirm_plain w s fr i c y v cap t b k i2 : x_kb (w_ctx w) = kb_new X r ->
  commands (x_cmd (w_ctx w)) c i k [IConfirmAs i2; IChangeCompositionMode Direct] -> outside X r v k ->
  shows_scene (mkSc i (Reading c y) v cap t b (w_store w)) s ->
  leads w s fr [OKey k] w (mkSc i Idle [] false (t ++ in_form (x_kf (w_ctx w)) (x_am (w_ctx w)) i2 y) [] (w_store w)).
Proof.
  intros Hb Hk Ho Hsc. apply scene_reads in Hsc as (Hm & Hc & Hraw & Hcomp & Hok & Huse & Hab & Hi0 & Hp & Ht & Hdef & Hcap & He & Hl).
  pose proof (word_command w s fr k _ c i v Hb Hm Hi0 Hp Hc Ho Hk) as E1.
  set (s2 := change_composition_mode Direct (clear_unconfirmed (push_string_for (in_form (x_kf (w_ctx w)) (x_am (w_ctx w)) i2 (s_comp s)) Direct s))).
  apply (leads_key w s fr k s2 w); [rewrite E1; reflexivity|].
  apply idle_scene; [repeat split; reflexivity|exact Hi0| |exact Hdef|apply ends_nil|].
  - change (s_conf s ++ in_form (x_kf (w_ctx w)) (x_am (w_ctx w)) i2 (s_comp s) = t ++ in_form (x_kf (w_ctx w)) (x_am (w_ctx w)) i2 y). now rewrite Ht, Hcomp.
  - change (length (push_history (s_cmode s) (s_hist s)) <= 20). now apply push_len.
Qed.
(** giving up *)
Lemma abort_here w s fr m h : s_cmode s <> Direct -> s_cmode s <> PreCompositionOkurigana -> last_opt (s_hist s) = Some m -> removelast (s_hist s) = h ->
  abort (with_frames (s :: fr) w) = Ok (tt, with_frames ((match m with PreCompositionOkurigana => set_cmode PreComposition | _ => set_cmode m end)
    (set_hist h (clear_candidate_list (consolidate (clear_preconverted s)))) :: fr) w).
Proof.
  intros H1 H2 Hlast Hh. unfold abort. unfold bind at 1, modcur at 1. cbn [x_stack w_ctx with_frames set_stack]. set (s1 := clear_candidate_list (consolidate (clear_preconverted s))).
  unfold bind at 1, cur at 1. cbn [x_stack w_ctx with_frames set_stack]. change (s_cmode s1) with (s_cmode s).
  assert (Ea : abort_to_previous_mode s1 = (match m with PreCompositionOkurigana => set_cmode PreComposition | _ => set_cmode m end) (set_hist h s1)).
  { unfold abort_to_previous_mode. change (s_hist s1) with (s_hist s). rewrite Hlast, Hh. destruct m; try reflexivity.
    unfold consolidate at 1. cbn [set_hist s_okuri s_raw s_comp]. unfold s1, clear_candidate_list, consolidate, clear_preconverted.
    cbn [set_use set_okuri set_raw set_comp set_cap set_pre set_hist set_cokuri set_list set_cmode s_okuri s_raw s_comp s_cmode s_imode s_default s_hist s_pre s_list s_cokuri s_conf s_cap s_use].
    rewrite !app_nil_r. reflexivity. }
  assert (Em : (match s_cmode s with Direct => abort_register_mode ;; ret tt | _ => ret tt end) = ret tt) by (destruct (s_cmode s); [contradiction|reflexivity..]).
  rewrite Em. unfold bind at 1, ret at 1. unfold bind at 1, modcur at 1. cbn [x_stack w_ctx with_frames set_stack]. rewrite Ea.
  assert (Eo : cmode_eqb (s_cmode s) PreCompositionOkurigana = false) by (destruct (s_cmode s); [reflexivity|reflexivity|contradiction|reflexivity..]).
  unfold bind at 1, cur at 1. cbn [x_stack w_ctx with_frames set_stack]. rewrite Eo. reflexivity.
Qed.
Lemma give_up_run w s fr k c i v m h : x_kb (w_ctx w) = kb_new X r -> s_cmode s = c -> s_imode s = i -> s_pre s = v -> word_mode c -> outside X r v k ->
  commands (x_cmd (w_ctx w)) c i k [IClearUnconfirmedInputs; IAbort] -> last_opt (s_hist s) = Some m -> removelast (s_hist s) = h ->
  process_key_event X dbg k (with_frames (s :: fr) w) = Ok (true, with_frames ((match m with PreCompositionOkurigana => set_cmode PreComposition | _ => set_cmode m end)
    (set_hist h (clear_candidate_list (consolidate (clear_preconverted (clear_unconfirmed s))))) :: fr) w).
Proof.
  intros Hb Hm Hi Hp Hc Ho Hk Hlast Hh. rewrite (word_command w s fr k _ c i v Hb Hm Hi Hp Hc Ho Hk).
  unfold process_instructions. cbn [run_instrs run_instr is_nil negb]. unfold bind at 1. unfold bind at 1, modcur at 1. cbn [x_stack w_ctx with_frames set_stack].
  unfold ret at 1. unfold bind at 1. unfold bind at 1.
  match goal with |- context [abort ?W] => change W with (with_frames (clear_unconfirmed s :: fr) w) end.
  rewrite (abort_here w (clear_unconfirmed s) fr m h); [reflexivity| | |exact Hlast|exact Hh];
    change (s_cmode (clear_unconfirmed s)) with (s_cmode s); rewrite Hm; destruct Hc as [->| ->]; discriminate.
Qed.
Lemma do_r_give_up w s fr i c y v cap t b k : x_kb (w_ctx w) = kb_new X r ->
  commands (x_cmd (w_ctx w)) c i k [IClearUnconfirmedInputs; IAbort] -> outside X r v k ->
  shows_scene (mkSc i (Reading c y) v cap t (b ++ [Direct]) (w_store w)) s -> leads w s fr [OKey k] w (mkSc i Idle [] false t b (w_store w)).
Proof.
  intros Hb Hk Ho Hsc. apply scene_reads in Hsc as (Hm & Hc & Hraw & Hcomp & Hok & Huse & Hab & Hi0 & Hp & Ht & Hdef & Hcap & He & Hl).
  destruct (pop_ends _ _ _ He) as [Hla Hpo]. pose proof (give_up_run w s fr k c i v Direct _ Hb Hm Hi0 Hp Hc Ho Hk Hla eq_refl) as E.
  apply (leads_key _ _ _ _ _ _ _ E). apply idle_scene; [repeat split; reflexivity|exact Hi0|exact Ht|exact Hdef|exact Hpo|now apply pop_len].
Qed.
Lemma do_r_give_up_to w s fr i c m c' y v cap t b k : x_kb (w_ctx w) = kb_new X r ->
  commands (x_cmd (w_ctx w)) c i k [IClearUnconfirmedInputs; IAbort] -> outside X r v k -> resumes m c' ->
  shows_scene (mkSc i (Reading c y) v cap t (b ++ [m]) (w_store w)) s -> leads w s fr [OKey k] w (mkSc i (Reading c' []) [] false t b (w_store w)).
Proof.
  intros Hb Hk Ho Hres Hsc. apply scene_reads in Hsc as (Hm & Hc & Hraw & Hcomp & Hok & Huse & Hab & Hi0 & Hp & Ht & Hdef & Hcap & He & Hl).
  destruct (pop_ends _ _ _ He) as [Hla Hpo]. pose proof (give_up_run w s fr k c i v m _ Hb Hm Hi0 Hp Hc Ho Hk Hla eq_refl) as E.
  apply (leads_key _ _ _ _ _ _ _ E). apply scene_reads. unfold reads_frame. pose proof (pop_len _ Hl).
  destruct Hres; (split; [reflexivity|]); (split; [unfold word_mode; auto|]); repeat (split; [first [reflexivity|exact Hi0|exact Ht|exact Hdef|discriminate|exact Hpo|intros _; reflexivity]|]); assumption.
Qed.
(** okurigana *)
Definition tail_frame (i : imode) (y o : str) (v : list N) (cap : bool) (t : str) (b : list cmode) (s : cstate) : Prop :=
  s_cmode s = PreCompositionOkurigana /\ s_raw s = y /\ s_comp s = y /\ y <> [] /\ s_okuri s = o /\ s_use s = negb (is_nil o)
  /\ s_imode s = i /\ s_pre s = v /\ s_conf s = t /\ s_default s = Direct /\ (s_cap s = true -> cap = true) /\ ends b (s_hist s) /\ length (s_hist s) <= 20.
Lemma scene_tail i y o v cap t b st s : shows_scene (mkSc i (Tail y o) v cap t b st) s <-> tail_frame i y o v cap t b s.
Proof. unfold shows_scene, in_phase, tail_frame. cbn [sc_phase sc_mode sc_keys sc_text sc_back sc_cap]. intuition auto. Qed.
Lemma begin_tail i y f v' cap t b s s' : reads_frame i PreComposition y (s_pre s) false t b s -> y <> [] -> length b < 20 ->
  s_cmode s' = PreCompositionOkurigana -> s_raw s' = s_raw s ++ f -> s_comp s' = s_comp s ++ f -> s_okuri s' = s_okuri s -> s_use s' = s_use s -> s_imode s' = s_imode s ->
  s_pre s' = v' -> s_conf s' = s_conf s -> s_default s' = s_default s -> (s_cap s' = true -> cap = true) -> s_hist s' = push_history (s_cmode s) (s_hist s) ->
  tail_frame i (y ++ f) [] v' cap t (b ++ [PreComposition]) s'.
Proof.
  intros (Hm & _ & Hraw & Hcomp & Hok & Huse & _ & Hi0 & _ & Ht & Hdef & _ & He & Hl) Hy Hlb A1 A2 A3 A4 A5 A6 A7 A8 A9 A10 A11. unfold tail_frame. rewrite A11, Hm.
  split; [exact A1|]. split; [congruence|]. split; [congruence|]. split; [destruct y; [congruence|discriminate]|]. split; [congruence|]. split; [rewrite A5; exact Huse|].
  split; [congruence|]. split; [exact A7|]. split; [congruence|]. split; [congruence|]. split; [exact A10|]. split; [now apply push_ends|now apply push_len].
Qed.
Lemma do_o_begin w s fr i y v t b l x f caps : x_kb (w_ctx w) = kb_new X r -> kana_mode i -> y <> [] -> completable X r ([l] ++ [x]) ->
  shifted X r (x_cmd (w_ctx w)) PreComposition i v f [l] caps -> length b < 20 -> shows_scene (mkSc i (Reading PreComposition y) v false t b (w_store w)) s ->
  leads w s fr (map press caps) w (mkSc i (Tail (y ++ f) []) [l] (is_nil v) t (b ++ [PreComposition]) (w_store w)).
Proof.
  intros Hb Hi Hy Hx (l' & rest & ch & El & -> & Hl & Hc & Hno & Hun & Hch & H44 & H46 & Hcase) Hlb Hsc. injection El as <- <-. apply scene_reads in Hsc. pose proof Hsc as (Hm & _ & Hraw & Hcomp & Hok & Huse & _ & Hi0 & Hp & Ht & Hdef & Hcap & He & Hle).
  assert (Hcap0 : s_cap s = false) by (destruct (s_cap s); [discriminate (Hcap eq_refl)|reflexivity]). subst i v.
  assert (Htn : turns PreComposition PreCompositionOkurigana s) by (right; repeat split; congruence).
  destruct Hcase as [[Hv ->]|(carry & x' & Hen & Hn1 & Hn2 & Hx')].
  - pose proof (capital_wait X dbg r Hd w s fr PreComposition PreCompositionOkurigana l x ch Hb Htn Hm Hi Hv Hcap0 Hl Hno Hun Hch H44 H46 Hx ltac:(discriminate)) as E.
    apply (leads_key _ _ _ _ _ _ _ E). apply scene_tail. apply (begin_tail _ _ _ _ _ _ _ s); try assumption; try reflexivity.
    + cbn. now rewrite app_nil_r.
    + cbn. now rewrite app_nil_r.
    + intros _. now rewrite Hv.
  - pose proof (capital_flush X dbg r Hd w s fr PreComposition PreCompositionOkurigana (s_pre s) l x ch f carry Hb Htn Hm Hi eq_refl Hcap0 Hl Hno Hun Hch H44 H46 Hx Hen Hn1 Hn2 ltac:(discriminate)) as E.
    apply (leads_key _ _ _ _ _ _ _ E). apply scene_tail. apply (begin_tail _ _ _ _ _ _ _ s); try assumption; try reflexivity.
    + cbn. now rewrite app_nil_r.
    + cbn. now rewrite app_nil_r.
    + cbn. rewrite Hcap0. discriminate.
Qed.
Lemma do_o_late w s fr i y v t b l x : x_kb (w_ctx w) = kb_new X r -> kana_mode i -> y <> [] -> late X r (x_cmd (w_ctx w)) PreComposition i v l ->
  completable X r ((v ++ [l]) ++ [x]) -> length b < 20 -> shows_scene (mkSc i (Reading PreComposition y) v false t b (w_store w)) s ->
  leads w s fr [press (l - 32)%N] w (mkSc i (Tail y []) (v ++ [l]) true t (b ++ [PreComposition]) (w_store w)).
Proof.
  intros Hb Hi Hy Hla Hx Hlb Hsc. apply scene_reads in Hsc. pose proof Hsc as (Hm & _ & Hraw & Hcomp & Hok & Huse & _ & Hi0 & Hp & Ht & Hdef & Hcap & He & Hle).
  assert (Hcap0 : s_cap s = false) by (destruct (s_cap s); [discriminate (Hcap eq_refl)|reflexivity]). subst i v.
  assert (Htn : turns PreComposition PreCompositionOkurigana s) by (right; repeat split; congruence).
  pose proof (late_wait X dbg r Hd w s fr PreComposition PreCompositionOkurigana _ l x Hb Htn Hm Hi eq_refl Hcap0 Hla Hx ltac:(discriminate)) as E.
  apply (leads_key _ _ _ _ _ _ _ E). apply scene_tail. rewrite <- (app_nil_r y). apply (begin_tail _ _ _ _ _ _ _ s); try assumption; try reflexivity; cbn; now rewrite app_nil_r.
Qed.
Lemma do_o_double w s fr i y v t b l f carry : x_kb (w_ctx w) = kb_new X r -> kana_mode i -> y <> [] -> v <> [] -> late X r (x_cmd (w_ctx w)) PreComposition i v l ->
  entry X r (v ++ [l]) f carry -> (forall x, ~ completable X r ((v ++ [l]) ++ [x])) -> carry <> [] -> length b < 20 ->
  shows_scene (mkSc i (Reading PreComposition y) v false t b (w_store w)) s ->
  leads w s fr [press (l - 32)%N] w (mkSc i (Tail (y ++ f) []) carry true t (b ++ [PreComposition]) (w_store w)).
Proof.
  intros Hb Hi Hy Hv Hla Hen Hx Hca Hlb Hsc. apply scene_reads in Hsc. pose proof Hsc as (Hm & _ & Hraw & Hcomp & Hok & Huse & _ & Hi0 & Hp & Ht & Hdef & Hcap & He & Hle).
  assert (Hcap0 : s_cap s = false) by (destruct (s_cap s); [discriminate (Hcap eq_refl)|reflexivity]). subst i v.
  assert (Htn : turns PreComposition PreCompositionOkurigana s) by (right; repeat split; congruence).
  pose proof (late_double X dbg r Hd w s fr _ l f carry Hb Htn Hm Hi eq_refl Hcap0 Hla Hv Hen Hx Hca) as E.
  apply (leads_key _ _ _ _ _ _ _ E). apply scene_tail. destruct carry as [|a0 carry]; [congruence|].
  apply (begin_tail _ _ _ _ _ _ _ s); try assumption; try reflexivity; cbn; now rewrite app_nil_r.
Qed.
Lemma do_o_kana w s fr i y o v cap t b keys v' ps : x_kb (w_ctx w) = kb_new X r -> kana_mode i -> v' <> [] ->
  spelled X r (x_cmd (w_ctx w)) (x_kf (w_ctx w)) (x_cfg (w_ctx w)) PreCompositionOkurigana i true v' v keys ps -> (ps <> [] -> o ++ concat ps <> []) ->
  shows_scene (mkSc i (Tail y o) v cap t b (w_store w)) s -> leads w s fr (map press keys) w (mkSc i (Tail y (o ++ concat ps)) v' cap t b (w_store w)).
Proof.
  intros Hb Hi Hv Hs Hne Hsc. apply scene_tail in Hsc as (Hm & Hraw & Hcomp & Hy & Hok & Huse & Hi0 & Hp & Ht & Hdef & Hcap & He & Hl).
  destruct (okuri_progress X dbg r Hd w i v' v keys ps Hb Hi Hv Hs s fr Hm Hi0 Hp) as (b1 & Hb1 & E). apply run_presses in E. eexists. split; [exact E|]. apply scene_tail. unfold tail_frame.
  assert (Hcb : b1 = true -> cap = true) by (intros ->; apply Hcap; destruct (s_cap s); [reflexivity|discriminate (Hb1 eq_refl)]).
  destruct ps as [|p0 ps].
  - cbn [concat put]. rewrite app_nil_r. repeat (split; [first [reflexivity|assumption]|]). assumption.
  - specialize (Hne ltac:(discriminate)). cbn [put]. rewrite <- Hok in *.
    assert (Eu : true = negb (is_nil (s_okuri s ++ concat (p0 :: ps)))) by (destruct (s_okuri s ++ concat (p0 :: ps)); [congruence|reflexivity]).
    repeat (split; [first [reflexivity|assumption]|]). assumption.
Qed.
Lemma tail_command w s fr k l i v : x_kb (w_ctx w) = kb_new X r -> s_cmode s = PreCompositionOkurigana -> s_imode s = i -> s_pre s = v -> outside X r v k ->
  commands (x_cmd (w_ctx w)) PreCompositionOkurigana i k l ->
  process_key_event X dbg k (with_frames (s :: fr) w) = process_instructions dbg l PreCompositionOkurigana i (with_frames (s :: fr) w).
Proof. intros Hb Hm Hi Hp Ho Hk. apply (command_step X dbg r Hd w s fr k l PreCompositionOkurigana i Hb Hm Hi); [discriminate|rewrite Hp; exact Ho|exact Hk]. Qed.
Lemma tail_delete w s fr k i v : x_kb (w_ctx w) = kb_new X r -> s_cmode s = PreCompositionOkurigana -> s_imode s = i -> s_pre s = v -> outside X r v k ->
  commands (x_cmd (w_ctx w)) PreCompositionOkurigana i k [IDelete] ->
  process_key_event X dbg k (with_frames (s :: fr) w) = Ok (fst (st_delete s), with_frames (snd (st_delete s) :: fr) w).
Proof.
  intros Hb Hm Hi Hp Ho Hk. rewrite (tail_command w s fr k _ i v Hb Hm Hi Hp Ho Hk). unfold process_instructions. cbn [run_instrs run_instr is_nil negb].
  unfold bind, cur, modcur, ret. cbn [x_stack w_ctx with_frames]. destruct (st_delete s) as [b s']. reflexivity.
Qed.
Lemma delete_tail s u x : s_cmode s = PreCompositionOkurigana -> s_pre s = u ++ [x] ->
  st_delete s = (true, if is_nil u && is_nil (s_okuri s) then set_cmode PreComposition (set_pre u s) else set_pre u s).
Proof. intros Hm Hp. unfold st_delete. rewrite Hm, Hp. unfold str_pop. rewrite pop_snoc. destruct u; reflexivity. Qed.
Lemma do_o_erase_key w s fr i y o u x cap t b k : x_kb (w_ctx w) = kb_new X r -> commands (x_cmd (w_ctx w)) PreCompositionOkurigana i k [IDelete] ->
  outside X r (u ++ [x]) k -> u <> [] \/ o <> [] -> shows_scene (mkSc i (Tail y o) (u ++ [x]) cap t b (w_store w)) s ->
  leads w s fr [OKey k] w (mkSc i (Tail y o) u cap t b (w_store w)).
Proof.
  intros Hb Hk Ho Hne Hsc. apply scene_tail in Hsc as (Hm & Hraw & Hcomp & Hy & Hok & Huse & Hi0 & Hp & Ht & Hdef & Hcap & He & Hl).
  pose proof (tail_delete w s fr k i _ Hb Hm Hi0 Hp Ho Hk) as E. rewrite (delete_tail s u x Hm Hp), Hok in E.
  assert (En : is_nil u && is_nil o = false) by (destruct Hne; [destruct u; [congruence|reflexivity]|destruct o; [congruence|apply andb_false_r]]). rewrite En in E.
  apply (leads_key _ _ _ _ _ _ _ E). apply scene_tail. unfold tail_frame. cbn. repeat (split; [first [reflexivity|assumption]|]). assumption.
Qed.
Lemma do_o_erase_last w s fr i y x cap t b k : x_kb (w_ctx w) = kb_new X r -> commands (x_cmd (w_ctx w)) PreCompositionOkurigana i k [IDelete] ->
  outside X r [x] k -> shows_scene (mkSc i (Tail y []) [x] cap t b (w_store w)) s ->
  leads w s fr [OKey k] w (mkSc i (Reading PreComposition y) [] cap t b (w_store w)).
Proof.
  intros Hb Hk Ho Hsc. apply scene_tail in Hsc as (Hm & Hraw & Hcomp & Hy & Hok & Huse & Hi0 & Hp & Ht & Hdef & Hcap & He & Hl).
  pose proof (tail_delete w s fr k i _ Hb Hm Hi0 Hp Ho Hk) as E. rewrite (delete_tail s [] x Hm Hp), Hok in E.
  apply (leads_key _ _ _ _ _ _ _ E). apply scene_reads. unfold reads_frame. cbn. split; [reflexivity|]. split; [now left|].
  repeat (split; [first [reflexivity|assumption|discriminate]|]). assumption.
Qed.
Lemma do_o_ignore w s fr i y o v cap t b k : x_kb (w_ctx w) = kb_new X r -> commands (x_cmd (w_ctx w)) PreCompositionOkurigana i k [IFinishKeyEvent] -> outside X r v k ->
  shows_scene (mkSc i (Tail y o) v cap t b (w_store w)) s -> leads w s fr [OKey k] w (mkSc i (Tail y o) v cap t b (w_store w)).
Proof.
  intros Hb Hk Ho Hsc. pose proof Hsc as Hsc'. apply scene_tail in Hsc as (Hm & _ & _ & _ & _ & _ & Hi0 & Hp & _).
  apply (leads_key w s fr k s w); [|exact Hsc']. rewrite (tail_command w s fr k _ i v Hb Hm Hi0 Hp Ho Hk). reflexivity.
Qed.
Lemma do_o_confirm w s fr i y o v cap t b k i1 i2 : x_kb (w_ctx w) = kb_new X r ->
  commands (x_cmd (w_ctx w)) PreCompositionOkurigana i k [IForceKanaConvert i1; IConfirmAs i2; IChangeCompositionMode Direct] -> outside X r v k ->
  shows_scene (mkSc i (Tail y o) v cap t b (w_store w)) s ->
  leads w s fr [OKey k] w (mkSc i Idle [] false (t ++ in_form (x_kf (w_ctx w)) (x_am (w_ctx w)) i2 y) [] (w_store w)).
Proof.
  intros Hb Hk Ho Hsc. apply scene_tail in Hsc as (Hm & Hraw & Hcomp & Hy & Hok & Huse & Hi0 & Hp & Ht & Hdef & Hcap & He & Hl).
  assert (Hx : exists s1 z, output_converted_kana_if_any i1 PreCompositionOkurigana (with_frames (s :: fr) w) = Ok (z, with_frames (s1 :: fr) w)
    /\ s_comp s1 = y /\ s_conf s1 = t /\ s_imode s1 = i /\ s_default s1 = Direct /\ s_hist s1 = s_hist s /\ s_cmode s1 = PreCompositionOkurigana).
  { unfold output_converted_kana_if_any. unfold bind at 1, cur at 1. cbn [x_stack w_ctx with_frames]. unfold bind at 1, get at 1. cbn [x_kb x_kf w_ctx with_frames].
    destruct (convert_greedy (x_kb (w_ctx w)) (s_pre s)) as [[kana carry]|]; [|exists s, false; auto 10].
    exists (carried carry (clear_preconverted (push_string_for kana PreCompositionOkurigana s))), true.
    split; [unfold set_carry_over, modcur, bind, ret; cbn [x_stack w_ctx with_frames set_stack]; reflexivity|]. destruct carry; cbn; auto 10. }
  destruct Hx as (s1 & z & E & A1 & A2 & A3 & A4 & A5 & A6).
  pose proof (tail_command w s fr k _ i v Hb Hm Hi0 Hp Ho Hk) as E1.
  set (s2 := change_composition_mode Direct (clear_unconfirmed (push_string_for (in_form (x_kf (w_ctx w)) (x_am (w_ctx w)) i2 (s_comp s1)) Direct s1))).
  apply (leads_key w s fr k s2 w).
  - rewrite E1. unfold process_instructions. cbn [run_instrs run_instr is_nil negb]. unfold bind at 1. unfold bind at 1. unfold bind at 1. rewrite E. reflexivity.
  - apply idle_scene; [repeat split; reflexivity|exact A3| |exact A4|apply ends_nil|].
    + change (s_conf s1 ++ in_form (x_kf (w_ctx w)) (x_am (w_ctx w)) i2 (s_comp s1) = t ++ in_form (x_kf (w_ctx w)) (x_am (w_ctx w)) i2 y). now rewrite A1, A2.
    + change (length (push_history (s_cmode s1) (s_hist s1)) <= 20). apply push_len. now rewrite A5.
Qed.
Lemma do_o_confirm_plain w s fr i y o v cap t b k i2 : x_kb (w_ctx w) = kb_new X r ->
  commands (x_cmd (w_ctx w)) PreCompositionOkurigana i k [IConfirmAs i2; IChangeCompositionMode Direct] -> outside X r v k ->
  shows_scene (mkSc i (Tail y o) v cap t b (w_store w)) s ->
  leads w s fr [OKey k] w (mkSc i Idle [] false (t ++ in_form (x_kf (w_ctx w)) (x_am (w_ctx w)) i2 y) [] (w_store w)).
Proof.
  intros Hb Hk Ho Hsc. apply scene_tail in Hsc as (Hm & Hraw & Hcomp & Hy & Hok & Huse & Hi0 & Hp & Ht & Hdef & Hcap & He & Hl).
  pose proof (tail_command w s fr k _ i v Hb Hm Hi0 Hp Ho Hk) as E1.
  set (s2 := change_composition_mode Direct (clear_unconfirmed (push_string_for (in_form (x_kf (w_ctx w)) (x_am (w_ctx w)) i2 (s_comp s)) Direct s))).
  apply (leads_key w s fr k s2 w); [rewrite E1; reflexivity|].
  apply idle_scene; [repeat split; reflexivity|exact Hi0| |exact Hdef|apply ends_nil|].
  - change (s_conf s ++ in_form (x_kf (w_ctx w)) (x_am (w_ctx w)) i2 (s_comp s) = t ++ in_form (x_kf (w_ctx w)) (x_am (w_ctx w)) i2 y). now rewrite Ht, Hcomp.
  - change (length (push_history (s_cmode s) (s_hist s)) <= 20). now apply push_len.
Qed.
Lemma abort_tail w s fr m h : s_cmode s = PreCompositionOkurigana -> s_hist s = h ++ [m; PreComposition] ->
  abort (with_frames (s :: fr) w) = Ok (tt, with_frames ((match m with PreCompositionOkurigana => set_cmode PreComposition | _ => set_cmode m end)
    (set_hist h (set_cmode PreComposition (set_hist (h ++ [m]) (clear_candidate_list (consolidate (clear_preconverted s)))))) :: fr) w).
Proof.
  intros Hm Hh. unfold abort. unfold bind at 1, modcur at 1. cbn [x_stack w_ctx with_frames set_stack]. set (s1 := clear_candidate_list (consolidate (clear_preconverted s))).
  unfold bind at 1, cur at 1. cbn [x_stack w_ctx with_frames set_stack]. change (s_cmode s1) with (s_cmode s). rewrite Hm.
  assert (E1 : abort_to_previous_mode s1 = set_cmode PreComposition (set_hist (h ++ [m]) s1)).
  { unfold abort_to_previous_mode. change (s_hist s1) with (s_hist s). rewrite Hh. change (h ++ [m; PreComposition]) with (h ++ [m] ++ [PreComposition]). rewrite app_assoc, last_opt_snoc, removelast_last. reflexivity. }
  unfold bind at 1, ret at 1. unfold bind at 1, modcur at 1. cbn [x_stack w_ctx with_frames set_stack]. rewrite E1.
  unfold bind at 1, cur at 1. cbn [x_stack w_ctx with_frames set_stack]. cbn [set_cmode s_cmode cmode_eqb andb]. unfold when. unfold modcur at 1. cbn [x_stack w_ctx with_frames set_stack].
  set (s2 := set_cmode PreComposition (set_hist (h ++ [m]) s1)).
  assert (E2 : abort_to_previous_mode s2 = (match m with PreCompositionOkurigana => set_cmode PreComposition | _ => set_cmode m end) (set_hist h s2)).
  { unfold abort_to_previous_mode. change (s_hist s2) with (h ++ [m]). rewrite last_opt_snoc, removelast_last. destruct m; try reflexivity.
    unfold consolidate at 1. cbn [set_hist s_okuri s_raw s_comp]. unfold s2, s1, clear_candidate_list, consolidate, clear_preconverted.
    cbn [set_use set_okuri set_raw set_comp set_cap set_pre set_hist set_cokuri set_list set_cmode s_okuri s_raw s_comp s_cmode s_imode s_default s_hist s_pre s_list s_cokuri s_conf s_cap s_use].
    rewrite !app_nil_r. reflexivity. }
  change (set_cmode PreComposition (set_hist (h ++ [m]) s1)) with s2. rewrite E2. reflexivity.
Qed.
Lemma give_up_tail w s fr k i v m h : x_kb (w_ctx w) = kb_new X r -> s_cmode s = PreCompositionOkurigana -> s_imode s = i -> s_pre s = v -> outside X r v k ->
  commands (x_cmd (w_ctx w)) PreCompositionOkurigana i k [IClearUnconfirmedInputs; IAbort] -> s_hist s = h ++ [m; PreComposition] ->
  process_key_event X dbg k (with_frames (s :: fr) w) = Ok (true, with_frames ((match m with PreCompositionOkurigana => set_cmode PreComposition | _ => set_cmode m end)
    (set_hist h (set_cmode PreComposition (set_hist (h ++ [m]) (clear_candidate_list (consolidate (clear_preconverted (clear_unconfirmed s)))))))  :: fr) w).
Proof.
  intros Hb Hm Hi Hp Ho Hk Hh. rewrite (tail_command w s fr k _ i v Hb Hm Hi Hp Ho Hk).
  unfold process_instructions. cbn [run_instrs run_instr is_nil negb]. unfold bind at 1. unfold bind at 1, modcur at 1. cbn [x_stack w_ctx with_frames set_stack].
  unfold ret at 1. unfold bind at 1. unfold bind at 1.
  match goal with |- context [abort ?W] => change W with (with_frames (clear_unconfirmed s :: fr) w) end.
  rewrite (abort_tail w (clear_unconfirmed s) fr m h Hm Hh). reflexivity.
Qed.
Lemma ends_two (b h : list cmode) m m' : ends (b ++ [m; m']) h -> length h <= 20 -> exists h0, h = h0 ++ [m; m'] /\ ends b h0 /\ length h0 <= 20.
Proof. intros [h0 ->] Hl. exists (h0 ++ b). rewrite app_assoc in *. split; [reflexivity|]. split; [now exists h0|]. rewrite app_length in Hl. lia. Qed.
Lemma do_o_give_up w s fr i y o v cap t b k : x_kb (w_ctx w) = kb_new X r ->
  commands (x_cmd (w_ctx w)) PreCompositionOkurigana i k [IClearUnconfirmedInputs; IAbort] -> outside X r v k ->
  shows_scene (mkSc i (Tail y o) v cap t (b ++ [Direct; PreComposition]) (w_store w)) s -> leads w s fr [OKey k] w (mkSc i Idle [] false t b (w_store w)).
Proof.
  intros Hb Hk Ho Hsc. apply scene_tail in Hsc as (Hm & Hraw & Hcomp & Hy & Hok & Huse & Hi0 & Hp & Ht & Hdef & Hcap & He & Hl).
  destruct (ends_two _ _ _ _ He Hl) as (h0 & Eh & He0 & Hl0). pose proof (give_up_tail w s fr k i v Direct h0 Hb Hm Hi0 Hp Ho Hk Eh) as E.
  apply (leads_key _ _ _ _ _ _ _ E). apply idle_scene; [repeat split; reflexivity|exact Hi0|exact Ht|exact Hdef|exact He0|exact Hl0].
Qed.
Lemma do_o_give_up_to w s fr i y o v cap t b k m c' : x_kb (w_ctx w) = kb_new X r ->
  commands (x_cmd (w_ctx w)) PreCompositionOkurigana i k [IClearUnconfirmedInputs; IAbort] -> outside X r v k -> resumes m c' ->
  shows_scene (mkSc i (Tail y o) v cap t (b ++ [m; PreComposition]) (w_store w)) s -> leads w s fr [OKey k] w (mkSc i (Reading c' []) [] false t b (w_store w)).
Proof.
  intros Hb Hk Ho Hres Hsc. apply scene_tail in Hsc as (Hm & Hraw & Hcomp & Hy & Hok & Huse & Hi0 & Hp & Ht & Hdef & Hcap & He & Hl).
  destruct (ends_two _ _ _ _ He Hl) as (h0 & Eh & He0 & Hl0). pose proof (give_up_tail w s fr k i v m h0 Hb Hm Hi0 Hp Ho Hk Eh) as E.
  apply (leads_key _ _ _ _ _ _ _ E). apply scene_reads. unfold reads_frame.
  destruct Hres; (split; [reflexivity|]); (split; [unfold word_mode; auto|]); repeat (split; [first [reflexivity|exact Hi0|exact Ht|exact Hdef|discriminate|exact He0|intros _; reflexivity]|]); assumption.
Qed.
(** asking *)
Definition chooses_frame (i : imode) (m : cmode) (key : ckey) (o : str) (cs : list candidate) (j : nat) (v : list N) (cap : bool) (t : str) (b : list cmode) (s : cstate) : Prop :=
  s_cmode s = m /\ list_mode m /\ cl_list (s_list s) = cs /\ cursor s = N.of_nat j /\ j < length cs
  /\ (N.of_nat (length cs) < 2 ^ 64)%N /\ cl_key (s_list s) = key /\ s_raw s = ck_to key /\ s_comp s = ck_to key /\ s_okuri s = o /\ get_composite_key s = key
  /\ s_imode s = i /\ s_pre s = v /\ s_conf s = t /\ s_default s = Direct /\ (s_cap s = true -> cap = true) /\ ends b (s_hist s) /\ length (s_hist s) <= 20.
Lemma scene_chooses i m key o cs j v cap t b st s : shows_scene (mkSc i (Choosing m key o cs j) v cap t b st) s <-> chooses_frame i m key o cs j v cap t b s.
Proof. unfold shows_scene, in_phase, chooses_frame. cbn [sc_phase sc_mode sc_keys sc_text sc_back sc_cap]. intuition auto. Qed.
Lemma do_r_ask w s fr i ph v cap t b ops key o v' cap' p cs : x_kb (w_ctx w) = kb_new X r -> kana_mode i ->
  looks_up X r (x_cmd (w_ctx w)) (x_kf (w_ctx w)) (x_cfg (w_ctx w)) i v cap ph ops key o v' cap' p -> offered (x_dicts (w_ctx w)) (w_store w) key cs -> cs <> [] ->
  length (b ++ p) <= 20 -> shows_scene (mkSc i ph v cap t b (w_store w)) s ->
  leads w s fr ops w (mkSc i (Choosing CompositionSelection key o cs 0) v' cap' t (b ++ p) (w_store w)).
Proof.
  intros Hb Hi Ha (Hof & Hlen) Hne Hlp Hsc.
  destruct (looks_up_run w s fr i ph v cap t b ops key o v' cap' p cs Hb Hi Ha Hsc Hof ltac:(congruence)) as (p' & m & s2 & -> & L & Hm & He & Hl & E).
  destruct L as (L1 & L2 & L3 & L4 & L5 & Lu & L6 & L7 & L8 & L9 & L10). rewrite (offered_some m cs s2 fr Hne) in E.
  eexists. split; [exact E|]. apply scene_chooses. unfold chooses_frame. specialize (He Hlp).
  split; [reflexivity|]. split; [now left|]. split; [reflexivity|]. split; [reflexivity|]. split; [destruct cs; [congruence|cbn; lia]|]. split; [exact Hlen|].
  split; [exact L4|]. split; [exact L8|]. split; [exact L7|]. split; [exact L5|]. split; [exact L4|]. split; [exact L1|]. split; [exact L6|]. split; [exact L2|]. split; [exact L3|]. split; [exact L9|].
  change (s_hist (choices cs s2)) with (push_history (s_cmode s2) (s_hist s2)). rewrite L10.
  split; [|now apply push_len]. rewrite app_assoc. apply push_ends; [exact He|]. rewrite !app_length in Hlp. rewrite app_length. cbn [length] in Hlp. lia.
Qed.
Lemma complete_step w s fr c k v extra v' cs : x_kb (w_ctx w) = kb_new X r -> s_cmode s = c -> word_mode c -> (c = Abbreviation -> v = []) -> s_pre s = v -> s_use s = false ->
  commands (x_cmd (w_ctx w)) c (s_imode s) k [ITryNextCompletion] -> outside X r v k -> forced X r v extra v' ->
  get_all_complete (ctx_dicts w) (mkCK (s_raw s ++ extra) None) = Ok cs ->
  exists b, (b = true -> s_cap s = true) /\ (c = Abbreviation -> v' = []) /\ process_key_event X dbg k (with_frames (s :: fr) w)
    = Ok (true, with_frames (match cs with [] => set_new_candidate_list [] (grown v' b extra s)
                             | _ => change_composition_mode Completion (set_new_candidate_list cs (grown v' b extra s)) end :: fr) w).
Proof.
  intros Hb Hm Hc Hv Hp Huse Hk Ho Hf Hcs.
  rewrite (word_command w s fr k _ c (s_imode s) v Hb Hm eq_refl Hp Hc Ho Hk).
  destruct (force_word w s fr c v extra v' (s_imode s) Hb Hc Hv Hp Hf) as (b & o & Hb' & Hv' & E). set (s2 := grown v' b extra s) in *.
  exists b. split; [exact Hb'|]. split; [exact Hv'|].
  apply one_instruction. cbn [run_instr]. unfold try_next_completion.
  assert (Ec : cmode_eqb c Completion = false) by (destruct Hc as [->| ->]; reflexivity). rewrite Ec. cbn [negb].
  unfold bind at 1. unfold bind at 1. rewrite E. unfold bind at 1. unfold update_completion_list. unfold bind at 1, cur at 1. cbn [x_stack w_ctx with_frames].
  unfold bind at 1, get at 1. unfold bind at 1, lift at 1. rewrite (word_key s2 Huse). change (s_raw s2) with (s_raw s ++ extra).
  match goal with |- context [ctx_dicts ?ww] => change (ctx_dicts ww) with (ctx_dicts w) end. rewrite Hcs.
  unfold modcur at 1. cbn [x_stack w_ctx with_frames set_stack]. unfold bind at 1, cur at 1. cbn [x_stack w_ctx with_frames set_stack].
  destruct cs as [|c0 cs].
  - assert (El : cl_is_empty (s_list (set_new_candidate_list [] s2)) = true) by reflexivity. rewrite El, andb_true_r. cbn [negb].
    destruct (negb (is_nil (s_comp (set_new_candidate_list [] s2)))); reflexivity.
  - assert (El : cl_is_empty (s_list (set_new_candidate_list (c0 :: cs) s2)) = false) by reflexivity.
    rewrite El. rewrite andb_false_r. cbn [negb]. reflexivity.
Qed.
Lemma do_r_complete w s fr i c y v cap t b k extra v' cs : x_kb (w_ctx w) = kb_new X r ->
  commands (x_cmd (w_ctx w)) c i k [ITryNextCompletion] -> outside X r v k -> forced X r v extra v' ->
  completions (x_dicts (w_ctx w)) (w_store w) (mkCK (y ++ extra) None) cs -> cs <> [] -> length b < 20 -> shows_scene (mkSc i (Reading c y) v cap t b (w_store w)) s ->
  leads w s fr [OKey k] w (mkSc i (Choosing Completion (mkCK (y ++ extra) None) [] cs 0) v' cap t (b ++ [c]) (w_store w)).
Proof.
  intros Hb Hk Ho Hf (Hof & Hlen) Hne Hlb Hsc. apply scene_reads in Hsc as (Hm & Hc & Hraw & Hcomp & Hok & Huse & Hab & Hi0 & Hp & Ht & Hdef & Hcap & He & Hl). subst i.
  destruct (complete_step w s fr c k v extra v' cs Hb Hm Hc ltac:(intros E; rewrite <- Hp; exact (Hab E)) Hp Huse Hk Ho Hf ltac:(rewrite Hraw; exact Hof)) as (b1 & Hb1 & Hv' & E).
  set (s2 := grown v' b1 extra s) in *.
  assert (Es : match cs with [] => set_new_candidate_list [] s2 | _ => change_composition_mode Completion (set_new_candidate_list cs s2) end
    = change_composition_mode Completion (set_new_candidate_list cs s2)) by (destruct cs; [congruence|reflexivity]). rewrite Es in E.
  apply (leads_key _ _ _ _ _ _ _ E). apply scene_chooses. unfold chooses_frame.
  split; [reflexivity|]. split; [now right|]. split; [reflexivity|]. split; [reflexivity|]. split; [destruct cs; [congruence|cbn; lia]|]. split; [exact Hlen|].
  split; [change (get_composite_key s2 = mkCK (y ++ extra) None); rewrite (word_key s2 Huse); cbn; now rewrite Hraw|].
  split; [cbn; now rewrite Hraw|]. split; [cbn; now rewrite Hcomp|]. split; [exact Hok|]. split; [change (get_composite_key s2 = mkCK (y ++ extra) None); rewrite (word_key s2 Huse); cbn; now rewrite Hraw|]. split; [reflexivity|]. split; [reflexivity|]. split; [exact Ht|]. split; [exact Hdef|].
  split; [intros E1; apply Hcap, Hb1; exact E1|].
  match goal with |- ends _ ?h /\ _ => change h with (push_history (s_cmode s) (s_hist s)) end. rewrite Hm. split; [now apply push_ends|now apply push_len].
Qed.
Lemma do_r_complete_none w s fr i c y v cap t b k extra v' : x_kb (w_ctx w) = kb_new X r ->
  commands (x_cmd (w_ctx w)) c i k [ITryNextCompletion] -> outside X r v k -> forced X r v extra v' ->
  completions (x_dicts (w_ctx w)) (w_store w) (mkCK (y ++ extra) None) [] -> shows_scene (mkSc i (Reading c y) v cap t b (w_store w)) s ->
  leads w s fr [OKey k] w (mkSc i (Reading c (y ++ extra)) v' cap t b (w_store w)).
Proof.
  intros Hb Hk Ho Hf (Hof & Hlen) Hsc. apply scene_reads in Hsc as (Hm & Hc & Hraw & Hcomp & Hok & Huse & Hab & Hi0 & Hp & Ht & Hdef & Hcap & He & Hl). subst i.
  destruct (complete_step w s fr c k v extra v' [] Hb Hm Hc ltac:(intros E; rewrite <- Hp; exact (Hab E)) Hp Huse Hk Ho Hf ltac:(rewrite Hraw; exact Hof)) as (b1 & Hb1 & Hv' & E).
  apply (leads_key _ _ _ _ _ _ _ E). apply scene_reads. unfold reads_frame. cbn. rewrite Hraw, Hcomp. 
  repeat (split; [first [reflexivity|assumption]|]). split; [intros E1; apply Hcap, Hb1; exact E1|]. split; assumption.
Qed.
Lemma new_scene st : shows_scene (mkSc Hiragana Idle [] false [] [] st) (st_new Hiragana Direct).
Proof. apply idle_scene; try reflexivity; [repeat split; reflexivity|apply ends_nil|cbn; lia]. Qed.
(** the registration opened and the frame below waiting *)
Definition waits (i : imode) (key : ckey) (o : str) (t : str) (s2 : cstate) : Prop :=
  s_imode s2 = i /\ s_conf s2 = t /\ s_default s2 = Direct /\ cl_key (s_list s2) = key /\ s_okuri s2 = o.
Lemma do_take w w3 s2 fr i key o t s3 i3 t3 b3 k : x_kb (w_ctx w3) = kb_new X r -> w_ctx w3 = w_ctx w -> waits i key o t s2 ->
  shows_scene (mkSc i3 Idle [] false t3 b3 (w_store w3)) s3 -> t3 <> [] -> numeric_entry_count t3 = 0 ->
  commands (x_cmd (w_ctx w)) Direct i3 k [IConfirmDirect] -> (kana_mode i3 -> outside X r [] k) ->
  exists s', run X dbg [OKey k] (with_frames (s3 :: s2 :: fr) w3) = Ok (yes [OKey k], with_frames (s' :: fr) (told (new_word key o t3) w3))
    /\ shows_scene (mkSc i Idle [] false (t ++ t3 ++ adjust_kana_string (x_kf (w_ctx w)) i o) [] (w_store (told (new_word key o t3) w3))) s'.
Proof.
  intros Hb Hw (W1 & W2 & W3 & W4 & W5) Hsc Hne Hnum Hk Ho. apply scene_idle in Hsc as ((Hm & Hp & _) & Hi0 & Ht & Hdef & He & Hl).
  destruct (exit_step X dbg r Hd w3 s3 s2 fr k t3 key o i3 Hb Hm Hp Hi0 Ht Hne Hnum ltac:(rewrite Hw; exact Hk) Ho W4 W5) as (s' & E & Hc).
  exists s'. split; [exact (run_key X dbg _ _ _ E)|]. rewrite Hw, W1 in Hc. exact (confirmed_idle _ _ _ i _ _ _ Hc W3 W1 ltac:(rewrite W2; reflexivity)).
Qed.
Lemma open_looks w s fr i ph v cap t b ops key o v' cap' p : x_kb (w_ctx w) = kb_new X r -> kana_mode i ->
  looks_up X r (x_cmd (w_ctx w)) (x_kf (w_ctx w)) (x_cfg (w_ctx w)) i v cap ph ops key o v' cap' p -> offered (x_dicts (w_ctx w)) (w_store w) key [] -> ck_to key <> [] ->
  length (s :: fr) < 10 -> shows_scene (mkSc i ph v cap t b (w_store w)) s ->
  exists p' m s2, p = p' ++ [m] /\ looked i key o v' cap' t m s2 /\ (m = PreCompositionOkurigana \/ (word_mode m /\ ck_okuri key = None /\ p' = [] /\ (m = Abbreviation -> v' = [])))
    /\ (length (b ++ p) <= 20 -> ends (b ++ p') (s_hist s2)) /\ length (s_hist s2) <= 20 /\ waits i key o t (waiting m s2)
    /\ run X dbg ops (with_frames (s :: fr) w) = Ok (yes ops, with_frames (st_new Hiragana Direct :: waiting m s2 :: fr) w).
Proof.
  intros Hb Hi Ha (Hof & Hlen) Hne Hn Hsc.
  destruct (looks_up_run w s fr i ph v cap t b ops key o v' cap' p [] Hb Hi Ha Hsc Hof ltac:(auto)) as (p' & m & s2 & Hp & L & Hm & He & Hl & E).
  exists p', m, s2. split; [exact Hp|]. split; [exact L|]. split; [exact Hm|]. split; [exact He|]. split; [exact Hl|].
  destruct L as (L1 & L2 & L3 & L4 & L5 & Lu & L6 & L7 & L8 & L9 & L10). split; [unfold waits; auto|].
  assert (Eo : offered_frames m [] s2 fr = st_new Hiragana Direct :: waiting m s2 :: fr).
  { unfold offered_frames. cbn [length] in *. destruct (Nat.ltb_spec (S (length fr)) 10); [reflexivity|lia]. }
  rewrite Eo in E. exact E.
Qed.
Lemma do_r_refuse w w3 s3 s2 fr i key o v' cap' t b p' m c' i3 v3 t3 b3 k : x_kb (w_ctx w3) = kb_new X r -> w_ctx w3 = w_ctx w ->
  looked i key o v' cap' t m s2 -> (m = PreCompositionOkurigana \/ (word_mode m /\ ck_okuri key = None /\ p' = [] /\ (m = Abbreviation -> v' = []))) ->
  ends (b ++ p') (s_hist s2) -> length (s_hist s2) <= 20 -> length (b ++ p') < 20 -> resumes m c' -> (m <> PreCompositionOkurigana -> o = []) ->
  shows_scene (mkSc i3 Idle v3 false t3 b3 (w_store w3)) s3 -> refuses (x_cmd (w_ctx w)) i3 t3 k -> (kana_mode i3 -> outside X r v3 k) ->
  exists s', run X dbg [OKey k] (with_frames (s3 :: waiting m s2 :: fr) w3) = Ok (yes [OKey k], with_frames (s' :: fr) w3)
    /\ shows_scene (mkSc i (Reading c' (ck_to key ++ o)) v' cap' t (b ++ p') (w_store w3)) s'.
Proof.
  intros Hb Hw L Hm He Hl Hlen Hres Hoo Hsc Href Ho. apply scene_idle in Hsc as ((Hm3 & Hp3 & _) & Hi3 & Ht3 & Hdef & He3 & Hl3).
  pose proof (refuse_step X dbg r w3 s3 (waiting m s2) fr k Hd Hb Hm3 ltac:(rewrite Hi3, Hp3; exact Ho) ltac:(rewrite Hi3, Ht3, Hw; exact Href)) as E.
  eexists. split; [exact (run_key X dbg _ _ _ E)|]. apply scene_reads. unfold reads_frame.
  destruct L as (L1 & L2 & L3 & L4 & L5 & Lu & L6 & L7 & L8 & L9 & L10).
  unfold abort_to_previous_mode. change (s_hist (waiting m s2)) with (push_history m (s_hist s2)).
  destruct (pop_ends m (b ++ p') (push_history m (s_hist s2)) (push_ends m _ _ He Hlen)) as [Hla Hpo]. rewrite Hla.
  pose proof (pop_len _ (push_len m _ Hl)) as Hpl. remember (removelast (push_history m (s_hist s2))) as h eqn:Eh. clear Eh Hla.
  destruct Hres.
  - destruct Hm as [Hm|(Hm & Hu & -> & Hv)]; [discriminate|]. rewrite (Hoo ltac:(discriminate)) in *. unfold okuri_entry in Lu. rewrite Hu in Lu. rewrite !app_nil_r in *. split; [reflexivity|]. split; [now left|].
    cbn. rewrite L8, L7, L5, L1, L6, L2, L3. repeat (split; [first [reflexivity|discriminate|assumption]|]). assumption.
  - destruct Hm as [Hm|(Hm & Hu & -> & Hv)]; [discriminate|]. rewrite (Hoo ltac:(discriminate)) in *. unfold okuri_entry in Lu. rewrite Hu in Lu. rewrite !app_nil_r in *. split; [reflexivity|]. split; [now right|].
    cbn. rewrite L8, L7, L5, L1, L6, L2, L3. repeat (split; [first [reflexivity|discriminate|assumption]|]). assumption.
  - split; [reflexivity|]. split; [now left|]. cbn. rewrite L8, L7, L5, L1, L6, L2, L3.
    repeat (split; [first [reflexivity|discriminate|assumption]|]). assumption.
Qed.
(** among candidates *)
Lemma chooses_choosing i key o cs j v cap t b s : chooses_frame i CompositionSelection key o cs j v cap t b s -> choosing s cs j.
Proof. intros (Hm & _ & Hcl & Hcu & Hj & Hn & _). repeat split; assumption. Qed.
Lemma chooses_at i m key o cs j j' v cap t b s : chooses_frame i m key o cs j v cap t b s -> j' < length cs -> chooses_frame i m key o cs j' v cap t b (at_candidate j' s).
Proof. intros (Hm & Hlm & Hcl & Hcu & Hj & Hn & Hr) H. unfold chooses_frame. do 3 (split; [assumption|]). split; [reflexivity|]. split; [exact H|]. split; [exact Hn|exact Hr]. Qed.
Lemma list_runs w s fr k l m i : s_cmode s = m -> s_imode s = i -> list_mode m -> commands (x_cmd (w_ctx w)) m i k l -> runs (with_frames (s :: fr) w) k l.
Proof.
  intros Hm Hi Hl Hk. apply (command_runs_plain _ s fr); [reflexivity|rewrite Hm; destruct Hl as [->| ->]; discriminate|rewrite Hm; destruct Hl as [->| ->]; destruct (s_imode s); reflexivity|].
  rewrite Hm, Hi. exact Hk.
Qed.
Lemma do_c_next w s fr i key o cs j v cap t b k : commands (x_cmd (w_ctx w)) CompositionSelection i k [ITryNextCandidate] -> S j < length cs ->
  shows_scene (mkSc i (Choosing CompositionSelection key o cs j) v cap t b (w_store w)) s ->
  leads w s fr [OKey k] w (mkSc i (Choosing CompositionSelection key o cs (S j)) v cap t b (w_store w)).
Proof.
  intros Hk Hj Hsc. apply scene_chooses in Hsc. pose proof (chooses_choosing _ _ _ _ _ _ _ _ _ _ Hsc) as Hc. pose proof Hsc as (Hm & Hlm & _ & _ & _ & _ & _ & _ & _ & _ & _ & Hi & _).
  pose proof (C65_next X dbg k (with_frames (s :: fr) w) s fr cs j eq_refl Hc (list_runs w s fr k _ _ i Hm Hi Hlm Hk) Hj) as E. rewrite with_frames_twice in E.
  apply (leads_key _ _ _ _ _ _ _ E). apply scene_chooses. exact (chooses_at _ _ _ _ _ _ _ _ _ _ _ _ Hsc Hj).
Qed.
Lemma do_c_previous w s fr i key o cs j v cap t b k : commands (x_cmd (w_ctx w)) CompositionSelection i k [ITryPreviousCandidate] ->
  shows_scene (mkSc i (Choosing CompositionSelection key o cs (S j)) v cap t b (w_store w)) s ->
  leads w s fr [OKey k] w (mkSc i (Choosing CompositionSelection key o cs j) v cap t b (w_store w)).
Proof.
  intros Hk Hsc. apply scene_chooses in Hsc. pose proof (chooses_choosing _ _ _ _ _ _ _ _ _ _ Hsc) as Hc. pose proof Hsc as (Hm & Hlm & _ & _ & Hj & _ & _ & _ & _ & _ & _ & Hi & _).
  pose proof (C65_previous X dbg k (with_frames (s :: fr) w) s fr cs j eq_refl Hc (list_runs w s fr k _ _ i Hm Hi Hlm Hk)) as E. rewrite with_frames_twice in E.
  apply (leads_key _ _ _ _ _ _ _ E). apply scene_chooses. apply (chooses_at _ _ _ _ _ _ _ _ _ _ _ _ Hsc). lia.
Qed.
Lemma do_c_back w s fr i key o cs v cap t b k : commands (x_cmd (w_ctx w)) CompositionSelection i k [ITryPreviousCandidate] -> length b < 20 ->
  shows_scene (mkSc i (Choosing CompositionSelection key o cs 0) v cap t b (w_store w)) s ->
  leads w s fr [OKey k] w (mkSc i (Reading PreComposition (ck_to key ++ o)) v cap t (b ++ [CompositionSelection]) (w_store w)).
Proof.
  intros Hk Hlb Hsc. apply scene_chooses in Hsc as (Hm & Hlm & Hcl & Hcu & Hj & Hn & Hkey & Hraw & Hcomp & Hok & Huse & Hi & Hp & Ht & Hdef & Hcap & He & Hl).
  pose proof (list_command w s fr k _ _ i Hm Hi Hlm Hk) as E.
  apply (leads_key w s fr k (change_composition_mode PreComposition (clear_candidate_list (consolidate s))) w).
  - rewrite E. apply one_instruction. cbn [run_instr]. unfold bind at 1. unfold bind at 1, cur at 1. cbn [x_stack w_ctx with_frames]. rewrite Hm. cbn [cmode_eqb negb].
    unfold cl_has_previous. unfold cursor in Hcu. rewrite Hcu. reflexivity.
  - apply scene_reads. unfold reads_frame. split; [reflexivity|]. split; [now left|].
    split; [cbn; now rewrite Hraw, Hok|]. split; [cbn; now rewrite Hcomp, Hok|]. split; [reflexivity|]. split; [reflexivity|]. split; [discriminate|].
    split; [exact Hi|]. split; [exact Hp|]. split; [exact Ht|]. split; [exact Hdef|]. split; [exact Hcap|].
    match goal with |- ends _ ?h /\ _ => change h with (push_history (s_cmode s) (s_hist s)) end. rewrite Hm. split; [now apply push_ends|now apply push_len].
Qed.
Lemma forward_at s cs j : cl_list (s_list s) = cs -> cursor s = N.of_nat j -> j < length cs -> (N.of_nat (length cs) < 2 ^ 64)%N ->
  st_forward dbg s = Ok (at_candidate (if Nat.ltb (S j) (length cs) then S j else j) s).
Proof.
  intros Hcl Hcu Hj Hn. unfold st_forward, cl_forward, cl_len. rewrite Hcl, (usize_one dbg _ Hn) by lia. cbn [rbind rmap]. unfold cursor in Hcu. rewrite Hcu.
  destruct (Nat.ltb_spec (S j) (length cs)) as [H|H].
  - destruct (N.ltb_spec (N.of_nat j) (N.of_nat (length cs - 1))); [|lia]. unfold usize_add.
    destruct (N.ltb_spec (N.of_nat j + 1) usize_mod) as [_|H']; [|exfalso; revert H'; change usize_mod with (2 ^ 64)%N; lia].
    cbn [rmap rbind]. unfold at_candidate. rewrite Hcl. do 3 f_equal. lia.
  - destruct (N.ltb_spec (N.of_nat j) (N.of_nat (length cs - 1))); [lia|]. cbn [rmap rbind]. unfold at_candidate. rewrite <- Hcu.
    destruct s as [? ? ? ? ? ? ? ? [? ? ?] ? ? ? ?]. reflexivity.
Qed.
Lemma do_c_forward w s fr i m key o cs j v cap t b k : commands (x_cmd (w_ctx w)) m i k [INextCandidatePointer] ->
  shows_scene (mkSc i (Choosing m key o cs j) v cap t b (w_store w)) s ->
  leads w s fr [OKey k] w (mkSc i (Choosing m key o cs (if Nat.ltb (S j) (length cs) then S j else j)) v cap t b (w_store w)).
Proof.
  intros Hk Hsc. apply scene_chooses in Hsc. pose proof Hsc as (Hm & Hlm & Hcl & Hcu & Hj & Hn & _ & _ & _ & _ & _ & Hi & _).
  pose proof (list_command w s fr k _ _ i Hm Hi Hlm Hk) as E.
  apply (leads_key w s fr k (at_candidate (if Nat.ltb (S j) (length cs) then S j else j) s) w).
  - rewrite E. apply one_instruction. cbn [run_instr]. unfold bind at 1. unfold bind at 1, cur at 1. cbn [x_stack w_ctx with_frames].
    unfold bind at 1, lift at 1. rewrite (forward_at s cs j Hcl Hcu Hj Hn). reflexivity.
  - apply scene_chooses. apply (chooses_at _ _ _ _ _ _ _ _ _ _ _ _ Hsc). destruct (Nat.ltb_spec (S j) (length cs)); lia.
Qed.
Lemma do_c_backward w s fr i m key o cs j v cap t b k : commands (x_cmd (w_ctx w)) m i k [IPreviousCandidatePointer] ->
  shows_scene (mkSc i (Choosing m key o cs j) v cap t b (w_store w)) s ->
  leads w s fr [OKey k] w (mkSc i (Choosing m key o cs (j - 1)) v cap t b (w_store w)).
Proof.
  intros Hk Hsc. apply scene_chooses in Hsc. pose proof Hsc as (Hm & Hlm & Hcl & Hcu & Hj & Hn & _ & _ & _ & _ & _ & Hi & _).
  pose proof (list_command w s fr k _ _ i Hm Hi Hlm Hk) as E.
  apply (leads_key w s fr k (at_candidate (j - 1) s) w).
  - rewrite E. apply one_instruction. cbn [run_instr]. unfold bind at 1. unfold modcur. cbn [x_stack w_ctx with_frames].
    refine (f_equal (fun z => Ok (inl tt, with_frames (z :: fr) w)) _). unfold st_backward, cl_backward, at_candidate. unfold cursor in Hcu. rewrite Hcu.
    destruct (N.ltb_spec 0 (N.of_nat j)); [do 2 f_equal; lia|]. replace (N.of_nat (j - 1)) with (cl_cur (s_list s)) by lia.
    destruct s as [? ? ? ? ? ? ? ? [? ? ?] ? ? ? ?]. reflexivity.
  - apply scene_chooses. apply (chooses_at _ _ _ _ _ _ _ _ _ _ _ _ Hsc). lia.
Qed.
Lemma do_c_cancel w s fr i m key o cs j v cap t b m' c' k : commands (x_cmd (w_ctx w)) m i k [IAbort] -> resumes m' c' ->
  shows_scene (mkSc i (Choosing m key o cs j) v cap t (b ++ [m']) (w_store w)) s ->
  leads w s fr [OKey k] w (mkSc i (Reading c' (ck_to key ++ o)) [] false t b (w_store w)).
Proof.
  intros Hk Hres Hsc. apply scene_chooses in Hsc as (Hm & Hlm & Hcl & Hcu & Hj & Hn & Hkey & Hraw & Hcomp & Hok & Huse & Hi & Hp & Ht & Hdef & Hcap & He & Hl).
  pose proof (list_command w s fr k _ _ i Hm Hi Hlm Hk) as E. destruct (pop_ends _ _ _ He) as [Hla Hpo]. pose proof (pop_len _ Hl) as Hpl.
  assert (N1 : s_cmode s <> Direct) by (rewrite Hm; destruct Hlm as [->| ->]; discriminate).
  assert (N2 : s_cmode s <> PreCompositionOkurigana) by (rewrite Hm; destruct Hlm as [->| ->]; discriminate).
  pose proof (abort_here w s fr m' _ N1 N2 Hla eq_refl) as E2. eapply leads_key.
  - rewrite E. apply one_instruction. cbn [run_instr]. unfold bind at 1. rewrite E2. reflexivity.
  - apply scene_reads. unfold reads_frame.
    destruct Hres; (split; [reflexivity|]); (split; [unfold word_mode; auto|]); cbn; rewrite Hraw, Hcomp, Hok, Hi, Ht, Hdef; repeat (split; [first [reflexivity|assumption|discriminate|intros _; reflexivity]|]); assumption.
Qed.
Lemma confirm_here w s fr i m key o cs j v cap t b c : chooses_frame i m key o cs j v cap t b s -> nth_error cs j = Some c ->
  exists s', confirm_current (with_frames (s :: fr) w) = Ok (tt, with_frames (s' :: fr) (told c w))
    /\ confirmed (c_output c ++ adjust_kana_string (x_kf (w_ctx w)) i o) s s'.
Proof.
  intros (Hm & Hlm & Hcl & Hcu & Hj & Hn & Hkey & Hraw & Hcomp & Hok & Huse & Hi & Hrest) Hc. eexists. split.
  - unfold confirm_current. unfold bind at 1, cur at 1. cbn [x_stack w_ctx with_frames]. unfold bind at 1, get at 1.
    unfold cursor in Hcu. unfold cl_current. rewrite Hcu, Nat2N.id, Hcl, Hc. reflexivity.
  - cbn beta. rewrite Hi, Hok. unfold push_string. rewrite Hm. destruct Hlm as [->| ->]; unfold confirmed; repeat split; reflexivity.
Qed.
Lemma do_c_confirm w s fr i m key o cs j v cap t b k l c i' t' : nth_error cs j = Some c -> commands (x_cmd (w_ctx w)) m i k l ->
  finishes i (t ++ c_output c ++ adjust_kana_string (x_kf (w_ctx w)) i o) l i' t' ->
  shows_scene (mkSc i (Choosing m key o cs j) v cap t b (w_store w)) s ->
  leads w s fr [OKey k] (told c w) (mkSc i' Idle [] false t' [] (w_store (told c w))).
Proof.
  intros Hc Hk Hfin Hsc. apply scene_chooses in Hsc. destruct (confirm_here w s fr _ _ _ _ _ _ _ _ _ _ c Hsc Hc) as (s' & E & Hs').
  pose proof Hsc as (Hm & Hlm & _ & _ & _ & _ & _ & _ & _ & _ & _ & Hi & _ & Ht & Hdef & _).
  pose proof (confirmed_idle _ _ _ i false _ (w_store (told c w)) Hs' Hdef Hi eq_refl) as H1. rewrite Ht in H1.
  pose proof (list_command w s fr k _ _ i Hm Hi Hlm Hk) as E1.
  apply scene_idle in H1 as (Hid & Hi1 & Ht1 & Hdef1 & He1 & Hl1).
  destruct Hfin as [| |i'|t0 x Htx].
  - apply (leads_key w s fr k s' (told c w)); [|apply idle_scene; assumption]. rewrite E1. apply one_instruction. cbn [run_instr]. unfold bind at 1. rewrite E. reflexivity.
  - apply (leads_key w s fr k (change_composition_mode Direct s') (told c w)).
    + rewrite E1. unfold process_instructions. cbn [run_instrs run_instr is_nil negb]. unfold bind at 1. unfold bind at 1. rewrite E. reflexivity.
    + destruct Hid as (_ & Hid). apply idle_scene; [split; [reflexivity|exact Hid]|assumption..|apply ends_nil|].
      change (length (push_history (s_cmode s') (s_hist s')) <= 20). now apply push_len.
  - apply (leads_key w s fr k (set_imode i' s') (told c w)).
    + rewrite E1. unfold process_instructions. cbn [run_instrs run_instr is_nil negb]. unfold bind at 1. unfold bind at 1. rewrite E. reflexivity.
    + apply idle_scene; auto.
  - pose proof Hid as (Hm1 & Hp1 & _). apply (leads_key w s fr k (set_conf t0 s') (told c w)).
    + rewrite E1. unfold process_instructions. cbn [run_instrs run_instr is_nil negb]. unfold bind at 1. unfold bind at 1. rewrite E. unfold ret at 1.
      unfold bind at 1. unfold bind at 1, cur at 1. cbn [x_stack w_ctx with_frames]. unfold bind at 1, modcur at 1. cbn [x_stack w_ctx with_frames].
      rewrite (delete_conf s' Hm1 Hp1), Ht1, Htx. cbn [fst snd]. rewrite drop_last_one, removelast_last. destruct t0; reflexivity.
    + apply idle_scene; auto.
Qed.
Lemma go_on_step w s fr i m key o cs j cap t b c k : nth_error cs j = Some c -> (exists ch, types X k ch) -> unbound (x_cmd (w_ctx w)) m i k ->
  unbound (x_cmd (w_ctx w)) Direct i k -> shows_scene (mkSc i (Choosing m key o cs j) [] cap t b (w_store w)) s ->
  exists s', process_key_event X dbg k (with_frames (s :: fr) w) = process_key_event X dbg k (with_frames (s' :: fr) (told c w))
    /\ shows_scene (mkSc i Idle [] false (t ++ c_output c ++ adjust_kana_string (x_kf (w_ctx w)) i o) [] (w_store (told c w))) s'.
Proof.
  intros Hc (ch & Hmod & Hr & Hch) Hu1 Hu2 Hsc. apply scene_chooses in Hsc. destruct (confirm_here w s fr _ _ _ _ _ _ _ _ _ _ c Hsc Hc) as (s' & E & Hs').
  pose proof Hsc as (Hm & Hlm & _ & _ & _ & _ & _ & _ & _ & _ & _ & Hi & Hp & Ht & Hdef & _).
  pose proof (confirmed_idle _ _ _ i false _ (w_store (told c w)) Hs' Hdef Hi eq_refl) as H1. rewrite Ht in H1.
  exists s'. split; [|exact H1]. apply scene_idle in H1 as ((Hm1 & Hp1 & _) & Hi1 & _).
  assert (Hml : is_modifierless_input k = true) by (unfold is_modifierless_input; destruct Hmod as [-> | ->]; reflexivity).
  assert (Hrel : has_mod k M_RELEASE = false) by (unfold has_mod; destruct Hmod as [-> | ->]; reflexivity).
  assert (Ea : is_ascii_inputtable k = true) by (unfold is_ascii_inputtable, KEY_space, KEY_asciitilde; apply andb_true_intro; split; apply N.leb_le; lia).
  rewrite (key_unbound X dbg k (with_frames (s :: fr) w) s fr); [|reflexivity|exact Hrel|rewrite Hm; destruct Hlm as [->| ->]; discriminate|rewrite Hm, Hi; exact Hu1].
  rewrite (key_unbound X dbg k (with_frames (s' :: fr) (told c w)) s' fr); [|reflexivity|exact Hrel|rewrite Hm1; discriminate|rewrite Hm1, Hi1; exact Hu2].
  rewrite Hm, Hm1, Hp, Hp1. unfold input_key. rewrite Hml. cbn [negb].
  unfold bind at 1, cur at 1. cbn [x_stack w_ctx with_frames]. unfold bind at 1, get at 1.
  assert (Ew : will_be_processed (x_kb (w_ctx (with_frames (s :: fr) w))) k (s_imode s) (s_cmode s) [] = true).
  { unfold will_be_processed. rewrite Hm. assert (E0 : has_rom2kana_conversion (s_imode s) m = false) by (destruct Hlm as [->| ->]; destruct (s_imode s); reflexivity).
    rewrite E0, Ea. cbn [andb negb orb]. now rewrite andb_false_r. }
  rewrite Ew.
  assert (El : match m with CompositionSelection | Completion => true | _ => false end = true) by (destruct Hlm as [->| ->]; reflexivity).
  rewrite El. cbn [andb]. unfold bind at 1. rewrite E. unfold bind at 2, cur at 2. cbn [x_stack w_ctx with_frames]. unfold bind at 2, get at 1.
  unfold bind at 2, ret at 1. reflexivity.
Qed.
Lemma do_c_purge w s fr i m key o cs j v cap t b k c : nth_error cs j = Some c -> commands (x_cmd (w_ctx w)) m i k [IPurge; IChangeCompositionMode Direct] ->
  shows_scene (mkSc i (Choosing m key o cs j) v cap t b (w_store w)) s ->
  leads w s fr [OKey k] (set_store (purged (x_dicts (w_ctx w)) key c (w_store w)) w) (mkSc i Idle [] false [] [] (purged (x_dicts (w_ctx w)) key c (w_store w))).
Proof.
  intros Hc Hk Hsc. apply scene_chooses in Hsc as (Hm & Hlm & Hcl & Hcu & Hj & Hn & Hkey & Hraw & Hcomp & Hok & Huse & Hi & Hp & Ht & Hdef & Hcap & He & Hl).
  pose proof (list_command w s fr k _ _ i Hm Hi Hlm Hk) as E.
  apply (leads_key w s fr k (change_composition_mode Direct (clear_all s))).
  - rewrite E. unfold process_instructions. cbn [run_instrs run_instr is_nil negb]. unfold bind at 1. unfold bind at 1. unfold purge_current. unfold bind at 1, cur at 1.
    cbn [x_stack w_ctx with_frames]. unfold cursor in Hcu. unfold cl_current. rewrite Hcu, Nat2N.id, Hcl, Hc, Hkey. reflexivity.
  - apply idle_scene; [repeat split; reflexivity|exact Hi|reflexivity|exact Hdef|apply ends_nil|].
    match goal with |- length ?h <= 20 => change h with (push_history (s_cmode s) []) end. apply push_len. cbn. lia.
Qed.
Lemma open_list w s fr i key o cs j v cap t b k : commands (x_cmd (w_ctx w)) CompositionSelection i k [ITryNextCandidate] -> S j = length cs -> length (s :: fr) < 10 ->
  shows_scene (mkSc i (Choosing CompositionSelection key o cs j) v cap t b (w_store w)) s ->
  run X dbg [OKey k] (with_frames (s :: fr) w) = Ok (yes [OKey k], with_frames (st_new Hiragana Direct :: change_from_old_mode Register CompositionSelection s :: fr) w)
  /\ waits i key o t (change_from_old_mode Register CompositionSelection s).
Proof.
  intros Hk Hj Hn Hsc. apply scene_chooses in Hsc. pose proof (chooses_choosing _ _ _ _ _ _ _ _ _ _ Hsc) as Hc.
  pose proof Hsc as (Hm & Hlm & _ & _ & _ & _ & Hkey & _ & _ & Hok & Huse & Hi & Hp & Ht & Hdef & _). split.
  - apply run_key. apply (open_step X dbg w s fr k cs); [replace (length cs - 1) with j by lia; exact Hc|rewrite Hi; exact Hk|exact Hn].
  - unfold waits. auto.
Qed.
Lemma do_c_refuse w w3 s3 s fr i key o cs j v cap t b i3 v3 t3 b3 k st : x_kb (w_ctx w3) = kb_new X r -> w_ctx w3 = w_ctx w -> length b < 20 ->
  shows_scene (mkSc i (Choosing CompositionSelection key o cs j) v cap t b st) s ->
  shows_scene (mkSc i3 Idle v3 false t3 b3 (w_store w3)) s3 -> refuses (x_cmd (w_ctx w)) i3 t3 k -> (kana_mode i3 -> outside X r v3 k) ->
  exists s', run X dbg [OKey k] (with_frames (s3 :: change_from_old_mode Register CompositionSelection s :: fr) w3) = Ok (yes [OKey k], with_frames (s' :: fr) w3)
    /\ shows_scene (mkSc i (Choosing CompositionSelection key o cs j) v cap t b (w_store w3)) s'.
Proof.
  intros Hb Hw Hlb Hs Hsc Href Ho. apply scene_idle in Hsc as ((Hm3 & Hp3 & _) & Hi3 & Ht3 & Hdef & He3 & Hl3).
  set (s2 := change_from_old_mode Register CompositionSelection s).
  pose proof (refuse_step X dbg r w3 s3 s2 fr k Hd Hb Hm3 ltac:(rewrite Hi3, Hp3; exact Ho) ltac:(rewrite Hi3, Ht3, Hw; exact Href)) as E.
  apply scene_chooses in Hs as (Hm & Hlm & Hcl & Hcu & Hj & Hn & Hkey & Hraw & Hcomp & Hok & Huse & Hi & Hp & Ht & Hdf & Hcap & He & Hl).
  assert (Ea : abort_to_previous_mode s2 = set_cmode CompositionSelection (set_hist (removelast (push_history CompositionSelection (s_hist s))) s2)).
  { unfold abort_to_previous_mode. change (s_hist s2) with (push_history CompositionSelection (s_hist s)).
    now rewrite (proj1 (last_history CompositionSelection (s_hist s))). }
  rewrite Ea in E. eexists. split; [exact (run_key X dbg _ _ _ E)|]. apply scene_chooses. unfold chooses_frame.
  split; [reflexivity|]. repeat (split; [assumption|]). split; [|apply pop_len; now apply push_len]. cbn. now apply push_pop_ends.
Qed.
(** all together *)
Lemma session_run w0 : x_kb (w_ctx w0) = kb_new X r -> forall n S ops S',
  session X r (x_cmd (w_ctx w0)) (x_kf (w_ctx w0)) (x_am (w_ctx w0)) (x_cfg (w_ctx w0)) (x_dicts (w_ctx w0)) n S ops S' ->
  forall s fr, length (s :: fr) = n -> shows_scene S s -> leads (set_store (sc_dicts S) w0) s fr ops (set_store (sc_dicts S') w0) S'.
Proof.
  intros Hb n S ops S' H. induction H; intros s fr En Hs; cbn [sc_dicts] in *.
  - exists s. split; [reflexivity|exact Hs].
  - destruct (IHsession1 s fr En Hs) as (s1 & E1 & K1). destruct (IHsession2 s1 fr En K1) as (s2 & E2 & K2).
    exists s2. split; [exact (run_join X dbg _ _ _ _ _ E1 E2)|exact K2].
  - exists s. split; [reflexivity|]. unfold shows_scene in *. cbn [sc_phase sc_mode sc_keys sc_text sc_back sc_cap] in *.
    destruct Hs as (A1 & A2 & A3 & A4 & A5 & A6 & (h0 & A7) & A8). repeat (split; [assumption|]). split; [|exact A8]. exists (h0 ++ old). now rewrite A7, app_assoc.
  - exact (do_i_kana (set_store st w0) s fr i v t b keys v' ps Hb ltac:(assumption) ltac:(assumption) Hs).
  - exact (do_i_ascii (set_store st w0) s fr t b ks chs ltac:(assumption) ltac:(assumption) Hs).
  - exact (do_i_zenkaku (set_store st w0) s fr t b ks chs ts ltac:(assumption) ltac:(assumption) ltac:(assumption) Hs).
  - eapply (do_i_switch (set_store st w0)); eassumption.
  - eapply (do_i_switch_plain (set_store st w0)); eassumption.
  - eapply (do_i_erase_key (set_store st w0)); eassumption.
  - eapply (do_i_erase (set_store st w0)); eassumption.
  - eapply (do_i_ignore (set_store st w0)); eassumption.
  - eapply (do_i_capital (set_store st w0)); eassumption.
  - eapply (do_i_late (set_store st w0)); eassumption.
  - eapply (do_i_begin (set_store st w0)); eassumption.
  - eapply (do_r_kana (set_store st w0)); eassumption.
  - eapply (do_r_letters (set_store st w0)); eassumption.
  - eapply (do_r_erase_key (set_store st w0)); eassumption.
  - eapply (do_r_erase (set_store st w0)); eassumption.
  - eapply (do_r_leave (set_store st w0)); eassumption.
  - eapply (do_r_ignore (set_store st w0)); eassumption.
  - eapply (do_r_confirm (set_store st w0)); eassumption.
  - eapply (do_r_confirm_plain (set_store st w0)); eassumption.
  - eapply (do_r_give_up (set_store st w0)); eassumption.
  - eapply (do_r_give_up_to (set_store st w0)); eassumption.
  - eapply (do_o_begin (set_store st w0)); eassumption.
  - eapply (do_o_late (set_store st w0)); eassumption.
  - eapply (do_o_double (set_store st w0) s fr i y v t b l f carry Hb); eassumption.
  - eapply (do_o_kana (set_store st w0)); eassumption.
  - eapply (do_o_erase_key (set_store st w0)); eassumption.
  - eapply (do_o_erase_last (set_store st w0)); eassumption.
  - eapply (do_o_ignore (set_store st w0)); eassumption.
  - eapply (do_o_confirm (set_store st w0)); eassumption.
  - eapply (do_o_confirm_plain (set_store st w0)); eassumption.
  - eapply (do_o_give_up (set_store st w0)); eassumption.
  - eapply (do_o_give_up_to (set_store st w0)); eassumption.
  - eapply (do_r_ask (set_store st w0)); eassumption.
  - eapply (do_r_complete (set_store st w0)); eassumption.
  - eapply (do_r_complete_none (set_store st w0)); eassumption.
  - match goal with Ha : looks_up _ _ _ _ _ _ _ _ _ _ _ _ _ _ _, Hof : offered _ _ _ _, Hne : ck_to _ <> [] |- _ =>
      destruct (open_looks (set_store st w0) s fr i ph v cap t b ops key o v' cap' p Hb ltac:(assumption) Ha Hof Hne ltac:(cbn [length] in *; lia) Hs)
        as (p' & m & s2 & _ & _ & _ & _ & _ & Hw & E1) end.
    destruct (IHsession (st_new Hiragana Direct) (waiting m s2 :: fr) ltac:(cbn [length] in *; lia) (new_scene _)) as (s3 & E2 & K3).
    destruct (do_take (set_store st w0) (set_store st3 w0) (waiting m s2) fr i key o t s3 i3 t3 b3 k Hb eq_refl Hw K3 ltac:(assumption) ltac:(assumption) ltac:(assumption) ltac:(assumption)) as (s4 & E4 & K4).
    exists s4. split; [exact (run_join X dbg _ _ _ _ _ E1 (run_join X dbg _ _ _ _ _ E2 E4))|exact K4].
  - match goal with Ha : looks_up _ _ _ _ _ _ _ _ _ _ _ _ _ _ _, Hof : offered _ _ _ _, Hne : ck_to _ <> [] |- _ =>
      destruct (open_looks (set_store st w0) s fr i ph v cap t b ops key o v' cap' _ Hb ltac:(assumption) Ha Hof Hne ltac:(cbn [length] in *; lia) Hs)
        as (p' & m1 & s2 & Epm & L & Hm & He & Hl & Hw & E1) end.
    apply app_inj_tail in Epm as [<- <-].
    assert (Hlp : length (b ++ p) < 20).
    { match goal with Hx : length (b ++ p ++ [m]) <= 20 |- _ => rewrite !app_length in Hx; cbn [length] in Hx; rewrite app_length; clear - Hx; lia end. }
    destruct (IHsession (st_new Hiragana Direct) (waiting m s2 :: fr) ltac:(cbn [length] in *; lia) (new_scene _)) as (s3 & E2 & K3).
    destruct (do_r_refuse (set_store st w0) (set_store st3 w0) s3 s2 fr i key o v' cap' t b p m c' i3 v3 t3 b3 k Hb eq_refl L Hm (He ltac:(assumption)) Hl
      Hlp ltac:(assumption) ltac:(assumption) K3 ltac:(assumption) ltac:(assumption)) as (s4 & E4 & K4).
    exists s4. split; [exact (run_join X dbg _ _ _ _ _ E1 (run_join X dbg _ _ _ _ _ E2 E4))|exact K4].
  - eapply (do_c_next (set_store st w0)); eassumption.
  - eapply (do_c_previous (set_store st w0)); eassumption.
  - eapply (do_c_back (set_store st w0)); eassumption.
  - eapply (do_c_forward (set_store st w0)); eassumption.
  - eapply (do_c_backward (set_store st w0)); eassumption.
  - eapply (do_c_cancel (set_store st w0)); eassumption.
  - eapply (do_c_confirm (set_store st w0)); eassumption.
  - destruct (go_on_step (set_store st w0) s fr i m key o cs j cap t b c k ltac:(assumption) ltac:(assumption) ltac:(assumption) ltac:(assumption) Hs) as (s1 & E1 & K1).
    destruct (IHsession s1 fr En K1) as (s2 & E2 & K2). exists s2. split; [|exact K2].
    cbn [run exec] in E2 |- *. unfold bind at 1 in E2. unfold bind at 1. unfold bind at 1 in E2. unfold bind at 1. rewrite E1. exact E2.
  - eapply (do_c_purge (set_store st w0)); eassumption.
  - match goal with Hn : commands _ CompositionSelection i next _, Hj : Datatypes.S j = length cs |- _ =>
      destruct (open_list (set_store st w0) s fr i key o cs j v cap t b next Hn Hj ltac:(cbn [length] in *; lia) Hs) as [E1 Hw] end.
    destruct (IHsession (st_new Hiragana Direct) (change_from_old_mode Register CompositionSelection s :: fr) ltac:(cbn [length] in *; lia) (new_scene _)) as (s3 & E2 & K3).
    destruct (do_take (set_store st w0) (set_store st3 w0) _ fr i key o t s3 i3 t3 b3 k Hb eq_refl Hw K3 ltac:(assumption) ltac:(assumption) ltac:(assumption) ltac:(assumption)) as (s4 & E4 & K4).
    exists s4. split; [exact (run_join X dbg [OKey next] _ _ _ _ E1 (run_join X dbg _ _ _ _ _ E2 E4))|exact K4].
  - match goal with Hn : commands _ CompositionSelection i next _, Hj : Datatypes.S j = length cs |- _ =>
      destruct (open_list (set_store st w0) s fr i key o cs j v cap t b next Hn Hj ltac:(cbn [length] in *; lia) Hs) as [E1 Hw] end.
    destruct (IHsession (st_new Hiragana Direct) (change_from_old_mode Register CompositionSelection s :: fr) ltac:(cbn [length] in *; lia) (new_scene _)) as (s3 & E2 & K3).
    destruct (do_c_refuse (set_store st w0) (set_store st3 w0) s3 s fr i key o cs j v cap t b i3 v3 t3 b3 k st Hb eq_refl ltac:(assumption) Hs K3 ltac:(assumption) ltac:(assumption)) as (s4 & E4 & K4).
    exists s4. split; [exact (run_join X dbg [OKey next] _ _ _ _ E1 (run_join X dbg _ _ _ _ _ E2 E4))|exact K4].
Qed.
End Session.

(** ** C74 *)
Lemma set_store_same w : set_store (w_store w) w = w. Proof. destruct w; reflexivity. Qed.
(** Typing as the grammar says, in whatever frame: every key is handled, and mode, reading, candidates, text and
    dictionaries are as the grammar says; the frames below are not touched, and nothing else of the context. *)
Theorem C74_session : forall X dbg r w s rest S ops S',
  distinct_keys X r -> rows_have_keys X r -> x_kb (w_ctx w) = kb_new X r -> frames w = s :: rest -> shows_scene S s -> sc_dicts S = w_store w ->
  session X r (x_cmd (w_ctx w)) (x_kf (w_ctx w)) (x_am (w_ctx w)) (x_cfg (w_ctx w)) (x_dicts (w_ctx w)) (length (frames w)) S ops S' ->
  exists s', run X dbg ops w = Ok (repeat (OutBool true) (length ops), with_frames (s' :: rest) (set_store (sc_dicts S') w)) /\ shows_scene S' s'.
Proof.
  intros X dbg r w s rest S ops S' Hd Hrows Hb Hf Hs Hdic H.
  destruct (session_run X dbg r Hd Hrows w Hb _ _ _ _ H s rest ltac:(rewrite Hf; reflexivity) Hs) as (s' & E & Hs'). exists s'. split; [|exact Hs'].
  rewrite Hdic, set_store_same, (with_frames_same w _ Hf) in E. exact E.
Qed.
(** What the frame displays is what the scene says. *)
Lemma shown X kf S s : shows_scene S s -> preedit_string X kf (s_imode s) s = display X kf S /\ is_register s = false.
Proof.
  destruct S as [i ph v cap t b st]. intros (Hp & Hi & Hk & Hc & _). cbn [sc_phase sc_mode sc_keys sc_text] in *.
  unfold preedit_string, preedit_detail, is_register, unconverted_text, display. cbn [sc_phase sc_mode sc_keys sc_text].
  rewrite Hi, Hc, Hk. destruct ph as [|c y|y o|m key o cs j]; cbn [in_phase] in Hp.
  - destruct Hp as (-> & _). cbn [render cmode_eqb]. split; [|reflexivity]. destruct v; reflexivity.
  - destruct Hp as (-> & Hw & Hraw & -> & Hok & _). destruct Hw as [->| ->]; cbn [render cmode_eqb]; (split; [|reflexivity]); destruct v; reflexivity.
  - destruct Hp as (-> & Hraw & -> & Hy & -> & _). cbn [render cmode_eqb]. split; [|reflexivity]. destruct o; destruct v; cbn [is_nil odef]; rewrite ?adjust_nil, ?app_nil_r; reflexivity.
  - destruct Hp as (-> & Hl & Hcs & Hcu & Hj & _ & Hkey & Hraw & Hcomp & -> & _).
    assert (Ec : cl_current (s_list s) = nth_error cs j) by (unfold cl_current; unfold cursor in Hcu; now rewrite Hcu, Nat2N.id, Hcs).
    rewrite Ec. destruct (nth_error cs j) as [c|] eqn:En; [|apply nth_error_None in En; lia].
    destruct Hl as [->| ->]; cbn [render cmode_eqb]; (split; [|reflexivity]); destruct o; cbn [is_nil odef]; rewrite ?adjust_nil; reflexivity.
Qed.
(** In a context where no registration is open the whole display is that of the scene, after the session and at
    every moment of it. *)
Theorem C74_shown : forall X dbg r w s S ops S',
  distinct_keys X r -> rows_have_keys X r -> x_kb (w_ctx w) = kb_new X r -> frames w = [s] -> shows_scene S s -> sc_dicts S = w_store w ->
  session X r (x_cmd (w_ctx w)) (x_kf (w_ctx w)) (x_am (w_ctx w)) (x_cfg (w_ctx w)) (x_dicts (w_ctx w)) 1 S ops S' ->
  exists w', run X dbg ops w = Ok (repeat (OutBool true) (length ops), w') /\ get_preedit X (w_ctx w') = display X (x_kf (w_ctx w)) S'
    /\ w_store w' = sc_dicts S' /\ get_preedit X (w_ctx w) = display X (x_kf (w_ctx w)) S.
Proof.
  intros X dbg r w s S ops S' Hd Hrows Hb Hf Hs Hdic H.
  destruct (C74_session X dbg r w s [] S ops S' Hd Hrows Hb Hf Hs Hdic ltac:(rewrite Hf; exact H)) as (s' & E & Hs').
  eexists. split; [exact E|]. destruct (shown X (x_kf (w_ctx w)) _ _ Hs') as [D' R']. destruct (shown X (x_kf (w_ctx w)) _ _ Hs) as [D R].
  unfold get_preedit. cbn [with_frames w_ctx x_stack x_kf set_stack set_store rev app flat_map]. unfold frames in Hf. rewrite Hf. cbn [rev app flat_map].
  rewrite R, R', !app_nil_r. auto.
Qed.
(** Opening a registration for the entry [key] with the okurigana [o], from a scene: by asking where there is no
    candidate, or by going on behind the last one. *)
Section Opens.
Context (X : xkb) (r : rule) (cr : command_rule) (kf : kana_form) (cf : config) (ids : list nat).
Inductive opens : scene -> list op -> ckey -> str -> Prop :=
| opens_asking i ph v cap t b st ops key o v' cap' p : kana_mode i -> looks_up X r cr kf cf i v cap ph ops key o v' cap' p ->
    offered ids st key [] -> ck_to key <> [] -> opens (mkSc i ph v cap t b st) ops key o
| opens_behind i key o cs j v cap t b st k : commands cr CompositionSelection i k [ITryNextCandidate] -> S j = length cs ->
    opens (mkSc i (Choosing CompositionSelection key o cs j) v cap t b st) [OKey k] key o.
End Opens.
(** While a word is registered: the entry it is for, with its okurigana marked, and inside the brackets the
    display of what is typed for it. *)
Theorem C74_registering : forall X dbg r w s rest S ops key o ops3 S3,
  distinct_keys X r -> rows_have_keys X r -> x_kb (w_ctx w) = kb_new X r -> frames w = s :: rest -> shows_scene S s -> sc_dicts S = w_store w ->
  length (frames w) < 10 -> opens X r (x_cmd (w_ctx w)) (x_kf (w_ctx w)) (x_cfg (w_ctx w)) (x_dicts (w_ctx w)) S ops key o ->
  session X r (x_cmd (w_ctx w)) (x_kf (w_ctx w)) (x_am (w_ctx w)) (x_cfg (w_ctx w)) (x_dicts (w_ctx w)) (Datatypes.S (length (frames w)))
    (mkSc Hiragana Idle [] false [] [] (w_store w)) ops3 S3 ->
  exists w' s2 s3, run X dbg (ops ++ ops3) w = Ok (repeat (OutBool true) (length (ops ++ ops3)), w')
    /\ frames w' = s3 :: s2 :: rest /\ shows_scene S3 s3 /\ s_conf s2 = sc_text S /\ w_store w' = sc_dicts S3
    /\ (rest = [] -> get_preedit X (w_ctx w') =
         U "▼" ++ adjust_kana_string (x_kf (w_ctx w)) (sc_mode S) (ck_to key) ++ (if okuri_entry key then U "*" else [])
         ++ adjust_kana_string (x_kf (w_ctx w)) (sc_mode S) o ++ U "【" ++ display X (x_kf (w_ctx w)) S3 ++ U "】").
Proof.
  intros X dbg r w s rest S ops key o ops3 S3 Hd Hrows Hb Hf Hs Hdic Hn Ho H.
  assert (Hx : exists s2, run X dbg ops w = Ok (yes ops, with_frames (st_new Hiragana Direct :: s2 :: rest) w)
    /\ s_conf s2 = sc_text S /\ s_imode s2 = sc_mode S /\ s_cmode s2 = Register /\ s_comp s2 = ck_to key /\ s_okuri s2 = o /\ get_composite_key s2 = key).
  { destruct Ho as [i ph v cap t b st ops key o v' cap' p Hi Hl Hof Hne|i key o cs j v cap t b st k Hk Hj]; cbn [sc_dicts sc_text sc_mode] in *; subst st.
    - destruct (open_looks X dbg r Hd Hrows w s rest i ph v cap t b ops key o v' cap' p Hb Hi Hl Hof Hne ltac:(rewrite <- Hf; exact Hn) Hs)
        as (p' & m & s2 & _ & (L1 & L2 & L3 & L4 & L5 & Lu & L6 & L7 & L8 & L9 & L10) & _ & _ & _ & _ & E).
      rewrite (with_frames_same w _ Hf) in E. exists (waiting m s2). split; [exact E|].
      split; [exact L2|]. split; [exact L1|]. split; [reflexivity|]. split; [exact L7|]. split; [exact L5|]. exact L4.
    - destruct (open_list X dbg w s rest i key o cs j v cap t b k Hk Hj ltac:(rewrite <- Hf; exact Hn) Hs) as [E Hw].
      rewrite (with_frames_same w _ Hf) in E. eexists. split; [exact E|].
      apply scene_chooses in Hs as (Hm & Hlm & Hcl & Hcu & Hjj & Hlen & Hkey & Hraw & Hcomp & Hok & Huse & Hi & Hp & Ht & Hdf & Hcap & He & Hl).
      split; [exact Ht|]. split; [exact Hi|]. split; [reflexivity|]. split; [exact Hcomp|]. split; [exact Hok|]. exact Huse. }
  destruct Hx as (s2 & E1 & X1 & X2 & X3 & X4 & X5 & X6).
  destruct (session_run X dbg r Hd Hrows w Hb _ _ _ _ H (st_new Hiragana Direct) (s2 :: rest) ltac:(rewrite Hf; reflexivity) (new_scene _)) as (s3 & E2 & Hs3).
  cbn [sc_dicts] in E2. rewrite set_store_same in E2. pose proof (run_join X dbg _ _ _ _ _ E1 E2) as E.
  eexists _, s2, s3. split; [exact E|]. split; [reflexivity|]. split; [exact Hs3|]. split; [exact X1|]. split; [reflexivity|].
  intros ->. destruct (shown X (x_kf (w_ctx w)) _ _ Hs3) as [D R].
  unfold get_preedit. cbn [with_frames w_ctx x_stack x_kf set_stack set_store rev app flat_map]. rewrite R, D.
  unfold is_register, preedit_string, preedit_detail. rewrite X3. cbn [cmode_eqb]. rewrite X2, X4, X5. unfold get_composite_key in X6. rewrite X5 in X6.
  destruct (s_use s2), o; cbn [is_nil negb andb] in X6; rewrite <- X6; cbn [okuri_entry ck_okuri ck_to render is_nil odef app]; rewrite ?adjust_nil, ?app_nil_r, <- ?app_assoc; reflexivity.
Qed.

(** Polling, in the outermost frame, hands out the text of the scene, whole, and nothing else changes. *)
Theorem C74_polled : forall X dbg w s S, frames w = [s] -> shows_scene S s ->
  exists s', exec X dbg OPoll w = Ok (OutText (if is_nil (sc_text S) then None else Some (sc_text S)), with_frames [s'] w)
    /\ shows_scene (mkSc (sc_mode S) (sc_phase S) (sc_keys S) (sc_cap S) [] (sc_back S) (sc_dicts S)) s'.
Proof.
  intros X dbg w s S Hf Hs. pose proof (C06_poll X dbg w [] s Hf) as P. cbn [app] in P. destruct S as [i ph v cap t b st].
  destruct Hs as (Hp & Hi & Hk & Hc & Hd & Hcap & He & Hl). cbn [sc_phase sc_mode sc_keys sc_text sc_cap sc_back sc_dicts] in *. rewrite Hc in P.
  exists (set_conf [] s). split; [exact P|]. unfold shows_scene. cbn [sc_phase sc_mode sc_keys sc_text sc_cap sc_back].
  split; [destruct ph; exact Hp|]. repeat (split; [first [reflexivity|assumption]|]). exact Hl.
Qed.
