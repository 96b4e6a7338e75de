(** C71: everything a user types, from the key presses to the text handed out.  C73: registering a word. *)
From Verif Require Import Str Keys Modes KanaBuilder FormChanger DictTypes Parser Lru
  Dictionary CState Context DefaultRule Demo Spec P_Monad P_Frames P_Inv P_Kana P_Step T_Keys T_Predict T_Dedup T_Offered T_Convert.
From Verif Require Import T_Frames T_Romaji T_Word.

(** ** Specification *)
Section Grammar.
Context (X : xkb) (r : rule) (cr : command_rule) (kf : kana_form) (am : ascii_map) (cf : config) (ids : list nat).
Definition spelled (c : cmode) (i : imode) := spells X r cr kf cf c i.
(** Typing the reading of a word, in the reading mode [c]: with a capital, after the key that starts a
    reading, or, as plain letters, after the key that starts an abbreviation.  [f] is the kana of the keys
    [v0] that were pending, [v] the keys pending at the end. *)
Inductive reads (i : imode) : list N -> str -> cmode -> list op -> list N -> str -> Prop :=
| reads_capital v0 f keys caps v ps : spelled PreComposition i false v [] keys ps -> shifted X r cr Direct i v0 f keys caps ->
    no_keyword (cf_auto cf) (concat ps) -> reads i v0 f PreComposition (map press caps) v (concat ps)
| reads_command k keys v ps : commands cr Direct i k [IChangeCompositionMode PreComposition] -> outside X r [] k ->
    spelled PreComposition i false v [] keys ps -> no_keyword (cf_auto cf) (concat ps) ->
    reads i [] [] PreComposition (OKey k :: map press keys) v (concat ps)
| reads_abbreviation k ks chs : commands cr Direct i k [IChangeCompositionMode Abbreviation] -> outside X r [] k ->
    Forall2 (types X) ks chs -> Forall (unbound cr Abbreviation i) ks -> reads i [] [] Abbreviation (OKey k :: map OKey ks) [] chs.
(** Asking for candidates: the conversion key after a reading, or okurigana after a stem. *)
Inductive asks (i : imode) : list N -> str -> list op -> list N -> ckey -> str -> Prop :=
| asks_word v0 f c ops v reading k extra v' : reads i v0 f c ops v reading -> commands cr c i k [ITryNextCandidate] -> outside X r v k ->
    forced X r v extra v' -> asks i v0 f (ops ++ [OKey k]) v' (mkCK (reading ++ extra) None) []
| asks_okuri v0 f ops reading v f2 keys caps ps : reads i v0 f PreComposition ops [] reading -> reading <> [] ->
    spelled PreComposition i false v [] v [] ->
    spelled PreCompositionOkurigana i true [] [] keys ps -> shifted X r cr PreComposition i v f2 keys caps -> concat ps <> [] ->
    asks i v0 f (ops ++ map press v ++ map press caps) [] (mkCK (reading ++ f2) (Some (concat ps))) (concat ps).
(** Walking through the candidates, from number [j] on. *)
Inductive walks (i : imode) (len : nat) : nat -> list op -> nat -> Prop :=
| walks_end j : walks i len j [] j
| walks_next j k ops j' : commands cr CompositionSelection i k [ITryNextCandidate] -> S j < len -> walks i len (S j) ops j' ->
    walks i len j (OKey k :: ops) j'
| walks_previous j k ops j' : commands cr CompositionSelection i k [ITryPreviousCandidate] -> walks i len j ops j' ->
    walks i len (S j) (OKey k :: ops) j'.
(** Passing over all of them. *)
Inductive passes (i : imode) : list candidate -> list op -> Prop :=
| passes_none : passes i [] []
| passes_all cs ops k : cs <> [] -> walks i (length cs) 0 ops (length cs - 1) -> commands cr CompositionSelection i k [ITryNextCandidate] ->
    passes i cs (ops ++ [OKey k]).
Definition offered (st : list dict) (key : ckey) (cs : list candidate) : Prop :=
  get_all_candidates (map (fun n => nth n st empty_dict) ids) key = Ok cs /\ (N.of_nat (length cs) < 2 ^ 64)%N.
Definition taught (c : candidate) (st : list dict) : list dict := upd_dicts ids (fun d => select_candidate d c) st.
Definition new_word (key : ckey) (okuri t : str) : candidate := mkCand (ck_to key) (ck_okuri key) (negb (is_nil okuri)) t None t.
(** A key with a character that neither chooses among candidates nor runs a command in Direct mode. *)
Definition goes_on (i : imode) (k : keyev) : Prop :=
  (exists ch, types X k ch) /\ unbound cr CompositionSelection i k /\ unbound cr Direct i k.
(** Where the typing stands: input mode, pending keys, text confirmed, dictionaries. *)
Record sit := mkSit { sit_mode : imode; sit_keys : list N; sit_text : str; sit_dicts : list dict }.
(** How text confirmed as it was read comes out. *)
Definition in_form (i : imode) (t : str) : str := match i with Zenkaku => adjust_ascii_string am t | _ => adjust_kana_string kf i t end.
(** Typing, at the nesting depth [n]: which keys lead from where to where. *)
Inductive composes : nat -> sit -> list op -> sit -> Prop :=
| done n S : composes n S [] S
(* kana *)
| kana n i v t st keys v' ps ops S' : kana_mode i -> spelled Direct i false v' v keys ps ->
    composes n (mkSit i v' (t ++ concat (map (adjust_kana_string kf i) ps)) st) ops S' ->
    composes n (mkSit i v t st) (map press keys ++ ops) S'
(* ASCII and full-width letters *)
| ascii n t st ks chs ops S' : Forall2 (types X) ks chs -> Forall (unbound cr Direct Ascii) ks ->
    composes n (mkSit Ascii [] (t ++ chs) st) ops S' -> composes n (mkSit Ascii [] t st) (map OKey ks ++ ops) S'
| zenkaku n t st ks chs ts ops S' : Forall2 (types X) ks chs -> Forall2 (full_width am) chs ts -> Forall (unbound cr Direct Zenkaku) ks ->
    composes n (mkSit Zenkaku [] (t ++ concat ts) st) ops S' -> composes n (mkSit Zenkaku [] t st) (map OKey ks ++ ops) S'
(* changing the input mode *)
| switch n i v t st k i0 i1 extra v' ops S' : kana_mode i ->
    commands cr Direct i k [IForceKanaConvert i0; IChangeInputMode i1; IClearUnconfirmedInputs] -> outside X r v k -> forced X r v extra v' ->
    composes n (mkSit i1 [] (t ++ adjust_kana_string kf i0 extra) st) ops S' -> composes n (mkSit i v t st) (OKey k :: ops) S'
| switch_plain n i t st k i1 ops S' : commands cr Direct i k [IChangeInputMode i1] -> (kana_mode i -> outside X r [] k) ->
    composes n (mkSit i1 [] t st) ops S' -> composes n (mkSit i [] t st) (OKey k :: ops) S'
(* deleting the last character *)
| erase n i t x st k ops S' : commands cr Direct i k [IDelete] -> (kana_mode i -> outside X r [] k) ->
    composes n (mkSit i [] t st) ops S' -> composes n (mkSit i [] (t ++ [x]) st) (OKey k :: ops) S'
(* a word chosen among the candidates and confirmed *)
| word n i v t st f ops1 v' key o cs ops2 j c k ops S' : kana_mode i -> asks i v f ops1 v' key o -> offered st key cs ->
    walks i (length cs) 0 ops2 j -> nth_error cs j = Some c -> commands cr CompositionSelection i k [IConfirmComposition] ->
    composes n (mkSit i [] (t ++ adjust_kana_string kf i f ++ c_output c ++ adjust_kana_string kf i o) (taught c st)) ops S' ->
    composes n (mkSit i v t st) (ops1 ++ ops2 ++ OKey k :: ops) S'
(* a word confirmed by going on typing *)
| word_next n i v t st f ops1 key o cs ops2 j c k ops S' : kana_mode i -> asks i v f ops1 [] key o -> offered st key cs ->
    walks i (length cs) 0 ops2 j -> nth_error cs j = Some c -> goes_on i k ->
    composes n (mkSit i [] (t ++ adjust_kana_string kf i f ++ c_output c ++ adjust_kana_string kf i o) (taught c st)) (OKey k :: ops) S' ->
    composes n (mkSit i v t st) (ops1 ++ ops2 ++ OKey k :: ops) S'
(* a word that is not among the candidates: registered *)
| register n i v t st f ops1 v' key o cs ops2 ops3 i3 t3 st3 k ops S' : kana_mode i -> asks i v f ops1 v' key o -> offered st key cs ->
    ck_to key <> [] -> passes i cs ops2 -> n < 10 ->
    composes (S n) (mkSit Hiragana [] [] st) ops3 (mkSit i3 [] t3 st3) -> t3 <> [] -> numeric_entry_count t3 = 0 ->
    commands cr Direct i3 k [IConfirmDirect] -> (kana_mode i3 -> outside X r [] k) ->
    composes n (mkSit i [] (t ++ adjust_kana_string kf i f ++ t3 ++ adjust_kana_string kf i o) (taught (new_word key o t3) st3)) ops S' ->
    composes n (mkSit i v t st) (ops1 ++ ops2 ++ ops3 ++ OKey k :: ops) S'
(* a reading confirmed as it is, in some form; without forcing, keys still pending are dropped *)
| confirm_form n i v t st f c ops1 v' reading k i1 i2 extra v2 ops S' : kana_mode i -> reads i v f c ops1 v' reading ->
    commands cr c i k [IForceKanaConvert i1; IConfirmAs i2; IChangeCompositionMode Direct] -> outside X r v' k -> forced X r v' extra v2 ->
    composes n (mkSit i [] (t ++ adjust_kana_string kf i f ++ in_form i2 (reading ++ extra)) st) ops S' ->
    composes n (mkSit i v t st) (ops1 ++ OKey k :: ops) S'
| confirm_plain n i v t st f c ops1 v' reading k i2 ops S' : kana_mode i -> reads i v f c ops1 v' reading ->
    commands cr c i k [IConfirmAs i2; IChangeCompositionMode Direct] -> outside X r v' k ->
    composes n (mkSit i [] (t ++ adjust_kana_string kf i f ++ in_form i2 reading) st) ops S' ->
    composes n (mkSit i v t st) (ops1 ++ OKey k :: ops) S'
(* a reading given up *)
| give_up n i v t st f c ops1 v' reading k ops S' : kana_mode i -> reads i v f c ops1 v' reading ->
    commands cr c i k [IClearUnconfirmedInputs; IAbort] -> outside X r v' k ->
    composes n (mkSit i [] (t ++ adjust_kana_string kf i f) st) ops S' ->
    composes n (mkSit i v t st) (ops1 ++ OKey k :: ops) S'.
End Grammar.
(** A frame that stands so. *)
Definition stands (S : sit) (s : cstate) : Prop :=
  idle_with (sit_keys S) s /\ s_imode s = sit_mode S /\ s_conf s = sit_text S /\ s_default s = Direct.

(** ** Proofs *)
Section Runs.
Context (X : xkb) (dbg : bool) (r : rule) (Hd : distinct_keys X r) (Hrows : rows_have_keys X r).
Definition yes (ops : list op) : list out := repeat (OutBool true) (length ops).
Lemma yes_app a b : yes a ++ yes b = yes (a ++ b).
Proof. unfold yes. now rewrite app_length, repeat_app. Qed.
Lemma run_join ops1 ops2 w w1 w2 : run X dbg ops1 w = Ok (yes ops1, w1) -> run X dbg ops2 w1 = Ok (yes ops2, w2) ->
  run X dbg (ops1 ++ ops2) w = Ok (yes (ops1 ++ ops2), w2).
Proof. intros H1 H2. rewrite (run_two X dbg _ _ _ _ _ H1), H2, yes_app. reflexivity. Qed.
Lemma run_join_cons k ops w w1 w2 : process_key_event X dbg k w = Ok (true, w1) -> run X dbg ops w1 = Ok (yes ops, w2) ->
  run X dbg (OKey k :: ops) w = Ok (yes (OKey k :: ops), w2).
Proof. intros H1 H2. rewrite (run_cons X dbg _ _ _ _ _ (exec_key X dbg _ _ _ _ H1)), H2. reflexivity. Qed.
Lemma run_key k w w1 : process_key_event X dbg k w = Ok (true, w1) -> run X dbg [OKey k] w = Ok (yes [OKey k], w1).
Proof. intros H. apply (run_join_cons k [] w w1 w1 H). reflexivity. Qed.
Lemma run_presses keys w w1 : run X dbg (map press keys) w = Ok (map (fun _ => OutBool true) keys, w1) ->
  run X dbg (map press keys) w = Ok (yes (map press keys), w1).
Proof. intros H. rewrite H, map_repeat_true. unfold yes. now rewrite map_length. Qed.

Definition reading_frame (c : cmode) (reading : str) (s : cstate) : cstate := set_raw reading (set_comp reading (change_composition_mode c s)).
(** letters of an abbreviation *)
Lemma abbreviation_key w s fr k ch : s_cmode s = Abbreviation -> types X k ch -> unbound (x_cmd (w_ctx w)) Abbreviation (s_imode s) k ->
  process_key_event X dbg k (with_frames (s :: fr) w) = Ok (true, with_frames (set_raw (s_raw s ++ [ch]) (set_comp (s_comp s ++ [ch]) s) :: fr) w).
Proof.
  intros Hm (Hmod & Hr & Hch) Hun.
  assert (Hml : is_modifierless_input k = true) by (unfold is_modifierless_input; destruct Hmod as [-> | ->]; reflexivity).
  assert (Hrel : has_mod k M_RELEASE = false) by (unfold has_mod; destruct Hmod as [-> | ->]; reflexivity).
  rewrite (key_unbound X dbg k (with_frames (s :: fr) w) s fr); [|reflexivity|exact Hrel|congruence|rewrite Hm; exact Hun].
  unfold input_key. rewrite Hml. cbn [negb]. unfold bind at 1, cur at 1. cbn [x_stack w_ctx with_frames]. unfold bind at 1, get at 1. rewrite Hm. cbn [andb].
  unfold bind at 1, ret at 1. unfold bind at 1, cur at 1. cbn [x_stack w_ctx with_frames]. rewrite Hm.
  assert (E : has_rom2kana_conversion (s_imode s) Abbreviation = false) by reflexivity. rewrite E. cbn [andb].
  assert (Ea : is_ascii_inputtable k = true) by (unfold is_ascii_inputtable, KEY_space, KEY_asciitilde; apply andb_true_intro; split; apply N.leb_le; lia).
  rewrite Ea. cbn [andb]. unfold input_plain. unfold bind at 1, cur at 1. cbn [x_stack w_ctx with_frames]. unfold bind at 1, get at 1.
  rewrite Hm. unfold get_symbol_char. rewrite Hch. unfold bind at 1, modcur at 1. cbn [x_stack w_ctx with_frames]. unfold push_string. rewrite Hm. reflexivity.
Qed.
Lemma abbreviation_run ks : forall chs w s fr, s_cmode s = Abbreviation -> Forall2 (types X) ks chs ->
  Forall (unbound (x_cmd (w_ctx w)) Abbreviation (s_imode s)) ks ->
  run X dbg (map OKey ks) (with_frames (s :: fr) w) = Ok (yes (map OKey ks), with_frames (set_raw (s_raw s ++ chs) (set_comp (s_comp s ++ chs) s) :: fr) w).
Proof.
  induction ks as [|k ks IH]; intros chs w s fr Hm Ht Hu.
  - inversion Ht; subst. cbn. unfold ret. rewrite !app_nil_r. do 4 f_equal. destruct s; reflexivity.
  - inversion Ht as [|? ch ? chs' Hk Hks]; subst. inversion Hu as [|? ? Hk' Hks']; subst. cbn [map].
    apply (run_join_cons _ _ _ _ _ (abbreviation_key w s fr k ch Hm Hk Hk')).
    rewrite (IH chs' w (set_raw (s_raw s ++ [ch]) (set_comp (s_comp s ++ [ch]) s)) fr Hm Hks Hks').
    cbn [set_raw set_comp s_raw s_comp]. rewrite <- !app_assoc. reflexivity.
Qed.
Lemma command_step w s fr k l c i : x_kb (w_ctx w) = kb_new X r -> s_cmode s = c -> s_imode s = i -> c <> Register -> outside X r (s_pre s) k ->
  commands (x_cmd (w_ctx w)) c i k l ->
  process_key_event X dbg k (with_frames (s :: fr) w) = process_instructions dbg l c i (with_frames (s :: fr) w).
Proof.
  intros Hb Hm Hi Hc Ho Hk. rewrite (runs_process X dbg k (with_frames (s :: fr) w) l s fr); [now rewrite Hm, Hi| |reflexivity].
  apply (command_runs X r (with_frames (s :: fr) w) s fr k l Hd Hb eq_refl); [congruence|exact Ho|now rewrite Hm, Hi].
Qed.
Lemma kana_or_not i : kana_mode i \/ has_rom2kana_conversion i Direct = false.
Proof. destruct i; [left; unfold kana_mode; auto..|right; reflexivity|right; reflexivity]. Qed.
Lemma command_step_plain w s fr k l : s_cmode s <> Register -> has_rom2kana_conversion (s_imode s) (s_cmode s) = false ->
  commands (x_cmd (w_ctx w)) (s_cmode s) (s_imode s) k l ->
  process_key_event X dbg k (with_frames (s :: fr) w) = process_instructions dbg l (s_cmode s) (s_imode s) (with_frames (s :: fr) w).
Proof.
  intros Hc Ho Hk. rewrite (runs_process X dbg k (with_frames (s :: fr) w) l s fr); [reflexivity| |reflexivity].
  exact (command_runs_plain (with_frames (s :: fr) w) s fr k l eq_refl Hc Ho Hk).
Qed.
Lemma direct_step w s fr k l : x_kb (w_ctx w) = kb_new X r -> s_cmode s = Direct -> (kana_mode (s_imode s) -> outside X r (s_pre s) k) ->
  commands (x_cmd (w_ctx w)) Direct (s_imode s) k l ->
  process_key_event X dbg k (with_frames (s :: fr) w) = process_instructions dbg l Direct (s_imode s) (with_frames (s :: fr) w).
Proof.
  intros Hb Hm Ho Hk. destruct (kana_or_not (s_imode s)) as [Hi|Hi].
  - exact (command_step w s fr k l Direct (s_imode s) Hb Hm eq_refl ltac:(discriminate) (Ho Hi) Hk).
  - rewrite (command_step_plain w s fr k l); [now rewrite Hm|congruence|now rewrite Hm|now rewrite Hm].
Qed.
Lemma reads_run w s fr v0 f c ops v reading : x_kb (w_ctx w) = kb_new X r -> kana_mode (s_imode s) -> idle_with v0 s ->
  reads X r (x_cmd (w_ctx w)) (x_kf (w_ctx w)) (x_cfg (w_ctx w)) (s_imode s) v0 f c ops v reading ->
  exists b, (v = [] -> b = false) /\ run X dbg ops (with_frames (s :: fr) w)
    = Ok (yes ops, with_frames (pending v b (reading_frame c reading (flushed (x_kf (w_ctx w)) f s)) :: fr) w).
Proof.
  intros Hb Hi Hidle H. destruct H as [v0 f keys caps v ps Hs Hsh Hk|k keys v ps Hk Ho Hs Hkw|k ks chs Hk Ho Ht Hu].
  - destruct (reading_run X dbg r Hd w s fr v0 f v keys caps ps Hb Hidle Hi Hs Hsh Hk) as (b & Hv & E).
    exists b. split; [exact Hv|]. apply run_presses. exact E.
  - destruct Hidle as (Hm & Hp & Hraw & Hcomp & Hok & Huse & Hcap).
    pose proof (command_step w s fr k _ Direct (s_imode s) Hb Hm eq_refl ltac:(discriminate) ltac:(rewrite Hp; exact Ho) Hk) as E0.
    assert (E1 : process_key_event X dbg k (with_frames (s :: fr) w) = Ok (true, with_frames (change_composition_mode PreComposition s :: fr) w)).
    { rewrite E0. reflexivity. }
    set (s1 := change_composition_mode PreComposition s) in *.
    destruct (spells_run X dbg r Hd w PreComposition (s_imode s) v [] keys ps Hb (or_intror eq_refl) Hi Hs s1 fr eq_refl eq_refl Hp) as (b & Hv & E).
    + intros _. exact Hcap.
    + intros _ p q Epq. change (s_raw s1) with (s_raw s). rewrite Hraw. exact (no_keyword_auto _ _ p q Hkw Epq).
    + exists b. split; [auto|]. apply (run_join_cons _ _ _ _ _ E1). apply run_presses in E. rewrite E. rewrite flushed_nil.
      unfold reading_frame. fold s1. cbn [put]. change (s_raw s1) with (s_raw s). change (s_comp s1) with (s_comp s). rewrite Hraw, Hcomp. reflexivity.
  - destruct Hidle as (Hm & Hp & Hraw & Hcomp & Hok & Huse & Hcap).
    pose proof (command_step w s fr k _ Direct (s_imode s) Hb Hm eq_refl ltac:(discriminate) ltac:(rewrite Hp; exact Ho) Hk) as E0.
    assert (E1 : process_key_event X dbg k (with_frames (s :: fr) w) = Ok (true, with_frames (change_composition_mode Abbreviation s :: fr) w)).
    { rewrite E0. reflexivity. }
    exists false. split; [reflexivity|]. apply (run_join_cons _ _ _ _ _ E1).
    rewrite (abbreviation_run ks chs w (change_composition_mode Abbreviation s) fr eq_refl Ht Hu). rewrite flushed_nil.
    do 4 f_equal. unfold reading_frame. destruct s; cbn in *; subst; reflexivity.
Qed.
Lemma reads_mode i v0 f c ops v reading cr kf cf : reads X r cr kf cf i v0 f c ops v reading -> c = PreComposition \/ (c = Abbreviation /\ v = []).
Proof. intros []; auto. Qed.

Definition asked (kf : kana_form) (f : str) (key : ckey) (o : str) (v' : list N) (s s2 : cstate) : Prop :=
  s_imode s2 = s_imode s /\ s_conf s2 = s_conf s ++ adjust_kana_string kf (s_imode s) f /\ s_default s2 = s_default s
  /\ get_composite_key s2 = key /\ s_okuri s2 = o /\ s_pre s2 = v' /\ s_comp s2 = ck_to key /\ s_raw s2 = ck_to key.
(** forcing the pending keys of a reading *)
Lemma force_reading w s fr c v b reading extra v' : x_kb (w_ctx w) = kb_new X r -> c = PreComposition \/ (c = Abbreviation /\ v = []) ->
  (v = [] -> b = false) -> forced X r v extra v' -> forall i,
  exists b' o, (v' = [] -> b' = false) /\ output_converted_kana_if_any i c (with_frames (pending v b (reading_frame c reading s) :: fr) w)
    = Ok (o, with_frames (pending v' b' (reading_frame c (reading ++ extra) s) :: fr) w).
Proof.
  intros Hb Hc Hbv Hf i. unfold output_converted_kana_if_any. unfold bind at 1, cur at 1. cbn [x_stack w_ctx with_frames]. unfold bind at 1, get at 1.
  cbn [x_kb x_kf w_ctx with_frames]. change (s_pre (pending v b (reading_frame c reading s))) with v. rewrite Hb.
  destruct (forced_some X r Hd _ _ _ Hf) as [[E He]|(E & -> & ->)]; rewrite E.
  - destruct Hc as [->|[-> ->]]; [|exfalso; exact (Hrows _ _ He)].
    exists false, true. split; [reflexivity|]. unfold set_carry_over, modcur, bind, ret. cbn [x_stack w_ctx with_frames set_stack].
    refine (f_equal (fun z => Ok (true, with_frames (z :: fr) w)) _). destruct v'; reflexivity.
  - exists b, false. split; [exact Hbv|]. rewrite app_nil_r. reflexivity.
Qed.
Lemma convert_step w s fr c v b reading extra v' k cs : x_kb (w_ctx w) = kb_new X r -> c = PreComposition \/ (c = Abbreviation /\ v = []) ->
  (v = [] -> b = false) -> s_use s = false -> commands (x_cmd (w_ctx w)) c (s_imode s) k [ITryNextCandidate] -> outside X r v k -> forced X r v extra v' ->
  get_all_candidates (ctx_dicts w) (mkCK (reading ++ extra) None) = Ok cs -> (cs = [] -> reading ++ extra <> []) ->
  exists b', (v' = [] -> b' = false) /\ process_key_event X dbg k (with_frames (pending v b (reading_frame c reading s) :: fr) w)
    = Ok (true, with_frames (offered_frames c cs (pending v' b' (reading_frame c (reading ++ extra) s)) fr) w).
Proof.
  intros Hb Hc Hbv Huse Hk Ho Hf Hcs Hne. set (s1 := pending v b (reading_frame c reading s)).
  rewrite (command_step w s1 fr k _ c (s_imode s) Hb eq_refl eq_refl ltac:(destruct Hc as [->|[-> _]]; discriminate) Ho Hk).
  destruct (force_reading w s fr c v b reading extra v' Hb Hc Hbv Hf (s_imode s)) as (b' & o & Hb' & E). fold s1 in E.
  set (s2 := pending v' b' (reading_frame c (reading ++ extra) s)) in *.
  exists b'. split; [exact Hb'|].
  apply one_instruction. cbn [run_instr]. unfold try_next_candidate.
  assert (Ec : cmode_eqb c CompositionSelection = false) by (destruct Hc as [->|[-> _]]; reflexivity). rewrite Ec. cbn [negb].
  unfold bind at 1. unfold bind at 1. rewrite E. unfold bind at 1. unfold update_candidate_list. unfold bind at 1, cur at 1. cbn [x_stack w_ctx with_frames].
  unfold bind at 1, get at 1. unfold bind at 1, lift at 1.
  assert (Ek : get_composite_key s2 = mkCK (reading ++ extra) None) by (unfold get_composite_key; change (s_use s2) with (s_use s); rewrite Huse; reflexivity).
  rewrite Ek. match goal with |- context [ctx_dicts ?ww] => change (ctx_dicts ww) with (ctx_dicts w) end. rewrite Hcs.
  unfold modcur at 1. cbn [x_stack w_ctx with_frames set_stack]. unfold bind at 1, cur at 1. cbn [x_stack w_ctx with_frames set_stack].
  destruct cs as [|c0 cs].
  - assert (E1 : is_nil (s_comp (set_new_candidate_list [] s2)) = false).
    { change (s_comp (set_new_candidate_list [] s2)) with (reading ++ extra). specialize (Hne eq_refl). now destruct (reading ++ extra). }
    assert (El : cl_is_empty (s_list (set_new_candidate_list [] s2)) = true) by reflexivity.
    rewrite E1, El. cbn [negb andb]. unfold enter_register_mode. cbn [x_stack w_ctx with_frames set_stack]. unfold offered_frames, waiting. cbn [length].
    change REGISTER_MODE_STACK_MAX with 10. destruct (Nat.ltb (S (length fr)) 10); reflexivity.
  - assert (El : cl_is_empty (s_list (set_new_candidate_list (c0 :: cs) s2)) = false) by reflexivity.
    rewrite El. rewrite andb_false_r. cbn [negb]. reflexivity.
Qed.
Lemma asks_run w s fr v0 f ops v' key o cs : x_kb (w_ctx w) = kb_new X r -> kana_mode (s_imode s) -> idle_with v0 s ->
  asks X r (x_cmd (w_ctx w)) (x_kf (w_ctx w)) (x_cfg (w_ctx w)) (s_imode s) v0 f ops v' key o ->
  get_all_candidates (ctx_dicts w) key = Ok cs -> (cs = [] -> ck_to key <> []) ->
  exists c s2, (c = PreCompositionOkurigana \/ (c = PreComposition \/ c = Abbreviation) /\ o = []) /\ asked (x_kf (w_ctx w)) f key o v' s s2 /\ run X dbg ops (with_frames (s :: fr) w) = Ok (yes ops, with_frames (offered_frames c cs s2 fr) w).
Proof.
  intros Hb Hi Hidle H Hcs Hne. pose proof Hidle as (Hm & Hp & Hraw & Hcomp & Hok & Huse & Hcap).
  destruct H as [v0 f c ops v reading k extra v' Hr Hk Ho Hf|v0 f ops reading v f2 keys caps ps Hr Hrd Hv Hs Hsh Hps].
  - destruct (reads_run w s fr v0 f c ops v reading Hb Hi Hidle Hr) as (b & Hbv & E).
    destruct (convert_step w (flushed (x_kf (w_ctx w)) f s) fr c v b reading extra v' k cs Hb (reads_mode _ _ _ _ _ _ _ _ _ _ Hr) Hbv Huse Hk Ho Hf Hcs Hne) as (b' & Hb' & E2).
    exists c, (pending v' b' (reading_frame c (reading ++ extra) (flushed (x_kf (w_ctx w)) f s))).
    split; [right; split; [destruct (reads_mode _ _ _ _ _ _ _ _ _ _ Hr) as [->|[-> _]]; auto|reflexivity]|]. split.
    + split; [reflexivity|]. split; [reflexivity|]. split; [reflexivity|]. split; [|split; [exact Hok|split; [reflexivity|split; reflexivity]]].
      unfold get_composite_key. cbn [pending reading_frame flushed set_conf set_cap set_pre set_raw set_comp change_composition_mode change_from_old_mode set_cmode set_hist s_use s_raw]. rewrite Huse. reflexivity.
    + exact (run_join _ _ _ _ _ E (run_key _ _ _ E2)).
  - destruct (reads_run w s fr v0 f PreComposition ops [] reading Hb Hi Hidle Hr) as (b & Hbv & E). rewrite (Hbv eq_refl) in E.
    set (s1 := pending [] false (reading_frame PreComposition reading (flushed (x_kf (w_ctx w)) f s))) in *.
    assert (Hkw : no_auto (cf_auto (x_cfg (w_ctx w))) reading).
    { inversion Hr; subst; eapply (no_keyword_auto _ _ _ []); eauto; now rewrite app_nil_r. }
    destruct (spells_run X dbg r Hd w PreComposition (s_imode s) v [] v [] Hb (or_intror eq_refl) Hi Hv s1 fr eq_refl eq_refl eq_refl ltac:(reflexivity)) as (b1 & Hb1 & E1).
    { intros _ p q Epq. cbn [concat] in Epq. symmetry in Epq. apply app_eq_nil in Epq as [-> _]. rewrite app_nil_r. exact Hkw. }
    rewrite (Hb1 (or_intror eq_refl)) in E1. rewrite put_nil in E1. apply run_presses in E1. set (s2 := pending v false s1) in *.
    assert (Hi2 : s_imode s2 = s_imode s) by reflexivity.
    pose proof (okurigana_run X dbg r Hd w s2 fr v f2 keys caps ps cs Hb eq_refl eq_refl Hok eq_refl Hrd Hi Hs Hsh Hcs Hps) as E2. apply run_presses in E2.
    eexists PreCompositionOkurigana, _. split; [now left|]. split; [|exact (run_join _ _ _ _ _ E (run_join _ _ _ _ _ E1 E2))].
    split; [reflexivity|]. split; [reflexivity|]. split; [reflexivity|]. split; [|split; [reflexivity|split; [reflexivity|]]];
      [|cbn; rewrite app_nil_r; split; reflexivity].
    unfold get_composite_key. cbn [set_use set_okuri change_composition_mode change_from_old_mode set_cmode set_hist pending set_cap set_pre put set_raw set_comp s_use s_okuri s_raw].
    change (s_raw s2) with reading. cbn [concat]. rewrite app_nil_r. destruct (concat ps); [congruence|reflexivity].
Qed.
(** walking through the candidates *)
Lemma walks_run w fr cs i len j ops j' : walks (x_cmd (w_ctx w)) i len j ops j' -> len = length cs -> forall s, choosing s cs j -> s_imode s = i ->
  run X dbg ops (with_frames (s :: fr) w) = Ok (yes ops, with_frames (at_candidate j' s :: fr) w) /\ j' < len.
Proof.
  intros H El. induction H as [j|j k ops j' Hk Hj H IH|j k ops j' Hk H IH]; intros s Hc Hi.
  - split; [|destruct Hc as (_ & _ & _ & Hj & _); congruence]. cbn [run yes length repeat]. unfold ret. do 4 f_equal.
    destruct Hc as (_ & _ & Hcu & _). unfold at_candidate, cursor in *. rewrite <- Hcu. destruct s as [? ? ? ? ? ? ? ? [? ? ?] ? ? ? ?]. reflexivity.
  - assert (Hr : runs (with_frames (s :: fr) w) k [ITryNextCandidate]).
    { pose proof Hc as (Hm & _). apply (command_runs_plain _ s fr); [reflexivity|congruence|rewrite Hm; reflexivity|rewrite Hm, Hi; exact Hk]. }
    pose proof (C65_next X dbg k (with_frames (s :: fr) w) s fr cs j eq_refl Hc Hr ltac:(congruence)) as E.
    destruct (IH (at_candidate (S j) s)) as [IH1 IH2]; [apply (choosing_at s cs j); [exact Hc|congruence]|exact Hi|].
    split; [|exact IH2]. apply (run_join_cons _ _ _ _ _ E). rewrite with_frames_twice. exact IH1.
  - assert (Hr : runs (with_frames (s :: fr) w) k [ITryPreviousCandidate]).
    { pose proof Hc as (Hm & _). apply (command_runs_plain _ s fr); [reflexivity|congruence|rewrite Hm; reflexivity|rewrite Hm, Hi; exact Hk]. }
    pose proof (C65_previous X dbg k (with_frames (s :: fr) w) s fr cs j eq_refl Hc Hr) as E.
    destruct (IH (at_candidate j s)) as [IH1 IH2]; [apply (choosing_at s cs (S j)); [exact Hc|destruct Hc as (_ & _ & _ & Hj & _); lia]|exact Hi|].
    split; [|exact IH2]. apply (run_join_cons _ _ _ _ _ E). rewrite with_frames_twice. exact IH1.
Qed.
Lemma choices_choosing cs s : cs <> [] -> (N.of_nat (length cs) < 2 ^ 64)%N -> choosing (choices cs s) cs 0.
Proof. intros Hne Hl. split; [reflexivity|]. split; [reflexivity|]. split; [reflexivity|]. split; [destruct cs; [congruence|cbn; lia]|exact Hl]. Qed.
Lemma offered_some c cs s fr : cs <> [] -> offered_frames c cs s fr = choices cs s :: fr.
Proof. intros H. destruct cs; [congruence|reflexivity]. Qed.
(** A frame waiting for its word. *)
Definition awaits (key : ckey) (o : str) (s s2 : cstate) : Prop :=
  cl_key (s_list s2) = key /\ s_okuri s2 = o /\ s_imode s2 = s_imode s /\ s_conf s2 = s_conf s /\ s_default s2 = s_default s.
Lemma open_step w s fr k cs : choosing s cs (length cs - 1) -> commands (x_cmd (w_ctx w)) CompositionSelection (s_imode s) k [ITryNextCandidate] ->
  length (s :: fr) < 10 -> process_key_event X dbg k (with_frames (s :: fr) w)
  = Ok (true, with_frames (st_new Hiragana Direct :: change_from_old_mode Register CompositionSelection s :: fr) w).
Proof.
  intros Hc1 Hk Hn. pose proof Hc1 as (Hm & _ & _ & Hj & _).
  rewrite (command_step_plain w s fr k [ITryNextCandidate]); [|congruence|now rewrite Hm; destruct (s_imode s)|rewrite Hm; exact Hk].
  apply one_instruction. rewrite Hm. cbn [run_instr]. unfold try_next_candidate. cbn [negb cmode_eqb].
  unfold bind at 1. unfold bind at 1, cur at 1. cbn [x_stack w_ctx with_frames]. unfold bind at 1, lift at 1. rewrite (choosing_next dbg s cs _ Hc1).
  destruct (Nat.ltb_spec (S (length cs - 1)) (length cs)); [lia|]. cbn [negb]. unfold enter_register_mode. cbn [x_stack w_ctx with_frames].
  change REGISTER_MODE_STACK_MAX with 10. cbn [length] in *. destruct (Nat.ltb_spec (S (length fr)) 10); [reflexivity|lia].
Qed.
Lemma passes_run w s fr c cs ops2 : passes (x_cmd (w_ctx w)) (s_imode s) cs ops2 -> (N.of_nat (length cs) < 2 ^ 64)%N -> length (s :: fr) < 10 ->
  exists s2, awaits (get_composite_key s) (s_okuri s) s s2
    /\ run X dbg ops2 (with_frames (offered_frames c cs s fr) w) = Ok (yes ops2, with_frames (st_new Hiragana Direct :: s2 :: fr) w).
Proof.
  intros H Hl Hn. destruct H as [|cs ops k Hne Hw Hk].
  - exists (waiting c s). split; [repeat split; reflexivity|]. unfold offered_frames. destruct (Nat.ltb_spec (length (s :: fr)) 10); [reflexivity|lia].
  - rewrite (offered_some c cs s fr Hne). pose proof (choices_choosing cs s Hne Hl) as Hc.
    destruct (walks_run w fr cs (s_imode s) (length cs) 0 ops (length cs - 1) Hw eq_refl (choices cs s) Hc eq_refl) as [E Hj].
    set (s1 := at_candidate (length cs - 1) (choices cs s)) in *.
    assert (Hc1 : choosing s1 cs (length cs - 1)) by (apply (choosing_at (choices cs s) cs 0); auto).
    exists (change_from_old_mode Register CompositionSelection s1). split; [repeat split; reflexivity|].
    apply (run_join _ _ _ _ _ E), run_key. exact (open_step w s1 fr k cs Hc1 Hk Hn).
Qed.
(** the word typed for a registration is taken over *)
Lemma exit_step w s0 s2 fr k t key o i : x_kb (w_ctx w) = kb_new X r -> s_cmode s0 = Direct -> s_pre s0 = [] -> s_imode s0 = i -> s_conf s0 = t -> t <> [] ->
  numeric_entry_count t = 0 -> commands (x_cmd (w_ctx w)) Direct i k [IConfirmDirect] -> (kana_mode i -> outside X r [] k) -> cl_key (s_list s2) = key -> s_okuri s2 = o ->
  exists s', process_key_event X dbg k (with_frames (s0 :: s2 :: fr) w) = Ok (true, with_frames (s' :: fr) (told (new_word key o t) w))
    /\ confirmed (t ++ adjust_kana_string (x_kf (w_ctx w)) (s_imode s2) o) s2 s'.
Proof.
  intros Hb Hm Hp Hi Ht Hne Hnum Hk Ho Hkey Hok.
  rewrite (direct_step w s0 (s2 :: fr) k [IConfirmDirect] Hb Hm); [rewrite Hi|rewrite Hi, Hp; exact Ho|rewrite Hi; exact Hk].
  set (s3 := set_cmode Direct s2).
  assert (Er : registered_candidates (ctx_dicts w) s3 t = Ok [new_word key o t]).
  { unfold registered_candidates. change (cl_key (s_list s3)) with (cl_key (s_list s2)). change (s_okuri s3) with (s_okuri s2).
    rewrite Hnum, Hkey, Hok. reflexivity. }
  set (s4 := add_new_candidates [new_word key o t] s3).
  assert (Ec : cl_current (s_list s4) = Some (new_word key o t)).
  { unfold cl_current, s4. cbn [add_new_candidates set_cokuri set_list s_list cl_add cl_list cl_cur]. rewrite app_length. cbn [length].
    replace (N.to_nat (N.of_nat (length (cl_list (s_list s3)) + 1) - N.of_nat 1)) with (length (cl_list (s_list s3))) by lia.
    rewrite nth_error_app2, Nat.sub_diag by lia. reflexivity. }
  set (s' := reset_to_default (clear_unconfirmed (push_string (t ++ adjust_kana_string (x_kf (w_ctx w)) (s_imode s4) (s_okuri s4)) s4))).
  assert (Ex : exit_register_mode t (with_frames (s0 :: s2 :: fr) w) = Ok (tt, with_frames (s' :: fr) (told (new_word key o t) w))).
  { unfold exit_register_mode. cbn [x_stack w_ctx with_frames tl]. assert (En : is_nil t = false) by (destruct t; [congruence|reflexivity]). rewrite En.
    unfold bind at 1, modcur at 1. cbn [x_stack w_ctx with_frames set_stack]. unfold bind at 1, cur at 1. cbn [x_stack w_ctx with_frames set_stack].
    unfold bind at 1, get at 1. unfold bind at 1, lift at 1.
    match goal with |- context [ctx_dicts ?ww] => change (ctx_dicts ww) with (ctx_dicts w) end. fold s3. rewrite Er.
    unfold bind at 1, modcur at 1. cbn [x_stack w_ctx with_frames set_stack]. fold s4.
    unfold confirm_current. unfold bind at 1, cur at 1. cbn [x_stack w_ctx with_frames set_stack]. unfold bind at 1, get at 1. rewrite Ec.
    unfold bind at 1, for_dicts at 1. unfold modcur. cbn [x_stack x_kf w_ctx with_frames set_stack set_store]. reflexivity. }
  exists s'. split.
  - unfold process_instructions. cbn [run_instrs run_instr]. unfold bind at 1. unfold bind at 1, get at 1. cbn [x_stack w_ctx with_frames length].
    change (Nat.ltb 1 (S (S (length fr)))) with true. unfold bind at 1, cur at 1. cbn [x_stack w_ctx with_frames]. rewrite Ht.
    unfold bind at 1. rewrite Ex. reflexivity.
  - unfold confirmed, s'. change (s_okuri s4) with (s_okuri s2). rewrite Hok. repeat split; reflexivity.
Qed.
(** a key with a character confirms the candidate and goes on *)
Lemma implicit_step w s fr cs j c k : choosing s cs j -> nth_error cs j = Some c -> s_pre s = [] -> s_default s = Direct ->
  goes_on X (x_cmd (w_ctx w)) (s_imode s) k ->
  exists s', process_key_event X dbg k (with_frames (s :: fr) w) = process_key_event X dbg k (with_frames (s' :: fr) (told c w))
    /\ confirmed (c_output c ++ adjust_kana_string (x_kf (w_ctx w)) (s_imode s) (s_okuri s)) s s'.
Proof.
  intros (Hm & Hcl & Hcu & Hj & Hn) Hc Hp Hdef ((ch & Hmod & Hr & Hch) & Hu1 & Hu2).
  assert (Hml : is_modifierless_input k = true) by (unfold is_modifierless_input; destruct Hmod as [-> | ->]; reflexivity).
  assert (Hrel : has_mod k M_RELEASE = false) by (unfold has_mod; destruct Hmod as [-> | ->]; reflexivity).
  assert (Ea : is_ascii_inputtable k = true) by (unfold is_ascii_inputtable, KEY_space, KEY_asciitilde; apply andb_true_intro; split; apply N.leb_le; lia).
  set (s' := reset_to_default (clear_unconfirmed (push_string (c_output c ++ adjust_kana_string (x_kf (w_ctx w)) (s_imode s) (s_okuri s)) s))).
  assert (Hs' : confirmed (c_output c ++ adjust_kana_string (x_kf (w_ctx w)) (s_imode s) (s_okuri s)) s s').
  { unfold s', push_string. rewrite Hm. unfold confirmed. repeat split; reflexivity. }
  exists s'. split; [|exact Hs']. destruct Hs' as (Hco & Him & Hde & Hmo & Hpr & _).
  rewrite (key_unbound X dbg k (with_frames (s :: fr) w) s fr); [|reflexivity|exact Hrel|congruence|rewrite Hm; exact Hu1].
  rewrite (key_unbound X dbg k (with_frames (s' :: fr) (told c w)) s' fr);
    [|reflexivity|exact Hrel|congruence|rewrite Hmo, Hdef, Him; exact Hu2].
  rewrite Hm, Hmo, Hdef, Hpr, Hp. unfold input_key. rewrite Hml. cbn [negb].
  unfold bind at 1, cur at 1. cbn [x_stack w_ctx with_frames]. unfold bind at 1, get at 1.
  assert (Ew : will_be_processed (x_kb (w_ctx (with_frames (s :: fr) w))) k (s_imode s) (s_cmode s) [] = true).
  { unfold will_be_processed. rewrite Hm. assert (E : has_rom2kana_conversion (s_imode s) CompositionSelection = false) by (destruct (s_imode s); reflexivity).
    rewrite E, Ea. cbn [andb negb orb]. now rewrite andb_false_r. }
  rewrite Ew. cbn [andb].
  assert (Ec : confirm_current (with_frames (s :: fr) w) = Ok (tt, with_frames (s' :: fr) (told c w))).
  { unfold confirm_current. unfold bind at 1, cur at 1. cbn [x_stack w_ctx with_frames]. unfold bind at 1, get at 1.
    unfold cursor in Hcu. unfold cl_current. rewrite Hcu, Nat2N.id, Hcl, Hc. reflexivity. }
  unfold bind at 1. rewrite Ec. unfold bind at 2, cur at 2. cbn [x_stack w_ctx with_frames]. unfold bind at 2, get at 1.
  unfold bind at 2, ret at 1. reflexivity.
Qed.
(** changing the input mode; pending keys are written first *)
Lemma switch_step w s fr v k i0 i1 extra v' : x_kb (w_ctx w) = kb_new X r -> idle_with v s -> kana_mode (s_imode s) ->
  commands (x_cmd (w_ctx w)) Direct (s_imode s) k [IForceKanaConvert i0; IChangeInputMode i1; IClearUnconfirmedInputs] ->
  outside X r v k -> forced X r v extra v' ->
  exists s', process_key_event X dbg k (with_frames (s :: fr) w) = Ok (true, with_frames (s' :: fr) w)
    /\ idle_with [] s' /\ s_imode s' = i1 /\ s_conf s' = s_conf s ++ adjust_kana_string (x_kf (w_ctx w)) i0 extra /\ s_default s' = s_default s /\ s_hist s' = s_hist s.
Proof.
  intros Hb (Hm & Hp & Hraw & Hcomp & Hok & Huse & Hcap) Hi Hk Ho Hf.
  rewrite (command_step w s fr k _ Direct (s_imode s) Hb Hm eq_refl ltac:(discriminate) ltac:(rewrite Hp; exact Ho) Hk).
  unfold process_instructions. cbn [run_instrs run_instr is_nil negb].
  unfold output_converted_kana_if_any. unfold bind at 1. unfold bind at 1. unfold bind at 1. unfold bind at 1, cur at 1. cbn [x_stack w_ctx with_frames].
  unfold bind at 1, get at 1. cbn [x_kb x_kf w_ctx with_frames]. rewrite Hb, Hp.
  destruct (forced_some X r Hd _ _ _ Hf) as [[E He]|(E & -> & ->)]; rewrite E.
  - eexists. split; [reflexivity|]. cbn [push_string_for]. destruct v' as [|y v']; (split; [repeat split; exact Hm|]); repeat split; reflexivity.
  - eexists. split; [reflexivity|]. split; [repeat split; exact Hm|]. rewrite adjust_nil, app_nil_r. repeat split; reflexivity.
Qed.
(** confirming a reading as it is *)
Lemma confirm_form_step w s fr c v b reading extra v' k i1 i2 : x_kb (w_ctx w) = kb_new X r -> c = PreComposition \/ (c = Abbreviation /\ v = []) ->
  (v = [] -> b = false) -> s_use s = false -> s_okuri s = [] ->
  commands (x_cmd (w_ctx w)) c (s_imode s) k [IForceKanaConvert i1; IConfirmAs i2; IChangeCompositionMode Direct] -> outside X r v k -> forced X r v extra v' ->
  exists s', process_key_event X dbg k (with_frames (pending v b (reading_frame c reading s) :: fr) w) = Ok (true, with_frames (s' :: fr) w)
    /\ idle_with [] s' /\ s_imode s' = s_imode s /\ s_conf s' = s_conf s ++ in_form (x_kf (w_ctx w)) (x_am (w_ctx w)) i2 (reading ++ extra) /\ s_default s' = s_default s.
Proof.
  intros Hb Hc Hbv Huse Hok Hk Ho Hf. set (s1 := pending v b (reading_frame c reading s)).
  rewrite (command_step w s1 fr k _ c (s_imode s) Hb eq_refl eq_refl ltac:(destruct Hc as [->|[-> _]]; discriminate) Ho Hk).
  destruct (force_reading w s fr c v b reading extra v' Hb Hc Hbv Hf i1) as (b' & o & Hb' & E). fold s1 in E.
  unfold process_instructions. cbn [run_instrs run_instr is_nil negb]. unfold bind at 1. unfold bind at 1. unfold bind at 1. rewrite E.
  eexists. split; [reflexivity|]. split; [|split; [reflexivity|split; [|reflexivity]]].
  - repeat split; try reflexivity; exact Hok.
  - unfold in_form. reflexivity.
Qed.
Lemma confirm_plain_step w s fr c v b reading k i2 : x_kb (w_ctx w) = kb_new X r -> c = PreComposition \/ (c = Abbreviation /\ v = []) ->
  s_use s = false -> s_okuri s = [] ->
  commands (x_cmd (w_ctx w)) c (s_imode s) k [IConfirmAs i2; IChangeCompositionMode Direct] -> outside X r v k ->
  exists s', process_key_event X dbg k (with_frames (pending v b (reading_frame c reading s) :: fr) w) = Ok (true, with_frames (s' :: fr) w)
    /\ idle_with [] s' /\ s_imode s' = s_imode s /\ s_conf s' = s_conf s ++ in_form (x_kf (w_ctx w)) (x_am (w_ctx w)) i2 reading /\ s_default s' = s_default s.
Proof.
  intros Hb Hc Huse Hok Hk Ho. set (s1 := pending v b (reading_frame c reading s)).
  rewrite (command_step w s1 fr k _ c (s_imode s) Hb eq_refl eq_refl ltac:(destruct Hc as [->|[-> _]]; discriminate) Ho Hk).
  eexists. split; [reflexivity|]. split; [|split; [reflexivity|split; reflexivity]].
  repeat split; reflexivity.
Qed.
Lemma last_history m h : last_opt (push_history m h) = Some m /\ exists h', push_history m h = h' ++ [m].
Proof.
  assert (L : forall l, last_opt (l ++ [m]) = Some m) by (induction l as [|a [|b l] IH]; [reflexivity|reflexivity|exact IH]).
  unfold push_history. cbv zeta. destruct (Nat.ltb HISTORY_MAX (length (h ++ [m]))) eqn:E; [|split; [apply L|eauto]].
  destruct h as [|a h]; [discriminate|]. cbn [app tl]. split; [apply L|eauto].
Qed.
Lemma give_up_step w s fr c v b reading k : x_kb (w_ctx w) = kb_new X r -> c = PreComposition \/ (c = Abbreviation /\ v = []) ->
  s_cmode s = Direct ->
  commands (x_cmd (w_ctx w)) c (s_imode s) k [IClearUnconfirmedInputs; IAbort] -> outside X r v k ->
  exists s', process_key_event X dbg k (with_frames (pending v b (reading_frame c reading s) :: fr) w) = Ok (true, with_frames (s' :: fr) w)
    /\ idle_with [] s' /\ s_imode s' = s_imode s /\ s_conf s' = s_conf s /\ s_default s' = s_default s.
Proof.
  intros Hb Hc Hm Hk Ho. set (s1 := pending v b (reading_frame c reading s)).
  rewrite (command_step w s1 fr k _ c (s_imode s) Hb eq_refl eq_refl ltac:(destruct Hc as [->|[-> _]]; discriminate) Ho Hk).
  set (s2 := clear_candidate_list (consolidate (clear_preconverted (clear_unconfirmed s1)))).
  assert (Hh : last_opt (s_hist s2) = Some Direct).
  { change (s_hist s2) with (push_history (s_cmode s) (s_hist s)). rewrite Hm. apply last_history. }
  assert (Ea : abort_to_previous_mode s2 = set_cmode Direct (set_hist (removelast (s_hist s2)) s2)) by (unfold abort_to_previous_mode; now rewrite Hh).
  exists (set_cmode Direct (set_hist (removelast (s_hist s2)) s2)). split.
  - unfold process_instructions. cbn [run_instrs run_instr is_nil negb]. unfold bind at 1. unfold bind at 1, modcur at 1. cbn [x_stack w_ctx with_frames set_stack].
    unfold ret at 1. unfold bind at 1. unfold bind at 1. unfold abort. unfold bind at 1, modcur at 1. cbn [x_stack w_ctx with_frames set_stack]. fold s2.
    unfold bind at 1, cur at 1. cbn [x_stack w_ctx with_frames set_stack]. change (s_cmode s2) with c.
    destruct Hc as [->|[-> _]]; unfold bind at 1, ret at 1; unfold bind at 1, modcur at 1; cbn [x_stack w_ctx with_frames set_stack]; rewrite Ea; reflexivity.
  - repeat split; reflexivity.
Qed.
(** all together, over a world that changes only in its current frame and its dictionaries *)
Lemma confirmed_stands i text s1 s' st : confirmed text s1 s' -> s_default s1 = Direct -> s_imode s1 = i -> stands (mkSit i [] (s_conf s1 ++ text) st) s'.
Proof.
  intros (Hc & Hi & Hd' & Hm & Hp & Hraw & Hcomp & Hok & Huse & Hcap & _) Hdef Hi1. unfold stands. cbn [sit_keys sit_mode sit_text].
  split; [|split; [congruence|split; [exact Hc|congruence]]]. repeat split; try assumption. congruence.
Qed.
Lemma composes_run w0 : x_kb (w_ctx w0) = kb_new X r -> forall n S ops S',
  composes X r (x_cmd (w_ctx w0)) (x_kf (w_ctx w0)) (x_am (w_ctx w0)) (x_cfg (w_ctx w0)) (x_dicts (w_ctx w0)) n S ops S' ->
  forall s fr, length (s :: fr) = n -> stands S s ->
  exists s', run X dbg ops (with_frames (s :: fr) (set_store (sit_dicts S) w0)) = Ok (yes ops, with_frames (s' :: fr) (set_store (sit_dicts S') w0)) /\ stands S' s'.
Proof.
  intros Hb n S ops S' H. induction H as
    [n S|n i v t st keys v' ps ops S' Hi Hs H IH|n t st ks chs ops S' Ht Hu H IH|n t st ks chs ts ops S' Ht Hz Hu H IH
    |n i v t st k i0 i1 extra v' ops S' Hi Hk Ho Hf H IH|n i t st k i1 ops S' Hk Ho H IH|n i t x st k ops S' Hk Ho H IH
    |n i v t st f ops1 v' key o cs ops2 j c k ops S' Hi Ha (Hof & Hlen) Hw Hc Hk H IH
    |n i v t st f ops1 key o cs ops2 j c k ops S' Hi Ha (Hof & Hlen) Hw Hc Hk H IH
    |n i v t st f ops1 v' key o cs ops2 ops3 i3 t3 st3 k ops S' Hi Ha (Hof & Hlen) Hne Hps Hn H1 IH1 Ht3 Hnum Hk Ho H IH
    |n i v t st f c ops1 v' reading k i1 i2 extra v2 ops S' Hi Hr Hk Ho Hf H IH
    |n i v t st f c ops1 v' reading k i2 ops S' Hi Hr Hk Ho H IH
    |n i v t st f c ops1 v' reading k ops S' Hi Hr Hk Ho H IH];
    intros s fr En Hst.
  - exists s. split; [reflexivity|exact Hst].
  - destruct Hst as (Hidle & Hi0 & Ht & Hdef). cbn [sit_keys sit_mode sit_text sit_dicts] in *. set (w := set_store st w0).
    pose proof Hidle as (Hm & Hp & Hraw & Hcomp & Hok & Huse & Hcap).
    destruct (spells_run X dbg r Hd w Direct i v' v keys ps Hb (or_introl eq_refl) Hi Hs s fr Hm Hi0 Hp ltac:(intros _; exact Hcap) ltac:(discriminate)) as (b & Hv & E).
    rewrite (Hv (or_intror Hcap)) in E. apply run_presses in E.
    set (s1 := pending v' false (put (x_kf (w_ctx w)) Direct ps s)) in *.
    destruct (IH s1 fr En) as (s' & E' & Hs').
    { split; [repeat split; assumption|]. split; [exact Hi0|]. split; [|exact Hdef]. cbn [sit_text]. unfold s1. cbn [put pending set_cap set_pre set_conf s_conf].
      rewrite Hi0, Ht. reflexivity. }
    exists s'. split; [|exact Hs']. exact (run_join _ _ _ _ _ E E').
  - destruct Hst as (Hidle & Hi0 & Htx & Hdef). cbn [sit_keys sit_mode sit_text sit_dicts] in *. set (w := set_store st w0).
    pose proof Hidle as (Hm & Hp & Hraw & Hcomp & Hok & Huse & Hcap).
    pose proof (C08_ascii_transparent X dbg ks chs (with_frames (s :: fr) w) s fr eq_refl Hm Hi0 Ht Hu) as E.
    destruct (IH (set_conf (s_conf s ++ chs) s) fr En) as (s' & E' & Hs').
    { split; [repeat split; assumption|]. split; [exact Hi0|]. split; [|exact Hdef]. cbn [sit_text set_conf s_conf]. now rewrite Htx. }
    exists s'. split; [|exact Hs']. refine (run_join _ _ _ _ _ _ E').
    rewrite E, map_repeat_true. unfold yes. rewrite map_length. reflexivity.
  - destruct Hst as (Hidle & Hi0 & Htx & Hdef). cbn [sit_keys sit_mode sit_text sit_dicts] in *. set (w := set_store st w0).
    pose proof Hidle as (Hm & Hp & Hraw & Hcomp & Hok & Huse & Hcap).
    pose proof (C09_zenkaku X dbg ks chs ts (with_frames (s :: fr) w) s fr eq_refl Hm Hi0 Ht Hz Hu) as E.
    destruct (IH (set_conf (s_conf s ++ concat ts) s) fr En) as (s' & E' & Hs').
    { split; [repeat split; assumption|]. split; [exact Hi0|]. split; [|exact Hdef]. cbn [sit_text set_conf s_conf]. now rewrite Htx. }
    exists s'. split; [|exact Hs']. refine (run_join _ _ _ _ _ _ E').
    rewrite E, map_repeat_true. unfold yes. rewrite map_length. reflexivity.
  - destruct Hst as (Hidle & Hi0 & Ht & Hdef). cbn [sit_keys sit_mode sit_text sit_dicts] in *. set (w := set_store st w0). subst i.
    destruct (switch_step w s fr v k i0 i1 extra v' Hb Hidle Hi Hk Ho Hf) as (s1 & E & Hid1 & Hi1 & Hc1 & Hd1 & _).
    destruct (IH s1 fr En) as (s' & E' & Hs').
    { split; [exact Hid1|]. split; [exact Hi1|]. split; [|congruence]. cbn [sit_text]. rewrite Hc1, Ht. reflexivity. }
    exists s'. split; [|exact Hs']. exact (run_join_cons _ _ _ _ _ E E').
  - destruct Hst as (Hidle & Hi0 & Ht & Hdef). cbn [sit_keys sit_mode sit_text sit_dicts] in *. set (w := set_store st w0). subst i.
    pose proof Hidle as (Hm & Hp & Hrest).
    pose proof (direct_step w s fr k [IChangeInputMode i1] Hb Hm ltac:(rewrite Hp; exact Ho) Hk) as E.
    destruct (IH (set_imode i1 s) fr En) as (s' & E' & Hs').
    { split; [exact Hidle|]. split; [reflexivity|]. split; [exact Ht|exact Hdef]. }
    exists s'. split; [|exact Hs']. refine (run_join_cons _ _ _ _ _ _ E'). rewrite E. reflexivity.
  - destruct Hst as (Hidle & Hi0 & Ht & Hdef). cbn [sit_keys sit_mode sit_text sit_dicts] in *. set (w := set_store st w0). subst i.
    pose proof Hidle as (Hm & Hp & Hrest).
    pose proof (direct_step w s fr k [IDelete] Hb Hm ltac:(rewrite Hp; exact Ho) Hk) as E.
    destruct (IH (set_conf t s) fr En) as (s' & E' & Hs').
    { split; [split; [exact Hm|split; [exact Hp|exact Hrest]]|]. split; [reflexivity|]. split; [reflexivity|exact Hdef]. }
    exists s'. split; [|exact Hs']. refine (run_join_cons _ _ _ _ _ _ E'). rewrite E.
    unfold process_instructions. cbn [run_instrs run_instr]. unfold bind at 1. unfold bind at 1, cur at 1. cbn [x_stack w_ctx with_frames].
    unfold st_delete. rewrite Hm, Hp. cbn [is_nil negb fst snd]. unfold bind at 1, modcur at 1. cbn [x_stack w_ctx with_frames]. rewrite Hm, Hp. cbn [is_nil negb fst snd].
    rewrite Ht. unfold str_pop. rewrite removelast_last. unfold ret. destruct t; reflexivity.
  - destruct Hst as (Hidle & Hi0 & Ht & Hdef). cbn [sit_keys sit_mode sit_text sit_dicts] in *. set (w := set_store st w0). subst i.
    assert (Hcs : cs <> []) by (intros ->; destruct j; discriminate).
    destruct (asks_run w s fr v f ops1 v' key o cs Hb Hi Hidle Ha Hof ltac:(congruence)) as (c2 & s2 & Hc2 & (A1 & A2 & A3 & A4 & A5 & A6 & _) & E1).
    rewrite (offered_some c2 cs s2 fr Hcs) in E1.
    destruct (walks_run w fr cs (s_imode s) (length cs) 0 ops2 j Hw eq_refl (choices cs s2) (choices_choosing cs s2 Hcs Hlen) A1) as [E2 Hj].
    set (s3 := at_candidate j (choices cs s2)) in *.
    assert (Hc3 : choosing s3 cs j) by (apply (choosing_at (choices cs s2) cs 0); [apply choices_choosing; auto|exact Hj]).
    assert (Hi3 : s_imode s3 = s_imode s) by exact A1.
    assert (Hrun : runs (with_frames (s3 :: fr) w) k [IConfirmComposition]).
    { apply (command_runs_plain _ s3 fr); [reflexivity|discriminate|reflexivity|]. rewrite Hi3. exact Hk. }
    destruct (confirm_exact X dbg k (with_frames (s3 :: fr) w) s3 fr cs j c eq_refl Hc3 Hc Hrun) as (s4 & E4 & H4).
    destruct (IH s4 fr En) as (s' & E' & Hs').
    { assert (Edef : s_default s3 = Direct) by (change (s_default s3) with (s_default s2); congruence).
      pose proof (confirmed_stands (s_imode s) _ s3 s4 (taught (x_dicts (w_ctx w0)) c st) H4 Edef Hi3) as Hst4.
      change (s_conf s3) with (s_conf s2) in Hst4. change (s_okuri s3) with (s_okuri s2) in Hst4. rewrite A2, A5, Hi3, Ht in Hst4.
      rewrite <- app_assoc in Hst4. exact Hst4. }
    exists s'. split; [|exact Hs']. refine (run_join _ _ _ _ _ E1 (run_join _ _ _ _ _ E2 (run_join_cons _ _ _ _ _ E4 E'))).
  - destruct Hst as (Hidle & Hi0 & Ht & Hdef). cbn [sit_keys sit_mode sit_text sit_dicts] in *. set (w := set_store st w0). subst i.
    assert (Hcs : cs <> []) by (intros ->; destruct j; discriminate).
    destruct (asks_run w s fr v f ops1 [] key o cs Hb Hi Hidle Ha Hof ltac:(congruence)) as (c2 & s2 & Hc2 & (A1 & A2 & A3 & A4 & A5 & A6 & _) & E1).
    rewrite (offered_some c2 cs s2 fr Hcs) in E1.
    destruct (walks_run w fr cs (s_imode s) (length cs) 0 ops2 j Hw eq_refl (choices cs s2) (choices_choosing cs s2 Hcs Hlen) A1) as [E2 Hj].
    set (s3 := at_candidate j (choices cs s2)) in *.
    assert (Hc3 : choosing s3 cs j) by (apply (choosing_at (choices cs s2) cs 0); [apply choices_choosing; auto|exact Hj]).
    assert (Hi3 : s_imode s3 = s_imode s) by exact A1.
    assert (Edef : s_default s3 = Direct) by (change (s_default s3) with (s_default s2); congruence).
    destruct (implicit_step w s3 fr cs j c k Hc3 Hc A6 Edef ltac:(rewrite Hi3; exact Hk)) as (s4 & E4 & H4).
    destruct (IH s4 fr En) as (s' & E' & Hs').
    { pose proof (confirmed_stands (s_imode s) _ s3 s4 (taught (x_dicts (w_ctx w0)) c st) H4 Edef Hi3) as Hst4.
      change (s_conf s3) with (s_conf s2) in Hst4. change (s_okuri s3) with (s_okuri s2) in Hst4. rewrite A2, A5, Hi3, Ht in Hst4.
      rewrite <- app_assoc in Hst4. exact Hst4. }
    exists s'. split; [|exact Hs']. refine (run_join _ _ _ _ _ E1 (run_join _ _ _ _ _ E2 _)).
    cbn [run exec sit_dicts] in E' |- *. unfold bind at 1 in E'. unfold bind at 1. unfold bind at 1 in E'. unfold bind at 1. rewrite E4. exact E'.
  - destruct Hst as (Hidle & Hi0 & Ht & Hdef). cbn [sit_keys sit_mode sit_text sit_dicts] in *. set (w := set_store st w0). subst i.
    destruct (asks_run w s fr v f ops1 v' key o cs Hb Hi Hidle Ha Hof ltac:(auto)) as (c2 & s2 & Hc2 & (A1 & A2 & A3 & A4 & A5 & A6 & _) & E1).
    destruct (passes_run w s2 fr c2 cs ops2 ltac:(rewrite A1; exact Hps) Hlen ltac:(cbn [length] in *; lia)) as (s3 & (B1 & B2 & B3 & B4 & B5) & E2).
    destruct (IH1 (st_new Hiragana Direct) (s3 :: fr) ltac:(cbn [length] in *; lia)) as (s4 & E3 & (Hid4 & Hi4 & Ht4 & Hd4)).
    { repeat split; reflexivity. }
    cbn [sit_dicts sit_keys sit_mode sit_text] in *. destruct Hid4 as (Hm4 & Hp4 & _).
    destruct (exit_step (set_store st3 w0) s4 s3 fr k t3 key o i3 Hb Hm4 Hp4 Hi4 Ht4 Ht3 Hnum Hk Ho) as (s5 & E5 & H5); [congruence|congruence|].
    destruct (IH s5 fr En) as (s' & E' & Hs').
    { pose proof (confirmed_stands (s_imode s) _ s3 s5 (taught (x_dicts (w_ctx w0)) (new_word key o t3) st3) H5 ltac:(congruence) ltac:(congruence)) as Hst5.
      rewrite B4, A2, B3, A1, Ht in Hst5. rewrite <- app_assoc in Hst5. exact Hst5. }
    exists s'. split; [|exact Hs']. refine (run_join _ _ _ _ _ E1 (run_join _ _ _ _ _ E2 (run_join _ _ _ _ _ E3 (run_join_cons _ _ _ _ _ E5 E')))).
  - destruct Hst as (Hidle & Hi0 & Ht & Hdef). cbn [sit_keys sit_mode sit_text sit_dicts] in *. set (w := set_store st w0). subst i.
    pose proof Hidle as (Hm & Hp & Hraw & Hcomp & Hok & Huse & Hcap).
    destruct (reads_run w s fr v f c ops1 v' reading Hb Hi Hidle Hr) as (b & Hbv & E).
    destruct (confirm_form_step w (flushed (x_kf (w_ctx w)) f s) fr c v' b reading extra v2 k i1 i2 Hb (reads_mode _ _ _ _ _ _ _ _ _ _ Hr) Hbv Huse Hok Hk Ho Hf)
      as (s1 & E1 & Hid1 & Hi1 & Hc1 & Hd1).
    destruct (IH s1 fr En) as (s' & E' & Hs').
    { split; [exact Hid1|]. split; [exact Hi1|]. split; [|exact (eq_trans Hd1 Hdef)]. cbn [sit_text]. rewrite Hc1. unfold flushed. cbn [set_conf s_conf].
      rewrite Ht, <- app_assoc. reflexivity. }
    exists s'. split; [|exact Hs']. exact (run_join _ _ _ _ _ E (run_join_cons _ _ _ _ _ E1 E')).
  - destruct Hst as (Hidle & Hi0 & Ht & Hdef). cbn [sit_keys sit_mode sit_text sit_dicts] in *. set (w := set_store st w0). subst i.
    pose proof Hidle as (Hm & Hp & Hraw & Hcomp & Hok & Huse & Hcap).
    destruct (reads_run w s fr v f c ops1 v' reading Hb Hi Hidle Hr) as (b & Hbv & E).
    destruct (confirm_plain_step w (flushed (x_kf (w_ctx w)) f s) fr c v' b reading k i2 Hb (reads_mode _ _ _ _ _ _ _ _ _ _ Hr) Huse Hok Hk Ho)
      as (s1 & E1 & Hid1 & Hi1 & Hc1 & Hd1).
    destruct (IH s1 fr En) as (s' & E' & Hs').
    { split; [exact Hid1|]. split; [exact Hi1|]. split; [|exact (eq_trans Hd1 Hdef)]. cbn [sit_text]. rewrite Hc1. unfold flushed. cbn [set_conf s_conf].
      rewrite Ht, <- app_assoc. reflexivity. }
    exists s'. split; [|exact Hs']. exact (run_join _ _ _ _ _ E (run_join_cons _ _ _ _ _ E1 E')).
  - destruct Hst as (Hidle & Hi0 & Ht & Hdef). cbn [sit_keys sit_mode sit_text sit_dicts] in *. set (w := set_store st w0). subst i.
    pose proof Hidle as (Hm & Hp & Hraw & Hcomp & Hok & Huse & Hcap).
    destruct (reads_run w s fr v f c ops1 v' reading Hb Hi Hidle Hr) as (b & Hbv & E).
    destruct (give_up_step w (flushed (x_kf (w_ctx w)) f s) fr c v' b reading k Hb (reads_mode _ _ _ _ _ _ _ _ _ _ Hr) Hm Hk Ho)
      as (s1 & E1 & Hid1 & Hi1 & Hc1 & Hd1).
    destruct (IH s1 fr En) as (s' & E' & Hs').
    { split; [exact Hid1|]. split; [exact Hi1|]. split; [|exact (eq_trans Hd1 Hdef)]. cbn [sit_text]. rewrite Hc1. unfold flushed. cbn [set_conf s_conf].
      rewrite Ht. reflexivity. }
    exists s'. split; [|exact Hs']. exact (run_join _ _ _ _ _ E (run_join_cons _ _ _ _ _ E1 E')).
Qed.
End Runs.

(* ------------------------------------------------------------------ C71 *)
(** Typing along the grammar, at any depth of registrations: every key is used; afterwards the confirmed
    text, the pending keys, the input mode and the dictionaries are exactly those the grammar says. *)
Theorem C71_sentence : forall X dbg r w s rest S ops S',
  distinct_keys X r -> rows_have_keys X r -> x_kb (w_ctx w) = kb_new X r -> frames w = s :: rest -> stands S s -> sit_dicts S = w_store w ->
  composes X r (x_cmd (w_ctx w)) (x_kf (w_ctx w)) (x_am (w_ctx w)) (x_cfg (w_ctx w)) (x_dicts (w_ctx w)) (length (frames w)) S ops S' ->
  exists s', run X dbg ops w = Ok (repeat (OutBool true) (length ops), with_frames (s' :: rest) (set_store (sit_dicts S') w)) /\ stands S' s'.
Proof.
  intros X dbg r w s rest S ops S' Hd Hrows Hb Hf Hst Hdic H.
  destruct (composes_run X dbg r Hd Hrows w Hb _ _ _ _ H s rest ltac:(now rewrite Hf) Hst) as (s' & E & Hs').
  exists s'. split; [|exact Hs'].
  assert (Ew : with_frames (s :: rest) (set_store (sit_dicts S) w) = w).
  { rewrite Hdic. destruct w as [st c]. cbn [w_store] in *. unfold set_store, with_frames. cbn [w_store w_ctx] in *. unfold frames in Hf. cbn [w_ctx] in Hf. rewrite <- Hf. destruct c; reflexivity. }
  rewrite Ew in E. exact E.
Qed.
(** In a context where no registration is open: what is shown is the text and the names of the pending
    keys; polling hands out the text, whole and once. *)
Theorem C71_handed_out : forall X dbg r w s S ops S',
  distinct_keys X r -> rows_have_keys X r -> x_kb (w_ctx w) = kb_new X r -> frames w = [s] -> stands S s -> sit_dicts S = w_store w ->
  composes X r (x_cmd (w_ctx w)) (x_kf (w_ctx w)) (x_am (w_ctx w)) (x_cfg (w_ctx w)) (x_dicts (w_ctx w)) 1 S ops S' -> sit_text S' <> [] ->
  exists w1 w2, run X dbg ops w = Ok (repeat (OutBool true) (length ops), w1)
    /\ get_preedit X (w_ctx w1) = sit_text S' ++ flat_map (xk_name X) (sit_keys S') /\ w_store w1 = sit_dicts S'
    /\ run X dbg [OPoll; OPoll] w1 = Ok ([OutText (Some (sit_text S')); OutText None], w2)
    /\ get_preedit X (w_ctx w2) = flat_map (xk_name X) (sit_keys S') /\ w_store w2 = sit_dicts S'.
Proof.
  intros X dbg r w s S ops S' Hd Hrows Hb Hf Hst Hdic H Ht.
  destruct (C71_sentence X dbg r w s [] S ops S' Hd Hrows Hb Hf Hst Hdic ltac:(rewrite Hf; exact H)) as (s1 & E & (Hm & Hp & Hrest) & Hi & Hc & Hdef).
  set (w1 := with_frames [s1] (set_store (sit_dicts S') w)) in *.
  assert (Hpre : forall t, get_preedit X (w_ctx (with_frames [set_conf t s1] w1)) = t ++ flat_map (xk_name X) (sit_keys S')).
  { intros t. unfold get_preedit. cbn [with_frames w_ctx x_stack x_kf rev app flat_map].
    assert (Er : is_register (set_conf t s1) = false) by (unfold is_register; cbn [set_conf s_cmode]; now rewrite Hm).
    rewrite Er. rewrite !app_nil_r. unfold preedit_string, preedit_detail. cbn [set_conf s_cmode s_conf]. rewrite Hm. cbn [render].
    unfold unconverted_text. cbn [set_conf s_pre]. rewrite Hp. destruct (sit_keys S'); reflexivity. }
  pose proof (C06_poll X dbg w1 [] s1 eq_refl) as P1.
  pose proof (C06_poll X dbg (with_frames [set_conf [] s1] w1) [] (set_conf [] s1) eq_refl) as P2. cbn [app] in P1, P2.
  exists w1, (with_frames [set_conf [] s1] w1). split; [exact E|]. split; [|split; [reflexivity|split; [|split; [apply Hpre|reflexivity]]]].
  - rewrite <- (Hpre (sit_text S')). rewrite <- Hc. assert (Es : set_conf (s_conf s1) s1 = s1) by (destruct s1; reflexivity). rewrite Es. reflexivity.
  - rewrite (run_cons X dbg _ _ _ _ _ P1), (run_cons X dbg _ _ _ _ _ P2). cbn [run ret]. unfold ret. rewrite Hc. destruct (sit_text S'); [congruence|]. reflexivity.
Qed.

(* ------------------------------------------------------------------ C73 *)
(** A key that leaves the registration without a word: Return while nothing is typed, or the key that
    gives up, whatever is typed. *)
Definition refuses (cr : command_rule) (i : imode) (t : str) (k : keyev) : Prop :=
  commands cr Direct i k [IAbort] \/ (t = [] /\ commands cr Direct i k [IConfirmDirect]).
Lemma refuse_step X dbg r w s0 s2 fr k : distinct_keys X r -> x_kb (w_ctx w) = kb_new X r -> s_cmode s0 = Direct ->
  (kana_mode (s_imode s0) -> outside X r (s_pre s0) k) -> refuses (x_cmd (w_ctx w)) (s_imode s0) (s_conf s0) k ->
  process_key_event X dbg k (with_frames (s0 :: s2 :: fr) w) = Ok (true, with_frames (abort_to_previous_mode s2 :: fr) w).
Proof.
  intros Hd Hb Hm Ho [Hk|(Ht & Hk)]; rewrite (direct_step X dbg r Hd w s0 (s2 :: fr) k _ Hb Hm Ho Hk).
  - apply one_instruction. cbn [run_instr]. unfold bind at 1. unfold abort. unfold bind at 1, modcur at 1. cbn [x_stack w_ctx with_frames set_stack].
    unfold bind at 1, cur at 1. cbn [x_stack w_ctx with_frames set_stack].
    match goal with |- context [s_cmode ?x] => change (s_cmode x) with (s_cmode s0) end. rewrite Hm. reflexivity.
  - unfold process_instructions. cbn [run_instrs run_instr]. unfold bind at 1. unfold bind at 1, get at 1. cbn [x_stack w_ctx with_frames length].
    change (Nat.ltb 1 (S (S (length fr)))) with true. unfold bind at 1, cur at 1. cbn [x_stack w_ctx with_frames]. rewrite Ht. reflexivity.
Qed.
(** Passing over the last candidate opens the registration; leaving it without a word, whatever was
    typed there, leads back to that candidate: the frame is the same in everything. *)
Theorem C73_refused : forall X dbg r w s rest cs next ops i3 v3 t3 st3 k,
  distinct_keys X r -> rows_have_keys X r -> x_kb (w_ctx w) = kb_new X r -> frames w = s :: rest -> length (frames w) < 10 ->
  choosing s cs (length cs - 1) -> commands (x_cmd (w_ctx w)) CompositionSelection (s_imode s) next [ITryNextCandidate] ->
  composes X r (x_cmd (w_ctx w)) (x_kf (w_ctx w)) (x_am (w_ctx w)) (x_cfg (w_ctx w)) (x_dicts (w_ctx w))
    (S (length (frames w))) (mkSit Hiragana [] [] (w_store w)) ops (mkSit i3 v3 t3 st3) ->
  refuses (x_cmd (w_ctx w)) i3 t3 k -> (kana_mode i3 -> outside X r v3 k) ->
  exists h, run X dbg (OKey next :: ops ++ [OKey k]) w
      = Ok (repeat (OutBool true) (length (OKey next :: ops ++ [OKey k])), with_frames (set_hist h s :: rest) (set_store st3 w))
    /\ (length (s_hist s) < 20 -> h = s_hist s).
Proof.
  intros X dbg r w s rest cs next ops i3 v3 t3 st3 k Hd Hrows Hb Hf Hn Hc Hk H Href Ho.
  rewrite Hf in Hn, H.
  pose proof (open_step X dbg w s rest next cs Hc Hk Hn) as E1. rewrite (with_frames_same w _ Hf) in E1.
  set (s2 := change_from_old_mode Register CompositionSelection s) in *.
  destruct (composes_run X dbg r Hd Hrows w Hb _ _ _ _ H (st_new Hiragana Direct) (s2 :: rest) eq_refl ltac:(repeat split; reflexivity)) as (s3 & E2 & (Hm & Hp & _) & Hi & Ht & _).
  cbn [sit_dicts sit_keys sit_mode sit_text] in *.
  assert (Ew : set_store (w_store w) w = w) by (destruct w; reflexivity). rewrite Ew in E2.
  pose proof (refuse_step X dbg r (set_store st3 w) s3 s2 rest k Hd Hb Hm ltac:(rewrite Hi, Hp; exact Ho) ltac:(rewrite Hi, Ht; exact Href)) as E3.
  destruct Hc as (Hcm & _).
  assert (Ea : abort_to_previous_mode s2 = set_hist (removelast (push_history CompositionSelection (s_hist s))) s).
  { unfold abort_to_previous_mode. change (s_hist s2) with (push_history CompositionSelection (s_hist s)).
    rewrite (proj1 (last_history CompositionSelection (s_hist s))). unfold s2. destruct s; cbn in *. now rewrite Hcm. }
  rewrite Ea in E3. eexists. split; [exact (run_join_cons X dbg _ _ _ _ _ E1 (run_join X dbg _ _ _ _ _ E2 (run_key X dbg _ _ _ E3)))|].
  intros Hl. unfold push_history. cbv zeta. change HISTORY_MAX with 20. rewrite app_length. cbn [length].
  destruct (Nat.ltb_spec 20 (length (s_hist s) + 1)); [lia|]. apply removelast_last.
Qed.
(** The same where the reading has no candidate at all: the reading is there again, okurigana and all. *)
Theorem C73_reading_back : forall X dbg r w s rest v f ops1 v' key o ops i3 v3 t3 st3 k,
  distinct_keys X r -> rows_have_keys X r -> x_kb (w_ctx w) = kb_new X r -> frames w = s :: rest -> length (frames w) < 10 ->
  kana_mode (s_imode s) -> idle_with v s -> asks X r (x_cmd (w_ctx w)) (x_kf (w_ctx w)) (x_cfg (w_ctx w)) (s_imode s) v f ops1 v' key o ->
  get_all_candidates (ctx_dicts w) key = Ok [] -> ck_to key <> [] ->
  composes X r (x_cmd (w_ctx w)) (x_kf (w_ctx w)) (x_am (w_ctx w)) (x_cfg (w_ctx w)) (x_dicts (w_ctx w))
    (S (length (frames w))) (mkSit Hiragana [] [] (w_store w)) ops (mkSit i3 v3 t3 st3) ->
  refuses (x_cmd (w_ctx w)) i3 t3 k -> (kana_mode i3 -> outside X r v3 k) ->
  exists s', run X dbg (ops1 ++ ops ++ [OKey k]) w = Ok (repeat (OutBool true) (length (ops1 ++ ops ++ [OKey k])), with_frames (s' :: rest) (set_store st3 w))
    /\ preedit_string X (x_kf (w_ctx w)) (s_imode s) s'
       = s_conf s ++ adjust_kana_string (x_kf (w_ctx w)) (s_imode s) f ++ U "▽" ++ adjust_kana_string (x_kf (w_ctx w)) (s_imode s) (ck_to key ++ o) ++ flat_map (xk_name X) v'
    /\ get_composite_key s' = mkCK (ck_to key ++ o) None /\ s_imode s' = s_imode s /\ s_pre s' = v'
    /\ s_conf s' = s_conf s ++ adjust_kana_string (x_kf (w_ctx w)) (s_imode s) f.
Proof.
  intros X dbg r w s rest v f ops1 v' key o ops i3 v3 t3 st3 k Hd Hrows Hb Hf Hn Hi Hidle Ha Hcs Hne H Href Ho.
  destruct (asks_run X dbg r Hd Hrows w s rest v f ops1 v' key o [] Hb Hi Hidle Ha Hcs ltac:(auto)) as (c & s2 & Hc & (A1 & A2 & A3 & A4 & A5 & A6 & A7 & A8) & E1).
  rewrite (with_frames_same w _ Hf) in E1. rewrite Hf in Hn, H.
  assert (Eo : offered_frames c [] s2 rest = st_new Hiragana Direct :: waiting c s2 :: rest).
  { unfold offered_frames. cbn [length] in *. destruct (Nat.ltb_spec (S (length rest)) 10); [reflexivity|lia]. }
  rewrite Eo in E1. set (s3 := waiting c s2) in *.
  destruct (composes_run X dbg r Hd Hrows w Hb _ _ _ _ H (st_new Hiragana Direct) (s3 :: rest) eq_refl ltac:(repeat split; reflexivity)) as (s4 & E2 & (Hm & Hp & _) & Hi4 & Ht & _).
  cbn [sit_dicts sit_keys sit_mode sit_text] in *.
  assert (Ew : set_store (w_store w) w = w) by (destruct w; reflexivity). rewrite Ew in E2.
  pose proof (refuse_step X dbg r (set_store st3 w) s4 s3 rest k Hd Hb Hm ltac:(rewrite Hi4, Hp; exact Ho) ltac:(rewrite Hi4, Ht; exact Href)) as E3.
  exists (abort_to_previous_mode s3). split; [exact (run_join X dbg _ _ _ _ _ E1 (run_join X dbg _ _ _ _ _ E2 (run_key X dbg _ _ _ E3)))|].
  unfold abort_to_previous_mode. change (s_hist s3) with (push_history c (s_hist s2)). rewrite (proj1 (last_history c (s_hist s2))).
  assert (Hpre : unconverted_text X s3 = if is_nil v' then None else Some (flat_map (xk_name X) v')).
  { unfold unconverted_text. change (s_pre s3) with (s_pre s2). now rewrite A6. }
  destruct Hc as [->|(Hc & ->)].
  - split; [|split; [|split; [exact A1|split; [exact A6|exact A2]]]].
    + unfold preedit_string, preedit_detail. cbn [set_cmode consolidate set_use set_okuri set_raw set_comp set_hist s_cmode s_okuri s_comp s_conf is_nil render].
      match goal with |- context [unconverted_text X ?x] => change (unconverted_text X x) with (unconverted_text X s3) end. rewrite Hpre.
      change (s_conf s3) with (s_conf s2). change (s_comp s3) with (s_comp s2). change (s_okuri s3) with (s_okuri s2).
      rewrite A2, A7, A5, <- app_assoc. destruct v'; reflexivity.
    + unfold get_composite_key. cbn [set_cmode consolidate set_use set_okuri set_raw set_comp set_hist s_use s_raw andb].
      change (mkCK (s_raw s2 ++ s_okuri s2) None = mkCK (ck_to key ++ o) None). now rewrite A8, A5.
  - assert (Eg : get_composite_key s2 = mkCK (ck_to key) None).
    { unfold get_composite_key. rewrite A5, A8. cbn [is_nil negb]. now rewrite andb_false_r. }
    assert (Es : forall h, preedit_string X (x_kf (w_ctx w)) (s_imode s) (set_cmode c (set_hist h s3))
       = s_conf s ++ adjust_kana_string (x_kf (w_ctx w)) (s_imode s) f ++ U "▽" ++ adjust_kana_string (x_kf (w_ctx w)) (s_imode s) (ck_to key ++ []) ++ flat_map (xk_name X) v').
    { intros h. unfold preedit_string, preedit_detail.
      match goal with |- context [unconverted_text X ?x] => change (unconverted_text X x) with (unconverted_text X s3) end. rewrite Hpre.
      cbn [set_cmode set_hist s_cmode s_comp s_conf s_okuri]. change (s_conf s3) with (s_conf s2). change (s_comp s3) with (s_comp s2).
      rewrite A2, A7, app_nil_r. destruct Hc as [->| ->]; cbn [render]; rewrite <- ?app_assoc; destruct v'; reflexivity. }
    assert (Eg2 : forall h, get_composite_key (set_cmode c (set_hist h s3)) = mkCK (ck_to key ++ []) None) by (intros h; rewrite app_nil_r; exact Eg).
    destruct Hc as [->| ->]; (split; [apply Es|split; [apply Eg2|split; [exact A1|split; [exact A6|exact A2]]]]).
Qed.
(** A word typed in the registration: text and dictionaries are as after confirming it, and, for a
    reading without okurigana, converting the reading again offers it, if a user dictionary is there. *)
Theorem C73_registered : forall X dbg r w s rest v f ops1 v' reading cs ops2 ops3 i3 t3 st3 k,
  distinct_keys X r -> rows_have_keys X r -> x_kb (w_ctx w) = kb_new X r -> frames w = s :: rest -> length (frames w) < 10 ->
  kana_mode (s_imode s) -> s_default s = Direct -> idle_with v s ->
  asks X r (x_cmd (w_ctx w)) (x_kf (w_ctx w)) (x_cfg (w_ctx w)) (s_imode s) v f ops1 v' (mkCK reading None) [] -> reading <> [] ->
  offered (x_dicts (w_ctx w)) (w_store w) (mkCK reading None) cs -> passes (x_cmd (w_ctx w)) (s_imode s) cs ops2 ->
  composes X r (x_cmd (w_ctx w)) (x_kf (w_ctx w)) (x_am (w_ctx w)) (x_cfg (w_ctx w)) (x_dicts (w_ctx w))
    (S (length (frames w))) (mkSit Hiragana [] [] (w_store w)) ops3 (mkSit i3 [] t3 st3) ->
  t3 <> [] -> numeric_entry_count t3 = 0 -> commands (x_cmd (w_ctx w)) Direct i3 k [IConfirmDirect] -> (kana_mode i3 -> outside X r [] k) ->
  exists s' w', run X dbg (ops1 ++ ops2 ++ ops3 ++ [OKey k]) w = Ok (repeat (OutBool true) (length (ops1 ++ ops2 ++ ops3 ++ [OKey k])), w')
    /\ frames w' = s' :: rest /\ idle_with [] s' /\ s_imode s' = s_imode s
    /\ s_conf s' = s_conf s ++ adjust_kana_string (x_kf (w_ctx w)) (s_imode s) f ++ t3
    /\ (forall j d cs', In j (x_dicts (w_ctx w)) -> nth_error st3 j = Some d -> T_Entry.user d ->
          get_all_candidates (ctx_dicts w') (mkCK reading None) = Ok cs' -> exists c, In c cs' /\ c_output c = t3).
Proof.
  intros X dbg r w s rest v f ops1 v' reading cs ops2 ops3 i3 t3 st3 k Hd Hrows Hb Hf Hn Hi Hdef Hidle Ha Hne Hof Hps H Ht3 Hnum Hk Ho.
  destruct (C71_sentence X dbg r w s rest (mkSit (s_imode s) v (s_conf s) (w_store w)) (ops1 ++ ops2 ++ ops3 ++ [OKey k])
    (mkSit (s_imode s) [] (s_conf s ++ adjust_kana_string (x_kf (w_ctx w)) (s_imode s) f ++ t3 ++ adjust_kana_string (x_kf (w_ctx w)) (s_imode s) [])
       (taught (x_dicts (w_ctx w)) (new_word (mkCK reading None) [] t3) st3)) Hd Hrows Hb Hf ltac:(repeat split; try exact Hdef; apply Hidle) eq_refl) as (s' & E & Hst).
  { eapply (register X r _ _ _ _ _ _ _ v _ _ f ops1 v' (mkCK reading None) [] cs ops2 ops3 i3 t3 st3 k []);
      [exact Hi|exact Ha|exact Hof|exact Hne|exact Hps|exact Hn|exact H|exact Ht3|exact Hnum|exact Hk|exact Ho|constructor]. }
  destruct Hst as (Hid & Him & Hco & _). cbn [sit_keys sit_mode sit_text sit_dicts] in *.
  eexists s', _. split; [exact E|]. split; [reflexivity|]. split; [exact Hid|]. split; [exact Him|]. split; [rewrite Hco, adjust_nil, app_nil_r; reflexivity|].
  intros j d cs' Hj Hdj Hu Hg.
  match type of Hg with get_all_candidates (ctx_dicts ?w') _ = _ => refine (offers_kept w' j reading t3 cs' Hj _ Hg) end.
  exact (select_keeps j (x_dicts (w_ctx w)) st3 d (new_word (mkCK reading None) [] t3) Hj Hdj Hu eq_refl).
Qed.

(** ** Deciding the grammar *)
Section Check.
Context (X : xkb) (r : rule) (cr : command_rule) (kf : kana_form) (am : ascii_map) (cf : config) (ids : list nat).
Inductive read_in := RCapital (keys : list N) | RCommand (k : keyev) (keys : list N) | RAbbreviation (k : keyev) (keys : list N).
Inductive ask_in := AWord (rd : read_in) (k : keyev) | AOkuri (rd : read_in) (v keys : list N).
Inductive item :=
| TKana (keys : list N) | TPlain (keys : list N) | TSwitch (k : keyev) | TErase (k : keyev)
| TWord (a : ask_in) (next : keyev) (j : nat) (fk : option keyev) | TRegister (a : ask_in) (next : keyev) (l : list item) (k : keyev)
| TReading (rd : read_in) (k : keyev).
Definition at_least {A} (b : bool) (x : option A) : option A := if b then x else None.
Lemma at_least_some {A} b (x : option A) y : at_least b x = Some y -> b = true /\ x = Some y.
Proof. destruct b; cbn; [auto|discriminate]. Qed.
Definition plain_of (c : cmode) (i : imode) (keys : list N) : option (list N) :=
  if forallb (fun k => N.leb 32 k && N.leb k 126 && unbound_b cr i c k) keys
  then fold_right (fun k acc => match xk_char X k, acc with Some ch, Some l => Some (ch :: l) | _, _ => None end) (Some []) keys else None.
Definition plain (k : N) : keyev := mkKey k 0.
Lemma plain_of_spec c i keys chs : plain_of c i keys = Some chs ->
  Forall2 (types X) (map plain keys) chs /\ Forall (unbound cr c i) (map plain keys).
Proof.
  unfold plain_of. destruct (forallb _ keys) eqn:Ef; [|discriminate]. rewrite forallb_forall in Ef. revert chs. induction keys as [|k keys IH]; intros chs H; cbn [fold_right] in H.
  - injection H as <-. split; constructor.
  - destruct (xk_char X k) as [ch|] eqn:Ech; [|discriminate]. destruct (fold_right _ _ keys) as [l|]; [|discriminate]. injection H as <-.
    assert (Hk := Ef k (or_introl eq_refl)). apply andb_prop in Hk as [Hk Hu]. apply andb_prop in Hk as [H1 H2]. apply N.leb_le in H1, H2.
    destruct (IH (fun x Hx => Ef x (or_intror Hx)) l eq_refl) as [I1 I2]. cbn [map]. split; constructor; auto.
    + split; [now left|]. split; [split; assumption|exact Ech].
    + now apply unbound_b_spec.
Qed.
Definition reads_of (i : imode) (v0 : list N) (rd : read_in) : option (str * cmode * list op * list N * str) :=
  match rd with
  | RCapital keys =>
      match spell X r cr kf cf i PreComposition false [] keys, shift_of X r cr i Direct v0 keys with
      | Some (ps, v), Some f => at_least (no_keyword_b (cf_auto cf) (concat ps)) (Some (f, PreComposition, map press (caps keys), v, concat ps))
      | _, _ => None
      end
  | RCommand k keys =>
      match command_of cr i Direct k, spell X r cr kf cf i PreComposition false [] keys with
      | Some [IChangeCompositionMode PreComposition], Some (ps, v) =>
          at_least (is_nil v0 && outside_b X r [] k && no_keyword_b (cf_auto cf) (concat ps)) (Some ([], PreComposition, OKey k :: map press keys, v, concat ps))
      | _, _ => None
      end
  | RAbbreviation k keys =>
      match command_of cr i Direct k, plain_of Abbreviation i keys with
      | Some [IChangeCompositionMode Abbreviation], Some chs =>
          at_least (is_nil v0 && outside_b X r [] k) (Some ([], Abbreviation, OKey k :: map OKey (map plain keys), [], chs))
      | _, _ => None
      end
  end.
Lemma reads_of_spec i v0 rd f c ops v reading : reads_of i v0 rd = Some (f, c, ops, v, reading) -> reads X r cr kf cf i v0 f c ops v reading.
Proof.
  intros H. destruct rd as [keys|k keys|k keys]; cbn [reads_of] in H.
  - destruct (spell _ _ _ _ _ _ _ _ _ _) as [[ps v1]|] eqn:Es; [|discriminate]. destruct (shift_of _ _ _ _ _ _ _) as [f1|] eqn:Ef; [|discriminate].
    apply at_least_some in H as [Hk H]. injection H as <- <- <- <- <-. eapply reads_capital.
    + apply spell_spec, Es.
    + apply (shift_of_spec X r cr i), Ef.
    + now apply no_keyword_b_spec.
  - destruct (command_of cr i Direct k) as [[|[] [|]]|] eqn:Ek; try discriminate; destruct c0; try discriminate.
    destruct (spell _ _ _ _ _ _ _ _ _ _) as [[ps v1]|] eqn:Es; [|discriminate].
    apply at_least_some in H as [Hk H]. injection H as <- <- <- <- <-. apply andb_prop in Hk as [Hk H3]. apply andb_prop in Hk as [H1 H2]. apply is_nil_true in H1 as ->.
    apply reads_command; [now apply command_of_spec|now apply outside_b_spec|now apply spell_spec|now apply no_keyword_b_spec].
  - destruct (command_of cr i Direct k) as [[|[] [|]]|] eqn:Ek; try discriminate; destruct c0; try discriminate.
    destruct (plain_of _ _ _) as [chs|] eqn:Ep; [|discriminate].
    apply at_least_some in H as [Hk H]. injection H as <- <- <- <- <-. apply andb_prop in Hk as [H1 H2]. apply is_nil_true in H1 as ->.
    apply plain_of_spec in Ep as [P1 P2]. apply reads_abbreviation; [now apply command_of_spec|now apply outside_b_spec|exact P1|exact P2].
Qed.
Definition left_of (u : list N) : list N := match entry_of X r u with Some (_, carry) => carry | None => u end.
Lemma forced_of u : forced X r u (extra_of X r u) (left_of u).
Proof.
  unfold extra_of, left_of. destruct (entry_of X r u) as [[kana carry]|] eqn:E; [left; now apply entry_of_spec|right].
  split; [now apply entry_of_none|auto].
Qed.
Definition asks_of (i : imode) (v0 : list N) (a : ask_in) : option (str * list op * list N * ckey * str) :=
  match a with
  | AWord rd k =>
      match reads_of i v0 rd with
      | Some (f, c, ops, v, reading) =>
          match command_of cr i c k with
          | Some [ITryNextCandidate] => at_least (outside_b X r v k) (Some (f, ops ++ [OKey k], left_of v, mkCK (reading ++ extra_of X r v) None, []))
          | _ => None
          end
      | None => None
      end
  | AOkuri rd v keys =>
      match reads_of i v0 rd with
      | Some (f, PreComposition, ops, [], reading) =>
          match spell X r cr kf cf i PreComposition false [] v, spell X r cr kf cf i PreCompositionOkurigana true [] keys, shift_of X r cr i PreComposition v keys with
          | Some ([], v1), Some (ps, []), Some f2 =>
              at_least (negb (is_nil reading) && str_eqb v1 v && negb (is_nil (concat ps)))
                (Some (f, ops ++ map press v ++ map press (caps keys), [], mkCK (reading ++ f2) (Some (concat ps)), concat ps))
          | _, _, _ => None
          end
      | _ => None
      end
  end.
Lemma asks_of_spec i v0 a f ops v' key o : asks_of i v0 a = Some (f, ops, v', key, o) -> asks X r cr kf cf i v0 f ops v' key o.
Proof.
  intros H. destruct a as [rd k|rd v keys]; cbn [asks_of] in H.
  - destruct (reads_of i v0 rd) as [[[[[f1 c] ops1] v] reading]|] eqn:Er; [|discriminate].
    destruct (command_of cr i c k) as [[|[] [|]]|] eqn:Ek; try discriminate. apply at_least_some in H as [Hk H]. injection H as <- <- <- <- <-.
    eapply asks_word; [eapply reads_of_spec; exact Er|now apply command_of_spec|now apply outside_b_spec|apply forced_of].
  - destruct (reads_of i v0 rd) as [[[[[f1 [| | | | | |]] ops1] [|? ?]] reading]|] eqn:Er; try discriminate.
    destruct (spell _ _ _ _ _ _ _ _ _ v) as [[[|? ?] v1]|] eqn:Ev; try discriminate.
    destruct (spell _ _ _ _ _ _ _ _ _ keys) as [[ps [|? ?]]|] eqn:Es; try discriminate.
    destruct (shift_of _ _ _ _ _ _ _) as [f2|] eqn:Ef; [|discriminate]. apply at_least_some in H as [Hk H]. injection H as <- <- <- <- <-.
    apply andb_prop in Hk as [Hk H3]. apply andb_prop in Hk as [H1 H2]. apply str_eqb_eq in H2 as ->. apply negb_true_iff in H1, H3. apply is_nil_false in H1, H3.
    eapply asks_okuri; [eapply reads_of_spec; exact Er|exact H1|eapply spell_spec; exact Ev|eapply spell_spec; exact Es|apply (shift_of_spec X r cr i), Ef|exact H3].
Qed.
Lemma walks_repeat i len k : commands cr CompositionSelection i k [ITryNextCandidate] -> forall j m, m + j < len -> walks cr i len m (repeat (OKey k) j) (m + j).
Proof.
  intros Hk j. induction j as [|j IH]; intros m Hm; cbn [repeat]; [rewrite Nat.add_0_r; constructor|].
  replace (m + S j) with (S m + j) by lia. apply walks_next; [exact Hk|lia|]. apply IH. lia.
Qed.
Definition offers (st : list dict) (key : ckey) : option (list candidate) :=
  match get_all_candidates (map (fun n => nth n st empty_dict) ids) key with
  | Ok cs => at_least (N.ltb (N.of_nat (length cs)) (2 ^ 64)) (Some cs)
  | Panic _ => None
  end.
Lemma offers_spec st key cs : offers st key = Some cs -> offered ids st key cs.
Proof.
  unfold offers, offered. destruct (get_all_candidates _ _) as [cs'|]; [|discriminate]. intros H. apply at_least_some in H as [H1 H2]. injection H2 as <-.
  apply N.ltb_lt in H1. auto.
Qed.
Definition kana_mode_b (i : imode) : bool := match i with Hiragana | Katakana | HankakuKatakana => true | _ => false end.
Lemma kana_mode_b_spec i : kana_mode_b i = true -> kana_mode i.
Proof. unfold kana_mode. destruct i; auto; discriminate. Qed.
Definition next_key (i : imode) (k : keyev) : bool := match command_of cr i CompositionSelection k with Some [ITryNextCandidate] => true | _ => false end.
Lemma next_key_spec i k : next_key i k = true -> commands cr CompositionSelection i k [ITryNextCandidate].
Proof. unfold next_key. destruct (command_of cr i CompositionSelection k) as [[|[] [|]]|] eqn:E; try discriminate. intros _. now apply command_of_spec. Qed.
Definition goes_on_b (i : imode) (k : keyev) : bool :=
  N.eqb (kmods k) 0 && N.leb 32 (ksym k) && N.leb (ksym k) 126 && match xk_char X (ksym k) with Some _ => true | None => false end
  && unbound_b cr i CompositionSelection (ksym k) && unbound_b cr i Direct (ksym k).
Lemma goes_on_b_spec i k : goes_on_b i k = true -> goes_on X cr i k.
Proof.
  intros H. destruct k as [sym m]. unfold goes_on_b in H. cbn [ksym kmods] in H. repeat apply andb_prop in H as [H ?]. apply N.eqb_eq in H as ->.
  apply N.leb_le in H3, H4. destruct (xk_char X sym) as [ch|] eqn:E; [|discriminate]. split; [exists ch; split; [now left|split; [auto|exact E]]|].
  split; [now apply unbound_b_spec|now apply unbound_b_spec].
Qed.
Definition plain_outside (i : imode) (k : keyev) : bool := negb (kana_mode_b i) || outside_b X r [] k.
Lemma plain_outside_spec i k : plain_outside i k = true -> kana_mode i -> outside X r [] k.
Proof.
  unfold plain_outside. intros H Hi. apply orb_prop in H as [H|H]; [|now apply outside_b_spec]. exfalso. destruct Hi as [->|[->| ->]]; discriminate.
Qed.
Definition before (o : list op) (x : option (list op * sit)) : option (list op * sit) := match x with Some (ops, S') => Some (o ++ ops, S') | None => None end.
Lemma before_some o x ops S' : before o x = Some (ops, S') -> exists ops', x = Some (ops', S') /\ ops = o ++ ops'.
Proof. destruct x as [[ops' S0]|]; [|discriminate]. intros [= <- <-]. eauto. Qed.
Fixpoint compose (fuel : nat) (n : nat) (S : sit) (l : list item) : option (list op * sit) :=
  match fuel, l with
  | O, _ => None
  | Datatypes.S fuel, [] => Some ([], S)
  | Datatypes.S fuel, it :: l =>
    let '(mkSit i v t st) := S in
    match it with
    | TKana keys =>
        match spell X r cr kf cf i Direct false v keys with
        | Some (ps, v') => at_least (kana_mode_b i)
            (before (map press keys) (compose fuel n (mkSit i v' (t ++ concat (map (adjust_kana_string kf i) ps)) st) l))
        | None => None
        end
    | TPlain keys =>
        match plain_of Direct i keys with
        | Some chs =>
            match v, i with
            | [], Ascii => before (map OKey (map plain keys)) (compose fuel n (mkSit Ascii [] (t ++ chs) st) l)
            | [], Zenkaku => before (map OKey (map plain keys)) (compose fuel n (mkSit Zenkaku [] (t ++ concat (map (adjust_ascii_char am) chs)) st) l)
            | _, _ => None
            end
        | None => None
        end
    | TSwitch k =>
        match command_of cr i Direct k with
        | Some [IForceKanaConvert i0; IChangeInputMode i1; IClearUnconfirmedInputs] =>
            at_least (kana_mode_b i && outside_b X r v k) (before [OKey k] (compose fuel n (mkSit i1 [] (t ++ adjust_kana_string kf i0 (extra_of X r v)) st) l))
        | Some [IChangeInputMode i1] => at_least (is_nil v && plain_outside i k) (before [OKey k] (compose fuel n (mkSit i1 [] t st) l))
        | _ => None
        end
    | TErase k =>
        match command_of cr i Direct k with
        | Some [IDelete] => at_least (is_nil v && plain_outside i k && negb (is_nil t)) (before [OKey k] (compose fuel n (mkSit i [] (removelast t) st) l))
        | _ => None
        end
    | TWord a next j fk =>
        match asks_of i v a with
        | Some (f, ops1, v', key, o) =>
            match offers st key with
            | Some cs =>
                match nth_error cs j with
                | Some c =>
                    let S1 := mkSit i [] (t ++ adjust_kana_string kf i f ++ c_output c ++ adjust_kana_string kf i o) (taught ids c st) in
                    match fk with
                    | Some k =>
                        match command_of cr i CompositionSelection k with
                        | Some [IConfirmComposition] =>
                            at_least (kana_mode_b i && next_key i next) (before (ops1 ++ repeat (OKey next) j ++ [OKey k]) (compose fuel n S1 l))
                        | _ => None
                        end
                    | None =>
                        match compose fuel n S1 l with
                        | Some (OKey k :: ops, S') =>
                            at_least (kana_mode_b i && next_key i next && is_nil v' && goes_on_b i k) (Some ((ops1 ++ repeat (OKey next) j) ++ OKey k :: ops, S'))
                        | _ => None
                        end
                    end
                | None => None
                end
            | None => None
            end
        | None => None
        end
    | TRegister a next l3 k =>
        match asks_of i v a with
        | Some (f, ops1, v', key, o) =>
            match offers st key, compose fuel (Datatypes.S n) (mkSit Hiragana [] [] st) l3 with
            | Some cs, Some (ops3, mkSit i3 [] t3 st3) =>
                match command_of cr i3 Direct k with
                | Some [IConfirmDirect] =>
                    at_least (kana_mode_b i && negb (is_nil (ck_to key)) && next_key i next && Nat.ltb n 10 && negb (is_nil t3)
                              && Nat.eqb (numeric_entry_count t3) 0 && plain_outside i3 k)
                      (before ((ops1 ++ repeat (OKey next) (length cs)) ++ ops3 ++ [OKey k])
                         (compose fuel n (mkSit i [] (t ++ adjust_kana_string kf i f ++ t3 ++ adjust_kana_string kf i o) (taught ids (new_word key o t3) st3)) l))
                | _ => None
                end
            | _, _ => None
            end
        | None => None
        end
    | TReading rd k =>
        match reads_of i v rd with
        | Some (f, c, ops1, v', reading) =>
            match command_of cr i c k with
            | Some [IForceKanaConvert i1; IConfirmAs i2; IChangeCompositionMode Direct] =>
                at_least (kana_mode_b i && outside_b X r v' k)
                  (before (ops1 ++ [OKey k]) (compose fuel n (mkSit i [] (t ++ adjust_kana_string kf i f ++ in_form kf am i2 (reading ++ extra_of X r v')) st) l))
            | Some [IConfirmAs i2; IChangeCompositionMode Direct] =>
                at_least (kana_mode_b i && outside_b X r v' k)
                  (before (ops1 ++ [OKey k]) (compose fuel n (mkSit i [] (t ++ adjust_kana_string kf i f ++ in_form kf am i2 reading) st) l))
            | Some [IClearUnconfirmedInputs; IAbort] =>
                at_least (kana_mode_b i && outside_b X r v' k)
                  (before (ops1 ++ [OKey k]) (compose fuel n (mkSit i [] (t ++ adjust_kana_string kf i f) st) l))
            | _ => None
            end
        | None => None
        end
    end
  end.
Lemma full_of am0 chs : Forall2 (full_width am0) chs (map (adjust_ascii_char am0) chs).
Proof.
  induction chs as [|ch chs IH]; constructor; [|exact IH]. unfold full_width, adjust_ascii_char. destruct (assoc_str [ch] am0); auto.
Qed.
Lemma compose_spec fuel : forall n S l ops S', compose fuel n S l = Some (ops, S') -> composes X r cr kf am cf ids n S ops S'.
Proof.
  induction fuel as [|fuel IH]; intros n S l ops S' H; [discriminate|].
  destruct l as [|it l]; [injection H as <- <-; constructor|]. destruct S as [i v t st]. cbn [compose] in H.
  destruct it as [keys|keys|k|k|a next j fk|a next l3 k|rd k].
  - destruct (spell _ _ _ _ _ _ _ _ _ _) as [[ps v']|] eqn:Es; [|discriminate]. apply at_least_some in H as [Hi H]. apply before_some in H as (ops' & H & ->).
    eapply kana; [now apply kana_mode_b_spec|eapply spell_spec; exact Es|exact (IH _ _ _ _ _ H)].
  - destruct (plain_of _ _ _) as [chs|] eqn:Ep; [|discriminate]. apply plain_of_spec in Ep as [P1 P2].
    destruct v as [|? ?]; [|discriminate]. destruct i; try discriminate; apply before_some in H as (ops' & H & ->).
    + eapply zenkaku; [exact P1|apply full_of|exact P2|exact (IH _ _ _ _ _ H)].
    + eapply ascii; [exact P1|exact P2|exact (IH _ _ _ _ _ H)].
  - destruct (command_of cr i Direct k) as [[|[] [|[] [|[] [|]]]]|] eqn:Ek; try discriminate; apply at_least_some in H as [Hk H]; apply before_some in H as (ops' & H & ->); apply andb_prop in Hk as [H1 H2].
    + apply is_nil_true in H1 as ->. eapply switch_plain; [apply command_of_spec; exact Ek|exact (plain_outside_spec _ _ H2)|exact (IH _ _ _ _ _ H)].
    + eapply switch; [now apply kana_mode_b_spec|apply command_of_spec; exact Ek|now apply outside_b_spec|apply forced_of|exact (IH _ _ _ _ _ H)].
  - destruct (command_of cr i Direct k) as [[|[] [|]]|] eqn:Ek; try discriminate. apply at_least_some in H as [Hk H]. apply before_some in H as (ops' & H & ->).
    apply andb_prop in Hk as [Hk H3]. apply andb_prop in Hk as [H1 H2]. apply is_nil_true in H1 as ->. apply negb_true_iff in H3. apply is_nil_false in H3.
    rewrite (app_removelast_last 0%N H3). eapply erase; [now apply command_of_spec|exact (plain_outside_spec _ _ H2)|exact (IH _ _ _ _ _ H)].
  - destruct (asks_of i v a) as [[[[[f ops1] v'] key] o]|] eqn:Ea; [|discriminate]. destruct (offers st key) as [cs|] eqn:Eo; [|discriminate].
    destruct (nth_error cs j) as [c|] eqn:Ec; [|discriminate]. cbv zeta in H. apply asks_of_spec in Ea. apply offers_spec in Eo.
    assert (Hj : 0 + j < length cs) by (cbn; apply nth_error_Some; rewrite Ec; discriminate).
    destruct fk as [k|].
    + destruct (command_of cr i CompositionSelection k) as [[|[] [|]]|] eqn:Ek; try discriminate. apply at_least_some in H as [Hk H]. apply before_some in H as (ops' & H & ->).
      apply andb_prop in Hk as [H1 H2]. rewrite <- !app_assoc. cbn [app].
      eapply (word X r cr kf am cf ids n i v t st f ops1 v' key o cs (repeat (OKey next) j) j c k ops' S');
        [now apply kana_mode_b_spec|exact Ea|exact Eo|exact (walks_repeat i _ next (next_key_spec _ _ H2) j 0 Hj)|exact Ec|now apply command_of_spec|exact (IH _ _ _ _ _ H)].
    + destruct (compose fuel n _ l) as [[[|[] ops'] S1]|] eqn:E; try discriminate. apply at_least_some in H as [Hk H]. injection H as <- <-.
      apply andb_prop in Hk as [Hk H4]. apply andb_prop in Hk as [Hk H3]. apply andb_prop in Hk as [H1 H2]. apply is_nil_true in H3 as ->. rewrite <- !app_assoc.
      eapply (word_next X r cr kf am cf ids n i v t st f ops1 key o cs (repeat (OKey next) j) j c k ops' S1);
        [now apply kana_mode_b_spec|exact Ea|exact Eo|exact (walks_repeat i _ next (next_key_spec _ _ H2) j 0 Hj)|exact Ec|now apply goes_on_b_spec|exact (IH _ _ _ _ _ E)].
  - destruct (asks_of i v a) as [[[[[f ops1] v'] key] o]|] eqn:Ea; [|discriminate]. destruct (offers st key) as [cs|] eqn:Eo; [|discriminate].
    destruct (compose fuel (S n) _ l3) as [[ops3 [i3 [|? ?] t3 st3]]|] eqn:E3; try discriminate. apply asks_of_spec in Ea. apply offers_spec in Eo.
    destruct (command_of cr i3 Direct k) as [[|[] [|]]|] eqn:Ek; try discriminate. apply at_least_some in H as [Hk H]. apply before_some in H as (ops' & H & ->).
    apply andb_prop in Hk as [Hk B7]. apply andb_prop in Hk as [Hk B6]. apply andb_prop in Hk as [Hk B5]. apply andb_prop in Hk as [Hk B4].
    apply andb_prop in Hk as [Hk B3]. apply andb_prop in Hk as [B1 B2]. apply negb_true_iff in B2, B5. apply is_nil_false in B2, B5. apply Nat.ltb_lt in B4. apply Nat.eqb_eq in B6.
    rewrite <- !app_assoc. cbn [app].
    eapply (register X r cr kf am cf ids n i v t st f ops1 v' key o cs (repeat (OKey next) (length cs)) ops3 i3 t3 st3 k ops' S');
      [now apply kana_mode_b_spec|exact Ea|exact Eo|exact B2| |exact B4|exact (IH _ _ _ _ _ E3)|exact B5|exact B6|now apply command_of_spec|exact (plain_outside_spec _ _ B7)|exact (IH _ _ _ _ _ H)].
    destruct cs as [|c0 cs]; [constructor|]. cbn [length]. rewrite <- repeat_snoc.
    apply passes_all; [discriminate| |now apply next_key_spec]. cbn [length]. replace (S (length cs) - 1) with (0 + length cs) by lia.
    apply walks_repeat; [now apply next_key_spec|lia].
  - destruct (reads_of i v rd) as [[[[[f c] ops1] v'] reading]|] eqn:Er; [|discriminate]. apply reads_of_spec in Er.
    destruct (command_of cr i c k) as [[|[] l1]|] eqn:Ek; try discriminate.
    + destruct l1 as [|[] [|[] [|]]]; try discriminate; destruct c0; try discriminate.
      apply at_least_some in H as [Hk H]. apply before_some in H as (ops' & H & ->). apply andb_prop in Hk as [H1 H2]. rewrite <- app_assoc. cbn [app].
      eapply confirm_form; [now apply kana_mode_b_spec|exact Er|apply command_of_spec; exact Ek|now apply outside_b_spec|apply forced_of|exact (IH _ _ _ _ _ H)].
    + destruct l1 as [|[] [|]]; try discriminate.
      apply at_least_some in H as [Hk H]. apply before_some in H as (ops' & H & ->). apply andb_prop in Hk as [H1 H2]. rewrite <- app_assoc. cbn [app].
      eapply give_up; [now apply kana_mode_b_spec|exact Er|apply command_of_spec; exact Ek|now apply outside_b_spec|exact (IH _ _ _ _ _ H)].
    + destruct l1 as [|[] [|]]; try discriminate; destruct c0; try discriminate.
      apply at_least_some in H as [Hk H]. apply before_some in H as (ops' & H & ->). apply andb_prop in Hk as [H1 H2]. rewrite <- app_assoc. cbn [app].
      eapply confirm_plain; [now apply kana_mode_b_spec|exact Er|apply command_of_spec; exact Ek|now apply outside_b_spec|exact (IH _ _ _ _ _ H)].
Qed.
Lemma compose_case fuel n S l len t ks :
  option_map (fun x => (length (fst x), sit_text (snd x), sit_keys (snd x))) (compose fuel n S l) = Some (len, t, ks) ->
  exists ops S', length ops = len /\ sit_text S' = t /\ sit_keys S' = ks /\ composes X r cr kf am cf ids n S ops S'.
Proof.
  destruct (compose fuel n S l) as [[ops S']|] eqn:E; [|discriminate]. cbn [option_map fst snd]. intros [= <- <- <-].
  exists ops, S'. split; [reflexivity|]. split; [reflexivity|]. split; [reflexivity|exact (compose_spec _ _ _ _ _ _ E)].
Qed.
End Check.

(** Met with the shipped rule and a small dictionary: kana; a syllabic n pending before a word; words
    confirmed by going on and by Return; carry-over and a comma; okurigana; a word registered (typed with
    a conversion of its own) and used; a reading in katakana; katakana, ASCII and full-width modes; a
    digit; an abbreviation; a deletion; a reading given up. *)
Definition with_ctrl (k : N) : keyev := mkKey k M_CONTROL.
Definition sentence : list item := Eval vm_compute in
  [TKana (U "ka"); TKana (U "n"); TWord (AWord (RCapital (U "kana")) space_key) space_key 0 None;
   TWord (AWord (RCapital (U "ai")) space_key) space_key 1 None; TKana (U "kanda"); TKana (U "tta,");
   TWord (AOkuri (RCapital (U "ka")) [] (U "ku")) space_key 0 (Some return_key);
   TRegister (AWord (RCapital (U "mimi")) space_key) space_key [TWord (AWord (RCapital (U "kana")) space_key) space_key 0 None; TKana (U "mi")] return_key;
   TWord (AWord (RCommand (plain 81) (U "mimi")) space_key) space_key 0 (Some return_key);
   TReading (RCapital (U "kyon")) (plain 113);
   TSwitch (plain 113); TKana (U "kan"); TSwitch (plain 113); TSwitch (plain 108); TPlain (U "Rust 1"); TSwitch (with_ctrl 106);
   TKana (U "1"); TReading (RAbbreviation (plain 47) (U "is")) (with_ctrl 113); TSwitch (plain 76); TPlain (U "Ab"); TSwitch (with_ctrl 106);
   TKana (U "kaka"); TErase (plain 65288); TReading (RCapital (U "a")) (with_ctrl 103); TKana (U "k")].
Lemma rows_have_keys_b : forallb (fun e => negb (is_nil (row_seq ascii_xkb e))) (r_conversion default_rule) = true.
Proof. vm_compute. reflexivity. Qed.
Lemma default_rows_have_keys : rows_have_keys ascii_xkb default_rule.
Proof.
  intros kana carry (k & cy & Hin & Ek & _). pose proof rows_have_keys_b as H. rewrite forallb_forall in H. specialize (H _ Hin).
  unfold row_seq in H. cbn [fst] in H. rewrite Ek in H. discriminate.
Qed.
Example C71_case : exists s ops S',
  distinct_keys ascii_xkb default_rule /\ rows_have_keys ascii_xkb default_rule
  /\ x_kb (w_ctx (demo [user_dict dic_small])) = kb_new ascii_xkb default_rule
  /\ frames (demo [user_dict dic_small]) = [s] /\ stands (mkSit Hiragana [] [] [user_dict dic_small]) s
  /\ length ops = 81 /\ sit_text S' = U "かん仮名哀かんだった、書く仮名み仮名みキョンカンRust 11ｉｓＡｂか" /\ sit_keys S' = U "k"
  /\ composes ascii_xkb default_rule (r_command default_rule) default_kana_form default_ascii_map (x_cfg (demo_ctx [0])) [0] 1
       (mkSit Hiragana [] [] [user_dict dic_small]) ops S'.
Proof.
  destruct (compose_case ascii_xkb default_rule (r_command default_rule) default_kana_form default_ascii_map (x_cfg (demo_ctx [0])) [0] 40 1
    (mkSit Hiragana [] [] [user_dict dic_small]) sentence 81 (U "かん仮名哀かんだった、書く仮名み仮名みキョンカンRust 11ｉｓＡｂか") (U "k")) as (ops & S' & F1 & F2 & F3 & H);
    [vm_compute; reflexivity|].
  exists (st_new Hiragana Direct), ops, S'.
  split; [exact (proj1 C11_case)|]. split; [exact default_rows_have_keys|].
  split; [reflexivity|]. split; [reflexivity|]. split; [repeat split; reflexivity|].
  split; [exact F1|]. split; [exact F2|]. split; [exact F3|exact H].
Qed.
Lemma compose_stands X r cr kf am cf ids fuel n S l i3 v3 t3 :
  option_map (fun x => (sit_mode (snd x), sit_keys (snd x), sit_text (snd x))) (compose X r cr kf am cf ids fuel n S l) = Some (i3, v3, t3) ->
  exists ops st3, composes X r cr kf am cf ids n S ops (mkSit i3 v3 t3 st3).
Proof.
  destruct (compose X r cr kf am cf ids fuel n S l) as [[ops [i v t st]]|] eqn:E; [|discriminate]. cbn [option_map snd sit_mode sit_keys sit_text].
  intros [= <- <- <-]. exists ops, st. exact (compose_spec _ _ _ _ _ _ _ _ _ _ _ _ _ E).
Qed.
Lemma asks_case X r cr kf cf i v0 a f v' key o :
  option_map (fun x => (fst (fst (fst (fst x))), snd (fst (fst x)), snd (fst x), snd x)) (asks_of X r cr kf cf i v0 a) = Some (f, v', key, o) ->
  exists ops, asks X r cr kf cf i v0 f ops v' key o.
Proof.
  destruct (asks_of X r cr kf cf i v0 a) as [[[[[f0 ops] v1] key1] o1]|] eqn:E; [|discriminate]. cbn [option_map fst snd].
  intros [= <- <- <- <-]. exists ops. exact (asks_of_spec _ _ _ _ _ _ _ _ _ _ _ _ _ E).
Qed.
(** Met: みみ has no candidate; 仮名み is typed for it, and Return takes it over, C-g gives it up; k alone and
    C-g too; and at the last of three candidates the space bar opens a registration. *)
Definition demo_cr := r_command default_rule.
Example C73_case :
  (exists ops1 ops3 st3,
     asks ascii_xkb default_rule demo_cr default_kana_form (x_cfg (demo_ctx [0])) Hiragana [] [] ops1 [] (mkCK (U "みみ") None) []
     /\ offered [0] [user_dict dic_small] (mkCK (U "みみ") None) [] /\ passes demo_cr Hiragana [] []
     /\ composes ascii_xkb default_rule demo_cr default_kana_form default_ascii_map (x_cfg (demo_ctx [0])) [0] 2
          (mkSit Hiragana [] [] [user_dict dic_small]) ops3 (mkSit Hiragana [] (U "仮名み") st3)
     /\ numeric_entry_count (U "仮名み") = 0 /\ commands demo_cr Direct Hiragana return_key [IConfirmDirect]
     /\ outside ascii_xkb default_rule [] return_key)
  /\ (exists ops st3, composes ascii_xkb default_rule demo_cr default_kana_form default_ascii_map (x_cfg (demo_ctx [0])) [0] 2
          (mkSit Hiragana [] [] [user_dict dic_small]) ops (mkSit Hiragana (U "k") (U "仮名") st3)
     /\ refuses demo_cr Hiragana (U "仮名") (with_ctrl 103) /\ outside ascii_xkb default_rule (U "k") (with_ctrl 103))
  /\ (exists outs w s rest cs, typed false (U "A i space space space") (demo [user_dict dic_small]) = Ok (outs, w)
       /\ frames w = s :: rest /\ choosing s cs (length cs - 1) /\ length cs = 3
       /\ commands demo_cr CompositionSelection (s_imode s) space_key [ITryNextCandidate]).
Proof.
  split; [|split].
  - destruct (asks_case ascii_xkb default_rule demo_cr default_kana_form (x_cfg (demo_ctx [0])) Hiragana [] (AWord (RCapital (U "mimi")) space_key) [] [] (mkCK (U "みみ") None) [])
      as (ops1 & Ha); [vm_compute; reflexivity|].
    destruct (compose_stands ascii_xkb default_rule demo_cr default_kana_form default_ascii_map (x_cfg (demo_ctx [0])) [0] 40 2 (mkSit Hiragana [] [] [user_dict dic_small])
      [TWord (AWord (RCapital (U "kana")) space_key) space_key 0 None; TKana (U "mi")] Hiragana [] (U "仮名み")) as (ops3 & st3 & Hc); [vm_compute; reflexivity|].
    exists ops1, ops3, st3. split; [exact Ha|]. split; [apply offers_spec; vm_compute; reflexivity|]. split; [constructor|]. split; [exact Hc|].
    split; [vm_compute; reflexivity|]. split; [apply command_of_spec; vm_compute; reflexivity|apply outside_b_spec; vm_compute; reflexivity].
  - destruct (compose_stands ascii_xkb default_rule demo_cr default_kana_form default_ascii_map (x_cfg (demo_ctx [0])) [0] 40 2 (mkSit Hiragana [] [] [user_dict dic_small])
      [TWord (AWord (RCapital (U "kana")) space_key) space_key 0 None; TKana (U "k")] Hiragana (U "k") (U "仮名")) as (ops3 & st3 & Hc); [vm_compute; reflexivity|].
    exists ops3, st3. split; [exact Hc|]. split; [left; apply command_of_spec; vm_compute; reflexivity|apply outside_b_spec; vm_compute; reflexivity].
  - destruct (run_case (typed false (U "A i space space space") (demo [user_dict dic_small]))
      (fun w => (choosing_b w 3 2, match frames w with s :: _ => next_key demo_cr (s_imode s) space_key | [] => false end)) (true, true)) as (o & w & E & F); [vm_compute; reflexivity|].
    assert (F1 := f_equal fst F). assert (F2 := f_equal snd F). cbn [fst snd] in F1, F2. clear F.
    apply choosing_b_spec in F1 as (s & rest & Hf & Hc & Hl). rewrite Hf in F2. exists o, w, s, rest, (cl_list (s_list s)).
    split; [exact E|]. split; [exact Hf|]. split; [rewrite Hl; exact Hc|]. split; [exact Hl|]. now apply next_key_spec.
Qed.
