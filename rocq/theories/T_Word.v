(** C71: converting words, from the key presses to the text handed out.  C10 with carry-over. *)
From Verif Require Import Str Keys Modes KanaBuilder FormChanger DictTypes Parser Lru
  Dictionary CState Context DefaultRule Demo Spec P_Monad P_Frames P_Inv P_Kana P_Step T_Keys T_Predict T_Dedup T_Offered T_Convert.
From Verif Require Import T_Frames T_Romaji.
From Verif Require T_Input.

(** ** Specification *)
(** A key that types no capital, runs no command in this mode and has a character other than comma
    and period. *)
Definition letter (X : xkb) (cr : command_rule) (c : cmode) (i : imode) (sym : N) : Prop :=
  ~ (65 <= sym <= 90)%N /\ unbound cr c i (mkKey sym 0) /\
  exists ch, xk_char X sym = Some ch /\ ch <> 44%N /\ ch <> 46%N.
(** What the pending keys [v] become when they are forced: the kana of their row and its carry-over,
    or, if they are no row, nothing. *)
Definition forced (X : xkb) (r : rule) (v : list N) (extra : str) (v' : list N) : Prop :=
  entry X r v extra v' \/ ((forall kana carry, ~ entry X r v kana carry) /\ extra = [] /\ v' = v).
(** A key that is not part of any row and writes [t]: the configured comma or period, or, in any form of
    kana, its own character. *)
Definition sign (X : xkb) (cr : command_rule) (kf : kana_form) (cf : config) (c : cmode) (i : imode) (sym : N) (t : str) : Prop :=
  ~ (65 <= sym <= 90)%N /\ unbound cr c i (mkKey sym 0) /\
  exists ch, xk_char X sym = Some ch /\
    (T_Input.punctuation (cf_period cf) (cf_comma cf) ch t
     \/ (ch <> 44%N /\ ch <> 46%N /\ (32 <= sym <= 126)%N /\ t = [ch] /\ (c = Direct -> adjust_kana_string kf i [ch] = [ch]))).
(** Romaji spelling by a rule: with the keys [u] pending, typing [keys] writes the kana [ps], piece by
    piece, and leaves the keys [v] pending.  The rows of the rule say all:
    a key that continues a row waits; a key that ends a row that no other row extends writes its kana
    and leaves its carry-over pending (tta); a key that cannot continue writes the pending row first
    (n before a consonant, n before a comma or a digit).  With [stop], only the last key may leave
    nothing pending. *)
Inductive spells (X : xkb) (r : rule) (cr : command_rule) (kf : kana_form) (cf : config) (c : cmode) (i : imode) (stop : bool) (v : list N)
  : list N -> list N -> list str -> Prop :=
| spells_end : spells X r cr kf cf c i stop v v [] []
| spells_wait u k x keys ps : completable X r ((u ++ [k]) ++ [x]) -> letter X cr c i k ->
    spells X r cr kf cf c i stop v (u ++ [k]) keys ps -> spells X r cr kf cf c i stop v u (k :: keys) ps
| spells_row u k kana carry keys ps : entry X r (u ++ [k]) kana carry -> (forall x, ~ completable X r ((u ++ [k]) ++ [x])) ->
    (stop = true -> carry <> []) ->
    spells X r cr kf cf c i stop v carry keys ps -> spells X r cr kf cf c i stop v u (k :: keys) (kana :: ps)
| spells_last u k kana : entry X r (u ++ [k]) kana [] -> (forall x, ~ completable X r ((u ++ [k]) ++ [x])) -> v = [] ->
    spells X r cr kf cf c i stop v u [k] [kana]
| spells_flush u k x kana carry keys ps : entry X r u kana carry -> ~ completable X r (u ++ [k]) ->
    completable X r ([k] ++ [x]) -> letter X cr c i k ->
    spells X r cr kf cf c i stop v [k] keys ps -> spells X r cr kf cf c i stop v u (k :: keys) (kana :: ps)
| spells_sign u k extra u' t keys ps : stop = false -> forced X r u extra u' -> ~ completable X r (u ++ [k]) -> ~ completable X r [k] ->
    sign X cr kf cf c i k t ->
    spells X r cr kf cf c i stop v [] keys ps -> spells X r cr kf cf c i stop v u (k :: keys) (extra :: t :: ps).
(** Every row of the rule has at least one key. *)
Definition rows_have_keys (X : xkb) (r : rule) : Prop := forall kana carry, ~ entry X r [] kana carry.
(** The same keys with the first one shifted; the capital itself is in no row and runs no command in
    the mode [c0] it is pressed in.  Keys [v0] that are still pending and spell a row of their own are
    written first, as the kana [f], unless the new key continues them. *)
Definition shifted (X : xkb) (r : rule) (cr : command_rule) (c0 : cmode) (i : imode) (v0 : list N) (f : str) (keys caps : list N) : Prop :=
  exists l rest ch, keys = l :: rest /\ caps = (l - 32)%N :: rest /\ (97 <= l <= 122)%N /\ completable X r [l] /\
    ~ completable X r [(l - 32)%N] /\ unbound cr c0 i (mkKey (l - 32) 0) /\
    xk_char X (l - 32) = Some ch /\ ch <> 44%N /\ ch <> 46%N /\
    (v0 = [] /\ f = [] \/
     exists carry x, entry X r v0 f carry /\ ~ completable X r (v0 ++ [(l - 32)%N]) /\ ~ completable X r (v0 ++ [l]) /\ completable X r ([l] ++ [x])).
(** Shift pressed late: with the keys [v0] pending, the key [l] that continues them is typed as a capital; the
    capital itself continues nothing and runs no command in the mode [c0]. *)
Definition late (X : xkb) (r : rule) (cr : command_rule) (c0 : cmode) (i : imode) (v0 : list N) (l : N) : Prop :=
  (97 <= l <= 122)%N /\ completable X r (v0 ++ [l]) /\ ~ completable X r (v0 ++ [(l - 32)%N]) /\ unbound cr c0 i (mkKey (l - 32) 0) /\
  exists ch, xk_char X (l - 32) = Some ch /\ ch <> 44%N /\ ch <> 46%N.
(** What a late capital that starts the okurigana does: completing a row that carries something over (the
    doubled consonant), it ends the reading; else it begins the okurigana. *)
Definition late_okuri (X : xkb) (r : rule) (cr : command_rule) (kf : kana_form) (cf : config) (i : imode) (v0 : list N) (l : N) (rest : list N) (f : str) (ps : list str) : Prop :=
  late X r cr PreComposition i v0 l /\
  ((exists carry, v0 <> [] /\ entry X r (v0 ++ [l]) f carry /\ (forall x, ~ completable X r ((v0 ++ [l]) ++ [x])) /\ carry <> []
      /\ spells X r cr kf cf PreCompositionOkurigana i true [] carry rest ps)
   \/ (f = [] /\ (forall kana carry, entry X r (v0 ++ [l]) kana carry -> carry = [])
       /\ spells X r cr kf cf PreCompositionOkurigana i true [] v0 (l :: rest) ps)).
(** No auto-start keyword ends the reading, or a beginning of it, without being all of it. *)
Definition no_keyword (kws : list str) (reading : str) : Prop :=
  forall p q kw before, reading = p ++ q -> In kw kws -> p = before ++ kw -> before = [].
(** A frame where nothing is being typed. *)
Definition idle (s : cstate) : Prop :=
  s_cmode s = Direct /\ s_pre s = [] /\ s_raw s = [] /\ s_comp s = [] /\ s_okuri s = [] /\ s_use s = false /\ s_cap s = false.
(** The same with the keys [v] pending. *)
Definition idle_with (v : list N) (s : cstate) : Prop :=
  s_cmode s = Direct /\ s_pre s = v /\ s_raw s = [] /\ s_comp s = [] /\ s_okuri s = [] /\ s_use s = false /\ s_cap s = false.
(** The key runs these commands in this mode. *)
Definition commands (cr : command_rule) (c : cmode) (i : imode) (k : keyev) (l : list instr) : Prop :=
  has_mod k M_RELEASE = false /\ bound cr c i k l.
(** The key is pressed with a modifier such as Control, or continues no row with the keys [v] pending,
    shifted or not. *)
Definition outside (X : xkb) (r : rule) (v : list N) (k : keyev) : Prop :=
  is_modifierless_input k = false \/ ~ completable X r (v ++ [ksym k]) /\ ~ completable X r (v ++ [uncapitalize (ksym k)]).
(** The frame while the reading is typed, and while it is typed with okurigana. *)
Definition with_reading (reading : str) (s : cstate) : cstate :=
  set_raw reading (set_comp reading (change_composition_mode PreComposition s)).

(** ** Proofs *)
Definition put (kf : kana_form) (c : cmode) (ps : list str) (s : cstate) : cstate :=
  match c with
  | Direct => set_conf (s_conf s ++ concat (map (adjust_kana_string kf (s_imode s)) ps)) s
  | PreComposition => set_raw (s_raw s ++ concat ps) (set_comp (s_comp s ++ concat ps) s)
  | PreCompositionOkurigana => match ps with [] => s | _ => set_use true (set_okuri (s_okuri s ++ concat ps) s) end
  | _ => s
  end.
Definition typing_mode (c : cmode) : Prop := c = Direct \/ c = PreComposition \/ c = PreCompositionOkurigana.
Definition pending (v : list N) (b : bool) (s : cstate) : cstate := set_cap b (set_pre v s).
Definition carried (u : list N) (s : cstate) : cstate := let s' := set_pre u s in if is_nil u then set_cap false s' else s'.
Lemma typing_rom2kana i c : kana_mode i -> typing_mode c -> has_rom2kana_conversion i c = true.
Proof. intros [->|[->| ->]] [->|[->| ->]]; reflexivity. Qed.
Lemma put_nil kf c s : put kf c [] s = s.
Proof. destruct c; cbn; try reflexivity; rewrite ?app_nil_r; destruct s; reflexivity. Qed.
Lemma put_one kf c kana s : typing_mode c ->
  put kf c [kana] s = push_string_for (match c with Direct => adjust_kana_string kf (s_imode s) kana | _ => kana end) c s.
Proof. intros [->|[->| ->]]; cbn; rewrite ?app_nil_r; reflexivity. Qed.
Lemma put_cons kf c kana ps s : put kf c (kana :: ps) s = put kf c ps (put kf c [kana] s).
Proof.
  destruct c; cbn [put]; try reflexivity.
  - cbn. rewrite app_nil_r, app_assoc. reflexivity.
  - cbn. rewrite app_nil_r, !app_assoc. reflexivity.
  - destruct ps; cbn; rewrite ?app_nil_r, ?app_assoc; destruct s; reflexivity.
Qed.
Lemma put_mode kf c ps s : s_cmode (put kf c ps s) = s_cmode s. Proof. destruct c, ps; reflexivity. Qed.
Lemma put_imode kf c ps s : s_imode (put kf c ps s) = s_imode s. Proof. destruct c, ps; reflexivity. Qed.
Lemma carried_mode u s : s_cmode (carried u s) = s_cmode s. Proof. destruct u; reflexivity. Qed.
Lemma carried_imode u s : s_imode (carried u s) = s_imode s. Proof. destruct u; reflexivity. Qed.
Lemma carried_pre u s : s_pre (carried u s) = u. Proof. destruct u; reflexivity. Qed.
Lemma carried_raw u s : s_raw (carried u s) = s_raw s. Proof. destruct u; reflexivity. Qed.
Lemma put_carried kf c ps u s : put kf c ps (carried u s) = carried u (put kf c ps s).
Proof. destruct c, ps, u; reflexivity. Qed.
Lemma carried_twice u v s : carried v (carried u s) = carried v (if is_nil u then set_cap false s else s).
Proof. destruct u, v; reflexivity. Qed.
Lemma put_raw kf ps s : s_raw (put kf PreComposition ps s) = s_raw s ++ concat ps. Proof. reflexivity. Qed.
Definition no_auto (kws : list str) (reading : str) : Prop := matching_keyword kws reading = None.
Lemma no_keyword_auto kws reading p q : no_keyword kws reading -> reading = p ++ q -> no_auto kws p.
Proof.
  intros H E. unfold no_auto, matching_keyword. destruct (find _ kws) as [kw|] eqn:F; [exfalso|reflexivity].
  apply find_some in F as [Hin F]. apply andb_prop in F as [F1 F2]. apply is_suffixb_spec in F2 as [before F2].
  rewrite (H p q kw before E Hin F2) in F2. cbn in F2. subst kw.
  rewrite (proj2 (str_eqb_eq p p) eq_refl) in F1. discriminate.
Qed.
Section Word.
Context (X : xkb) (dbg : bool) (r : rule) (Hd : distinct_keys X r).
Lemma not_row u x : completable X r (u ++ [x]) -> convert_non_partial (kb_new X r) u = None.
Proof. apply not_leaf, Hd. Qed.
Lemma nothing_row u : ~ completable X r u -> convert_non_partial (kb_new X r) u = None.
Proof.
  intros H. destruct (convert_non_partial (kb_new X r) u) as [[cv cy]|] eqn:E; [|reflexivity].
  apply C11_convert_at_once in E as [(k & cy' & Hin & E & _) _]; [|exact Hd]. exfalso. apply H. exists k, (cy', cv).
  split; [exact Hin|]. exists []. now rewrite app_nil_r.
Qed.
Lemma not_continue k u : ~ completable X r (u ++ [ksym k]) -> can_continue (kb_new X r) k u = false.
Proof. intros H. destruct (can_continue (kb_new X r) k u) eqn:E; [|reflexivity]. apply C11_may_continue in E. contradiction. Qed.
Lemma completable_prefix u v : completable X r (u ++ v) -> completable X r u.
Proof.
  intros (k & val & Hin & rest & E). exists k, val. split; [exact Hin|]. exists (v ++ rest). now rewrite E, app_assoc.
Qed.
Lemma key_raw s : ck_to (get_composite_key s) = s_raw s.
Proof. unfold get_composite_key. destruct (s_use s && negb (is_nil (s_okuri s))); reflexivity. Qed.
Lemma auto_ok w s fr : s_cmode s = PreComposition -> no_auto (cf_auto (x_cfg (w_ctx w))) (s_raw s) ->
  auto_start_henkan dbg (with_frames (s :: fr) w) = Ok (tt, with_frames (s :: fr) w).
Proof.
  intros Ec H. unfold auto_start_henkan. unfold bind at 1, cur at 1. cbn [x_stack w_ctx with_frames]. rewrite Ec. cbn [cmode_eqb negb].
  unfold bind at 1, get at 1. rewrite key_raw. cbn [x_cfg w_ctx with_frames]. unfold no_auto in H. rewrite H. reflexivity.
Qed.
Lemma finish_ok w s fr : (s_cmode s = PreComposition -> no_auto (cf_auto (x_cfg (w_ctx w))) (s_raw s)) ->
  finish_kana_input dbg (with_frames (s :: fr) w) = Ok (true, with_frames (s :: fr) w).
Proof.
  intros H. unfold finish_kana_input. unfold bind at 1, cur at 1. cbn [x_stack w_ctx with_frames].
  destruct (s_cmode s) eqn:Ec; cbn [cmode_eqb]; try reflexivity.
  unfold bind. rewrite (auto_ok w s fr Ec (H eq_refl)). reflexivity.
Qed.
(** input_key in a typing mode is kana input *)
Lemma input_typing w s fr k c u : s_cmode s = c -> typing_mode c -> kana_mode (s_imode s) -> is_modifierless_input k = true ->
  input_key X dbg k c u (with_frames (s :: fr) w) = input_kana X dbg k u (with_frames (s :: fr) w).
Proof.
  intros Hc Ht Hi Hm. unfold input_key. rewrite Hm. sxu.
  assert (E : match c with CompositionSelection | Completion => true | _ => false end = false) by (destruct Ht as [->|[->| ->]]; reflexivity).
  rewrite E. sxu. rewrite Hc, (typing_rom2kana _ _ Hi Ht). reflexivity.
Qed.
(** a key that waits *)
Lemma wait_step w s fr c u k x : x_kb (w_ctx w) = kb_new X r ->
  s_cmode s = c -> typing_mode c -> kana_mode (s_imode s) -> s_pre s = u ->
  completable X r ((u ++ [k]) ++ [x]) -> letter X (x_cmd (w_ctx w)) c (s_imode s) k ->
  (c = PreComposition -> no_auto (cf_auto (x_cfg (w_ctx w))) (s_raw s)) ->
  process_key_event X dbg (mkKey k 0) (with_frames (s :: fr) w)
  = Ok (true, with_frames (set_pre (u ++ [k]) s :: fr) w).
Proof.
  intros Hb Hc Ht Hi Hu Hx (Hup & Hun & ch & Hch & H44 & H46) Ha.
  set (kk := mkKey k 0).
  rewrite (key_unbound X dbg kk (with_frames (s :: fr) w) s fr);
    [|reflexivity|reflexivity|destruct Ht as [->|[->| ->]]; congruence|rewrite Hc; exact Hun].
  rewrite Hc, (input_typing w s fr kk c (s_pre s) Hc Ht Hi eq_refl). unfold input_kana. sxu.
  assert (Hup' : is_upper kk = false) by (apply not_upper, Hup).
  assert (Hch' : get_symbol_char X kk = Some ch) by exact Hch.
  rewrite Hb, Hu. change (combine_raw kk u) with (u ++ [k]). rewrite (not_row _ _ Hx), Hup', Hch'.
  unfold input_unconverted. sxu. unfold convert_periods. apply N.eqb_neq in H44, H46. rewrite H44, H46, ?Hb.
  assert (Hcc : can_continue (kb_new X r) kk u = true) by (apply C11_may_continue; exact (completable_prefix _ _ Hx)).
  rewrite Hcc. unfold input_as_continuous_kana. sxu.
  assert (E : next_unprocessed_state (x_kb (w_ctx w)) kk (s_pre s) = u ++ [k])
    by (unfold next_unprocessed_state; rewrite Hb, Hu, Hcc; reflexivity).
  rewrite Hc, ?E. rewrite Hb, Hu in E. rewrite ?Hb, ?Hu, ?E.
  destruct Ht as [->|[->| ->]]; sxu; rewrite <- ?Hb;
    exact (finish_ok w (set_pre (u ++ [k]) s) fr ltac:(cbn [set_pre s_cmode s_raw]; rewrite Hc; exact Ha)).
Qed.
(** a key that ends a row *)
Lemma row_input w s fr c did u kana carry : s_cmode s = c -> typing_mode c ->
  (c = PreCompositionOkurigana -> carry <> [] /\ (did = false \/ u = [])) ->
  (c = PreComposition -> no_auto (cf_auto (x_cfg (w_ctx w))) (s_raw s ++ kana)) ->
  input_converted_kana dbg kana carry did u (with_frames (s :: fr) w)
  = Ok (tt, with_frames (carried carry (put (x_kf (w_ctx w)) c [kana] s) :: fr) w).
Proof.
  intros Hc Ht Ho Ha. unfold input_converted_kana. sxu. rewrite Hc.
  destruct Ht as [->|[->| ->]].
  - unfold append_converted, set_carry_over. sxu. unfold push_string. rewrite Hc. cbn [put push_string_for map concat]. rewrite app_nil_r. reflexivity.
  - unfold set_carry_over. sxu. unfold push_string. rewrite Hc.
    assert (E : carried carry (put (x_kf (w_ctx w)) PreComposition [kana] s)
      = (let s' := set_pre carry (push_string_for kana PreComposition s) in if is_nil carry then set_cap false s' else s')).
    { rewrite put_one by (unfold typing_mode; auto). reflexivity. }
    rewrite E. cbv zeta. set (s' := if is_nil carry then _ else _).
    assert (A : auto_start_henkan dbg (with_frames (s' :: fr) w) = Ok (tt, with_frames (s' :: fr) w)).
    { apply auto_ok; [subst s'; destruct carry; cbn; exact Hc|specialize (Ha eq_refl); subst s'; destruct carry; cbn; exact Ha]. }
    exact A.
  - destruct (Ho eq_refl) as [Hne Hdid].
    assert (E : did && negb (is_nil u) && negb (is_nil carry) = false) by (destruct Hdid as [->| ->]; cbn; [reflexivity|]; now destruct did).
    rewrite E. unfold set_carry_over. sxu. unfold push_string. rewrite Hc.
    destruct carry as [|a b]; [congruence|]. cbn [is_nil andb]. sxu. rewrite put_one by (unfold typing_mode; auto). reflexivity.
Qed.
Lemma row_step w s fr c u k kana carry : x_kb (w_ctx w) = kb_new X r ->
  s_cmode s = c -> typing_mode c -> kana_mode (s_imode s) -> s_pre s = u ->
  entry X r (u ++ [k]) kana carry -> (forall x, ~ completable X r ((u ++ [k]) ++ [x])) ->
  process_key_event X dbg (mkKey k 0) (with_frames (s :: fr) w)
  = match input_converted_kana dbg kana carry false u (with_frames (s :: fr) w) with
    | Ok (_, w') => Ok (true, w') | Panic e => Panic e end.
Proof.
  intros Hb Hc Ht Hi Hu He Hx. set (kk := mkKey k 0).
  assert (Hn : convert_non_partial (kb_new X r) (u ++ [k]) = Some (kana, carry)) by (apply C11_convert_at_once; [exact Hd|]; auto).
  rewrite (key_skip X dbg kk (with_frames (s :: fr) w) s fr); [|reflexivity|reflexivity|].
  2:{ unfold skip_command. change (is_modifierless_input kk) with true. rewrite Hc, (typing_rom2kana _ _ Hi Ht).
      cbn [andb with_frames w_ctx x_kb]. rewrite Hb, Hu. change (combine_raw kk u) with (u ++ [k]). rewrite Hn. apply Bool.orb_true_r. }
  rewrite Hc, (input_typing w s fr kk c (s_pre s) Hc Ht Hi eq_refl). unfold input_kana. sxu.
  rewrite Hb, Hu. change (combine_raw kk u) with (u ++ [k]). rewrite Hn.
  rewrite <- ?Hb.
  destruct (input_converted_kana _ _ _ _ _ _) as [[[] w']|e]; reflexivity.
Qed.
(** a key that writes the pending row first *)
Lemma flush_step w s fr c u k x kana carry : x_kb (w_ctx w) = kb_new X r ->
  s_cmode s = c -> typing_mode c -> kana_mode (s_imode s) -> s_pre s = u ->
  entry X r u kana carry -> ~ completable X r (u ++ [k]) -> completable X r ([k] ++ [x]) ->
  letter X (x_cmd (w_ctx w)) c (s_imode s) k ->
  (c = PreComposition -> no_auto (cf_auto (x_cfg (w_ctx w))) (s_raw s ++ kana)) ->
  process_key_event X dbg (mkKey k 0) (with_frames (s :: fr) w)
  = Ok (true, with_frames (set_pre [k] (set_cap false (put (x_kf (w_ctx w)) c [kana] s)) :: fr) w).
Proof.
  intros Hb Hc Ht Hi Hu He Hno Hx (Hup & Hun & ch & Hch & H44 & H46) Ha.
  set (kk := mkKey k 0).
  rewrite (key_unbound X dbg kk (with_frames (s :: fr) w) s fr);
    [|reflexivity|reflexivity|destruct Ht as [->|[->| ->]]; congruence|rewrite Hc; exact Hun].
  rewrite Hc, (input_typing w s fr kk c (s_pre s) Hc Ht Hi eq_refl). unfold input_kana. sxu.
  assert (Hup' : is_upper kk = false) by (apply not_upper, Hup).
  assert (Hch' : get_symbol_char X kk = Some ch) by exact Hch.
  rewrite Hb, Hu. change (combine_raw kk u) with (u ++ [k]). rewrite (nothing_row _ Hno), Hup', Hch'.
  unfold input_unconverted. sxu. unfold convert_periods. apply N.eqb_neq in H44, H46. rewrite H44, H46, ?Hb, Hc.
  rewrite (not_continue kk u Hno), Hup'. cbn [andb].
  rewrite (not_upper_lower kk [] Hup'). change (combine_raw kk []) with ([] ++ [k]). cbn [app].
  rewrite (not_row [k] x Hx).
  assert (Hcc : can_continue (kb_new X r) kk [] = true) by (apply C11_may_continue; exact (completable_prefix [k] _ Hx)).
  rewrite Hcc. unfold output_converted_kana_if_any. sxu. rewrite ?Hb, ?Hu.
  rewrite (proj2 (C11_force_convert X r u kana carry Hd) He).
  set (s2 := set_pre [k] (set_cap false (put (x_kf (w_ctx w)) c [kana] s))).
  assert (Hm2 : s_cmode s2 = c) by (unfold s2; cbn [set_pre set_cap s_cmode]; now rewrite put_mode).
  assert (Ef : finish_kana_input dbg (with_frames (s2 :: fr) w) = Ok (true, with_frames (s2 :: fr) w)).
  { apply finish_ok. rewrite Hm2. intros ->. unfold s2. cbn [set_pre set_cap s_raw]. rewrite put_raw. cbn [concat]. rewrite app_nil_r. auto. }
  assert (Eh : next_unprocessed_state (kb_new X r) kk [] = [k]) by (unfold next_unprocessed_state; rewrite Hcc; reflexivity).
  destruct Ht as [->|[->| ->]]; unfold set_carry_over, input_as_continuous_kana; sxu; rewrite ?Hb; unfold push_string_for, clear_preconverted;
    destruct carry; cbn [is_nil set_pre set_cap set_conf set_raw set_comp set_use set_okuri s_cmode s_pre]; rewrite ?Hc, ?Hb, ?Eh;
    rewrite <- ?Hb; (etransitivity; [|exact Ef]); unfold s2, put; cbn [map concat]; rewrite ?app_nil_r; reflexivity.
Qed.

Lemma forced_some v extra v' : forced X r v extra v' ->
  (convert_greedy (kb_new X r) v = Some (extra, v') /\ entry X r v extra v') \/ (convert_greedy (kb_new X r) v = None /\ extra = [] /\ v' = v).
Proof.
  intros [H|(H & -> & ->)]; [left; split; [apply C11_force_convert; auto|exact H]|right].
  split; [|auto]. destruct (convert_greedy (kb_new X r) v) as [[cv cy]|] eqn:E; [|reflexivity].
  apply C11_force_convert in E; [|exact Hd]. exfalso. exact (H _ _ E).
Qed.
Lemma adjust_nil kf i : adjust_kana_string kf i [] = []. Proof. destruct i; reflexivity. Qed.
(** forcing the pending keys, then clearing *)
Lemma force_clear w s fr c u extra u' : x_kb (w_ctx w) = kb_new X r -> s_cmode s = c -> c = Direct \/ c = PreComposition -> s_pre s = u ->
  forced X r u extra u' -> exists b w', output_converted_kana_if_any (s_imode s) c (with_frames (s :: fr) w) = Ok (b, w')
    /\ modcur clear_preconverted w' = Ok (tt, with_frames (pending [] false (put (x_kf (w_ctx w)) c [extra] s) :: fr) w).
Proof.
  intros Hb Hc Ht Hu Hf. unfold output_converted_kana_if_any. sxu. rewrite Hb, Hu.
  destruct (forced_some _ _ _ Hf) as [[E _]|(E & -> & ->)]; rewrite E.
  - destruct Ht as [->| ->]; unfold set_carry_over; sxu; eexists _, _; (split; [reflexivity|]);
      cbn [put map concat]; rewrite ?app_nil_r; rewrite <- ?Hb; destruct u'; reflexivity.
  - eexists _, _. split; [reflexivity|]. sx. rewrite <- ?Hb. unfold with_frames. do 4 f_equal.
    destruct Ht as [->| ->]; cbn [put map concat]; rewrite ?adjust_nil, ?app_nil_r; destruct s; reflexivity.
Qed.
Lemma sign_finish w s fr c u k t extra u' : x_kb (w_ctx w) = kb_new X r ->
  s_cmode s = c -> c = Direct \/ c = PreComposition -> kana_mode (s_imode s) -> s_pre s = u ->
  forced X r u extra u' -> ~ completable X r (u ++ [k]) -> ~ completable X r [k] ->
  sign X (x_cmd (w_ctx w)) (x_kf (w_ctx w)) (x_cfg (w_ctx w)) c (s_imode s) k t ->
  process_key_event X dbg (mkKey k 0) (with_frames (s :: fr) w)
  = finish_kana_input dbg (with_frames (pending [] false (put (x_kf (w_ctx w)) c [extra; t] s) :: fr) w).
Proof.
  intros Hb Hc Ht Hi Hu Hf Hno Hno1 (Hup & Hun & ch & Hch & Hsg).
  set (kk := mkKey k 0). assert (Tm : typing_mode c) by (unfold typing_mode; tauto).
  rewrite (key_unbound X dbg kk (with_frames (s :: fr) w) s fr);
    [|reflexivity|reflexivity|destruct Ht as [->| ->]; congruence|rewrite Hc; exact Hun].
  rewrite Hc, (input_typing w s fr kk c (s_pre s) Hc Tm Hi eq_refl). unfold input_kana.
  unfold bind at 1, cur at 1. cbn [x_stack w_ctx with_frames]. unfold bind at 1, get at 1. cbn zeta. cbn [x_kb w_ctx with_frames].
  assert (Hup' : is_upper kk = false) by (apply not_upper, Hup).
  assert (Hch' : get_symbol_char X kk = Some ch) by exact Hch.
  rewrite Hb, Hu. change (combine_raw kk u) with (u ++ [k]). rewrite (nothing_row _ Hno), Hup', Hch'.
  unfold input_unconverted. unfold bind at 1, cur at 1. cbn [x_stack w_ctx with_frames]. unfold bind at 1, get at 1. cbn zeta. cbn [x_kb x_cfg w_ctx with_frames].
  rewrite <- ?Hb. rewrite ?Hc.
  destruct (force_clear w s fr c u extra u' Hb Hc Ht Hu Hf) as (b & w' & E1 & E2).
  set (s2 := pending [] false (put (x_kf (w_ctx w)) c [extra] s)) in *.
  set (s3 := pending [] false (put (x_kf (w_ctx w)) c [extra; t] s)).
  assert (Hm2 : s_cmode s2 = c) by (unfold s2; cbn; now rewrite put_mode).
  assert (Hm3 : s_cmode s3 = c) by (unfold s3; cbn; now rewrite put_mode).
  assert (Hi2 : s_imode s2 = s_imode s) by (unfold s2; cbn; now rewrite put_imode).
  destruct Hsg as [Hpt|(H44 & H46 & Hran & -> & Hadj)].
  - rewrite (T_Input.punctuation_spec _ _ _ _ Hpt). unfold input_periods. unfold bind at 1. rewrite E1. unfold bind at 1. rewrite E2.
    unfold bind at 1, cur at 1. cbn [x_stack w_ctx with_frames]. rewrite Hm2.
    assert (Ep : push_string_for (match c with Direct => adjust_kana_string (x_kf (w_ctx w)) (s_imode s) t | _ => t end) c s2 = s3).
    { unfold s2, s3. rewrite (put_cons _ c extra [t] s), (put_one _ c t) by exact Tm. rewrite put_imode. destruct Ht as [->| ->]; reflexivity. }
    destruct Ht as [->| ->].
    + unfold append_converted. unfold bind at 1, modcur at 1. cbn [x_stack w_ctx with_frames x_kf]. unfold push_string. rewrite Hm2, Hi2, Ep. reflexivity.
    + unfold bind at 1, modcur at 1. cbn [x_stack w_ctx with_frames x_kf]. unfold push_string. rewrite Hm2, Ep.
      unfold bind at 1, modcur at 1. cbn [x_stack w_ctx with_frames set_stack]. reflexivity.
  - unfold convert_periods. apply N.eqb_neq in H44, H46. rewrite H44, H46, Hb.
    rewrite (not_continue kk u Hno), Hup'. cbn [andb].
    change (combine_raw kk []) with [k]. rewrite (nothing_row _ Hno1).
    rewrite (not_upper_lower kk [] Hup'). change (combine_raw kk []) with [k]. rewrite (nothing_row _ Hno1).
    rewrite (not_continue kk [] Hno1).
    assert (Ecl : can_continue_lower (kb_new X r) kk [] = false).
    { pose proof (not_continue kk [] Hno1) as E. unfold can_continue_lower. rewrite (not_upper_lower kk [] Hup'). exact E. }
    rewrite Ecl. unfold input_direct_char.
    assert (Ea : is_ascii_inputtable kk = true).
    { unfold is_ascii_inputtable, kk, KEY_space, KEY_asciitilde. cbn [ksym]. apply andb_true_intro. split; apply N.leb_le; lia. }
    rewrite Ea. unfold bind at 1. rewrite E1. unfold bind at 1. rewrite E2.
    unfold bind at 1, cur at 1. cbn [x_stack w_ctx with_frames]. rewrite Hm2.
    assert (Ep : push_string_for [ch] c s2 = s3).
    { unfold s2, s3. rewrite (put_cons _ c extra [[ch]] s), (put_one _ c [ch]) by exact Tm. rewrite put_imode.
      destruct Ht as [->| ->]; [rewrite (Hadj eq_refl)|]; reflexivity. }
    destruct Ht as [->| ->]; unfold bind at 1, modcur at 1; cbn [x_stack w_ctx with_frames]; unfold push_string; rewrite Hm2, Ep; reflexivity.
Qed.

Lemma sign_step w s fr c u k t extra u' : x_kb (w_ctx w) = kb_new X r ->
  s_cmode s = c -> c = Direct \/ c = PreComposition -> kana_mode (s_imode s) -> s_pre s = u ->
  forced X r u extra u' -> ~ completable X r (u ++ [k]) -> ~ completable X r [k] ->
  sign X (x_cmd (w_ctx w)) (x_kf (w_ctx w)) (x_cfg (w_ctx w)) c (s_imode s) k t ->
  (c = PreComposition -> no_auto (cf_auto (x_cfg (w_ctx w))) (s_raw s ++ extra ++ t)) ->
  process_key_event X dbg (mkKey k 0) (with_frames (s :: fr) w)
  = Ok (true, with_frames (pending [] false (put (x_kf (w_ctx w)) c [extra; t] s) :: fr) w).
Proof.
  intros Hb Hc Ht Hi Hu Hf Hno Hno1 Hsg Ha. rewrite (sign_finish w s fr c u k t extra u' Hb Hc Ht Hi Hu Hf Hno Hno1 Hsg).
  apply finish_ok. cbn [pending set_pre set_cap s_raw s_cmode]. rewrite put_mode, Hc. intros ->. rewrite put_raw. cbn [concat]. rewrite app_nil_r. auto.
Qed.
Lemma carried_done s : s_pre s = [] -> s_cap s = false -> carried [] s = s.
Proof. intros H1 H2. destruct s; cbn in *; subst; reflexivity. Qed.
Lemma put_pending kf c ps v b s : put kf c ps (pending v b s) = pending v b (put kf c ps s).
Proof. destruct c, ps; reflexivity. Qed.
Lemma pending_same s : pending (s_pre s) (s_cap s) s = s.
Proof. destruct s; reflexivity. Qed.
Lemma spells_run_any w c i v u keys ps : x_kb (w_ctx w) = kb_new X r -> c = Direct \/ c = PreComposition -> kana_mode i ->
  spells X r (x_cmd (w_ctx w)) (x_kf (w_ctx w)) (x_cfg (w_ctx w)) c i false v u keys ps -> forall s fr,
  s_cmode s = c -> s_imode s = i -> s_pre s = u ->
  (c = PreComposition -> forall p q, concat ps = p ++ q -> no_auto (cf_auto (x_cfg (w_ctx w))) (s_raw s ++ p)) ->
  exists b, (s_cap s = false \/ (v = [] /\ (u = [] -> keys <> [])) -> b = false) /\ run X dbg (map press keys) (with_frames (s :: fr) w)
  = Ok (map (fun _ => OutBool true) keys, with_frames (pending v b (put (x_kf (w_ctx w)) c ps s) :: fr) w).
Proof.
  intros Hb Hc Hi H. assert (Ht : typing_mode c) by (unfold typing_mode; tauto).
  induction H as [|u k x keys ps Hx Hl H IH|u k kana carry keys ps He Hx Hst H IH|u k kana He Hx Hv|u k x kana carry keys ps He Hno Hx Hl H IH|u k extra u' t keys ps Hst Hf Hno Hno1 Hsg H IH];
    intros s fr Hm Him Hp Ha.
  - exists (s_cap s). split; [intros [E|[E1 E2]]; [exact E|destruct (E2 E1 eq_refl)]|]. cbn [map run]. unfold ret. rewrite put_nil, <- Hp, pending_same. reflexivity.
  - cbn [map]. unfold press at 1.
    rewrite (run_cons X dbg _ _ _ _ _ (exec_key X dbg _ _ _ _ (wait_step w s fr c u k x Hb Hm Ht ltac:(now rewrite Him) Hp Hx ltac:(now rewrite Him)
      ltac:(intros E; specialize (Ha E [] _ eq_refl); now rewrite app_nil_r in Ha)))).
    destruct (IH (set_pre (u ++ [k]) s) fr Hm Him eq_refl) as (b & Hbv & E); [exact Ha|].
    exists b. split; [intros [Ev|[Ev _]]; apply Hbv; [now left|right; split; [exact Ev|intros E0; destruct u; discriminate]]|]. rewrite E. destruct c, ps; reflexivity.
  - cbn [map]. unfold press at 1.
    assert (Hs : process_key_event X dbg (mkKey k 0) (with_frames (s :: fr) w)
      = Ok (true, with_frames (carried carry (put (x_kf (w_ctx w)) c [kana] s) :: fr) w)).
    { rewrite (row_step w s fr c u k kana carry Hb Hm Ht ltac:(now rewrite Him) Hp He Hx).
      rewrite (row_input w s fr c false u kana carry Hm Ht); [reflexivity|destruct Hc as [->| ->]; discriminate|].
      intros E. apply (Ha E kana (concat ps)). reflexivity. }
    rewrite (run_cons X dbg _ _ _ _ _ (exec_key X dbg _ _ _ _ Hs)).
    destruct (IH (carried carry (put (x_kf (w_ctx w)) c [kana] s)) fr) as (b & Hbv & E).
    + now rewrite carried_mode, put_mode.
    + now rewrite carried_imode, put_imode.
    + apply carried_pre.
    + intros E p q Epq. rewrite carried_raw, E, put_raw. cbn [concat]. rewrite app_nil_r, <- app_assoc.
      apply (Ha E (kana ++ p) q). cbn [concat]. now rewrite Epq, app_assoc.
    + exists b. split; [intros Ev; apply Hbv; destruct carry as [|ca cb]; [left; destruct c; reflexivity|destruct Ev as [Ev|[Ev _]]; [left; destruct c; exact Ev|right; split; [exact Ev|discriminate]]]|]. rewrite E, put_carried, <- put_cons. do 3 f_equal. destruct carry; reflexivity.
  - cbn [map]. unfold press at 1.
    assert (Hs : process_key_event X dbg (mkKey k 0) (with_frames (s :: fr) w)
      = Ok (true, with_frames (carried [] (put (x_kf (w_ctx w)) c [kana] s) :: fr) w)).
    { rewrite (row_step w s fr c u k kana [] Hb Hm Ht ltac:(now rewrite Him) Hp He Hx).
      rewrite (row_input w s fr c false u kana [] Hm Ht); [reflexivity|destruct Hc as [->| ->]; discriminate|].
      intros E. apply (Ha E kana []). cbn. now rewrite !app_nil_r. }
    exists false. split; [reflexivity|].
    rewrite (run_cons X dbg _ _ _ _ _ (exec_key X dbg _ _ _ _ Hs)). rewrite Hv. reflexivity.
  - cbn [map]. unfold press at 1.
    rewrite (run_cons X dbg _ _ _ _ _ (exec_key X dbg _ _ _ _ (flush_step w s fr c u k x kana carry Hb Hm Ht ltac:(now rewrite Him) Hp He Hno Hx ltac:(now rewrite Him)
      ltac:(intros E; apply (Ha E kana (concat ps)); reflexivity)))).
    destruct (IH (set_pre [k] (set_cap false (put (x_kf (w_ctx w)) c [kana] s))) fr) as (b & Hbv & E).
    + cbn [set_pre set_cap s_cmode]. now rewrite put_mode.
    + cbn [set_pre set_cap s_imode]. now rewrite put_imode.
    + reflexivity.
    + intros E p q Epq. cbn [set_pre set_cap s_raw]. rewrite E, put_raw. cbn [concat]. rewrite app_nil_r, <- app_assoc.
      apply (Ha E (kana ++ p) q). cbn [concat]. now rewrite Epq, app_assoc.
    + exists b. split; [intros _; apply Hbv; left; destruct c; reflexivity|]. rewrite E. do 3 f_equal. destruct Hc as [->| ->]; cbn; rewrite ?app_nil_r, <- ?app_assoc; reflexivity.
  - cbn [map]. unfold press at 1.
    rewrite (run_cons X dbg _ _ _ _ _ (exec_key X dbg _ _ _ _ (sign_step w s fr c u k t extra u' Hb Hm Hc ltac:(now rewrite Him) Hp Hf Hno Hno1 ltac:(now rewrite Him)
      ltac:(intros E; apply (Ha E (extra ++ t) (concat ps)); cbn [concat]; now rewrite app_assoc)))).
    destruct (IH (pending [] false (put (x_kf (w_ctx w)) c [extra; t] s)) fr) as (b & Hbv & E).
    + cbn [pending set_pre set_cap s_cmode]. now rewrite put_mode.
    + cbn [pending set_pre set_cap s_imode]. now rewrite put_imode.
    + reflexivity.
    + intros E p q Epq. cbn [pending set_pre set_cap s_raw]. rewrite E, put_raw. cbn [concat]. rewrite app_nil_r, <- !app_assoc.
      apply (Ha E (extra ++ t ++ p) q). cbn [concat]. now rewrite Epq, !app_assoc.
    + exists b. split; [intros _; apply Hbv; left; reflexivity|]. rewrite E. do 3 f_equal. rewrite (put_cons _ c extra (t :: ps)), (put_cons _ c t ps), (put_cons _ c extra [t]), put_pending. reflexivity.
Qed.
Lemma spells_run w c i v u keys ps : x_kb (w_ctx w) = kb_new X r -> c = Direct \/ c = PreComposition -> kana_mode i ->
  spells X r (x_cmd (w_ctx w)) (x_kf (w_ctx w)) (x_cfg (w_ctx w)) c i false v u keys ps -> forall s fr,
  s_cmode s = c -> s_imode s = i -> s_pre s = u -> (u = [] -> s_cap s = false) ->
  (c = PreComposition -> forall p q, concat ps = p ++ q -> no_auto (cf_auto (x_cfg (w_ctx w))) (s_raw s ++ p)) ->
  exists b, (v = [] \/ s_cap s = false -> b = false) /\ run X dbg (map press keys) (with_frames (s :: fr) w)
  = Ok (map (fun _ => OutBool true) keys, with_frames (pending v b (put (x_kf (w_ctx w)) c ps s) :: fr) w).
Proof.
  intros Hb Hc Hi H s fr Hm Him Hp Hcap Ha. destruct (spells_run_any w c i v u keys ps Hb Hc Hi H s fr Hm Him Hp Ha) as (b & Hbv & E).
  exists b. split; [|exact E]. intros [Ev|Ev]; apply Hbv; [|now left]. destruct u; [left; auto|right; split; [exact Ev|discriminate]].
Qed.
(** the end of the okurigana starts the conversion *)
Definition choices (cs : list candidate) (s : cstate) : cstate := change_composition_mode CompositionSelection (set_new_candidate_list cs s).
Definition waiting (c : cmode) (s : cstate) : cstate := change_from_old_mode Register c (set_new_candidate_list [] s).
Definition offered_frames (c : cmode) (cs : list candidate) (s : cstate) (fr : list cstate) : list cstate :=
  match cs with
  | [] => if Nat.ltb (length (s :: fr)) 10 then st_new Hiragana Direct :: waiting c s :: fr else set_new_candidate_list [] s :: fr
  | _ => choices cs s :: fr
  end.
Lemma okuri_input w s fr did u kana cs : s_cmode s = PreCompositionOkurigana -> s_comp s <> [] ->
  let s1 := carried [] (put (x_kf (w_ctx w)) PreCompositionOkurigana [kana] s) in
  get_all_candidates (ctx_dicts w) (get_composite_key s1) = Ok cs ->
  input_converted_kana dbg kana [] did u (with_frames (s :: fr) w) = Ok (tt, with_frames (offered_frames PreCompositionOkurigana cs s1 fr) w).
Proof.
  intros Hm Hc s1 Hcs. unfold input_converted_kana. unfold bind at 1, cur at 1. cbn [x_stack w_ctx with_frames]. rewrite Hm.
  cbn [is_nil negb]. rewrite Bool.andb_false_r.
  unfold bind at 1. unfold modcur at 1. cbn [x_stack w_ctx with_frames]. unfold push_string. rewrite Hm.
  unfold bind at 1. unfold set_carry_over, modcur at 1. cbn [x_stack w_ctx with_frames set_stack is_nil].
  assert (E1 : set_cap false (set_pre [] (push_string_for kana PreCompositionOkurigana s)) = s1).
  { unfold s1. rewrite put_one by (unfold typing_mode; auto). reflexivity. }
  rewrite E1.
  assert (Hc1 : s_comp s1 = s_comp s) by reflexivity. assert (Hm1 : s_cmode s1 = PreCompositionOkurigana) by exact Hm.
  unfold bind at 1, cur at 1. cbn [x_stack w_ctx with_frames set_stack].
  rewrite Hc1. destruct (s_comp s) as [|a b] eqn:Ec; [congruence|]. cbn [is_nil negb andb].
  unfold bind at 1. unfold update_candidate_list. unfold bind at 1, cur at 1. cbn [x_stack w_ctx with_frames set_stack].
  unfold bind at 1, get at 1. unfold bind at 1, lift at 1.
  match goal with |- context [ctx_dicts ?ww] => change (ctx_dicts ww) with (ctx_dicts w) end.
  rewrite Hcs. unfold modcur at 1. cbn [x_stack w_ctx with_frames set_stack].
  unfold bind at 1, cur at 1. cbn [x_stack w_ctx with_frames set_stack].
  destruct cs as [|c0 cs].
  - assert (El : cl_is_empty (s_list (set_new_candidate_list [] s1)) = true) by reflexivity. rewrite El.
    assert (Em : s_cmode (set_new_candidate_list [] s1) = PreCompositionOkurigana) by exact Hm1. rewrite Em.
    unfold enter_register_mode. cbn [x_stack w_ctx with_frames set_stack length]. unfold offered_frames. cbn [length].
    change REGISTER_MODE_STACK_MAX with 10. destruct (Nat.ltb (S (length fr)) 10); reflexivity.
  - assert (El : cl_is_empty (s_list (set_new_candidate_list (c0 :: cs) s1)) = false) by reflexivity.
    rewrite El. reflexivity.
Qed.
Lemma okuri_run_any w i u keys ps cs : x_kb (w_ctx w) = kb_new X r -> kana_mode i ->
  spells X r (x_cmd (w_ctx w)) (x_kf (w_ctx w)) (x_cfg (w_ctx w)) PreCompositionOkurigana i true [] u keys ps -> forall s fr,
  u <> [] \/ keys <> [] -> s_cmode s = PreCompositionOkurigana -> s_imode s = i -> s_pre s = u -> s_comp s <> [] ->
  let s1 := carried [] (put (x_kf (w_ctx w)) PreCompositionOkurigana ps s) in
  get_all_candidates (ctx_dicts w) (get_composite_key s1) = Ok cs ->
  run X dbg (map press keys) (with_frames (s :: fr) w)
  = Ok (map (fun _ => OutBool true) keys, with_frames (offered_frames PreCompositionOkurigana cs s1 fr) w).
Proof.
  intros Hb Hi H. set (c := PreCompositionOkurigana) in *. assert (Ht : typing_mode c) by (unfold typing_mode; tauto).
  induction H as [|u k x keys ps Hx Hl H IH|u k kana carry keys ps He Hx Hst H IH|u k kana He Hx Hv|u k x kana carry keys ps He Hno Hx Hl H IH|u k extra u' t keys ps Hst Hf Hno Hno1 Hsg H IH];
    intros s fr Hu Hm Him Hp Hcomp s1 Hcs.
  - destruct Hu as [Hu|Hu]; congruence.
  - cbn [map]. unfold press at 1.
    rewrite (run_cons X dbg _ _ _ _ _ (exec_key X dbg _ _ _ _ (wait_step w s fr c u k x Hb Hm Ht ltac:(now rewrite Him) Hp Hx ltac:(now rewrite Him)
      ltac:(discriminate)))).
    assert (E1 : carried [] (put (x_kf (w_ctx w)) c ps (set_pre (u ++ [k]) s)) = s1) by (unfold s1, c; destruct ps; reflexivity).
    assert (Hu' : u ++ [k] <> []) by (destruct u; discriminate).
    specialize (IH (set_pre (u ++ [k]) s) fr (or_introl Hu') Hm Him eq_refl Hcomp). cbv zeta in IH. rewrite E1 in IH.
    rewrite (IH Hcs). reflexivity.
  - cbn [map]. unfold press at 1.
    assert (Hs : process_key_event X dbg (mkKey k 0) (with_frames (s :: fr) w)
      = Ok (true, with_frames (carried carry (put (x_kf (w_ctx w)) c [kana] s) :: fr) w)).
    { rewrite (row_step w s fr c u k kana carry Hb Hm Ht ltac:(now rewrite Him) Hp He Hx).
      rewrite (row_input w s fr c false u kana carry Hm Ht); [reflexivity|intros _; split; [now apply Hst|now left]|discriminate]. }
    rewrite (run_cons X dbg _ _ _ _ _ (exec_key X dbg _ _ _ _ Hs)).
    assert (Ec : carry <> []) by now apply Hst.
    set (s0 := carried carry (put (x_kf (w_ctx w)) c [kana] s)).
    assert (E1 : carried [] (put (x_kf (w_ctx w)) c ps s0) = s1).
    { unfold s0. rewrite put_carried, <- put_cons, carried_twice. destruct carry; reflexivity. }
    specialize (IH s0 fr (or_introl Ec)). unfold s0 in IH at 1 2 3 4. rewrite carried_mode, put_mode, carried_imode, put_imode, carried_pre in IH.
    assert (Hc0 : s_comp (carried carry (put (x_kf (w_ctx w)) c [kana] s)) <> []) by (destruct carry; exact Hcomp).
    specialize (IH Hm Him eq_refl Hc0). cbv zeta in IH. rewrite E1 in IH.
    fold s0. rewrite (IH Hcs). reflexivity.
  - cbn [map]. unfold press at 1.
    assert (Hs : process_key_event X dbg (mkKey k 0) (with_frames (s :: fr) w) = Ok (true, with_frames (offered_frames PreCompositionOkurigana cs s1 fr) w)).
    { rewrite (row_step w s fr c u k kana [] Hb Hm Ht ltac:(now rewrite Him) Hp He Hx).
      rewrite (okuri_input w s fr false u kana cs Hm Hcomp Hcs). reflexivity. }
    rewrite (run_cons X dbg _ _ _ _ _ (exec_key X dbg _ _ _ _ Hs)). reflexivity.
  - cbn [map]. unfold press at 1.
    rewrite (run_cons X dbg _ _ _ _ _ (exec_key X dbg _ _ _ _ (flush_step w s fr c u k x kana carry Hb Hm Ht ltac:(now rewrite Him) Hp He Hno Hx ltac:(now rewrite Him)
      ltac:(discriminate)))).
    set (s0 := set_pre [k] (set_cap false (put (x_kf (w_ctx w)) c [kana] s))).
    assert (E1 : carried [] (put (x_kf (w_ctx w)) c ps s0) = s1).
    { unfold s1, s0. rewrite (put_cons _ c kana ps s). unfold c. destruct ps; reflexivity. }
    specialize (IH s0 fr ltac:(left; discriminate) Hm Him eq_refl Hcomp). cbv zeta in IH. rewrite E1 in IH.
    rewrite (IH Hcs). reflexivity.
  - discriminate.
Qed.

Lemma okuri_run w i u keys ps cs : x_kb (w_ctx w) = kb_new X r -> kana_mode i ->
  spells X r (x_cmd (w_ctx w)) (x_kf (w_ctx w)) (x_cfg (w_ctx w)) PreCompositionOkurigana i true [] u keys ps -> forall s fr,
  u <> [] -> s_cmode s = PreCompositionOkurigana -> s_imode s = i -> s_pre s = u -> s_comp s <> [] ->
  let s1 := carried [] (put (x_kf (w_ctx w)) PreCompositionOkurigana ps s) in
  get_all_candidates (ctx_dicts w) (get_composite_key s1) = Ok cs ->
  run X dbg (map press keys) (with_frames (s :: fr) w)
  = Ok (map (fun _ => OutBool true) keys, with_frames (offered_frames PreCompositionOkurigana cs s1 fr) w).
Proof. intros Hb Hi H s fr Hu. exact (okuri_run_any w i u keys ps cs Hb Hi H s fr (or_introl Hu)). Qed.
(** typing okurigana that is not finished *)
Lemma okuri_progress w i v u keys ps : x_kb (w_ctx w) = kb_new X r -> kana_mode i -> v <> [] ->
  spells X r (x_cmd (w_ctx w)) (x_kf (w_ctx w)) (x_cfg (w_ctx w)) PreCompositionOkurigana i true v u keys ps -> forall s fr,
  s_cmode s = PreCompositionOkurigana -> s_imode s = i -> s_pre s = u ->
  exists b, (s_cap s = false -> b = false) /\ run X dbg (map press keys) (with_frames (s :: fr) w)
  = Ok (map (fun _ => OutBool true) keys, with_frames (pending v b (put (x_kf (w_ctx w)) PreCompositionOkurigana ps s) :: fr) w).
Proof.
  intros Hb Hi Hv0 H. set (c := PreCompositionOkurigana) in *. assert (Ht : typing_mode c) by (unfold typing_mode; tauto).
  induction H as [|u k x keys ps Hx Hl H IH|u k kana carry keys ps He Hx Hst H IH|u k kana He Hx Hv|u k x kana carry keys ps He Hno Hx Hl H IH|u k extra u' t keys ps Hst Hf Hno Hno1 Hsg H IH];
    intros s fr Hm Him Hp.
  - exists (s_cap s). split; [auto|]. cbn [map run]. unfold ret. rewrite put_nil, <- Hp, pending_same. reflexivity.
  - cbn [map]. unfold press at 1.
    rewrite (run_cons X dbg _ _ _ _ _ (exec_key X dbg _ _ _ _ (wait_step w s fr c u k x Hb Hm Ht ltac:(now rewrite Him) Hp Hx ltac:(now rewrite Him)
      ltac:(discriminate)))).
    destruct (IH (set_pre (u ++ [k]) s) fr Hm Him eq_refl) as (b & Hbv & E). exists b. split; [exact Hbv|]. rewrite E. unfold c. destruct ps; reflexivity.
  - cbn [map]. unfold press at 1.
    assert (Hs : process_key_event X dbg (mkKey k 0) (with_frames (s :: fr) w)
      = Ok (true, with_frames (carried carry (put (x_kf (w_ctx w)) c [kana] s) :: fr) w)).
    { rewrite (row_step w s fr c u k kana carry Hb Hm Ht ltac:(now rewrite Him) Hp He Hx).
      rewrite (row_input w s fr c false u kana carry Hm Ht); [reflexivity|intros _; split; [now apply Hst|now left]|discriminate]. }
    rewrite (run_cons X dbg _ _ _ _ _ (exec_key X dbg _ _ _ _ Hs)).
    assert (Ec : carry <> []) by now apply Hst.
    destruct (IH (carried carry (put (x_kf (w_ctx w)) c [kana] s)) fr) as (b & Hbv & E).
    + now rewrite carried_mode, put_mode.
    + now rewrite carried_imode, put_imode.
    + apply carried_pre.
    + exists b. split; [intros Ev; apply Hbv; destruct carry; [congruence|exact Ev]|]. rewrite E, put_carried, <- put_cons. do 3 f_equal. destruct carry; reflexivity.
  - congruence.
  - cbn [map]. unfold press at 1.
    rewrite (run_cons X dbg _ _ _ _ _ (exec_key X dbg _ _ _ _ (flush_step w s fr c u k x kana carry Hb Hm Ht ltac:(now rewrite Him) Hp He Hno Hx ltac:(now rewrite Him)
      ltac:(discriminate)))).
    destruct (IH (set_pre [k] (set_cap false (put (x_kf (w_ctx w)) c [kana] s))) fr Hm Him eq_refl) as (b & Hbv & E).
    exists b. split; [intros _; apply Hbv; reflexivity|]. rewrite E, (put_cons _ c kana ps s). do 3 f_equal. unfold c. destruct ps; reflexivity.
  - discriminate.
Qed.

Definition turns (c0 c1 : cmode) (s : cstate) : Prop :=
  (c0 = Direct /\ c1 = PreComposition) \/ (c0 = PreComposition /\ c1 = PreCompositionOkurigana /\ s_comp s <> []).
Definition turned (c1 : cmode) (s : cstate) : cstate := set_cap true (change_composition_mode c1 s).
Lemma turn_typing c0 c1 s : turns c0 c1 s -> typing_mode c0 /\ typing_mode c1.
Proof. unfold turns, typing_mode. intuition. Qed.
Lemma transition_ok w s fr c0 c1 k : turns c0 c1 s -> is_upper k = true ->
  transition_by_capital k c0 false (with_frames (s :: fr) w) = Ok (true, with_frames (turned c1 s :: fr) w).
Proof.
  intros Ht Hu. unfold transition_by_capital. sxu. rewrite Hu. cbn [negb andb].
  destruct Ht as [[-> ->]|(-> & -> & Hc)]; cbn [cmode_eqb].
  - unfold set_composition_mode. sxu. reflexivity.
  - destruct (s_comp s); [congruence|]. cbn [is_nil negb andb]. unfold set_composition_mode. sxu. reflexivity.
Qed.
Lemma capital_facts l : (97 <= l <= 122)%N -> is_upper (mkKey (l - 32) 0) = true /\ uncapitalize (l - 32) = l /\ to_lower (mkKey (l - 32) 0) = mkKey l 0.
Proof.
  intros H. assert (E : is_upper (mkKey (l - 32) 0) = true).
  { unfold is_upper, KEY_A, KEY_Z. cbn [ksym]. apply andb_true_intro; split; apply N.leb_le; lia. }
  split; [exact E|]. assert (E2 : (l - 32 + 32)%N = l) by lia. split.
  - unfold uncapitalize. unfold is_upper in E. cbn [ksym] in E. now rewrite E.
  - unfold to_lower. rewrite E. cbn [ksym kmods]. now rewrite E2.
Qed.
Lemma capital_wait w s fr c0 c1 l x ch : x_kb (w_ctx w) = kb_new X r -> turns c0 c1 s ->
  s_cmode s = c0 -> kana_mode (s_imode s) -> s_pre s = [] -> s_cap s = false -> (97 <= l <= 122)%N ->
  ~ completable X r [(l - 32)%N] -> unbound (x_cmd (w_ctx w)) c0 (s_imode s) (mkKey (l - 32) 0) ->
  xk_char X (l - 32) = Some ch -> ch <> 44%N -> ch <> 46%N -> completable X r ([l] ++ [x]) ->
  (c1 = PreComposition -> no_auto (cf_auto (x_cfg (w_ctx w))) (s_raw s)) ->
  process_key_event X dbg (mkKey (l - 32) 0) (with_frames (s :: fr) w)
  = Ok (true, with_frames (set_pre [l] (turned c1 s) :: fr) w).
Proof.
  intros Hb Ht Hm Hi Hp Hcap Hl Hno Hun Hch H44 H46 Hx Ha.
  destruct (turn_typing _ _ _ Ht) as [T0 T1]. destruct (capital_facts l Hl) as (Hup & Hlow & Hto). set (kk := mkKey (l - 32) 0) in *.
  rewrite (key_unbound X dbg kk (with_frames (s :: fr) w) s fr);
    [|reflexivity|reflexivity|destruct T0 as [->|[->| ->]]; congruence|rewrite Hm; exact Hun].
  rewrite Hm, (input_typing w s fr kk c0 (s_pre s) Hm T0 Hi eq_refl). unfold input_kana. unfold bind at 1, cur at 1. cbn [x_stack w_ctx with_frames].
  unfold bind at 1, get at 1. cbn zeta. cbn [x_kb w_ctx with_frames]. rewrite Hb, Hp.
  change (combine_raw kk []) with [(l - 32)%N]. rewrite (nothing_row _ Hno), Hup.
  assert (El : combine_lower kk [] = [l]) by (unfold combine_lower; cbn [ksym kk app]; now rewrite Hlow).
  rewrite El, (not_row [l] x Hx).
  assert (Hch' : get_symbol_char X kk = Some ch) by exact Hch. rewrite Hch'.
  unfold input_unconverted. unfold bind at 1, cur at 1. cbn [x_stack w_ctx with_frames].
  unfold bind at 1, get at 1. cbn zeta. cbn [x_kb x_cfg w_ctx with_frames]. unfold convert_periods. apply N.eqb_neq in H44, H46. rewrite H44, H46, ?Hb.
  rewrite (not_continue kk [] Hno), Hup.
  assert (Ecl : can_continue_lower (kb_new X r) kk [] = true).
  { assert (E : can_continue (kb_new X r) (mkKey l 0) [] = true) by (apply C11_may_continue; exact (completable_prefix [l] _ Hx)).
    unfold can_continue_lower. rewrite El. exact E. }
  rewrite Ecl. cbn [andb]. unfold bind at 1. rewrite Hcap, Hm, <- ?Hb.
  change (mkW (w_store w) (mkCtx (s :: fr) (x_cmd (w_ctx w)) (x_kb (w_ctx w)) (x_kf (w_ctx w)) (x_am (w_ctx w)) (x_dicts (w_ctx w)) (x_cfg (w_ctx w))))
    with (with_frames (s :: fr) w).
  rewrite (transition_ok w s fr c0 c1 kk Ht Hup). rewrite Hto.
  unfold bind at 1. unfold input_as_continuous_kana. unfold bind at 1, cur at 1. cbn [x_stack w_ctx with_frames].
  unfold bind at 1, get at 1. cbn [x_kb w_ctx with_frames].
  assert (Em : s_cmode (turned c1 s) = c1) by reflexivity. rewrite Em.
  assert (En : next_unprocessed_state (x_kb (w_ctx w)) (mkKey l 0) (s_pre (turned c1 s)) = [l]).
  { cbn [turned set_cap change_composition_mode change_from_old_mode set_cmode set_hist s_pre]. rewrite Hp, Hb.
    unfold next_unprocessed_state. rewrite (proj2 (C11_may_continue X r (mkKey l 0) [])); [reflexivity|exact (completable_prefix [l] _ Hx)]. }
  assert (Ef := finish_ok w (set_pre [l] (turned c1 s)) fr ltac:(cbn [set_pre s_cmode s_raw]; rewrite Em; exact Ha)).
  unfold typing_mode in T1. destruct c1; try (exfalso; intuition discriminate);
    unfold bind at 1; unfold modcur; cbn [x_stack w_ctx with_frames]; rewrite En; exact Ef.
Qed.
Lemma capital_row w s fr c0 c1 l kana carry ch : x_kb (w_ctx w) = kb_new X r -> turns c0 c1 s ->
  s_cmode s = c0 -> kana_mode (s_imode s) -> s_pre s = [] -> s_cap s = false -> (97 <= l <= 122)%N ->
  ~ completable X r [(l - 32)%N] -> unbound (x_cmd (w_ctx w)) c0 (s_imode s) (mkKey (l - 32) 0) ->
  xk_char X (l - 32) = Some ch -> entry X r [l] kana carry -> (forall x, ~ completable X r ([l] ++ [x])) ->
  process_key_event X dbg (mkKey (l - 32) 0) (with_frames (s :: fr) w)
  = match input_converted_kana dbg kana carry true [] (with_frames (turned c1 s :: fr) w) with
    | Ok (_, w') => Ok (true, w') | Panic e => Panic e end.
Proof.
  intros Hb Ht Hm Hi Hp Hcap Hl Hno Hun Hch He Hx.
  destruct (turn_typing _ _ _ Ht) as [T0 T1]. destruct (capital_facts l Hl) as (Hup & Hlow & Hto). set (kk := mkKey (l - 32) 0) in *.
  rewrite (key_unbound X dbg kk (with_frames (s :: fr) w) s fr);
    [|reflexivity|reflexivity|destruct T0 as [->|[->| ->]]; congruence|rewrite Hm; exact Hun].
  rewrite Hm, (input_typing w s fr kk c0 (s_pre s) Hm T0 Hi eq_refl). unfold input_kana. unfold bind at 1, cur at 1. cbn [x_stack w_ctx with_frames].
  unfold bind at 1, get at 1. cbn zeta. cbn [x_kb w_ctx with_frames]. rewrite Hb, Hp.
  change (combine_raw kk []) with [(l - 32)%N]. rewrite (nothing_row _ Hno), Hup.
  assert (El : combine_lower kk [] = [l]) by (unfold combine_lower; cbn [ksym kk app]; now rewrite Hlow).
  rewrite El. rewrite (proj2 (C11_convert_at_once X r [l] kana carry Hd) (conj He Hx)).
  unfold bind at 1. rewrite Hcap, Hm, <- ?Hb.
  change (mkW (w_store w) (mkCtx (s :: fr) (x_cmd (w_ctx w)) (x_kb (w_ctx w)) (x_kf (w_ctx w)) (x_am (w_ctx w)) (x_dicts (w_ctx w)) (x_cfg (w_ctx w))))
    with (with_frames (s :: fr) w).
  rewrite (transition_ok w s fr c0 c1 kk Ht Hup). unfold bind at 1.
  destruct (input_converted_kana _ _ _ _ _ _) as [[[] w']|e]; reflexivity.
Qed.
Lemma flush_rest w s fr c0 c1 u l kana carry : turns c0 c1 s -> s_cmode s = c0 -> s_pre s = u -> s_cap s = false ->
  convert_greedy (x_kb (w_ctx w)) u = Some (kana, carry) -> next_unprocessed_state (x_kb (w_ctx w)) (mkKey l 0) [] = [l] ->
  (c1 = PreComposition -> no_auto (cf_auto (x_cfg (w_ctx w))) (s_raw s)) ->
  (output_converted_kana_if_any (s_imode s) c0 ;; modcur clear_preconverted ;; input_as_continuous_kana (mkKey l 0) ;; finish_kana_input dbg)
    (with_frames (turned c1 s :: fr) w)
  = Ok (true, with_frames (set_pre [l] (change_composition_mode c1 (put (x_kf (w_ctx w)) c0 [kana] s)) :: fr) w).
Proof.
  intros Ht Hm Hp Hcap Eg Enx Ha.
  set (s2 := set_pre [l] (change_composition_mode c1 (put (x_kf (w_ctx w)) c0 [kana] s))).
  set (s1 := set_pre [] (change_composition_mode c1 (put (x_kf (w_ctx w)) c0 [kana] s))).
  assert (Em2 : s_cmode s2 = c1) by reflexivity.
  assert (Ef : finish_kana_input dbg (with_frames (s2 :: fr) w) = Ok (true, with_frames (s2 :: fr) w)).
  { apply finish_ok. rewrite Em2. intros E1. destruct Ht as [[E0 _]|(_ & E1' & _)]; [|congruence]. unfold s2. rewrite E0. exact (Ha E1). }
  assert (E1 : (output_converted_kana_if_any (s_imode s) c0 ;; modcur clear_preconverted) (with_frames (turned c1 s :: fr) w) = Ok (tt, with_frames (s1 :: fr) w)).
  { unfold output_converted_kana_if_any. unfold bind at 1. unfold bind at 1, cur at 1. cbn [x_stack w_ctx with_frames].
    unfold bind at 1, get at 1. cbn [x_kb x_kf w_ctx with_frames]. change (s_pre (turned c1 s)) with (s_pre s). rewrite Hp, Eg.
    destruct Ht as [[-> ->]|(-> & -> & _)]; unfold set_carry_over, modcur, bind, ret; cbn [x_stack w_ctx with_frames set_stack];
      refine (f_equal (fun z => Ok (tt, with_frames (z :: fr) w)) (_ : clear_preconverted _ = s1));
      unfold s1, put; cbn [map concat]; rewrite app_nil_r; destruct carry; destruct s; cbn in *; subst; reflexivity. }
  assert (E2 : input_as_continuous_kana (mkKey l 0) (with_frames (s1 :: fr) w) = Ok (true, with_frames (s2 :: fr) w)).
  { unfold input_as_continuous_kana. unfold bind at 1, cur at 1. cbn [x_stack w_ctx with_frames]. unfold bind at 1, get at 1.
    change (s_cmode s1) with c1. change (s_pre s1) with (@nil N). cbn [x_kb w_ctx with_frames]. rewrite Enx.
    destruct Ht as [[_ ->]|(_ & -> & _)]; reflexivity. }
  unfold bind in E1 |- *. destruct (output_converted_kana_if_any (s_imode s) c0 (with_frames (turned c1 s :: fr) w)) as [[b w']|]; [|discriminate].
  rewrite E1, E2. exact Ef.
Qed.
(** a capital after pending keys that spell a row *)
Lemma capital_flush w s fr c0 c1 u l x ch kana carry : x_kb (w_ctx w) = kb_new X r -> turns c0 c1 s ->
  s_cmode s = c0 -> kana_mode (s_imode s) -> s_pre s = u -> s_cap s = false -> (97 <= l <= 122)%N ->
  ~ completable X r [(l - 32)%N] -> unbound (x_cmd (w_ctx w)) c0 (s_imode s) (mkKey (l - 32) 0) ->
  xk_char X (l - 32) = Some ch -> ch <> 44%N -> ch <> 46%N -> completable X r ([l] ++ [x]) ->
  entry X r u kana carry -> ~ completable X r (u ++ [(l - 32)%N]) -> ~ completable X r (u ++ [l]) ->
  (c1 = PreComposition -> no_auto (cf_auto (x_cfg (w_ctx w))) (s_raw s)) ->
  process_key_event X dbg (mkKey (l - 32) 0) (with_frames (s :: fr) w)
  = Ok (true, with_frames (set_pre [l] (change_composition_mode c1 (put (x_kf (w_ctx w)) c0 [kana] s)) :: fr) w).
Proof.
  intros Hb Ht Hm Hi Hp Hcap Hl Hno Hun Hch H44 H46 Hx He Hn1 Hn2 Ha.
  destruct (turn_typing _ _ _ Ht) as [T0 T1]. destruct (capital_facts l Hl) as (Hup & Hlow & Hto). set (kk := mkKey (l - 32) 0) in *.
  rewrite (key_unbound X dbg kk (with_frames (s :: fr) w) s fr);
    [|reflexivity|reflexivity|destruct T0 as [->|[->| ->]]; congruence|rewrite Hm; exact Hun].
  rewrite Hm, (input_typing w s fr kk c0 (s_pre s) Hm T0 Hi eq_refl). unfold input_kana. unfold bind at 1, cur at 1. cbn [x_stack w_ctx with_frames].
  unfold bind at 1, get at 1. cbn zeta. cbn [x_kb w_ctx with_frames]. rewrite Hb, Hp.
  change (combine_raw kk u) with (u ++ [(l - 32)%N]). rewrite (nothing_row _ Hn1), Hup.
  assert (El : forall q, combine_lower kk q = q ++ [l]) by (intros q; unfold combine_lower; cbn [ksym kk app]; now rewrite Hlow).
  rewrite El, (nothing_row _ Hn2).
  assert (Hch' : get_symbol_char X kk = Some ch) by exact Hch. rewrite Hch'.
  unfold input_unconverted. unfold bind at 1, cur at 1. cbn [x_stack w_ctx with_frames].
  unfold bind at 1, get at 1. cbn zeta. cbn [x_kb x_cfg w_ctx with_frames]. unfold convert_periods. apply N.eqb_neq in H44, H46. rewrite H44, H46, ?Hb.
  rewrite (not_continue kk u Hn1), Hup.
  assert (Ecl0 : can_continue_lower (kb_new X r) kk u = false).
  { assert (E : can_continue (kb_new X r) (mkKey l 0) u = false) by (apply not_continue; exact Hn2).
    unfold can_continue_lower. rewrite El. exact E. }
  rewrite Ecl0. cbn [andb].
  change (combine_raw kk []) with [(l - 32)%N]. rewrite (nothing_row _ Hno). rewrite El. cbn [app]. rewrite (not_row [l] x Hx).
  rewrite (not_continue kk [] Hno).
  assert (Hcc : can_continue (kb_new X r) (mkKey l 0) [] = true) by (apply C11_may_continue; exact (completable_prefix [l] _ Hx)).
  assert (Ecl : can_continue_lower (kb_new X r) kk [] = true) by (unfold can_continue_lower; rewrite El; exact Hcc).
  rewrite Ecl. unfold bind at 1. rewrite Hcap, Hm, <- ?Hb.
  match goal with |- context [transition_by_capital _ _ _ ?W] => change W with (with_frames (s :: fr) w) end.
  rewrite (transition_ok w s fr c0 c1 kk Ht Hup). rewrite Hto.
  assert (Eg : convert_greedy (x_kb (w_ctx w)) u = Some (kana, carry)) by (rewrite Hb; apply C11_force_convert; auto).
  assert (Enx : next_unprocessed_state (x_kb (w_ctx w)) (mkKey l 0) [] = [l]) by (unfold next_unprocessed_state; rewrite Hb, Hcc; reflexivity).
  exact (flush_rest w s fr c0 c1 u l kana carry Ht Hm Hp Hcap Eg Enx Ha).
Qed.
Definition flushed (kf : kana_form) (f : str) (s : cstate) : cstate := set_conf (s_conf s ++ adjust_kana_string kf (s_imode s) f) s.
Lemma flushed_nil kf s : flushed kf [] s = s.
Proof. unfold flushed. rewrite adjust_nil, app_nil_r. destruct s; reflexivity. Qed.
(** the reading *)
Lemma reading_run w s fr v0 f v keys caps ps : x_kb (w_ctx w) = kb_new X r -> idle_with v0 s -> kana_mode (s_imode s) ->
  spells X r (x_cmd (w_ctx w)) (x_kf (w_ctx w)) (x_cfg (w_ctx w)) PreComposition (s_imode s) false v [] keys ps ->
  shifted X r (x_cmd (w_ctx w)) Direct (s_imode s) v0 f keys caps -> no_keyword (cf_auto (x_cfg (w_ctx w))) (concat ps) ->
  exists b, (v = [] -> b = false) /\ run X dbg (map press caps) (with_frames (s :: fr) w)
  = Ok (map (fun _ => OutBool true) caps, with_frames (pending v b (with_reading (concat ps) (flushed (x_kf (w_ctx w)) f s)) :: fr) w).
Proof.
  intros Hb (Hm & Hp & Hraw & Hcomp & Hok & Huse & Hcap) Hi Hs (l & rest & ch & -> & -> & Hl & Hcl & Hno & Hun & Hch & H44 & H46 & Hfl) Hkw.
  assert (Ht : turns Direct PreComposition s) by (left; auto).
  assert (Ha : forall p q, concat ps = p ++ q -> no_auto (cf_auto (x_cfg (w_ctx w))) p) by (intros p q E; exact (no_keyword_auto _ _ p q Hkw E)).
  destruct Hfl as [[-> ->]|(carry0 & x0 & He0 & Hn1 & Hn2 & Hx0)].
  2:{ cbn [map]. unfold press at 1.
    rewrite (run_cons X dbg _ _ _ _ _ (exec_key X dbg _ _ _ _ (capital_flush w s fr Direct PreComposition v0 l x0 ch f carry0 Hb Ht Hm Hi Hp Hcap Hl Hno Hun Hch H44 H46 Hx0 He0 Hn1 Hn2
      ltac:(intros _; rewrite Hraw; exact (Ha [] _ eq_refl))))).
    inversion Hs as [|u k x keys ps' Hx Hlt H E1 E2 E3|u k kana carry keys ps' He Hx Hst H E1 E2 E3|u k kana He Hx Hv E1 E2 E3|u k x kana carry keys ps' He Hn Hx Hlt H E1 E2 E3|u k extra u' t keys ps' Hst Hfo Hno0 Hno1 Hsg H E1 E2 E3]; subst.
    - cbn [app] in *.
      destruct (spells_run w PreComposition (s_imode s) v [l] rest ps Hb (or_intror eq_refl) Hi H
        (set_pre [l] (change_composition_mode PreComposition (put (x_kf (w_ctx w)) Direct [f] s))) fr eq_refl eq_refl eq_refl) as (b & Hbv & E).
      + discriminate.
      + intros _ p q E. cbn [set_pre change_composition_mode change_from_old_mode set_cmode set_hist put set_conf s_raw]. rewrite Hraw. exact (Ha p q E).
      + exists b. split; [auto|]. rewrite E. cbn [map]. do 4 f_equal. unfold with_reading, flushed, pending. cbn [put map concat].
        rewrite app_nil_r. destruct s; cbn in *. subst. reflexivity.
    - exfalso. exact (Hx x0 Hx0).
    - exfalso. exact (Hx x0 Hx0).
    - exfalso. apply Hn. exact (completable_prefix ([] ++ [l]) _ Hx).
    - contradiction. }
  rewrite flushed_nil.
  assert (Efin : forall b, pending v b (put (x_kf (w_ctx w)) PreComposition ps (turned PreComposition s)) = pending v b (with_reading (concat ps) s)).
  { unfold with_reading. destruct s; cbn in *. subst. reflexivity. }
  cbn [map]. unfold press at 1.
  inversion Hs as [|u k x keys ps' Hx Hlt H E1 E2 E3|u k kana carry keys ps' He Hx Hst H E1 E2 E3|u k kana He Hx Hv E1 E2 E3|u k x kana carry keys ps' He Hn Hx Hlt H E1 E2 E3|u k extra u' t keys ps' Hst Hfo Hno0 Hno1 Hsg H E1 E2 E3]; subst.
  - cbn [app] in *.
    rewrite (run_cons X dbg _ _ _ _ _ (exec_key X dbg _ _ _ _ (capital_wait w s fr Direct PreComposition l x ch Hb Ht Hm Hi Hp Hcap Hl Hno Hun Hch H44 H46 Hx
      ltac:(intros _; rewrite Hraw; exact (Ha [] _ eq_refl))))).
    destruct (spells_run w PreComposition (s_imode s) v [l] rest ps Hb (or_intror eq_refl) Hi H (set_pre [l] (turned PreComposition s)) fr eq_refl eq_refl eq_refl) as (b & Hbv & E).
    + discriminate.
    + intros _ p q E. cbn [turned set_cap set_pre change_composition_mode change_from_old_mode set_cmode set_hist s_raw]. rewrite Hraw. exact (Ha p q E).
    + exists b. split; [auto|]. rewrite E, <- Efin. reflexivity.
  - cbn [app] in *. pose proof (capital_row w s fr Direct PreComposition l kana carry ch Hb Ht Hm Hi Hp Hcap Hl Hno Hun Hch He Hx) as Hstep.
    rewrite (row_input w (turned PreComposition s) fr PreComposition true [] kana carry eq_refl) in Hstep.
    2:{ unfold typing_mode; auto. } 2:{ discriminate. }
    2:{ intros _. cbn [turned set_cap change_composition_mode change_from_old_mode set_cmode set_hist s_raw]. rewrite Hraw. exact (Ha kana _ eq_refl). }
    rewrite (run_cons X dbg _ _ _ _ _ (exec_key X dbg _ _ _ _ Hstep)).
    destruct (spells_run w PreComposition (s_imode s) v carry rest ps' Hb (or_intror eq_refl) Hi H (carried carry (put (x_kf (w_ctx w)) PreComposition [kana] (turned PreComposition s))) fr) as (b & Hbv & Hrun).
    + now rewrite carried_mode, put_mode.
    + now rewrite carried_imode, put_imode.
    + apply carried_pre.
    + intros ->. reflexivity.
    + intros _ p q E. rewrite carried_raw, put_raw. cbn [concat]. rewrite app_nil_r.
      cbn [turned set_cap change_composition_mode change_from_old_mode set_cmode set_hist s_raw]. rewrite Hraw. cbn [app].
      apply (Ha (kana ++ p) q). cbn [concat]. now rewrite E, app_assoc.
    + exists b. split; [auto|].
      match type of Hrun with run _ _ _ ?W = _ => match goal with |- context [run X dbg (map press rest) ?W'] => change W' with W end end.
      rewrite Hrun, put_carried, <- put_cons, <- Efin. do 3 f_equal. destruct carry; reflexivity.
  - cbn [app] in *. pose proof (capital_row w s fr Direct PreComposition l kana [] ch Hb Ht Hm Hi Hp Hcap Hl Hno Hun Hch He Hx) as Hstep.
    rewrite (row_input w (turned PreComposition s) fr PreComposition true [] kana [] eq_refl) in Hstep.
    2:{ unfold typing_mode; auto. } 2:{ discriminate. }
    2:{ intros _. cbn [turned set_cap change_composition_mode change_from_old_mode set_cmode set_hist s_raw]. rewrite Hraw. apply (Ha kana []). cbn. now rewrite !app_nil_r. }
    exists false. split; [reflexivity|].
    rewrite (run_cons X dbg _ _ _ _ _ (exec_key X dbg _ _ _ _ Hstep)). cbn [map run]. unfold ret. rewrite <- Efin. reflexivity.
  - exfalso. apply Hn. exact (completable_prefix ([] ++ [l]) _ Hx).
  - contradiction.
Qed.
(** the okurigana *)
Lemma okurigana_run w s fr v0 f keys caps ps cs : x_kb (w_ctx w) = kb_new X r ->
  s_cmode s = PreComposition -> s_pre s = v0 -> s_okuri s = [] -> s_cap s = false -> s_comp s <> [] -> kana_mode (s_imode s) ->
  spells X r (x_cmd (w_ctx w)) (x_kf (w_ctx w)) (x_cfg (w_ctx w)) PreCompositionOkurigana (s_imode s) true [] [] keys ps ->
  shifted X r (x_cmd (w_ctx w)) PreComposition (s_imode s) v0 f keys caps ->
  get_all_candidates (ctx_dicts w) (mkCK (s_raw s ++ f) (Some (concat ps))) = Ok cs -> concat ps <> [] ->
  run X dbg (map press caps) (with_frames (s :: fr) w)
  = Ok (map (fun _ => OutBool true) caps,
        with_frames (offered_frames PreCompositionOkurigana cs (set_use true (set_okuri (concat ps) (change_composition_mode PreCompositionOkurigana (pending [] false (put (x_kf (w_ctx w)) PreComposition [f] s))))) fr) w).
Proof.
  intros Hb Hm Hp Hok Hcap Hcomp Hi Hs (l & rest & ch & -> & -> & Hl & Hcl & Hno & Hun & Hch & H44 & H46 & Hfl) Hcs Hps.
  set (c1 := PreCompositionOkurigana) in *.
  assert (Ht : turns PreComposition c1 s) by (right; auto).
  destruct Hfl as [[-> ->]|(carry0 & x0 & He0 & Hn1 & Hn2 & Hx0)].
  2:{ set (s0 := set_pre [l] (change_composition_mode c1 (put (x_kf (w_ctx w)) PreComposition [f] s))).
    set (s1 := set_use true (set_okuri (concat ps) (change_composition_mode c1 (pending [] false (put (x_kf (w_ctx w)) PreComposition [f] s))))).
    assert (E1 : carried [] (put (x_kf (w_ctx w)) c1 ps s0) = s1).
    { unfold s1, s0, c1. destruct ps; [cbn in Hps; congruence|]. cbn [put]. destruct s; cbn in *. subst. reflexivity. }
    assert (Ekey : get_composite_key s1 = mkCK (s_raw s ++ f) (Some (concat ps))).
    { unfold get_composite_key. change (s_use s1) with true. change (s_okuri s1) with (concat ps). change (s_raw s1) with (s_raw s ++ concat [f]).
      cbn [concat]. rewrite app_nil_r. destruct (concat ps); [congruence|reflexivity]. }
    rewrite <- Ekey in Hcs. cbn [map]. unfold press at 1.
    rewrite (run_cons X dbg _ _ _ _ _ (exec_key X dbg _ _ _ _ (capital_flush w s fr PreComposition c1 v0 l x0 ch f carry0 Hb Ht Hm Hi Hp Hcap Hl Hno Hun Hch H44 H46 Hx0 He0 Hn1 Hn2 ltac:(discriminate)))).
    fold s0.
    inversion Hs as [|u k x keys ps' Hx Hlt H E1' E2 E3|u k kana carry keys ps' He Hx Hst H E1' E2 E3|u k kana He Hx Hv E1' E2 E3|u k x kana carry keys ps' He Hn Hx Hlt H E1' E2 E3|u k extra u' t keys ps' Hst Hfo Hno0 Hno1 Hsg H E1' E2 E3]; subst.
    - cbn [app] in *.
      assert (Hc0 : s_comp s0 <> []) by (unfold s0; cbn [set_pre change_composition_mode change_from_old_mode set_cmode set_hist put set_raw set_comp s_comp]; destruct (s_comp s); [congruence|discriminate]).
      pose proof (okuri_run w (s_imode s) [l] rest ps cs Hb Hi H s0 fr ltac:(discriminate) eq_refl eq_refl eq_refl Hc0) as Ho.
      cbv zeta in Ho. fold c1 in Ho. rewrite E1 in Ho. rewrite (Ho Hcs). reflexivity.
    - exfalso. exact (Hx x0 Hx0).
    - exfalso. exact (Hx x0 Hx0).
    - exfalso. apply Hn. exact (completable_prefix ([] ++ [l]) _ Hx).
    - discriminate. }
  rewrite app_nil_r in Hcs.
  match goal with |- context [pending [] false ?P] => assert (Es : pending [] false P = s) end.
  { cbn [put concat]. rewrite !app_nil_r. destruct s; cbn in *. subst. reflexivity. }
  rewrite Es. clear Es.
  set (s1 := set_use true (set_okuri (concat ps) (change_composition_mode c1 s))).
  assert (Efin : carried [] (put (x_kf (w_ctx w)) c1 ps (turned c1 s)) = s1).
  { unfold s1, c1. destruct ps; [cbn in Hps; congruence|]. cbn [put]. destruct s; cbn in *. subst. reflexivity. }
  assert (Ekey : get_composite_key s1 = mkCK (s_raw s) (Some (concat ps))).
  { unfold get_composite_key. change (s_use s1) with true. change (s_okuri s1) with (concat ps). change (s_raw s1) with (s_raw s).
    destruct (concat ps); [congruence|reflexivity]. }
  rewrite <- Ekey in Hcs.
  cbn [map]. unfold press at 1.
  inversion Hs as [|u k x keys ps' Hx Hlt H E1 E2 E3|u k kana carry keys ps' He Hx Hst H E1 E2 E3|u k kana He Hx Hv E1 E2 E3|u k x kana carry keys ps' He Hn Hx Hlt H E1 E2 E3|u k extra u' t keys ps' Hst Hfo Hno0 Hno1 Hsg H E1 E2 E3]; subst.
  - cbn [app] in *.
    rewrite (run_cons X dbg _ _ _ _ _ (exec_key X dbg _ _ _ _ (capital_wait w s fr PreComposition c1 l x ch Hb Ht Hm Hi Hp Hcap Hl Hno Hun Hch H44 H46 Hx ltac:(discriminate)))).
    assert (E1 : carried [] (put (x_kf (w_ctx w)) c1 ps (set_pre [l] (turned c1 s))) = s1).
    { rewrite <- Efin. unfold c1. destruct ps; reflexivity. }
    pose proof (okuri_run w (s_imode s) [l] rest ps cs Hb Hi H (set_pre [l] (turned c1 s)) fr ltac:(discriminate) eq_refl eq_refl eq_refl Hcomp) as Ho.
    cbv zeta in Ho. fold c1 in Ho. rewrite E1 in Ho. rewrite (Ho Hcs). reflexivity.
  - cbn [app] in *. assert (Ec : carry <> []) by now apply Hst.
    pose proof (capital_row w s fr PreComposition c1 l kana carry ch Hb Ht Hm Hi Hp Hcap Hl Hno Hun Hch He Hx) as Hstep.
    rewrite (row_input w (turned c1 s) fr c1 true [] kana carry eq_refl) in Hstep.
    2:{ unfold typing_mode; auto. } 2:{ auto. } 2:{ discriminate. }
    rewrite (run_cons X dbg _ _ _ _ _ (exec_key X dbg _ _ _ _ Hstep)).
    set (s0 := carried carry (put (x_kf (w_ctx w)) c1 [kana] (turned c1 s))).
    assert (E1 : carried [] (put (x_kf (w_ctx w)) c1 ps' s0) = s1).
    { unfold s0. rewrite put_carried, <- put_cons, carried_twice, <- Efin. destruct carry; reflexivity. }
    pose proof (okuri_run w (s_imode s) carry rest ps' cs Hb Hi H s0 fr Ec) as Ho.
    assert (A1 : s_cmode s0 = c1) by (unfold s0; now rewrite carried_mode, put_mode).
    assert (A2 : s_imode s0 = s_imode s) by (unfold s0; now rewrite carried_imode, put_imode).
    assert (A3 : s_pre s0 = carry) by apply carried_pre.
    assert (A4 : s_comp s0 <> []) by (unfold s0; destruct carry; exact Hcomp).
    specialize (Ho A1 A2 A3 A4). cbv zeta in Ho. fold c1 in Ho. rewrite E1 in Ho. match goal with |- context [run X dbg (map press rest) ?W'] => change W' with (with_frames (s0 :: fr) w) end. rewrite (Ho Hcs). reflexivity.
  - cbn [app] in *.
    pose proof (capital_row w s fr PreComposition c1 l kana [] ch Hb Ht Hm Hi Hp Hcap Hl Hno Hun Hch He Hx) as Hstep.
    rewrite (okuri_input w (turned c1 s) fr true [] kana cs eq_refl Hcomp) in Hstep; [|fold c1; rewrite Efin; exact Hcs].
    rewrite (run_cons X dbg _ _ _ _ _ (exec_key X dbg _ _ _ _ Hstep)). fold c1. rewrite Efin. reflexivity.
  - exfalso. apply Hn. exact (completable_prefix ([] ++ [l]) _ Hx).
  - discriminate.
Qed.
(** Shift pressed late *)
Lemma late_wait w s fr c0 c1 u l x : x_kb (w_ctx w) = kb_new X r -> turns c0 c1 s ->
  s_cmode s = c0 -> kana_mode (s_imode s) -> s_pre s = u -> s_cap s = false -> late X r (x_cmd (w_ctx w)) c0 (s_imode s) u l ->
  completable X r ((u ++ [l]) ++ [x]) -> (c1 = PreComposition -> no_auto (cf_auto (x_cfg (w_ctx w))) (s_raw s)) ->
  process_key_event X dbg (mkKey (l - 32) 0) (with_frames (s :: fr) w)
  = Ok (true, with_frames (set_pre (u ++ [l]) (turned c1 s) :: fr) w).
Proof.
  intros Hb Ht Hm Hi Hp Hcap (Hl & Hc & Hno & Hun & ch & Hch & H44 & H46) Hx Ha.
  destruct (turn_typing _ _ _ Ht) as [T0 T1]. destruct (capital_facts l Hl) as (Hup & Hlow & Hto). set (kk := mkKey (l - 32) 0) in *.
  rewrite (key_unbound X dbg kk (with_frames (s :: fr) w) s fr);
    [|reflexivity|reflexivity|destruct T0 as [->|[->| ->]]; congruence|rewrite Hm; exact Hun].
  rewrite Hm, (input_typing w s fr kk c0 (s_pre s) Hm T0 Hi eq_refl). unfold input_kana. unfold bind at 1, cur at 1. cbn [x_stack w_ctx with_frames].
  unfold bind at 1, get at 1. cbn zeta. cbn [x_kb w_ctx with_frames]. rewrite Hb, Hp.
  change (combine_raw kk u) with (u ++ [(l - 32)%N]). rewrite (nothing_row _ Hno), Hup.
  assert (El : combine_lower kk u = u ++ [l]) by (unfold combine_lower; cbn [ksym kk app]; now rewrite Hlow).
  rewrite El, (not_row (u ++ [l]) x Hx).
  assert (Hch' : get_symbol_char X kk = Some ch) by exact Hch. rewrite Hch'.
  unfold input_unconverted. unfold bind at 1, cur at 1. cbn [x_stack w_ctx with_frames].
  unfold bind at 1, get at 1. cbn zeta. cbn [x_kb x_cfg w_ctx with_frames]. unfold convert_periods. apply N.eqb_neq in H44, H46. rewrite H44, H46, ?Hb.
  rewrite (not_continue kk u Hno), Hup.
  assert (Hcc : can_continue (kb_new X r) (mkKey l 0) u = true) by (apply C11_may_continue; exact Hc).
  assert (Ecl : can_continue_lower (kb_new X r) kk u = true) by (unfold can_continue_lower; rewrite El; exact Hcc).
  rewrite Ecl. cbn [andb]. unfold bind at 1. rewrite Hcap, Hm, <- ?Hb.
  match goal with |- context [transition_by_capital _ _ _ ?W] => change W with (with_frames (s :: fr) w) end.
  rewrite (transition_ok w s fr c0 c1 kk Ht Hup). rewrite Hto.
  unfold bind at 1. unfold input_as_continuous_kana. unfold bind at 1, cur at 1. cbn [x_stack w_ctx with_frames].
  unfold bind at 1, get at 1. cbn [x_kb w_ctx with_frames].
  assert (Em : s_cmode (turned c1 s) = c1) by reflexivity. rewrite Em.
  assert (En : next_unprocessed_state (x_kb (w_ctx w)) (mkKey l 0) (s_pre (turned c1 s)) = u ++ [l]).
  { cbn [turned set_cap change_composition_mode change_from_old_mode set_cmode set_hist s_pre]. rewrite Hp, Hb.
    unfold next_unprocessed_state. rewrite Hcc. reflexivity. }
  assert (Ef := finish_ok w (set_pre (u ++ [l]) (turned c1 s)) fr ltac:(cbn [set_pre s_cmode s_raw]; rewrite Em; exact Ha)).
  unfold typing_mode in T1. destruct c1; try (exfalso; intuition discriminate);
    unfold bind at 1; unfold modcur; cbn [x_stack w_ctx with_frames]; rewrite En; exact Ef.
Qed.
Lemma late_row w s fr c0 c1 u l kana carry : x_kb (w_ctx w) = kb_new X r -> turns c0 c1 s ->
  s_cmode s = c0 -> kana_mode (s_imode s) -> s_pre s = u -> s_cap s = false -> late X r (x_cmd (w_ctx w)) c0 (s_imode s) u l ->
  entry X r (u ++ [l]) kana carry -> (forall x, ~ completable X r ((u ++ [l]) ++ [x])) ->
  process_key_event X dbg (mkKey (l - 32) 0) (with_frames (s :: fr) w)
  = match input_converted_kana dbg kana carry true u (with_frames (turned c1 s :: fr) w) with
    | Ok (_, w') => Ok (true, w') | Panic e => Panic e end.
Proof.
  intros Hb Ht Hm Hi Hp Hcap (Hl & Hc & Hno & Hun & ch & Hch & H44 & H46) He Hx.
  destruct (turn_typing _ _ _ Ht) as [T0 T1]. destruct (capital_facts l Hl) as (Hup & Hlow & Hto). set (kk := mkKey (l - 32) 0) in *.
  rewrite (key_unbound X dbg kk (with_frames (s :: fr) w) s fr);
    [|reflexivity|reflexivity|destruct T0 as [->|[->| ->]]; congruence|rewrite Hm; exact Hun].
  rewrite Hm, (input_typing w s fr kk c0 (s_pre s) Hm T0 Hi eq_refl). unfold input_kana. unfold bind at 1, cur at 1. cbn [x_stack w_ctx with_frames].
  unfold bind at 1, get at 1. cbn zeta. cbn [x_kb w_ctx with_frames]. rewrite Hb, Hp.
  change (combine_raw kk u) with (u ++ [(l - 32)%N]). rewrite (nothing_row _ Hno), Hup.
  assert (El : combine_lower kk u = u ++ [l]) by (unfold combine_lower; cbn [ksym kk app]; now rewrite Hlow).
  rewrite El. rewrite (proj2 (C11_convert_at_once X r (u ++ [l]) kana carry Hd) (conj He Hx)).
  unfold bind at 1. rewrite Hcap, Hm, <- ?Hb.
  match goal with |- context [transition_by_capital _ _ _ ?W] => change W with (with_frames (s :: fr) w) end.
  rewrite (transition_ok w s fr c0 c1 kk Ht Hup). unfold bind at 1.
  destruct (input_converted_kana _ _ _ _ _ _) as [[[] w']|e]; reflexivity.
Qed.
Lemma late_reading_run w s fr v0 v l rest ps : x_kb (w_ctx w) = kb_new X r -> idle_with v0 s -> kana_mode (s_imode s) ->
  spells X r (x_cmd (w_ctx w)) (x_kf (w_ctx w)) (x_cfg (w_ctx w)) PreComposition (s_imode s) false v v0 (l :: rest) ps ->
  late X r (x_cmd (w_ctx w)) Direct (s_imode s) v0 l -> no_keyword (cf_auto (x_cfg (w_ctx w))) (concat ps) ->
  exists b, (v = [] -> b = false) /\ run X dbg (map press ((l - 32)%N :: rest)) (with_frames (s :: fr) w)
  = Ok (map (fun _ => OutBool true) ((l - 32)%N :: rest), with_frames (pending v b (with_reading (concat ps) s) :: fr) w).
Proof.
  intros Hb (Hm & Hp & Hraw & Hcomp & Hok & Huse & Hcap) Hi Hs Hlate Hkw.
  assert (Ht : turns Direct PreComposition s) by (left; auto).
  assert (Ha : forall p q, concat ps = p ++ q -> no_auto (cf_auto (x_cfg (w_ctx w))) p) by (intros p q E; exact (no_keyword_auto _ _ p q Hkw E)).
  pose proof Hlate as (Hl & Hc & _).
  assert (Efin : forall b, pending v b (put (x_kf (w_ctx w)) PreComposition ps (turned PreComposition s)) = pending v b (with_reading (concat ps) s)).
  { unfold with_reading. destruct s; cbn in *. subst. reflexivity. }
  cbn [map]. unfold press at 1.
  inversion Hs as [|u k x keys ps' Hx Hlt H E1 E2 E3|u k kana carry keys ps' He Hx Hst H E1 E2 E3|u k kana He Hx Hv E1 E2 E3|u k x kana carry keys ps' He Hn Hx Hlt H E1 E2 E3|u k extra u' t keys ps' Hst Hfo Hno0 Hno1 Hsg H E1 E2 E3]; subst u k; try subst keys; try subst ps'.
  - rewrite (run_cons X dbg _ _ _ _ _ (exec_key X dbg _ _ _ _ (late_wait w s fr Direct PreComposition v0 l x Hb Ht Hm Hi Hp Hcap Hlate Hx
      ltac:(intros _; rewrite Hraw; exact (Ha [] _ eq_refl))))).
    destruct (spells_run w PreComposition (s_imode s) v (v0 ++ [l]) rest ps Hb (or_intror eq_refl) Hi H (set_pre (v0 ++ [l]) (turned PreComposition s)) fr eq_refl eq_refl eq_refl) as (b & Hbv & E).
    + destruct v0; discriminate.
    + intros _ p q E. cbn [turned set_cap set_pre change_composition_mode change_from_old_mode set_cmode set_hist s_raw]. rewrite Hraw. exact (Ha p q E).
    + exists b. split; [auto|]. rewrite E, <- Efin. reflexivity.
  - pose proof (late_row w s fr Direct PreComposition v0 l kana carry Hb Ht Hm Hi Hp Hcap Hlate He Hx) as Hstep. subst ps.
    rewrite (row_input w (turned PreComposition s) fr PreComposition true v0 kana carry eq_refl) in Hstep.
    2:{ unfold typing_mode; auto. } 2:{ discriminate. }
    2:{ intros _. cbn [turned set_cap change_composition_mode change_from_old_mode set_cmode set_hist s_raw]. rewrite Hraw. exact (Ha kana _ eq_refl). }
    rewrite (run_cons X dbg _ _ _ _ _ (exec_key X dbg _ _ _ _ Hstep)).
    match type of H with spells _ _ _ _ _ _ _ _ _ _ _ ?q => rename q into ps' end.
    destruct (spells_run w PreComposition (s_imode s) v carry rest ps' Hb (or_intror eq_refl) Hi H (carried carry (put (x_kf (w_ctx w)) PreComposition [kana] (turned PreComposition s))) fr) as (b & Hbv & Hrun).
    + now rewrite carried_mode, put_mode.
    + now rewrite carried_imode, put_imode.
    + apply carried_pre.
    + intros ->. reflexivity.
    + intros _ p q E. rewrite carried_raw, put_raw. cbn [concat]. rewrite app_nil_r.
      cbn [turned set_cap change_composition_mode change_from_old_mode set_cmode set_hist s_raw]. rewrite Hraw. cbn [app].
      apply (Ha (kana ++ p) q). cbn [concat]. now rewrite E, app_assoc.
    + exists b. split; [auto|].
      match type of Hrun with run _ _ _ ?W = _ => match goal with |- context [run X dbg (map press rest) ?W'] => change W' with W end end.
      rewrite Hrun, put_carried, <- put_cons, <- Efin. do 3 f_equal. destruct carry; reflexivity.
  - subst. pose proof (late_row w s fr Direct PreComposition (s_pre s) l kana [] Hb Ht Hm Hi eq_refl Hcap Hlate He Hx) as Hstep.
    rewrite (row_input w (turned PreComposition s) fr PreComposition true (s_pre s) kana [] eq_refl) in Hstep.
    2:{ unfold typing_mode; auto. } 2:{ discriminate. }
    2:{ intros _. cbn [turned set_cap change_composition_mode change_from_old_mode set_cmode set_hist s_raw]. rewrite Hraw. apply (Ha kana []). cbn. now rewrite !app_nil_r. }
    exists false. split; [reflexivity|].
    rewrite (run_cons X dbg _ _ _ _ _ (exec_key X dbg _ _ _ _ Hstep)). cbn [map run]. unfold ret. rewrite <- Efin. reflexivity.
  - contradiction.
  - contradiction.
Qed.
Lemma late_double w s fr v0 l f carry : x_kb (w_ctx w) = kb_new X r -> turns PreComposition PreCompositionOkurigana s ->
  s_cmode s = PreComposition -> kana_mode (s_imode s) -> s_pre s = v0 -> s_cap s = false -> late X r (x_cmd (w_ctx w)) PreComposition (s_imode s) v0 l ->
  v0 <> [] -> entry X r (v0 ++ [l]) f carry -> (forall x, ~ completable X r ((v0 ++ [l]) ++ [x])) -> carry <> [] ->
  process_key_event X dbg (mkKey (l - 32) 0) (with_frames (s :: fr) w)
  = Ok (true, with_frames (carried carry (put (x_kf (w_ctx w)) PreComposition [f] (turned PreCompositionOkurigana s)) :: fr) w).
Proof.
  intros Hb Ht Hm Hi Hp Hcap Hlate Hv0 He Hx Hca. set (c1 := PreCompositionOkurigana) in *.
  rewrite (late_row w s fr PreComposition c1 v0 l f carry Hb Ht Hm Hi Hp Hcap Hlate He Hx).
  set (s0 := carried carry (put (x_kf (w_ctx w)) PreComposition [f] (turned c1 s))).
  assert (Ein : input_converted_kana dbg f carry true v0 (with_frames (turned c1 s :: fr) w) = Ok (tt, with_frames (s0 :: fr) w)).
  { unfold input_converted_kana. unfold bind at 1, cur at 1. cbn [x_stack w_ctx with_frames]. change (s_cmode (turned c1 s)) with PreCompositionOkurigana. cbv iota.
    assert (E0 : is_nil v0 = false) by (destruct v0; [congruence|reflexivity]). assert (E2 : is_nil carry = false) by (destruct carry; [congruence|reflexivity]).
    rewrite E0, E2. cbn [negb andb]. unfold bind at 1. unfold modcur at 1. cbn [x_stack w_ctx with_frames].
    unfold bind at 1. unfold set_carry_over, modcur at 1. cbn [x_stack w_ctx with_frames set_stack]. rewrite E2. cbn [is_nil].
    unfold bind at 1, cur at 1. cbn [x_stack w_ctx with_frames set_stack andb]. unfold ret.
    refine (f_equal (fun z => Ok (tt, with_frames (z :: fr) w)) _).
    unfold s0, carried. rewrite E2. cbn [put push_string_for concat]. rewrite app_nil_r. reflexivity. }
  now rewrite Ein.
Qed.
Lemma late_okurigana_run w s fr v0 l rest f ps cs : x_kb (w_ctx w) = kb_new X r ->
  s_cmode s = PreComposition -> s_pre s = v0 -> s_okuri s = [] -> s_cap s = false -> s_comp s <> [] -> kana_mode (s_imode s) ->
  late_okuri X r (x_cmd (w_ctx w)) (x_kf (w_ctx w)) (x_cfg (w_ctx w)) (s_imode s) v0 l rest f ps ->
  get_all_candidates (ctx_dicts w) (mkCK (s_raw s ++ f) (Some (concat ps))) = Ok cs -> concat ps <> [] ->
  run X dbg (map press ((l - 32)%N :: rest)) (with_frames (s :: fr) w)
  = Ok (map (fun _ => OutBool true) ((l - 32)%N :: rest),
        with_frames (offered_frames PreCompositionOkurigana cs (set_use true (set_okuri (concat ps) (change_composition_mode PreCompositionOkurigana (pending [] false (put (x_kf (w_ctx w)) PreComposition [f] s))))) fr) w).
Proof.
  intros Hb Hm Hp Hok Hcap Hcomp Hi (Hlate & Hcase) Hcs Hps. set (c1 := PreCompositionOkurigana) in *.
  assert (Ht : turns PreComposition c1 s) by (right; auto). pose proof Hlate as (Hl & Hc & _).
  set (s1 := set_use true (set_okuri (concat ps) (change_composition_mode c1 (pending [] false (put (x_kf (w_ctx w)) PreComposition [f] s))))).
  assert (Ekey : get_composite_key s1 = mkCK (s_raw s ++ f) (Some (concat ps))).
  { unfold get_composite_key. change (s_use s1) with true. change (s_okuri s1) with (concat ps). change (s_raw s1) with (s_raw s ++ concat [f]).
    cbn [concat]. rewrite app_nil_r. destruct (concat ps); [congruence|reflexivity]. }
  rewrite <- Ekey in Hcs. cbn [map]. unfold press at 1.
  destruct Hcase as [(carry & Hv0 & He & Hx & Hca & H)|(-> & Hnc & Hs)].
  - pose proof (late_double w s fr v0 l f carry Hb Ht Hm Hi Hp Hcap Hlate Hv0 He Hx Hca) as Hstep.
    fold c1 in Hstep. set (s0 := carried carry (put (x_kf (w_ctx w)) PreComposition [f] (turned c1 s))) in *.
    rewrite (run_cons X dbg _ _ _ _ _ (exec_key X dbg _ _ _ _ Hstep)).
    assert (E1 : carried [] (put (x_kf (w_ctx w)) c1 ps s0) = s1).
    { unfold s1, s0, c1, carried. destruct carry; [congruence|]. destruct ps; [cbn in Hps; congruence|]. cbn [put is_nil]. destruct s; cbn in *. subst. reflexivity. }
    assert (A1 : s_cmode s0 = c1) by (unfold s0; destruct carry; reflexivity).
    assert (A2 : s_imode s0 = s_imode s) by (unfold s0; destruct carry; reflexivity).
    assert (A3 : s_pre s0 = carry) by apply carried_pre.
    assert (A4 : s_comp s0 <> []) by (unfold s0; destruct carry; cbn; destruct (s_comp s); [congruence|discriminate|congruence|discriminate]).
    pose proof (okuri_run w (s_imode s) carry rest ps cs Hb Hi H s0 fr Hca A1 A2 A3 A4) as Ho. cbv zeta in Ho. fold c1 in Ho. rewrite E1 in Ho.
    fold s0. rewrite (Ho Hcs). reflexivity.
  - assert (Efin : carried [] (put (x_kf (w_ctx w)) c1 ps (turned c1 s)) = s1).
    { unfold s1, c1. destruct ps; [cbn in Hps; congruence|]. cbn [put concat]. rewrite !app_nil_r. destruct s; cbn in *. subst. reflexivity. }
    inversion Hs as [|u k x keys ps' Hx Hlt H E1 E2 E3|u k kana carry keys ps' He Hx Hst H E1 E2 E3|u k kana He Hx Hv E1 E2 E3|u k x kana carry keys ps' He Hn Hx Hlt H E1 E2 E3|u k extra u' t keys ps' Hst Hfo Hno0 Hno1 Hsg H E1 E2 E3]; subst u k; try subst keys; try subst ps'.
    + rewrite (run_cons X dbg _ _ _ _ _ (exec_key X dbg _ _ _ _ (late_wait w s fr PreComposition c1 v0 l x Hb Ht Hm Hi Hp Hcap Hlate Hx ltac:(discriminate)))).
      assert (E1 : carried [] (put (x_kf (w_ctx w)) c1 ps (set_pre (v0 ++ [l]) (turned c1 s))) = s1).
      { rewrite <- Efin. unfold c1. destruct ps; reflexivity. }
      pose proof (okuri_run w (s_imode s) (v0 ++ [l]) rest ps cs Hb Hi H (set_pre (v0 ++ [l]) (turned c1 s)) fr ltac:(destruct v0; discriminate) eq_refl eq_refl eq_refl Hcomp) as Ho.
      cbv zeta in Ho. fold c1 in Ho. rewrite E1 in Ho. rewrite (Ho Hcs). reflexivity.
    + exfalso. apply (Hst eq_refl). exact (Hnc _ _ He).
    + subst. pose proof (late_row w s fr PreComposition c1 (s_pre s) l kana [] Hb Ht Hm Hi eq_refl Hcap Hlate He Hx) as Hstep.
      rewrite (okuri_input w (turned c1 s) fr true (s_pre s) kana cs eq_refl Hcomp) in Hstep; [|fold c1; rewrite Efin; exact Hcs].
      rewrite (run_cons X dbg _ _ _ _ _ (exec_key X dbg _ _ _ _ Hstep)). fold c1. rewrite Efin. reflexivity.
    + contradiction.
    + discriminate.
Qed.
End Word.

(* ------------------------------------------------------------------ C10 *)
(** Romaji in Direct mode, carry-over, the syllabic n and punctuation included: exactly the
    kana of the rows, in the form of the input mode. *)
Theorem C10_spelled : forall X dbg r w s rest keys ps, distinct_keys X r -> x_kb (w_ctx w) = kb_new X r ->
  frames w = s :: rest -> s_cmode s = Direct -> kana_mode (s_imode s) -> s_pre s = [] -> s_cap s = false ->
  spells X r (x_cmd (w_ctx w)) (x_kf (w_ctx w)) (x_cfg (w_ctx w)) Direct (s_imode s) false [] [] keys ps ->
  run X dbg (map press keys) w
  = Ok (map (fun _ => OutBool true) keys,
        with_frames (set_conf (s_conf s ++ concat (map (adjust_kana_string (x_kf (w_ctx w)) (s_imode s)) ps)) s :: rest) w).
Proof.
  intros X dbg r w s fr keys ps Hd Hb Hf Hm Hi Hp Hcap Hs.
  rewrite <- (with_frames_same w (s :: fr) Hf) at 1.
  destruct (spells_run X dbg r Hd w Direct (s_imode s) [] [] keys ps Hb (or_introl eq_refl) Hi Hs s fr Hm eq_refl Hp ltac:(auto) ltac:(discriminate)) as (b & Hv & E).
  rewrite E, (Hv (or_introl eq_refl)). cbn [put]. do 4 f_equal. destruct s; cbn in *; subst; reflexivity.
Qed.

(* ------------------------------------------------------------------ C71 *)
(** Typing the reading of a word: every key is used; the reading is what is shown after the mark, and a
    syllabic n pending before it is confirmed first. *)
Theorem C71_reading : forall X dbg r w s rest v0 f keys caps ps, distinct_keys X r -> x_kb (w_ctx w) = kb_new X r ->
  frames w = s :: rest -> idle_with v0 s -> kana_mode (s_imode s) ->
  spells X r (x_cmd (w_ctx w)) (x_kf (w_ctx w)) (x_cfg (w_ctx w)) PreComposition (s_imode s) false [] [] keys ps ->
  shifted X r (x_cmd (w_ctx w)) Direct (s_imode s) v0 f keys caps -> no_keyword (cf_auto (x_cfg (w_ctx w))) (concat ps) ->
  exists s', run X dbg (map press caps) w = Ok (map (fun _ => OutBool true) caps, with_frames (s' :: rest) w)
  /\ s' = set_pre [] (with_reading (concat ps) (flushed (x_kf (w_ctx w)) f s))
  /\ preedit_string X (x_kf (w_ctx w)) (s_imode s) s'
     = s_conf s ++ adjust_kana_string (x_kf (w_ctx w)) (s_imode s) f ++ U "▽" ++ adjust_kana_string (x_kf (w_ctx w)) (s_imode s) (concat ps).
Proof.
  intros X dbg r w s fr v0 f keys caps ps Hd Hb Hf Hidle Hi Hs Hsh Hk.
  destruct (reading_run X dbg r Hd w s fr v0 f [] keys caps ps Hb Hidle Hi Hs Hsh Hk) as (b & Hv & E).
  exists (pending [] b (with_reading (concat ps) (flushed (x_kf (w_ctx w)) f s))). split; [|split].
  - rewrite <- (with_frames_same w (s :: fr) Hf) at 1. exact E.
  - rewrite (Hv eq_refl). destruct Hidle as (_ & _ & _ & _ & _ & _ & Hcap). destruct s; cbn in *; subst; reflexivity.
  - destruct Hidle as (Hm & Hp & Hraw & Hcomp & Hok & Huse & Hcap). unfold preedit_string, preedit_detail.
    cbn [pending with_reading flushed set_conf set_cap set_pre set_raw set_comp change_composition_mode change_from_old_mode set_cmode set_hist s_cmode s_comp s_conf s_okuri s_pre s_imode render odef unconverted_text map].
    rewrite <- app_assoc. now rewrite app_nil_r.
Qed.
(** The frame after a confirmation. *)
Definition confirmed (text : str) (s s' : cstate) : Prop :=
  s_conf s' = s_conf s ++ text /\ s_imode s' = s_imode s /\ s_default s' = s_default s /\ s_cmode s' = s_default s
  /\ s_pre s' = [] /\ s_raw s' = [] /\ s_comp s' = [] /\ s_okuri s' = [] /\ s_use s' = false /\ s_cap s' = false /\ cl_list (s_list s') = [] /\ s_hist s' = [].
Definition told (c : candidate) (w : world) : world :=
  set_store (upd_dicts (x_dicts (w_ctx w)) (fun d => select_candidate d c) (w_store w)) w.
Lemma run_two X dbg l1 l2 w o1 w1 : run X dbg l1 w = Ok (o1, w1) ->
  run X dbg (l1 ++ l2) w = match run X dbg l2 w1 with Ok (o2, w2) => Ok (o1 ++ o2, w2) | Panic e => Panic e end.
Proof.
  revert w o1. induction l1 as [|o l1 IH]; intros w o1 H; cbn [app run] in *.
  - injection H as <- <-. cbn [app]. destruct (run X dbg l2 w) as [[? ?]|]; reflexivity.
  - unfold bind at 1 in H. unfold bind at 1. destruct (exec X dbg o w) as [[x w0]|]; [|discriminate].
    unfold bind at 1 in H. unfold bind at 1. destruct (run X dbg l1 w0) as [[xs w']|] eqn:E; [|discriminate].
    injection H as <- <-. rewrite (IH w0 xs E). destruct (run X dbg l2 w') as [[? ?]|]; reflexivity.
Qed.
Lemma confirm_exact X dbg k w s rest cs j c : frames w = s :: rest -> choosing s cs j -> nth_error cs j = Some c ->
  runs w k [IConfirmComposition] ->
  exists s', process_key_event X dbg k w = Ok (true, with_frames (s' :: rest) (told c w))
    /\ confirmed (c_output c ++ adjust_kana_string (x_kf (w_ctx w)) (s_imode s) (s_okuri s)) s s'.
Proof.
  intros Hf (Hm & Hcl & Hcu & Hj & Hn) Hc Hr. unfold frames in Hf. rewrite (runs_process X dbg k w _ s rest Hr Hf).
  eexists. split.
  - apply one_instruction. cbn [run_instr]. unfold bind at 1. unfold confirm_current. unfold bind at 1. unfold cur at 1. rewrite Hf. cbn iota.
    unfold bind at 1. unfold get at 1. unfold cursor in Hcu. unfold cl_current. rewrite Hcu, Nat2N.id, Hcl, Hc.
    unfold bind at 1. unfold for_dicts at 1. unfold modcur. cbn [set_store w_ctx]. rewrite Hf. reflexivity.
  - unfold push_string. rewrite Hm. unfold confirmed. repeat split; reflexivity.
Qed.
Lemma command_runs X r w s rest k l : distinct_keys X r -> x_kb (w_ctx w) = kb_new X r -> frames w = s :: rest -> s_cmode s <> Register ->
  outside X r (s_pre s) k -> commands (x_cmd (w_ctx w)) (s_cmode s) (s_imode s) k l -> runs w k l.
Proof.
  intros Hd Hb Hf Hm Ho (Hr & Hbd). split; [exact Hr|]. exists s. split; [unfold current; unfold frames in Hf; now rewrite Hf|].
  split; [exact Hm|]. split; [|exact Hbd].
  unfold completes, skip_command. destruct Ho as [Ho|(H1 & H2)]; [now rewrite Ho|]. rewrite Hb. unfold combine_lower, combine_raw.
  rewrite (nothing_row X r Hd _ H1), (nothing_row X r Hd _ H2). cbn [orb]. now rewrite !andb_false_r.
Qed.
(** where no romaji is typed, pending keys do not matter *)
Lemma command_runs_plain w s rest k l : frames w = s :: rest -> s_cmode s <> Register -> has_rom2kana_conversion (s_imode s) (s_cmode s) = false ->
  commands (x_cmd (w_ctx w)) (s_cmode s) (s_imode s) k l -> runs w k l.
Proof.
  intros Hf Hm Hk (Hr & Hbd). split; [exact Hr|]. exists s. split; [unfold current; unfold frames in Hf; now rewrite Hf|].
  split; [exact Hm|]. split; [|exact Hbd]. unfold completes, skip_command. rewrite Hk. cbn [andb]. apply andb_false_r.
Qed.
Lemma repeat_snoc {A} (x : A) n : repeat x n ++ [x] = repeat x (S n).
Proof. induction n; cbn; [reflexivity|]. now rewrite IHn. Qed.
Lemma map_repeat_true {A} (l : list A) : map (fun _ => OutBool true) l = repeat (OutBool true) (length l).
Proof. induction l; cbn; congruence. Qed.

(** ** Deciding the hypotheses for a concrete rule *)
Section Decide.
Context (X : xkb) (r : rule) (cr : command_rule) (kf : kana_form) (cf : config) (i : imode).
Definition row_seq (e : str * (str * str)) : list N := keysyms_from_str X (fst e).
Definition entry_of (u : list N) : option (str * list N) :=
  match find (fun e => str_eqb (row_seq e) u) (r_conversion r) with
  | Some e => Some (snd (snd e), keysyms_from_str X (fst (snd e)))
  | None => None
  end.
Definition completable_b (u : list N) : bool := existsb (fun e => is_prefixb u (row_seq e)) (r_conversion r).
Definition next_of (u : list N) : option N :=
  match find (fun e => is_prefixb u (row_seq e) && Nat.ltb (length u) (length (row_seq e))) (r_conversion r) with
  | Some e => nth_error (row_seq e) (length u)
  | None => None
  end.
Definition unbound_b (c : cmode) (sym : N) : bool :=
  forallb (fun e : keyev * list instr => negb (key_eqb (fst e) (command_key (mkKey sym 0)))) (cr c i).
Definition char_b (sym : N) : bool := match xk_char X sym with Some ch => negb (N.eqb ch 44) && negb (N.eqb ch 46) | None => false end.
Definition letter_b (c : cmode) (sym : N) : bool := negb (N.leb 65 sym && N.leb sym 90) && unbound_b c sym && char_b sym.
Definition in_kana (c : cmode) (ch : N) : bool := match c with Direct => str_eqb (adjust_kana_string kf i [ch]) [ch] | _ => true end.
Definition sign_of (c : cmode) (sym : N) : option str :=
  if negb (N.leb 65 sym && N.leb sym 90) && unbound_b c sym then
    match xk_char X sym with
    | Some ch => match convert_periods ch (cf_period cf) (cf_comma cf) with
                 | Some t => Some t
                 | None => if N.leb 32 sym && N.leb sym 126 && in_kana c ch then Some [ch] else None
                 end
    | None => None
    end
  else None.
Definition extra_of (u : list N) : str := match entry_of u with Some (kana, _) => kana | None => [] end.
Definition and_then (l : list str) (x : option (list str * list N)) : option (list str * list N) :=
  match x with Some (ps, v) => Some (l ++ ps, v) | None => None end.
Fixpoint spell (c : cmode) (stop : bool) (u keys : list N) : option (list str * list N) :=
  match keys with
  | [] => Some ([], u)
  | k :: rest =>
      match next_of (u ++ [k]) with
      | Some _ => if letter_b c k then spell c stop (u ++ [k]) rest else None
      | None =>
          match entry_of (u ++ [k]) with
          | Some (kana, carry) =>
              if stop && is_nil carry then (if is_nil rest then Some ([kana], []) else None) else and_then [kana] (spell c stop carry rest)
          | None =>
              if completable_b (u ++ [k]) then None else
              match next_of [k] with
              | Some _ => match entry_of u with
                          | Some (kana, _) => if letter_b c k then and_then [kana] (spell c stop [k] rest) else None
                          | None => None
                          end
              | None => if stop || completable_b [k] then None else
                        match sign_of c k with Some t => and_then [extra_of u; t] (spell c stop [] rest) | None => None end
              end
          end
      end
  end.
Lemma entry_of_spec u kana carry : entry_of u = Some (kana, carry) -> entry X r u kana carry.
Proof.
  unfold entry_of. destruct (find _ _) as [[k [cy cv]]|] eqn:E; [|discriminate]. apply find_some in E as [Hin E]. apply str_eqb_eq in E.
  cbn [fst snd]. intros [= <- <-]. exists k, cy. auto.
Qed.
Lemma entry_of_none u : entry_of u = None -> forall kana carry, ~ entry X r u kana carry.
Proof.
  unfold entry_of. destruct (find _ _) as [e|] eqn:E; [discriminate|]. intros _ kana carry (k & cy & Hin & Ek & _).
  apply (find_none _ _ E) in Hin. unfold row_seq in Hin. cbn [fst] in Hin. rewrite Ek, str_eqb_refl in Hin. discriminate.
Qed.
Lemma extra_of_spec u : exists u', forced X r u (extra_of u) u'.
Proof.
  unfold extra_of. destruct (entry_of u) as [[kana carry]|] eqn:E.
  - exists carry. left. now apply entry_of_spec.
  - exists u. right. split; [now apply entry_of_none|auto].
Qed.
Lemma completable_b_spec u : completable_b u = false -> ~ completable X r u.
Proof.
  intros H (k & v & Hin & rest & E). assert (completable_b u = true); [|congruence].
  apply existsb_exists. exists (k, v). split; [exact Hin|]. apply is_prefixb_spec. exists rest. exact E.
Qed.
Lemma next_of_some u x : next_of u = Some x -> completable X r (u ++ [x]).
Proof.
  unfold next_of. destruct (find _ _) as [[k v]|] eqn:E; [|discriminate]. apply find_some in E as [Hin E]. apply andb_prop in E as [E _].
  apply is_prefixb_spec in E as [rest E]. intros Hx. rewrite E in Hx. rewrite nth_error_app2, Nat.sub_diag in Hx by lia. destruct rest as [|y rest]; [discriminate|].
  injection Hx as ->. exists k, v. split; [exact Hin|]. exists rest. unfold row_seq in E. cbn [fst] in E. rewrite E, <- app_assoc. reflexivity.
Qed.
Lemma next_of_none u : next_of u = None -> forall x, ~ completable X r (u ++ [x]).
Proof.
  unfold next_of. intros H x (k & v & Hin & rest & E).
  destruct (find _ _) as [e|] eqn:F.
  - apply find_some in F as [_ F]. apply andb_prop in F as [_ F]. apply Nat.ltb_lt in F. apply nth_error_None in H. lia.
  - apply (find_none _ _ F) in Hin. unfold row_seq in Hin. cbn [fst] in Hin. rewrite E in Hin.
    assert (A : is_prefixb u ((u ++ [x]) ++ rest) = true) by (apply is_prefixb_spec; exists ([x] ++ rest); now rewrite app_assoc).
    rewrite A in Hin. cbn [andb] in Hin. apply Nat.ltb_ge in Hin. rewrite !app_length in Hin. cbn in Hin. lia.
Qed.
Lemma unbound_b_spec c sym : unbound_b c sym = true -> unbound cr c i (mkKey sym 0).
Proof.
  intros H k' l Hin E. unfold unbound_b in H. rewrite forallb_forall in H. specialize (H _ Hin). cbn [fst] in H. rewrite E in H.
  assert (key_eqb (command_key (mkKey sym 0)) (command_key (mkKey sym 0)) = true) by now apply key_eqb_eq. rewrite H0 in H. discriminate.
Qed.
Lemma char_b_spec sym : char_b sym = true -> exists ch, xk_char X sym = Some ch /\ ch <> 44%N /\ ch <> 46%N.
Proof.
  unfold char_b. destruct (xk_char X sym) as [ch|]; [|discriminate]. intros H. apply andb_prop in H as [Ha Hb].
  apply Bool.negb_true_iff in Ha, Hb. apply N.eqb_neq in Ha, Hb. eauto.
Qed.
Lemma letter_b_spec c sym : letter_b c sym = true -> letter X cr c i sym.
Proof.
  intros H. apply andb_prop in H as [H H3]. apply andb_prop in H as [H1 H2]. split; [|split].
  - intros [Ha Hb]. apply N.leb_le in Ha, Hb. rewrite Ha, Hb in H1. discriminate.
  - apply unbound_b_spec, H2.
  - apply char_b_spec, H3.
Qed.
Lemma sign_of_spec c sym t : sign_of c sym = Some t -> sign X cr kf cf c i sym t.
Proof.
  unfold sign_of. destruct (_ && _) eqn:E; [|discriminate]. apply andb_prop in E as [E1 E2].
  destruct (xk_char X sym) as [ch|] eqn:Ec; [|discriminate]. intros H. split; [|split; [now apply unbound_b_spec|exists ch; split; [exact Ec|]]].
  - intros [Ha Hb]. apply N.leb_le in Ha, Hb. rewrite Ha, Hb in E1. discriminate.
  - unfold convert_periods in H. destruct (N.eqb_spec ch 46) as [->|N46]; [injection H as <-; left; left; auto|].
    destruct (N.eqb_spec ch 44) as [->|N44]; [injection H as <-; left; right; auto|]. right.
    destruct (N.leb 32 sym && N.leb sym 126 && in_kana c ch) eqn:E; [|discriminate H]. injection H as <-. apply andb_prop in E as [E E3]. apply andb_prop in E as [Ea Eb].
    apply N.leb_le in Ea, Eb. repeat split; auto. intros ->. cbn in E3. now apply str_eqb_eq in E3.
Qed.
Lemma spell_spec c stop keys : forall u ps v, spell c stop u keys = Some (ps, v) -> spells X r cr kf cf c i stop v u keys ps.
Proof.
  induction keys as [|k keys IH]; intros u ps v H; cbn [spell] in H.
  - injection H as <- <-. constructor.
  - destruct (next_of (u ++ [k])) as [x|] eqn:En.
    + destruct (letter_b c k) eqn:El; [|discriminate]. apply next_of_some in En. eapply spells_wait; eauto. now apply letter_b_spec.
    + destruct (entry_of (u ++ [k])) as [[kana carry]|] eqn:Ee.
      * apply entry_of_spec in Ee. destruct (stop && is_nil carry) eqn:Es.
        -- apply andb_prop in Es as [-> Ec]. apply is_nil_true in Ec as ->. destruct keys; [|discriminate]. injection H as <- <-.
           apply spells_last; [exact Ee|now apply next_of_none|reflexivity].
        -- unfold and_then in H. destruct (spell c stop carry keys) as [[ps' v']|] eqn:E; [|discriminate]. injection H as <- <-.
           apply (spells_row X r cr kf cf c i stop v' u k kana carry keys ps'); [exact Ee|now apply next_of_none| |now apply IH]. intros -> ->. discriminate Es.
      * destruct (completable_b (u ++ [k])) eqn:Ecb; [discriminate|]. apply completable_b_spec in Ecb.
        destruct (next_of [k]) as [x|] eqn:Ek.
        -- destruct (entry_of u) as [[kana carry]|] eqn:Eu; [|discriminate]. destruct (letter_b c k) eqn:El; [|discriminate].
           unfold and_then in H. destruct (spell c stop [k] keys) as [[ps' v']|] eqn:E; [|discriminate]. injection H as <- <-.
           apply (spells_flush X r cr kf cf c i stop v' u k x kana carry keys ps'); [now apply entry_of_spec|exact Ecb|now apply next_of_some|now apply letter_b_spec|now apply IH].
        -- destruct (stop || completable_b [k]) eqn:Es; [discriminate|]. apply orb_false_elim in Es as [-> Ek1]. apply completable_b_spec in Ek1.
           destruct (sign_of c k) as [t|] eqn:Et; [|discriminate].
           unfold and_then in H. destruct (spell c false [] keys) as [[ps' v']|] eqn:E; [|discriminate]. injection H as <- <-.
           destruct (extra_of_spec u) as [u' Hu']. apply (spells_sign X r cr kf cf c i false v' u k (extra_of u) u' t keys ps'); auto. now apply sign_of_spec.
Qed.
Definition shift_of (c0 : cmode) (v0 keys : list N) : option str :=
  match keys with
  | [] => None
  | l :: _ => if N.leb 97 l && N.leb l 122 && completable_b [l] && negb (completable_b [(l - 32)%N]) && unbound_b c0 (l - 32) && char_b (l - 32) then
      match v0 with
      | [] => Some []
      | _ => match entry_of v0, next_of [l] with
             | Some (f, _), Some _ => if negb (completable_b (v0 ++ [(l - 32)%N])) && negb (completable_b (v0 ++ [l])) then Some f else None
             | _, _ => None
             end
      end else None
  end.
Definition caps (keys : list N) : list N := match keys with l :: rest => (l - 32)%N :: rest | [] => [] end.
Lemma completable_b_true u : completable_b u = true -> completable X r u.
Proof.
  intros H. apply existsb_exists in H as ([k v] & Hin & H). apply is_prefixb_spec in H as [rest H]. exists k, v. split; [exact Hin|]. exists rest. exact H.
Qed.
Lemma shift_of_spec c0 v0 f keys : shift_of c0 v0 keys = Some f -> shifted X r cr c0 i v0 f keys (caps keys).
Proof.
  unfold shift_of. destruct keys as [|l rest]; [discriminate|]. destruct (_ && _) eqn:H; [|discriminate]. intros F. repeat apply andb_prop in H as [H ?].
  apply char_b_spec in H0 as (ch & Hch & H44 & H46). apply negb_true_iff in H2. exists l, rest, ch.
  apply N.leb_le in H, H4. split; [reflexivity|]. split; [reflexivity|]. split; [auto|]. split; [now apply completable_b_true|].
  split; [now apply completable_b_spec|]. split; [now apply unbound_b_spec|]. split; [exact Hch|]. split; [exact H44|]. split; [exact H46|].
  destruct v0 as [|a v0]; [injection F as <-; auto|]. right.
  destruct (entry_of (a :: v0)) as [[f' carry]|] eqn:E; [|discriminate]. destruct (next_of [l]) as [x|] eqn:Ex; [|discriminate].
  destruct (_ && _) eqn:En; [|discriminate]. injection F as <-. apply andb_prop in En as [E1 E2]. apply negb_true_iff in E1, E2.
  exists carry, x. split; [now apply entry_of_spec|]. split; [now apply completable_b_spec|]. split; [now apply completable_b_spec|now apply next_of_some].
Qed.
(* a late capital *)
Definition late_b (c0 : cmode) (v0 : list N) (l : N) : bool :=
  N.leb 97 l && N.leb l 122 && completable_b (v0 ++ [l]) && negb (completable_b (v0 ++ [(l - 32)%N])) && unbound_b c0 (l - 32) && char_b (l - 32).
Lemma late_b_spec c0 v0 l : late_b c0 v0 l = true -> late X r cr c0 i v0 l.
Proof.
  unfold late_b. intros H. repeat apply andb_prop in H as [H ?]. apply char_b_spec in H0 as (ch & Hch & H44 & H46). apply negb_true_iff in H2.
  apply N.leb_le in H, H4. split; [auto|]. split; [now apply completable_b_true|]. split; [now apply completable_b_spec|]. split; [now apply unbound_b_spec|]. eauto.
Qed.
Definition no_carry_b (u : list N) : bool := forallb (fun e => negb (str_eqb (row_seq e) u) || is_nil (keysyms_from_str X (fst (snd e)))) (r_conversion r).
Lemma no_carry_b_spec u : no_carry_b u = true -> forall kana carry, entry X r u kana carry -> carry = [].
Proof.
  unfold no_carry_b. rewrite forallb_forall. intros H kana carry (k & cy & Hin & Ek & Ec). specialize (H _ Hin). unfold row_seq in H. cbn [fst snd] in H.
  apply orb_prop in H as [H|H]; [apply negb_true_iff in H; assert (E : str_eqb (keysyms_from_str X k) u = true) by (apply str_eqb_eq; exact Ek); congruence|].
  apply is_nil_true in H. congruence.
Qed.
Definition late_okuri_of (v0 : list N) (l : N) (rest : list N) : option (str * list str) :=
  if late_b PreComposition v0 l && negb (is_nil v0) then
    if no_carry_b (v0 ++ [l]) then
      match spell PreCompositionOkurigana true v0 (l :: rest) with Some (ps, []) => Some ([], ps) | _ => None end
    else
      match entry_of (v0 ++ [l]), next_of (v0 ++ [l]) with
      | Some (f, carry), None => match spell PreCompositionOkurigana true carry rest with Some (ps, []) => if is_nil carry then None else Some (f, ps) | _ => None end
      | _, _ => None
      end
  else None.
Lemma late_okuri_of_spec v0 l rest f ps : late_okuri_of v0 l rest = Some (f, ps) -> late_okuri X r cr kf cf i v0 l rest f ps.
Proof.
  unfold late_okuri_of. destruct (late_b PreComposition v0 l && negb (is_nil v0)) eqn:E; [|discriminate]. apply andb_prop in E as [E1 E2]. apply late_b_spec in E1.
  intros H. split; [exact E1|]. destruct (no_carry_b (v0 ++ [l])) eqn:En.
  - destruct (spell PreCompositionOkurigana true v0 (l :: rest)) as [[ps' [|? ?]]|] eqn:Es; try discriminate. injection H as <- <-. right.
    split; [reflexivity|]. split; [now apply no_carry_b_spec|]. now apply spell_spec.
  - destruct (entry_of (v0 ++ [l])) as [[f' carry]|] eqn:Ee; [|discriminate]. destruct (next_of (v0 ++ [l])) eqn:Ex; [discriminate|].
    destruct (spell PreCompositionOkurigana true carry rest) as [[ps' [|? ?]]|] eqn:Es; try discriminate. destruct (is_nil carry) eqn:Ec; [discriminate|]. injection H as <- <-. left.
    exists carry. split; [apply negb_true_iff in E2; now apply is_nil_false|]. split; [now apply entry_of_spec|]. split; [now apply next_of_none|].
    split; [now apply is_nil_false|]. now apply spell_spec.
Qed.
Definition no_keyword_b (kws : list str) (reading : str) : bool :=
  forallb (fun n => forallb (fun kw => negb (is_suffixb kw (firstn n reading)) || Nat.eqb (length kw) (length (firstn n reading))) kws) (seq 0 (S (length reading))).
Lemma no_keyword_b_spec kws reading : no_keyword_b kws reading = true -> no_keyword kws reading.
Proof.
  intros H p q kw before E Hin Ep. unfold no_keyword_b in H. rewrite forallb_forall in H.
  assert (Hp : In (length p) (seq 0 (S (length reading)))) by (apply in_seq; rewrite E, app_length; lia).
  specialize (H (length p) Hp). rewrite E in H. rewrite firstn_app, Nat.sub_diag, firstn_all, firstn_O, app_nil_r in H.
  rewrite forallb_forall in H. specialize (H _ Hin). apply orb_prop in H as [H|H].
  - apply negb_true_iff in H. assert (is_suffixb kw p = true) by (apply is_suffixb_spec; eauto). congruence.
  - apply Nat.eqb_eq in H. rewrite Ep, app_length in H. destruct before; [reflexivity|cbn in H; lia].
Qed.
Definition command_of (c : cmode) (k : keyev) : option (list instr) := if has_mod k M_RELEASE then None else assoc_key (command_key k) (cr c i).
Lemma command_of_spec c k l : command_of c k = Some l -> commands cr c i k l.
Proof. unfold command_of, commands. destruct (has_mod k M_RELEASE); [discriminate|]. split; [reflexivity|exact H]. Qed.
Definition outside_b (v : list N) (k : keyev) : bool :=
  negb (is_modifierless_input k) || negb (completable_b (v ++ [ksym k])) && negb (completable_b (v ++ [uncapitalize (ksym k)])).
Lemma outside_b_spec v k : outside_b v k = true -> outside X r v k.
Proof.
  intros H. apply orb_prop in H as [H|H]; [left; now apply negb_true_iff|right]. apply andb_prop in H as [H1 H2]. apply negb_true_iff in H1, H2.
  split; now apply completable_b_spec.
Qed.
End Decide.
