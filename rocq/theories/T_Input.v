(** Theorems about kana input: C13, C50, C53. *)
From Verif Require Import Str Keys Modes KanaBuilder FormChanger DictTypes Parser Lru
  Dictionary CState Context DefaultRule Demo Spec P_Monad P_Frames P_Inv P_Kana P_Step P_Confirmed T_Frames T_Keys T_Romaji.

(** Text entered in a kana mode: confirmed at once in Direct mode (in the kana form of the
    input mode), part of the reading in PreComposition, part of the okurigana after that. *)
Definition entered (kf : kana_form) (t : str) (s s' : cstate) : Prop :=
  s_cmode s' = s_cmode s /\ s_imode s' = s_imode s /\ s_hist s' = s_hist s /\ s_list s' = s_list s /\
  match s_cmode s with
  | Direct => s_conf s' = s_conf s ++ adjust_kana_string kf (s_imode s) t
              /\ s_comp s' = s_comp s /\ s_raw s' = s_raw s /\ s_okuri s' = s_okuri s
  | PreComposition => s_comp s' = s_comp s ++ t /\ s_raw s' = s_raw s ++ t
              /\ s_conf s' = s_conf s /\ s_okuri s' = s_okuri s
  | PreCompositionOkurigana => s_okuri s' = s_okuri s ++ t
              /\ s_comp s' = s_comp s /\ s_raw s' = s_raw s /\ s_conf s' = s_conf s
  | _ => False
  end.
(** No conversion starts by itself: no auto-start keyword ends the reading [t]. *)
Definition no_auto_start (kws : list str) (t : str) : Prop :=
  forall kw, In kw kws -> t <> kw -> forall p, t <> p ++ kw.
Lemma no_auto_start_spec kws t : no_auto_start kws t -> matching_keyword kws t = None.
Proof.
  intros H. unfold matching_keyword. destruct (find _ kws) as [kw|] eqn:E; [|reflexivity].
  apply find_some in E as [Hin E]. apply andb_prop in E as [E1 E2]. apply is_suffixb_spec in E2 as [p E2].
  exfalso. apply (H kw Hin) with (p := p); [|exact E2]. intros ->. rewrite str_eqb_refl in E1. discriminate.
Qed.
Lemma auto_start_none dbg w s fr : s_cmode s = PreComposition ->
  no_auto_start (cf_auto (x_cfg (w_ctx w))) (s_raw s) ->
  auto_start_henkan dbg (with_frames (s :: fr) w) = Ok (tt, with_frames (s :: fr) w).
Proof.
  intros Hc Hn. unfold auto_start_henkan. sxu. rewrite Hc. sxu.
  replace (ck_to (get_composite_key s)) with (s_raw s) by (unfold get_composite_key; destruct (_ && _); reflexivity).
  rewrite (no_auto_start_spec _ _ Hn). reflexivity.
Qed.
Lemma finish_none dbg w t fr {c} : s_cmode t = c ->
  (c = PreComposition -> no_auto_start (cf_auto (x_cfg (w_ctx w))) (s_raw t)) ->
  finish_kana_input dbg (with_frames (t :: fr) w) = Ok (true, with_frames (t :: fr) w).
Proof.
  intros Ht Hna. unfold finish_kana_input. sxu. destruct (cmode_eqb (s_cmode t) PreComposition) eqn:E; [|reflexivity].
  apply cmode_eqb_eq in E.
  match goal with |- context [auto_start_henkan dbg ?v] => change v with (with_frames (t :: fr) w) end.
  rewrite (auto_start_none dbg w t fr E (Hna ltac:(congruence))). reflexivity.
Qed.
Definition reading_mode (c : cmode) : Prop := c = Direct \/ c = PreComposition \/ c = PreCompositionOkurigana.
Lemma reading_not_register c : reading_mode c -> c <> Register.
Proof. intros [->|[->| ->]]; discriminate. Qed.
Lemma reading_not_selecting {A} c (a b : A) : reading_mode c ->
  (match c with CompositionSelection | Completion => a | _ => b end) = b.
Proof. intros [->|[->| ->]]; reflexivity. Qed.

(** Entering the branch for keys that complete no conversion. *)
Lemma to_unconverted X dbg k ch w s fr : reading_mode (s_cmode s) -> kana_mode (s_imode s) ->
  is_modifierless_input k = true -> is_upper k = false -> get_symbol_char X k = Some ch ->
  unbound (x_cmd (w_ctx w)) (s_cmode s) (s_imode s) k ->
  convert_non_partial (x_kb (w_ctx w)) (s_pre s ++ [ksym k]) = None ->
  process_key_event X dbg k (with_frames (s :: fr) w)
  = input_unconverted dbg k (s_pre s) ch (s_cmode s) (with_frames (s :: fr) w).
Proof.
  intros Hc Hi Hm Hup Hch Hun Hn.
  rewrite (key_unbound X dbg k (with_frames (s :: fr) w) s fr);
    [|reflexivity|apply modifierless_no_release, Hm|apply reading_not_register, Hc|exact Hun].
  unfold input_key. rewrite Hm. sxu. rewrite (reading_not_selecting _ _ _ Hc). sxu.
  rewrite (kana_rom2kana _ _ Hi Hc). cbn [andb]. unfold input_kana. sxu.
  change (combine_raw k (s_pre s)) with (s_pre s ++ [ksym k]). rewrite Hn, Hup, Hch. reflexivity.
Qed.

(* ------------------------------------------------------------------ C13 *)
Lemma output_pending w s fr kana : reading_mode (s_cmode s) ->
  convert_greedy (x_kb (w_ctx w)) (s_pre s) = Some (kana, []) ->
  exists b s', output_converted_kana_if_any (s_imode s) (s_cmode s) (with_frames (s :: fr) w)
         = Ok (b, with_frames (s' :: fr) w) /\ entered (x_kf (w_ctx w)) kana s s' /\ s_pre s' = [] /\ s_cap s' = false.
Proof.
  intros Hc Hg. unfold output_converted_kana_if_any. sxu. rewrite Hg.
  destruct Hc as [Hc|[Hc|Hc]]; rewrite Hc; unfold set_carry_over; sxu;
    (eexists _, _; split; [reflexivity|]; split; [unfold entered; cbn; rewrite Hc; repeat split|split; reflexivity]).
Qed.
(** The pending keys [u] convert to [kana]; the next key, not a command, cannot continue them
    and has no conversion of its own (alone); then the pending kana is entered first. The key
    itself becomes pending, or is entered as its character, or as the configured punctuation. *)
Theorem C13_pending_not_dropped_partial : forall X dbg k ch w s fr kana,
  frames w = s :: fr -> reading_mode (s_cmode s) -> kana_mode (s_imode s) ->
  convert_greedy (x_kb (w_ctx w)) (s_pre s) = Some (kana, []) ->
  is_modifierless_input k = true -> is_upper k = false -> is_ascii_inputtable k = true ->
  get_symbol_char X k = Some ch ->
  unbound (x_cmd (w_ctx w)) (s_cmode s) (s_imode s) k ->
  can_continue (x_kb (w_ctx w)) k (s_pre s) = false ->
  convert_non_partial (x_kb (w_ctx w)) [ksym k] = None ->
  (s_cmode s = PreComposition -> forall t,
     t = [] \/ t = [ch] \/ convert_periods ch (cf_period (x_cfg (w_ctx w))) (cf_comma (x_cfg (w_ctx w))) = Some t ->
     no_auto_start (cf_auto (x_cfg (w_ctx w))) (s_raw s ++ kana ++ t)) ->
  exists s1 s2, exec X dbg (OKey k) w = Ok (OutBool true, with_frames (s2 :: fr) w)
    /\ entered (x_kf (w_ctx w)) kana s s1
    /\ (   (s2 = set_pre [ksym k] s1)
        \/ (s_pre s2 = [] /\ s_cmode s1 = Direct /\ s_conf s2 = s_conf s1 ++ [ch])
        \/ (s_pre s2 = [] /\ entered (x_kf (w_ctx w)) [ch] s1 s2)
        \/ (s_pre s2 = [] /\ exists t, convert_periods ch (cf_period (x_cfg (w_ctx w))) (cf_comma (x_cfg (w_ctx w))) = Some t
              /\ entered (x_kf (w_ctx w)) t s1 s2)).
Proof.
  intros X dbg k ch w s fr kana Hs Hc Hi Hg Hm Hup Ha Hch Hun Hcc Hn1 Hauto.
  replace (exec X dbg (OKey k) w) with (exec X dbg (OKey k) (with_frames (s :: fr) w))
    by now rewrite (with_frames_same w _ Hs). clear Hs.
  assert (Hn : convert_non_partial (x_kb (w_ctx w)) (s_pre s ++ [ksym k]) = None).
  { unfold can_continue in Hcc. unfold convert_non_partial. unfold combine_raw in Hcc.
    destruct (get_node (x_kb (w_ctx w)) (s_pre s ++ [ksym k])); [discriminate|reflexivity]. }
  destruct (output_pending w s fr kana Hc Hg) as (b & s1 & Ho & He & Hp1 & Hcap1).
  assert (Hc1 : s_cmode s1 = s_cmode s) by apply He. assert (Hi1 : s_imode s1 = s_imode s) by apply He.
  assert (Hclear : clear_preconverted s1 = s1).
  { unfold clear_preconverted. rewrite (set_pre_same _ _ Hp1). apply set_cap_same, Hcap1. }
  (* the end of every branch *)
  assert (Hfin : forall t, s_cmode t = s_cmode s ->
    (s_cmode s = PreComposition -> no_auto_start (cf_auto (x_cfg (w_ctx w))) (s_raw t)) -> finish_kana_input dbg (with_frames (t :: fr) w) = Ok (true, with_frames (t :: fr) w)).
  { intros t Ht Hna. exact (finish_none dbg w t fr Ht Hna). }
  assert (Hauto' : s_cmode s = PreComposition -> forall t,
     t = [] \/ t = [ch] \/ convert_periods ch (cf_period (x_cfg (w_ctx w))) (cf_comma (x_cfg (w_ctx w))) = Some t ->
     no_auto_start (cf_auto (x_cfg (w_ctx w))) (s_raw s1 ++ t)).
  { intros E t Ht. specialize (Hauto E t Ht). destruct He as (_ & _ & _ & _ & He). rewrite E in He.
    destruct He as (_ & -> & _). rewrite <- app_assoc. exact Hauto. }
  clear Hauto.
  assert (Hkey := to_unconverted X dbg k ch w s fr Hc Hi Hm Hup Hch Hun Hn).
  unfold input_unconverted in Hkey. revert Hkey. unfold bind at 1, cur at 1. cbn [with_frames w_ctx x_stack].
  unfold bind at 1, get at 1. cbn [with_frames w_ctx x_cfg x_kb]. cbn zeta.
  destruct (convert_periods ch _ _) as [pt|] eqn:Ep.
  - (* comma, period *)
    intros Hkey. unfold input_periods in Hkey. revert Hkey. unfold bind at 1.
    match goal with |- context [output_converted_kana_if_any ?a ?b ?c] =>
      change c with (with_frames (s :: fr) w) end. rewrite Ho. sxu. rewrite Hclear, Hc1.
    intros Hkey. destruct Hc as [Hc|[Hc|Hc]]; rewrite Hc in *.
    + revert Hkey. unfold append_converted. sxu. unfold push_string. rewrite Hc1, Hi1. cbn [push_string_for]. intros Hkey.
      set (s2 := set_conf (s_conf s1 ++ adjust_kana_string (x_kf (w_ctx w)) (s_imode s) pt) s1) in *.
      exists s1, s2. split; [apply exec_key; rewrite Hkey; apply Hfin; [exact Hc1|try discriminate; intros E; apply (Hauto' E); auto]|]. split; [exact He|].
      right; right; right. split; [exact Hp1|]. exists pt. split; [reflexivity|].
      unfold entered. rewrite Hc1, Hi1. cbn. rewrite Hc1, Hi1. repeat split.
    + revert Hkey. unfold push_string. sxu. rewrite Hc1. cbn [push_string_for]. intros Hkey.
      set (s2 := clear_preconverted (set_raw (s_raw s1 ++ pt) (set_comp (s_comp s1 ++ pt) s1))) in *.
      exists s1, s2. split; [apply exec_key; rewrite Hkey; apply Hfin; [exact Hc1|try discriminate; intros E; apply (Hauto' E); auto]|]. split; [exact He|].
      right; right; right. split; [reflexivity|]. exists pt. split; [reflexivity|].
      unfold entered. rewrite Hc1. cbn. rewrite Hc1. repeat split.
    + revert Hkey. unfold push_string. sxu. rewrite Hc1. cbn [push_string_for]. intros Hkey.
      set (s2 := clear_preconverted (set_use true (set_okuri (s_okuri s1 ++ pt) s1))) in *.
      exists s1, s2. split; [apply exec_key; rewrite Hkey; apply Hfin; [exact Hc1|try discriminate; intros E; apply (Hauto' E); auto]|]. split; [exact He|].
      right; right; right. split; [reflexivity|]. exists pt. split; [reflexivity|].
      unfold entered. rewrite Hc1. cbn. rewrite Hc1. repeat split.
  - rewrite Hcc, Hup. cbn [andb].
    rewrite (not_upper_lower k [] Hup). change (combine_raw k []) with [ksym k]. rewrite Hn1.
    assert (Hcl : can_continue_lower (x_kb (w_ctx w)) k [] = can_continue (x_kb (w_ctx w)) k []).
    { unfold can_continue_lower, can_continue. now rewrite (not_upper_lower k [] Hup). }
    rewrite Hcl. destruct (can_continue (x_kb (w_ctx w)) k []) eqn:E0.
    + (* the key starts a new pending sequence *)
      unfold bind at 1.
      match goal with |- context [output_converted_kana_if_any ?a ?b ?c] =>
        change c with (with_frames (s :: fr) w) end. rewrite Ho. sxu. rewrite Hclear.
      unfold input_as_continuous_kana. sxu. rewrite Hc1.
      assert (Hnx : next_unprocessed_state (x_kb (w_ctx w)) k (s_pre s1) = [ksym k]).
      { unfold next_unprocessed_state. rewrite Hp1, E0. reflexivity. }
      rewrite Hnx. intros Hkey. exists s1, (set_pre [ksym k] s1).
      split; [|split; [exact He|left; reflexivity]].
      apply exec_key. destruct Hc as [Hc|[Hc|Hc]]; rewrite Hc in Hkey; rewrite Hkey;
        (refine (Hfin (set_pre [ksym k] s1) _ _); [exact Hc1|]; intros E;
         change (s_raw (set_pre [ksym k] s1)) with (s_raw s1); rewrite <- (app_nil_r (s_raw s1)); apply (Hauto' E); auto).
    + unfold input_direct_char. rewrite Ha. unfold bind at 1.
      match goal with |- context [output_converted_kana_if_any ?a ?b ?c] =>
        change c with (with_frames (s :: fr) w) end. rewrite Ho. sxu. rewrite Hclear, Hc1.
      intros Hkey. exists s1, (push_string [ch] s1). split; [|split; [exact He|]].
      * assert (Hc2 : s_cmode (push_string [ch] s1) = s_cmode s).
        { unfold push_string. rewrite Hc1. destruct (s_cmode s); cbn; congruence. }
        apply exec_key. destruct Hc as [Hc|[Hc|Hc]]; rewrite Hc in Hkey; rewrite Hkey;
          (apply Hfin; [exact Hc2|]; intros E; unfold push_string; rewrite Hc1, E; apply (Hauto' E); auto).
      * destruct Hc as [Hc|[Hc|Hc]]; unfold push_string; rewrite Hc1, Hc; cbn [push_string_for].
        -- right; left. repeat split; auto.
        -- right; right; left. split; [exact Hp1|]. unfold entered. rewrite Hc1, Hc. cbn. rewrite Hc1, Hc. repeat split.
        -- right; right; left. split; [exact Hp1|]. unfold entered. rewrite Hc1, Hc. cbn. rewrite Hc1, Hc. repeat split.
Qed.
(** A key with a conversion of its own drops the pending n: n followed by minus. *)
Theorem C13_refuted : exists outs w, typed true (U "n") (demo []) = Ok (outs, w)
  /\ convert_greedy (kb_new ascii_xkb default_rule) (U "n") = Some (U "ん", [])
  /\ (map s_pre (frames w), rmap (fun x => (confirmed_text (snd x), map s_pre (frames (snd x))))
        (exec ascii_xkb true (OKey (mkKey 45 0)) w)) = ([U "n"], Ok (U "ー", [[]])).
Proof.
  destruct (run_case (typed true (U "n") (demo [])) (fun w => (map s_pre (frames w),
    rmap (fun x => (confirmed_text (snd x), map s_pre (frames (snd x)))) (exec ascii_xkb true (OKey (mkKey 45 0)) w)))
    ([U "n"], Ok (U "ー", [[]])) ltac:(vm_compute; reflexivity)) as (o & w & H1 & H2).
  exists o, w. split; [exact H1|]. split; [vm_compute; reflexivity|exact H2].
Qed.
Example C13_case : exists outs w, typed true (U "n k") (demo []) = Ok (outs, w)
  /\ (map s_pre (frames w), confirmed_text w) = ([U "k"], U "ん").
Proof. apply run_case. vm_compute. reflexivity. Qed.

(* ------------------------------------------------------------------ C50 *)
Definition punctuation (p : period_style) (c : comma_style) (ch : N) (t : str) : Prop :=
  (ch = 46%N /\ t = match p with PeriodJa => U "。" | PeriodEn => U "．" end) \/
  (ch = 44%N /\ t = match c with CommaJa => U "、" | CommaEn => U "，" end).
Lemma punctuation_spec p c ch t : punctuation p c ch t -> convert_periods ch p c = Some t.
Proof. intros [[-> ->]|[-> ->]]; reflexivity. Qed.
Theorem C50_punctuation : forall X dbg k ch t w s fr,
  frames w = s :: fr -> reading_mode (s_cmode s) -> kana_mode (s_imode s) -> s_pre s = [] ->
  is_modifierless_input k = true -> is_upper k = false -> get_symbol_char X k = Some ch ->
  punctuation (cf_period (x_cfg (w_ctx w))) (cf_comma (x_cfg (w_ctx w))) ch t ->
  unbound (x_cmd (w_ctx w)) (s_cmode s) (s_imode s) k ->
  convert_non_partial (x_kb (w_ctx w)) [ksym k] = None ->
  convert_greedy (x_kb (w_ctx w)) [] = None ->
  no_auto_start (cf_auto (x_cfg (w_ctx w))) (s_raw s ++ t) ->
  exists s', exec X dbg (OKey k) w = Ok (OutBool true, with_frames (s' :: fr) w)
    /\ entered (x_kf (w_ctx w)) t s s' /\ s_pre s' = [].
Proof.
  intros X dbg k ch t w s fr Hs Hc Hi Hp Hm Hup Hch Hpt Hun Hn Hg Hauto.
  replace (exec X dbg (OKey k) w) with (exec X dbg (OKey k) (with_frames (s :: fr) w))
    by now rewrite (with_frames_same w _ Hs). clear Hs.
  assert (Hkey := to_unconverted X dbg k ch w s fr Hc Hi Hm Hup Hch Hun).
  rewrite Hp in Hkey. specialize (Hkey Hn). unfold input_unconverted in Hkey. revert Hkey.
  unfold bind at 1, cur at 1. cbn [with_frames w_ctx x_stack].
  unfold bind at 1, get at 1. cbn [with_frames w_ctx x_cfg x_kb]. cbn zeta.
  rewrite (punctuation_spec _ _ _ _ Hpt). unfold input_periods, output_converted_kana_if_any. sxu.
  rewrite Hp, Hg. sxu. 
  assert (Hcc : s_cmode (clear_preconverted s) = s_cmode s) by reflexivity. rewrite Hcc.
  intros Hkey. destruct Hc as [Hc|[Hc|Hc]]; rewrite Hc in Hkey; revert Hkey; unfold append_converted; sxu;
    unfold push_string; rewrite Hcc, Hc; cbn [push_string_for];
    match goal with |- context [finish_kana_input dbg (mkW _ (mkCtx (?x :: fr) _ _ _ _ _ _))] =>
      intros Hkey; assert (Hf := finish_none dbg w x fr Hc); unfold with_frames in Hf;
      rewrite Hf in Hkey by (intros E; first [congruence|exact Hauto]); exists x end;
    (split; [apply exec_key; exact Hkey|]; split; [|first [exact Hp|reflexivity]]);
    unfold entered; rewrite Hc; repeat split; auto.
Qed.
Example C50_case :
  rmap (fun x => get_preedit ascii_xkb (w_ctx (snd x)))
    (run ascii_xkb true (OSetPeriod PeriodEn :: OSetAutoStart [] :: map OKey (dkeys (U "A i period"))) (demo [])) = Ok (U "▽あい．")
  /\ convert_non_partial (kb_new ascii_xkb default_rule) [46%N] = None
  /\ convert_greedy (kb_new ascii_xkb default_rule) [] = None.
Proof. repeat split; vm_compute; reflexivity. Qed.
