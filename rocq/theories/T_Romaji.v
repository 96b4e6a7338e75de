(** Theorems about kana input: C10, C13, C50, C53. *)
From Verif Require Import Str Keys Modes KanaBuilder FormChanger DictTypes Parser Lru
  Dictionary CState Context DefaultRule Demo Spec P_Monad P_Frames P_Inv P_Kana P_Step T_Frames T_Keys.

Lemma kana_rom2kana i c : kana_mode i -> c = Direct \/ c = PreComposition \/ c = PreCompositionOkurigana ->
  has_rom2kana_conversion i c = true.
Proof. intros [->|[->| ->]] [->|[->| ->]]; reflexivity. Qed.

(** Computing on a world whose stack is explicit. *)
Ltac sx := cbn [bind ret cur get modcur lift when with_frames set_stack w_ctx w_store x_stack x_kb x_cmd x_kf x_am x_dicts x_cfg
                negb andb orb cmode_eqb is_nil].
Ltac sxu := unfold bind, ret, cur, get, modcur, lift, when, with_frames, set_stack; sx.

(* ------------------------------------------------------------------ C10 *)
(** A syllable: a key sequence of the rule that no other key sequence extends and that leaves
    no carry-over; every key before the last one is a lower-case or symbol key that is not
    bound to a command in Direct mode, has a character, and is neither comma nor period. *)
Definition middle_key (X : xkb) (cr : command_rule) (i : imode) (sym : N) : Prop :=
  ~ (65 <= sym <= 90)%N /\ unbound cr Direct i (mkKey sym 0) /\
  exists ch, xk_char X sym = Some ch /\ ch <> 44%N /\ ch <> 46%N.
Definition syllable (X : xkb) (r : rule) (cr : command_rule) (i : imode) (keys : list N) (conv : str) : Prop :=
  keys <> [] /\ entry X r keys conv [] /\ (forall x, ~ completable X r (keys ++ [x])) /\
  Forall (middle_key X cr i) (removelast keys).
Definition press (sym : N) : op := OKey (mkKey sym 0).

Section Kana.
Context (X : xkb) (dbg : bool).
Lemma not_upper sym : ~ (65 <= sym <= 90)%N -> is_upper (mkKey sym 0) = false.
Proof.
  intros H. unfold is_upper, KEY_A, KEY_Z. cbn. destruct (N.leb_spec 65 sym), (N.leb_spec sym 90); cbn; auto. lia.
Qed.
Lemma not_upper_lower k u : is_upper k = false -> combine_lower k u = combine_raw k u.
Proof.
  intros H. unfold combine_lower, combine_raw, uncapitalize. unfold is_upper in H. now rewrite H.
Qed.
Lemma not_leaf r u x : distinct_keys X r -> completable X r (u ++ [x]) -> convert_non_partial (kb_new X r) u = None.
Proof.
  intros Hd Hc. destruct (convert_non_partial (kb_new X r) u) as [[cv cy]|] eqn:E; [|reflexivity].
  apply C11_convert_at_once in E as [_ E]; [|exact Hd]. now apply E in Hc.
Qed.
(** a key in the middle of a syllable *)
Lemma middle_step r w s fr u sym x : distinct_keys X r -> x_kb (w_ctx w) = kb_new X r ->
  s_cmode s = Direct -> kana_mode (s_imode s) -> s_pre s = u ->
  completable X r ((u ++ [sym]) ++ [x]) -> middle_key X (x_cmd (w_ctx w)) (s_imode s) sym ->
  process_key_event X dbg (mkKey sym 0) (with_frames (s :: fr) w)
  = Ok (true, with_frames (set_pre (u ++ [sym]) s :: fr) w).
Proof.
  intros Hd Hb Hc Hi Hu Hx (Hup & Hun & ch & Hch & H44 & H46).
  set (k := mkKey sym 0).
  assert (Hn : convert_non_partial (kb_new X r) (combine_raw k u) = None) by (eapply not_leaf; eauto).
  assert (Hcc : can_continue (kb_new X r) k u = true).
  { apply C11_may_continue. destruct Hx as (k0 & v & Hin & rest & E). exists k0, v. split; [exact Hin|].
    exists ([x] ++ rest). rewrite E. rewrite <- app_assoc. reflexivity. }
  rewrite (key_unbound X dbg k (with_frames (s :: fr) w) s fr);
    [|reflexivity|reflexivity|congruence|rewrite Hc; exact Hun].
  unfold input_key. change (is_modifierless_input k) with true. rewrite Hc. sxu.
  rewrite Hc, (kana_rom2kana _ Direct Hi) by auto. cbn [andb]. unfold input_kana. sxu.
  assert (Hup' : is_upper k = false) by (apply not_upper, Hup).
  assert (Hch' : get_symbol_char X k = Some ch) by exact Hch.
  rewrite Hb, Hu, Hn, Hup', Hch'.
  unfold input_unconverted. sxu. unfold convert_periods.
  apply N.eqb_neq in H44, H46. rewrite H44, H46. rewrite ?Hb, Hcc.
  unfold input_as_continuous_kana, finish_kana_input. sxu. rewrite Hc. sxu.
  cbn [set_pre s_cmode]. rewrite Hc. sxu. unfold next_unprocessed_state. rewrite ?Hu, ?Hb, Hcc. reflexivity.
Qed.
(** the last key of a syllable *)
Lemma last_step r w s fr u sym conv : distinct_keys X r -> x_kb (w_ctx w) = kb_new X r ->
  s_cmode s = Direct -> kana_mode (s_imode s) -> s_pre s = u ->
  convert_non_partial (kb_new X r) (u ++ [sym]) = Some (conv, []) ->
  process_key_event X dbg (mkKey sym 0) (with_frames (s :: fr) w)
  = Ok (true, with_frames (set_cap false (set_pre [] (set_conf (s_conf s ++ adjust_kana_string (x_kf (w_ctx w)) (s_imode s) conv) s)) :: fr) w).
Proof.
  intros Hd Hb Hc Hi Hu Hn. set (k := mkKey sym 0).
  rewrite (key_skip X dbg k (with_frames (s :: fr) w) s fr); [|reflexivity|reflexivity|].
  2:{ unfold skip_command. change (is_modifierless_input k) with true. rewrite Hc, (kana_rom2kana _ Direct Hi) by auto.
      cbn [andb with_frames w_ctx x_kb]. rewrite Hb, Hu.
      change (combine_raw k u) with (u ++ [sym]). rewrite Hn. apply Bool.orb_true_r. }
  unfold input_key. change (is_modifierless_input k) with true. rewrite Hc. sxu.
  rewrite Hc, (kana_rom2kana _ Direct Hi) by auto. cbn [andb]. unfold input_kana. sxu.
  rewrite Hb, Hu. change (combine_raw k u) with (u ++ [sym]). rewrite Hn.
  unfold input_converted_kana. sxu. rewrite Hc. unfold append_converted, set_carry_over. sxu. unfold push_string. rewrite Hc. reflexivity.
Qed.
Lemma syllable_run r w keys conv : distinct_keys X r -> x_kb (w_ctx w) = kb_new X r -> forall rest u s fr,
  s_cmode s = Direct -> kana_mode (s_imode s) -> s_pre s = u -> keys = u ++ rest -> rest <> [] ->
  entry X r keys conv [] -> (forall x, ~ completable X r (keys ++ [x])) ->
  Forall (middle_key X (x_cmd (w_ctx w)) (s_imode s)) (removelast rest) ->
  run X dbg (map press rest) (with_frames (s :: fr) w)
  = Ok (map (fun _ => OutBool true) rest,
        with_frames (set_cap false (set_pre [] (set_conf (s_conf s ++ adjust_kana_string (x_kf (w_ctx w)) (s_imode s) conv) s)) :: fr) w).
Proof.
  intros Hd Hb. induction rest as [|sym rest IH]; intros u s fr Hc Hi Hu Hk Hne He Hx Hm; [congruence|].
  destruct rest as [|sym2 rest].
  - assert (Hn : convert_non_partial (kb_new X r) (u ++ [sym]) = Some (conv, [])).
    { apply C11_convert_at_once; [exact Hd|]. subst keys. auto. }
    cbn [map]. unfold press. rewrite (run_cons X dbg _ _ _ _ _ (exec_key X dbg _ _ _ _ (last_step r w s fr u sym conv Hd Hb Hc Hi Hu Hn))).
    reflexivity.
  - cbn [removelast] in Hm. inversion Hm as [|? ? Hm1 Hm2]; subst x l.
    assert (Hcp : completable X r ((u ++ [sym]) ++ [sym2])).
    { destruct He as (k0 & cy & Hin & E & _). exists k0, (cy, conv). split; [exact Hin|]. exists rest.
      rewrite E, Hk. now rewrite <- !app_assoc. }
    cbn [map]. unfold press at 1.
    rewrite (run_cons X dbg _ _ _ _ _ (exec_key X dbg _ _ _ _ (middle_step r w s fr u sym sym2 Hd Hb Hc Hi Hu Hcp Hm1))).
    change (press sym2 :: map press rest) with (map press (sym2 :: rest)).
    rewrite (IH (u ++ [sym]) (set_pre (u ++ [sym]) s) fr); auto.
    + rewrite <- app_assoc. exact Hk.
    + discriminate.
Qed.
End Kana.

Theorem C10_romaji : forall X dbg r w s fr syls,
  distinct_keys X r -> x_kb (w_ctx w) = kb_new X r ->
  frames w = s :: fr -> s_cmode s = Direct -> kana_mode (s_imode s) -> s_pre s = [] -> s_cap s = false ->
  Forall (fun y => syllable X r (x_cmd (w_ctx w)) (s_imode s) (fst y) (snd y)) syls ->
  run X dbg (map press (concat (map fst syls))) w =
    Ok (map (fun _ => OutBool true) (concat (map fst syls)),
        with_frames (set_conf (s_conf s ++ concat (map (fun y =>
            adjust_kana_string (x_kf (w_ctx w)) (s_imode s) (snd y)) syls)) s :: fr) w).
Proof.
  intros X dbg r w s fr syls Hd Hb Hs Hc Hi Hp Hcap Hsyl.
  rewrite <- (with_frames_same w _ Hs) at 1. clear Hs. revert s Hc Hi Hp Hcap Hsyl.
  induction syls as [|[keys conv] syls IH]; intros s Hc Hi Hp Hcap Hsyl.
  - cbn. unfold ret. rewrite app_nil_r, set_conf_same. reflexivity.
  - inversion Hsyl as [|? ? (H1 & H2 & H3 & H4) H5]; subst. cbn [map concat fst snd] in *. rewrite !map_app.
    erewrite run_app; [|eapply (syllable_run X dbg r w keys conv Hd Hb keys [] s fr); eauto].
    match goal with |- context [with_frames (?t :: fr) w] => set (t0 := t) end.
    assert (Et : t0 = set_conf (s_conf s ++ adjust_kana_string (x_kf (w_ctx w)) (s_imode s) conv) s).
    { unfold t0. clear -Hp Hcap. destruct s; cbn in *. subst. reflexivity. }
    rewrite Et. rewrite IH; auto. cbn [set_conf s_conf s_imode]. rewrite <- app_assoc. reflexivity.
Qed.
(** Deciding the hypotheses for a concrete rule. *)
Definition syllable_b (X : xkb) (r : rule) (cr : command_rule) (i : imode) (key : str) (conv : str) : bool :=
  negb (is_nil (keysyms_from_str X key)) &&
  existsb (fun e => str_eqb (fst e) key && str_eqb (snd (snd e)) conv && is_nil (keysyms_from_str X (fst (snd e)))) (r_conversion r) &&
  forallb (fun e => negb (is_prefixb (keysyms_from_str X key) (keysyms_from_str X (fst e)))
     || Nat.eqb (length (keysyms_from_str X key)) (length (keysyms_from_str X (fst e)))) (r_conversion r) &&
  forallb (fun sym => negb (N.leb 65 sym && N.leb sym 90)
     && forallb (fun e : keyev * list instr => negb (key_eqb (fst e) (command_key (mkKey sym 0)))) (cr Direct i)
     && match xk_char X sym with Some ch => negb (N.eqb ch 44) && negb (N.eqb ch 46) | None => false end)
    (removelast (keysyms_from_str X key)).
Lemma syllable_b_spec X r cr i key conv : syllable_b X r cr i key conv = true ->
  syllable X r cr i (keysyms_from_str X key) conv.
Proof.
  unfold syllable_b. intros H. apply andb_prop in H as [H H4]. apply andb_prop in H as [H H3]. apply andb_prop in H as [H1 H2].
  repeat split.
  - apply Bool.negb_true_iff, is_nil_false in H1. exact H1.
  - apply existsb_exists in H2 as ([k [cy cv]] & Hin & H2). cbn in H2.
    apply andb_prop in H2 as [H2 H23]. apply andb_prop in H2 as [H21 H22].
    apply str_eqb_eq in H21, H22. apply is_nil_true in H23. subst. exists key, cy. auto.
  - intros x (k & v & Hin & rest & E). rewrite forallb_forall in H3. specialize (H3 _ Hin). cbn [fst] in H3.
    rewrite E in H3. apply Bool.orb_true_iff in H3 as [H3|H3].
    + apply Bool.negb_true_iff in H3. assert (is_prefixb (keysyms_from_str X key) ((keysyms_from_str X key ++ [x]) ++ rest) = true).
      { apply is_prefixb_spec. exists ([x] ++ rest). now rewrite app_assoc. } congruence.
    + apply Nat.eqb_eq in H3. rewrite !app_length in H3. cbn in H3. lia.
  - apply Forall_forall. intros sym Hs. rewrite forallb_forall in H4. specialize (H4 _ Hs).
    apply andb_prop in H4 as [H4 H43]. apply andb_prop in H4 as [H41 H42]. split; [|split].
    + intros [Ha Hb]. apply N.leb_le in Ha, Hb. rewrite Ha, Hb in H41. discriminate.
    + intros k' l Hin E. rewrite forallb_forall in H42. specialize (H42 _ Hin). cbn [fst] in H42.
      rewrite E in H42. assert (key_eqb (command_key (mkKey sym 0)) (command_key (mkKey sym 0)) = true) by now apply key_eqb_eq.
      rewrite H in H42. discriminate.
    + destruct (xk_char X sym) as [ch|]; [|discriminate]. exists ch. apply andb_prop in H43 as [Ha Hb].
      apply Bool.negb_true_iff in Ha, Hb. apply N.eqb_neq in Ha, Hb. auto.
Qed.
Example C10_case : Forall (fun y => syllable ascii_xkb default_rule (r_command default_rule) Katakana (fst y) (snd y))
   [(U "kya", U "きゃ"); (U "xtsu", U "っ"); (U "a", U "あ"); (U "nn", U "ん")]
  /\ exists outs w, typed true (U "q") (demo []) = Ok (outs, w) /\
   (map s_imode (frames w), map s_cmode (frames w), map s_pre (frames w), map s_cap (frames w),
    rmap (fun x => confirmed_text (snd x)) (run ascii_xkb true (map press (U "kyaxtsuann")) w))
   = ([Katakana], [Direct], [[]], [false], Ok (U "キャッアン")).
Proof.
  split; [|apply run_case; vm_compute; reflexivity].
  repeat apply Forall_cons; [..|apply Forall_nil]; cbn [fst snd].
  - apply (syllable_b_spec ascii_xkb default_rule (r_command default_rule) Katakana (U "kya")). vm_compute. reflexivity.
  - apply (syllable_b_spec ascii_xkb default_rule (r_command default_rule) Katakana (U "xtsu")). vm_compute. reflexivity.
  - apply (syllable_b_spec ascii_xkb default_rule (r_command default_rule) Katakana (U "a")). vm_compute. reflexivity.
  - apply (syllable_b_spec ascii_xkb default_rule (r_command default_rule) Katakana (U "nn")). vm_compute. reflexivity.
Qed.
