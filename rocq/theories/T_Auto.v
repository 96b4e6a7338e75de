(** C53: conversion that starts by itself at a keyword. *)
From Verif Require Import Str Keys Modes KanaBuilder FormChanger DictTypes Parser Lru
  Dictionary CState Context DefaultRule Demo Spec P_Monad P_Frames P_Inv P_Kana P_Step P_Confirmed
  T_Frames T_Keys T_Romaji T_Input.

(** [kw] is the first keyword of the list that ends the reading [body ++ kw] and is not all of it. *)
Definition first_keyword (kws : list str) (body kw : str) : Prop :=
  body <> [] /\ exists before after, kws = before ++ kw :: after /\
    forall kw', In kw' before -> no_auto_start [kw'] (body ++ kw).
(** The key enters the kana [t]: it completes a conversion of the rule without carry-over, or,
    with nothing pending, it is a punctuation key. *)
Definition enters (X : xkb) (w : world) (s : cstate) (k : keyev) (t : str) : Prop :=
  is_modifierless_input k = true /\ is_upper k = false /\
  ( convert_non_partial (x_kb (w_ctx w)) (s_pre s ++ [ksym k]) = Some (t, [])
  \/ (s_pre s = [] /\ convert_non_partial (x_kb (w_ctx w)) [ksym k] = None /\
      unbound (x_cmd (w_ctx w)) (s_cmode s) (s_imode s) k /\
      exists ch, get_symbol_char X k = Some ch /\
        punctuation (cf_period (x_cfg (w_ctx w))) (cf_comma (x_cfg (w_ctx w))) ch t)).
(** Conversion of [body] with the keyword behind it. *)
Definition converting (body kw : str) (cs : list candidate) (s s' : cstate) : Prop :=
  s_comp s' = body /\ s_raw s' = body /\ s_okuri s' = kw /\ s_use s' = false /\
  s_list s' = mkCL (mkCK body None) 0 cs /\
  s_pre s' = [] /\ s_conf s' = s_conf s /\ s_imode s' = s_imode s /\ s_default s' = s_default s.

Lemma first_keyword_spec kws body kw : first_keyword kws body kw -> matching_keyword kws (body ++ kw) = Some kw.
Proof.
  intros (Hb & before & after & -> & Hn). unfold matching_keyword. induction before as [|k0 before IH]; cbn.
  - assert (is_suffixb kw (body ++ kw) = true) as -> by (apply is_suffixb_spec; now exists body).
    destruct (str_eqb (body ++ kw) kw) eqn:E; [|reflexivity]. apply str_eqb_eq in E.
    apply (f_equal (@length N)) in E. rewrite app_length in E. destruct body; [congruence|cbn in E; lia].
  - pose proof (no_auto_start_spec [k0] (body ++ kw) (Hn k0 (or_introl eq_refl))) as E.
    unfold matching_keyword in E. cbn in E. destruct (_ && _); [discriminate|]. apply IH. intros k' Hk. apply Hn. now right.
Qed.
Lemma delete_one s x y z : s_cmode s = PreComposition -> s_pre s = [] -> s_comp s = x ++ [z] -> s_raw s = y ++ [z] ->
  snd (st_delete s) = set_raw y (set_comp x s).
Proof.
  intros Hc Hp Hx Hy. unfold st_delete. rewrite Hc, Hp, Hx, Hy. cbn [is_nil negb snd].
  unfold str_pop. rewrite !removelast_last. destruct x; reflexivity.
Qed.
Lemma iter_shift {A} (f : A -> A) n x : Nat.iter (S n) f x = Nat.iter n f (f x).
Proof. induction n; cbn in *; [reflexivity|]. now f_equal. Qed.
Lemma delete_keyword kw : forall s body, s_cmode s = PreComposition -> s_pre s = [] ->
  s_comp s = body ++ kw -> s_raw s = body ++ kw ->
  Nat.iter (length kw) (fun s => snd (st_delete s)) s = set_raw body (set_comp body s).
Proof.
  induction kw as [|c kw IH] using rev_ind; intros s body Hc Hp Hcomp Hraw.
  - rewrite app_nil_r in *. cbn. destruct s; cbn in *; subst; reflexivity.
  - rewrite app_length. cbn [length]. rewrite Nat.add_1_r, iter_shift. rewrite app_assoc in Hcomp, Hraw.
    rewrite (delete_one s _ _ c Hc Hp Hcomp Hraw). rewrite (IH _ body); auto.
Qed.

Section A.
Context (X : xkb) (dbg : bool).
Lemma auto_start_run w s fr body kw cs : s_cmode s = PreComposition -> s_pre s = [] ->
  s_comp s = body ++ kw -> s_raw s = body ++ kw -> first_keyword (cf_auto (x_cfg (w_ctx w))) body kw ->
  convert_greedy (x_kb (w_ctx w)) [] = None ->
  get_all_candidates (ctx_dicts w) (mkCK body None) = Ok cs ->
  exists s', converting body kw cs s s' /\ s_cmode s' = PreComposition /\
    auto_start_henkan dbg (with_frames (s :: fr) w) =
    Ok (tt, if is_nil cs
            then if Nat.ltb (S (length fr)) 10
                 then with_frames (st_new Hiragana Direct :: change_from_old_mode Register PreComposition s' :: fr) w
                 else with_frames (s' :: fr) w
            else with_frames (change_composition_mode CompositionSelection s' :: fr) w).
Proof.
  intros Hc Hp Hcomp Hraw Hkw Hg Hcs. unfold auto_start_henkan. sxu. rewrite Hc. sxu.
  replace (ck_to (get_composite_key s)) with (s_raw s) by (unfold get_composite_key; destruct (_ && _); reflexivity).
  rewrite Hraw, (first_keyword_spec _ _ _ Hkw). sxu. rewrite (delete_keyword kw s body Hc Hp Hcomp Hraw).
  unfold try_next_candidate, output_converted_kana_if_any, update_candidate_list, set_composition_mode. sxu.
  cbn [set_converted_to_postfix set_use set_okuri set_raw set_comp s_pre]. rewrite Hp, Hg. sxu.
  match goal with |- context [get_all_candidates ?a ?b] =>
    change (get_all_candidates a b) with (get_all_candidates (ctx_dicts w) (mkCK body None)) end. rewrite Hcs.
  sx.
  match goal with |- context [set_new_candidate_list cs ?x] => set (s1 := set_new_candidate_list cs x) end.
  exists s1. split; [|split].
  - unfold s1. repeat split; cbn; auto.
  - unfold s1. cbn. exact Hc.
  - change (s_comp s1) with body. unfold cl_is_empty. change (cl_list (s_list s1)) with cs.
    destruct Hkw as [Hb _]. apply is_nil_false in Hb. rewrite Hb. cbn [negb andb].
    destruct (is_nil cs) eqn:E; cbn [negb].
    + unfold enter_register_mode, REGISTER_MODE_STACK_MAX. cbn [w_ctx x_stack length].
      destruct (Nat.ltb (S (length fr)) 10); reflexivity.
    + reflexivity.
Qed.
End A.

(** The key that completes the keyword: if there are candidates for the reading before the
    keyword they are offered, from the first, with the keyword behind them; if there are none,
    registration of exactly that reading starts (unless ten frames are open). *)
Theorem C53_auto_start : forall X dbg k t body kw w s fr cs,
  frames w = s :: fr -> s_cmode s = PreComposition -> kana_mode (s_imode s) -> s_comp s = s_raw s ->
  enters X w s k t -> s_raw s ++ t = body ++ kw ->
  first_keyword (cf_auto (x_cfg (w_ctx w))) body kw ->
  convert_greedy (x_kb (w_ctx w)) [] = None ->
  get_all_candidates (ctx_dicts w) (mkCK body None) = Ok cs ->
  exists s' l, exec X dbg (OKey k) w = Ok (OutBool true, with_frames l w) /\ converting body kw cs s s' /\
    (cs <> [] -> l = s' :: fr /\ s_cmode s' = CompositionSelection) /\
    (cs = [] -> length (frames w) < 10 -> l = st_new Hiragana Direct :: s' :: fr /\ s_cmode s' = Register).
Proof.
  intros X dbg k t body kw w s fr cs Hs Hc Hi Hcr (Hm & Hup & He) Hr Hkw Hg Hcs. rewrite Hs.
  replace (exec X dbg (OKey k) w) with (exec X dbg (OKey k) (with_frames (s :: fr) w))
    by now rewrite (with_frames_same w _ Hs). clear Hs.
  assert (Hi2 : has_rom2kana_conversion (s_imode s) PreComposition = true) by (apply kana_rom2kana; auto).
  assert (Hfin : forall s1, s_cmode s1 = PreComposition -> s_pre s1 = [] -> s_comp s1 = body ++ kw ->
     s_raw s1 = body ++ kw -> s_conf s1 = s_conf s -> s_imode s1 = s_imode s -> s_default s1 = s_default s ->
     exists s' l, auto_start_henkan dbg (with_frames (s1 :: fr) w) = Ok (tt, with_frames l w) /\ converting body kw cs s s' /\
    (cs <> [] -> l = s' :: fr /\ s_cmode s' = CompositionSelection) /\
    (cs = [] -> length (s :: fr) < 10 -> l = st_new Hiragana Direct :: s' :: fr /\ s_cmode s' = Register)).
  { intros s1 A1 A2 A3 A4 A5 A6 A7.
    destruct (auto_start_run dbg w s1 fr body kw cs A1 A2 A3 A4 Hkw Hg Hcs) as (s' & Hv & Hm' & E).
    unfold converting in Hv |- *. rewrite A5, A6, A7 in Hv.
    destruct cs as [|c0 cs].
    - cbn [is_nil] in E. destruct (Nat.ltb_spec (S (length fr)) 10) as [Hl|Hl].
      + exists (change_from_old_mode Register PreComposition s'). eexists. split; [exact E|]. split; [exact Hv|]. split; [congruence|]. intros _ _. split; reflexivity.
      + exists s', (s' :: fr). split; [exact E|]. split; [exact Hv|]. split; [congruence|]. intros _ H. cbn in H. lia.
    - cbn [is_nil] in E. exists (change_composition_mode CompositionSelection s'). eexists. split; [exact E|]. split; [exact Hv|]. split; [|congruence].
      intros _. split; reflexivity. }
  destruct He as [Hn|(Hp & Hn & Hun & ch & Hch & Hpt)].
  - assert (Hk : process_key_event X dbg k (with_frames (s :: fr) w)
       = bind (auto_start_henkan dbg) (fun _ => ret true) (with_frames (set_cap false (set_pre [] (push_string_for t PreComposition s)) :: fr) w)).
    { rewrite (key_skip X dbg k (with_frames (s :: fr) w) s fr); [|reflexivity|apply modifierless_no_release, Hm|].
      2:{ unfold skip_command. rewrite Hm, Hc, Hi2. cbn [andb with_frames w_ctx x_kb].
          change (combine_raw k (s_pre s)) with (s_pre s ++ [ksym k]). rewrite Hn. apply Bool.orb_true_r. }
      unfold input_key. rewrite Hm, Hc. sxu. rewrite Hc, Hi2. cbn [andb]. unfold input_kana. sxu.
      change (combine_raw k (s_pre s)) with (s_pre s ++ [ksym k]). rewrite Hn.
      unfold input_converted_kana. sxu. rewrite Hc. unfold set_carry_over, push_string. sxu. rewrite Hc. reflexivity. }
    destruct (Hfin (set_cap false (set_pre [] (push_string_for t PreComposition s)))) as (s' & l & E & R); auto.
    + cbn. now rewrite Hcr.
    + exists s', l. split; [|exact R]. apply exec_key. rewrite Hk. unfold bind. rewrite E. reflexivity.
  - assert (Hk : process_key_event X dbg k (with_frames (s :: fr) w)
       = finish_kana_input dbg (with_frames (clear_preconverted (push_string_for t PreComposition (clear_preconverted s)) :: fr) w)).
    { assert (Hkey := to_unconverted X dbg k ch w s fr (or_intror (or_introl Hc)) Hi Hm Hup Hch Hun).
      rewrite Hp in Hkey. specialize (Hkey Hn). rewrite Hkey. unfold input_unconverted.
      unfold bind at 1, cur at 1. cbn [with_frames w_ctx x_stack].
      unfold bind at 1, get at 1. cbn [with_frames w_ctx x_cfg x_kb]. cbn zeta.
      rewrite (punctuation_spec _ _ _ _ Hpt). unfold input_periods, output_converted_kana_if_any. sxu.
      rewrite Hp, Hg. sxu. assert (Hcc : s_cmode (clear_preconverted s) = s_cmode s) by reflexivity.
      rewrite Hcc, Hc. sxu. unfold push_string. rewrite Hcc, Hc. reflexivity. }
    destruct (Hfin (clear_preconverted (push_string_for t PreComposition (clear_preconverted s)))) as (s' & l & E & R); auto.
    + cbn. now rewrite Hcr.
    + exists s', l. split; [|exact R]. apply exec_key. rewrite Hk. unfold finish_kana_input, bind, cur. cbn [with_frames w_ctx x_stack].
      replace (cmode_eqb _ PreComposition) with true by (cbn; rewrite Hc; reflexivity). rewrite E. reflexivity.
Qed.
(** What the user sees then: the first candidate, and the keyword right behind it; confirming
    candidate [i] (C48_confirm_in_range) outputs candidate [i] and then the keyword. *)
Theorem C53_keyword_shown : forall X kf body kw cs c0 s s',
  converting body kw cs s s' -> hd_error cs = Some c0 -> kw <> [] -> s_cmode s' = CompositionSelection ->
  preedit_string X kf (s_imode s') s' = s_conf s ++ U "▼" ++ c_output c0 ++ adjust_kana_string kf (s_imode s) kw.
Proof.
  intros X kf body kw cs c0 s s' (H1 & H2 & H3 & H4 & H5 & H6 & H7 & H8 & H9) H0 Hk Hc.
  unfold preedit_string, preedit_detail. rewrite Hc, H5, H3, H7, H8. apply is_nil_false in Hk. rewrite Hk.
  destruct cs as [|c1 cs]; [discriminate|]. injection H0 as ->. reflexivity.
Qed.
Theorem C53_keyword_output : forall X dbg i body kw cs c w s s' fr,
  frames w = s' :: fr -> converting body kw cs s s' -> s_cmode s' = CompositionSelection ->
  nth_error cs (N.to_nat i) = Some c ->
  exists t st, exec X dbg (OConfirmAt i) w = Ok (OutBool true, with_frames (t :: fr) (set_store st w))
    /\ s_conf t = s_conf s ++ c_output c ++ adjust_kana_string (x_kf (w_ctx w)) (s_imode s) kw.
Proof.
  intros X dbg i body kw cs c w s s' fr Hs (H1 & H2 & H3 & H4 & H5 & H6 & H7 & H8 & H9) Hc Hn.
  destruct (C48_confirm_in_range X dbg i w s' fr c Hs (or_introl Hc)) as (t & E & Hconf & _); [now rewrite H5|].
  eexists t, _. split; [exact E|]. rewrite Hconf, H7, H8, H3. reflexivity.
Qed.
Example C53_case :
  (exists outs w, typed true (U "A i period") (demo [user_dict dic_small]) = Ok (outs, w)
     /\ (get_preedit ascii_xkb (w_ctx w), map s_cmode (frames w), map s_comp (frames w), map s_okuri (frames w))
        = (U "▼愛。", [CompositionSelection], [U "あい"], [U "。"])) /\
  (exists outs w, typed true (U "A i") (demo [user_dict dic_small]) = Ok (outs, w)
     /\ (map s_comp (frames w), map s_raw (frames w), cf_auto (x_cfg (w_ctx w)))
        = ([U "あい"], [U "あい"], [U "。"; U "、"; U "」"; U "』"])) /\
  first_keyword [U "。"; U "、"] (U "あい") (U "。").
Proof.
  split; [|split]; [apply run_case; vm_compute; reflexivity..|].
  split; [discriminate|]. exists [], [U "、"]. split; [reflexivity|]. intros ? [].
Qed.
