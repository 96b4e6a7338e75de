(** Theorems about single calls and plain typing: C04, C06, C08, C09, C14, C48. *)
From Verif Require Import Str Keys Modes KanaBuilder FormChanger DictTypes Parser Lru
  Dictionary CState Context DefaultRule Demo Spec P_Monad P_Frames P_Inv P_Step T_Frames.

(* ------------------------------------------------------------------ C04 *)
(** What reset does: one frame, the outermost one, without input, candidates, confirmed text
    and history; its input mode is kept - and so is its composition mode, which the
    documentation says becomes Direct (C04_refuted). *)
Definition emptied (s t : cstate) : Prop :=
  s_pre t = [] /\ s_raw t = [] /\ s_comp t = [] /\ s_okuri t = [] /\ s_conf t = [] /\
  candidate_count t = 0%N /\ cursor t = 0%N /\ s_hist t = [] /\
  s_imode t = s_imode s /\ s_cmode t = s_cmode s.
Theorem C04_reset_partial : forall X dbg w s, reachable X dbg w -> outermost w = Some s ->
  exists t, exec X dbg OReset w = Ok (OutUnit, with_frames [t] w) /\ emptied s t.
Proof.
  intros X dbg w s _ Hs. unfold outermost in Hs. cbn. unfold bind, reset_state_stack.
  destruct (rev (x_stack (w_ctx w))) as [|top l] eqn:E; cbn in Hs; [discriminate|].
  injection Hs as ->. exists (clear_all s). split; [reflexivity|]. repeat split.
Qed.
Theorem C04_refuted : exists w w', reachable ascii_xkb true w
  /\ exec ascii_xkb true OReset w = Ok (OutUnit, w') /\ option_map s_cmode (current w') = Some PreComposition.
Proof.
  destruct (run_case (typed true (U "A i") (demo []))
     (fun w => (rmap (fun x => option_map s_cmode (current (snd x))) (exec ascii_xkb true OReset w)))
     _ ltac:(vm_compute; reflexivity)) as (outs & w & E & H).
  destruct (run_case _ (fun w => option_map s_cmode (current w)) _ H) as (o & w' & E2 & H3). exists w, w'. split; [eapply typed_reachable, E|].
  split; [|exact H3]. assert (o = OutUnit).
  { cbn in E2. unfold bind in E2. destruct (reset_state_stack w) as [[? ?]|]; [|discriminate].
    injection E2 as <- <-. reflexivity. }
  subst o. exact E2.
Qed.

(* ------------------------------------------------------------------ C06 *)
(** Polling: hands over exactly the confirmed text of the outermost frame and empties it. *)
Theorem C06_poll : forall X dbg w inner s, frames w = inner ++ [s] ->
  exec X dbg OPoll w =
    Ok (OutText (if is_nil (s_conf s) then None else Some (s_conf s)),
        with_frames (inner ++ [set_conf [] s]) w).
Proof.
  intros X dbg w inner s Hs. unfold frames in Hs. cbn. unfold bind, poll_output. rewrite Hs, rev_app_distr. cbn [rev app].
  destruct (s_conf s) as [|c t] eqn:E; cbn [is_nil].
  - unfold ret. do 2 f_equal. rewrite <- E, set_conf_same. symmetry. apply with_frames_same, Hs.
  - unfold ret. cbn [rev]. rewrite rev_involutive. reflexivity.
Qed.
Theorem C06_poll_twice : forall X dbg w, reachable X dbg w -> exists t w',
  exec X dbg OPoll w = Ok (OutText t, w') /\ exec X dbg OPoll w' = Ok (OutText None, w')
  /\ t = (if is_nil (confirmed_text w) then None else Some (confirmed_text w)) /\ confirmed_text w' = [].
Proof.
  intros X dbg w Hr. apply reachable_nonempty in Hr.
  destruct (exists_last Hr) as (inner & s & E).
  exists (if is_nil (s_conf s) then None else Some (s_conf s)), (with_frames (inner ++ [set_conf [] s]) w).
  assert (Hc : confirmed_text w = s_conf s).
  { unfold confirmed_text, outermost. rewrite E, rev_app_distr. reflexivity. }
  split; [apply C06_poll, E|]. split; [|split].
  - rewrite (C06_poll X dbg _ inner (set_conf [] s)) by reflexivity. reflexivity.
  - now rewrite Hc.
  - unfold confirmed_text, outermost. cbn. rewrite rev_app_distr. reflexivity.
Qed.
Example C06_case : exists outs w, typed true (U "k a A i space A i") (demo [user_dict dic_small]) = Ok (outs, w)
  /\ (confirmed_text w, rmap fst (exec ascii_xkb true OPoll w)) = (U "か愛", Ok (OutText (Some (U "か愛")))).
Proof. apply run_case. vm_compute. reflexivity. Qed.

(* ------------------------------------------------------------------ C08 *)
Lemma ascii_key X dbg k ch w s r : frames w = s :: r -> s_cmode s = Direct -> s_imode s = Ascii ->
  types X k ch -> unbound (x_cmd (w_ctx w)) Direct Ascii k ->
  exec X dbg (OKey k) w = Ok (OutBool true, with_frames (set_conf (s_conf s ++ [ch]) s :: r) w).
Proof.
  intros Hs Hc Hi Ht Hu. unfold frames in Hs. apply exec_key.
  pose proof (types_ascii X k ch Ht) as Ha. destruct Ht as (Hm & _ & Hch).
  rewrite (key_unbound X dbg k w s r Hs); [|apply mods_no_release, Hm|congruence|rewrite Hc, Hi; exact Hu].
  unfold input_key. rewrite (mods_modifierless k Hm). cbn [negb]. rewrite Hc.
  unfold bind, cur, get, ret. rewrite Hs. cbn beta iota. rewrite ?Hs. cbn [andb]. rewrite ?Hs, ?Hi, ?Hc. cbn [has_rom2kana_conversion andb].
  rewrite Ha. cbn [andb]. unfold input_plain, bind, cur, get. rewrite Hs. cbn beta iota. rewrite Hc.
  unfold get_symbol_char. rewrite Hch, Hi. unfold modcur. rewrite Hs. unfold push_string. rewrite Hc. reflexivity.
Qed.
Theorem C08_ascii_transparent : forall X dbg ks chs w s r, frames w = s :: r ->
  s_cmode s = Direct -> s_imode s = Ascii ->
  Forall2 (types X) ks chs -> Forall (unbound (x_cmd (w_ctx w)) Direct Ascii) ks ->
  run X dbg (map OKey ks) w =
    Ok (map (fun _ => OutBool true) ks, with_frames (set_conf (s_conf s ++ chs) s :: r) w).
Proof.
  intros X dbg ks. induction ks as [|k ks IH]; intros chs w s r Hs Hc Hi Ht Hu.
  - inversion Ht; subst. cbn. unfold ret. rewrite app_nil_r, set_conf_same, with_frames_same by exact Hs. reflexivity.
  - inversion Ht as [|? ch ? chs' Hk Hks]; subst. inversion Hu; subst. cbn [map].
    rewrite (run_cons X dbg _ _ _ _ _ (ascii_key X dbg k ch w s r Hs Hc Hi Hk H1)).
    erewrite IH; [|reflexivity|exact Hc|exact Hi|exact Hks|assumption].
    cbn. rewrite <- app_assoc. reflexivity.
Qed.
Theorem C08_ascii_polled : forall X dbg ks chs w s, frames w = [s] ->
  s_cmode s = Direct -> s_imode s = Ascii -> s_conf s = [] -> ks <> [] ->
  Forall2 (types X) ks chs -> Forall (unbound (x_cmd (w_ctx w)) Direct Ascii) ks ->
  run X dbg (map OKey ks ++ [OPoll]) w =
    Ok (map (fun _ => OutBool true) ks ++ [OutText (Some chs)], w).
Proof.
  intros X dbg ks chs w s Hs Hc Hi Hf Hne Ht Hu.
  pose proof (C08_ascii_transparent X dbg ks chs w s [] Hs Hc Hi Ht Hu) as H.
  rewrite (run_app X dbg _ [OPoll] _ _ _ H).
  rewrite (run_cons X dbg OPoll [] _ _ _ (C06_poll X dbg (with_frames [set_conf (s_conf s ++ chs) s] w) [] (set_conf (s_conf s ++ chs) s) eq_refl)).
  cbn [run ret]. cbn. rewrite Hf. cbn. destruct chs as [|c chs]; [inversion Ht; subst; congruence|]. cbn.
  do 2 f_equal. rewrite with_frames_twice. apply with_frames_same. rewrite Hs. f_equal. change (s = set_conf [] s). rewrite <- Hf at 1. now rewrite set_conf_same.
Qed.
Lemma default_unbound_letters c : (33 <= c <= 126)%N ->
  unbound (r_command default_rule) Direct Ascii (mkKey c 0).
Proof.
  intros Hc k l Hin. assert (H : forallb (fun e : keyev * list instr =>
     negb (N.eqb (kmods (fst e)) 0) || N.ltb 126 (ksym (fst e))) (r_command default_rule Direct Ascii) = true)
    by (vm_compute; reflexivity).
  rewrite forallb_forall in H. specialize (H _ Hin). cbn [fst] in H. intros ->.
  unfold command_key in H. destruct (is_upper (mkKey c 0)); cbn in H; apply N.ltb_lt in H; lia.
Qed.
Example C08_case : exists outs w, typed true (U "l A z bracketleft") (demo []) = Ok (outs, w)
  /\ (map s_imode (frames w), map s_cmode (frames w), map s_conf (frames w)) = ([Ascii], [Direct], [U "Az["])
  /\ types ascii_xkb (mkKey 91 0) 91 /\ unbound (r_command default_rule) Direct Ascii (mkKey 91 0).
Proof.
  destruct (run_case (typed true (U "l A z bracketleft") (demo [])) (fun w => (map s_imode (frames w), map s_cmode (frames w), map s_conf (frames w)))
    ([Ascii], [Direct], [U "Az["]) ltac:(vm_compute; reflexivity)) as (o & w & H1 & H2).
  exists o, w. split; [exact H1|]. split; [exact H2|]. split.
  - repeat split; auto; cbn; lia.
  - apply default_unbound_letters. lia.
Qed.

(* ------------------------------------------------------------------ C09 *)
(** The full-width form of a character: the table's, or the character itself. *)
Definition full_width (am : ascii_map) (ch : N) (t : str) : Prop :=
  (assoc_str [ch] am = Some t) \/ (assoc_str [ch] am = None /\ t = [ch]).
Lemma zenkaku_key X dbg k ch t w s r : frames w = s :: r -> s_cmode s = Direct -> s_imode s = Zenkaku ->
  types X k ch -> full_width (x_am (w_ctx w)) ch t -> unbound (x_cmd (w_ctx w)) Direct Zenkaku k ->
  exec X dbg (OKey k) w = Ok (OutBool true, with_frames (set_conf (s_conf s ++ t) s :: r) w).
Proof.
  intros Hs Hc Hi Ht Hf Hu. unfold frames in Hs. apply exec_key.
  pose proof (types_ascii X k ch Ht) as Ha. destruct Ht as (Hm & _ & Hch).
  rewrite (key_unbound X dbg k w s r Hs); [|apply mods_no_release, Hm|congruence|rewrite Hc, Hi; exact Hu].
  unfold input_key. rewrite (mods_modifierless k Hm). cbn [negb]. rewrite Hc.
  unfold bind, cur, get, ret. rewrite Hs. cbn beta iota. rewrite ?Hs. cbn [andb]. rewrite ?Hs, ?Hi, ?Hc. cbn [has_rom2kana_conversion andb].
  rewrite Ha. cbn [andb]. unfold input_plain, bind, cur, get. rewrite Hs. cbn beta iota. rewrite Hc.
  unfold get_symbol_char. rewrite Hch, Hi. unfold append_converted, modcur. rewrite Hs. unfold push_string. rewrite Hc, Hi.
  cbn [adjust_kana_string push_string_for]. unfold adjust_ascii_char, ret, with_frames, set_stack.
  destruct Hf as [->|[-> ->]]; reflexivity.
Qed.
Theorem C09_zenkaku : forall X dbg ks chs ts w s r, frames w = s :: r ->
  s_cmode s = Direct -> s_imode s = Zenkaku ->
  Forall2 (types X) ks chs -> Forall2 (full_width (x_am (w_ctx w))) chs ts ->
  Forall (unbound (x_cmd (w_ctx w)) Direct Zenkaku) ks ->
  run X dbg (map OKey ks) w =
    Ok (map (fun _ => OutBool true) ks, with_frames (set_conf (s_conf s ++ concat ts) s :: r) w).
Proof.
  intros X dbg ks. induction ks as [|k ks IH]; intros chs ts w s r Hs Hc Hi Ht Hf Hu.
  - inversion Ht; subst. inversion Hf; subst. cbn. unfold ret.
    rewrite app_nil_r, set_conf_same, with_frames_same by exact Hs. reflexivity.
  - inversion Ht as [|? ch ? chs' Hk Hks]; subst. inversion Hf as [|? t ? ts' Hk' Hks']; subst.
    inversion Hu; subst. cbn [map].
    rewrite (run_cons X dbg _ _ _ _ _ (zenkaku_key X dbg k ch t w s r Hs Hc Hi Hk Hk' H1)).
    erewrite IH; [|reflexivity|exact Hc|exact Hi|exact Hks|exact Hks'|assumption].
    cbn. rewrite <- app_assoc. reflexivity.
Qed.
Example C09_case : exists outs w, typed true (U "L A z bracketleft") (demo []) = Ok (outs, w)
  /\ (map s_imode (frames w), map s_conf (frames w)) = ([Zenkaku], [U "Ａｚ［"]).
Proof. apply run_case. vm_compute. reflexivity. Qed.

(* ------------------------------------------------------------------ C14 *)
Theorem C14_shift_on_capitals : forall X dbg c m w, (65 <= c <= 90)%N ->
  exec X dbg (OKey (mkKey c m)) w = exec X dbg (OKey (mkKey c (N.lor m M_SHIFT))) w.
Proof.
  intros X dbg c m w Hc. set (k := mkKey c m). set (k' := mkKey c (N.lor m M_SHIFT)).
  assert (Hu : is_upper k = true).
  { unfold is_upper. cbn. apply andb_true_intro; split; apply N.leb_le; unfold KEY_A, KEY_Z; lia. }
  assert (Hu' : is_upper k' = true) by exact Hu.
  assert (Hml : is_modifierless_input k' = is_modifierless_input k).
  { unfold is_modifierless_input. cbn. f_equal. apply N.bits_inj. intros i.
    rewrite !N.ldiff_spec, N.lor_spec. destruct (N.testbit m i), (N.testbit M_SHIFT i); reflexivity. }
  assert (Hrel : has_mod k' M_RELEASE = has_mod k M_RELEASE).
  { assert (E : N.land (N.lor m M_SHIFT) M_RELEASE = N.land m M_RELEASE).
    { apply N.bits_inj. intros i. rewrite !N.land_spec, N.lor_spec.
      destruct (N.eqb_spec i 30) as [->|Hi].
      - change (N.testbit M_SHIFT 30) with false. now rewrite Bool.orb_false_r.
      - assert (Hb : N.testbit M_RELEASE i = false)
          by (change M_RELEASE with (2 ^ 30)%N; apply N.pow2_bits_false; lia).
        rewrite Hb. now rewrite !Bool.andb_false_r. }
    unfold has_mod. change (kmods k') with (N.lor m M_SHIFT). change (kmods k) with m. now rewrite E. }
  assert (Hck : command_key k' = command_key k).
  { unfold command_key. rewrite Hu, Hu'. cbn. f_equal. apply N.bits_inj. intros i.
    rewrite !N.ldiff_spec, N.lor_spec. destruct (N.testbit m i), (N.testbit M_SHIFT i); reflexivity. }
  cbn [exec]. unfold bind at 1 2. unfold process_key_event. rewrite Hrel.
  destruct (has_mod k M_RELEASE); [reflexivity|].
  assert (Hin : forall s0 u, input_key X dbg k s0 u = input_key X dbg k' s0 u).
  { intros s0 u. unfold input_key, will_be_processed, input_kana, input_plain, input_unconverted, input_direct_char,
      input_as_continuous_kana, next_unprocessed_state, transition_by_capital, to_lower. rewrite Hml, Hu, Hu'. reflexivity. }
  unfold process_key_event_inner, skip_command, get_instruction. rewrite Hml, Hck.
  unfold bind at 1 2 3 4. unfold cur, get. destruct (x_stack (w_ctx w)) as [|s r]; [reflexivity|].
  cbn zeta. change (combine_lower k') with (combine_lower k). change (combine_raw k') with (combine_raw k).
  rewrite !Hin. reflexivity.
Qed.
Example C14_case :
  rmap (fun x => get_preedit ascii_xkb (w_ctx (snd x)))
    (run ascii_xkb true (map OKey [mkKey 75 M_SHIFT; mkKey 97 0]) (demo [])) = Ok (U "▽か") /\
  rmap (fun x => get_preedit ascii_xkb (w_ctx (snd x)))
    (run ascii_xkb true (map OKey [mkKey 107 M_SHIFT; mkKey 97 0]) (demo [])) = Ok (U "か").
Proof. split; vm_compute; reflexivity. Qed.

(* ------------------------------------------------------------------ C48 *)
Theorem C48_select_no_candidates : forall X dbg i w s r, frames w = s :: r ->
  candidate_count s = 0%N -> exec X dbg (OSelectAt i) w = Ok (OutBool false, w).
Proof.
  intros X dbg i w s r Hs Hc. unfold frames in Hs. cbn. unfold bind, select_candidate_at, bind, cur. rewrite Hs.
  unfold cl_len. unfold candidate_count in Hc. rewrite Hc. reflexivity.
Qed.
(** A negative index goes back to the reading: PreComposition, okurigana appended to it. *)
Definition back_to_reading (s t : cstate) : Prop :=
  s_cmode t = PreComposition /\ s_comp t = s_comp s ++ s_okuri s /\ s_raw t = s_raw s ++ s_okuri s /\
  s_okuri t = [] /\ candidate_count t = 0%N /\ cursor t = 0%N /\
  s_conf t = s_conf s /\ s_pre t = s_pre s /\ s_imode t = s_imode s.
Theorem C48_select_negative : forall X dbg i w s r, frames w = s :: r ->
  (candidate_count s <> 0)%N -> (i < 0)%Z ->
  exists t, exec X dbg (OSelectAt i) w = Ok (OutBool true, with_frames (t :: r) w) /\ back_to_reading s t.
Proof.
  intros X dbg i w s r Hs Hc Hi. unfold frames in Hs. cbn. unfold bind, select_candidate_at, bind, cur. rewrite Hs.
  unfold cl_len. unfold candidate_count in Hc. apply N.eqb_neq in Hc. rewrite Hc. apply Z.ltb_lt in Hi. rewrite Hi.
  unfold modcur. rewrite Hs. eexists. split; [reflexivity|]. repeat split.
Qed.
Theorem C48_select_in_range : forall X dbg i w s r, frames w = s :: r ->
  (0 <= i < Z.of_N (candidate_count s))%Z -> (candidate_count s < 2 ^ 31)%N ->
  exec X dbg (OSelectAt i) w =
    Ok (OutBool true, with_frames (set_list (mkCL (cl_key (s_list s)) (Z.to_N i) (cl_list (s_list s))) s :: r) w).
Proof.
  intros X dbg i w s r Hs Hi Hb. unfold frames in Hs. cbn. unfold bind, select_candidate_at, bind, cur. rewrite Hs.
  unfold cl_len, candidate_count in *. set (n := N.of_nat (length (cl_list (s_list s)))) in *.
  assert (Hn : N.eqb n 0 = false) by (apply N.eqb_neq; lia). rewrite Hn.
  assert (H1 : (i <? 0)%Z = false) by (apply Z.ltb_ge; lia). rewrite H1.
  assert (H2 : as_i32 n = Z.of_N n).
  { unfold as_i32. rewrite Z.mod_small by lia. destruct (Z.ltb_spec (Z.of_N n) (2 ^ 31)); lia. }
  rewrite H2. assert (H3 : (Z.of_N n <=? i)%Z = false) by (apply Z.leb_gt; lia). rewrite H3.
  unfold modcur. rewrite Hs. unfold set_candidate_pointer, cl_set_pointer, cl_len. fold n.
  assert (H4 : N.ltb (Z.to_N i) n = true) by (apply N.ltb_lt; lia). rewrite H4. reflexivity.
Qed.
(** Beyond the end: the cursor stands on the last candidate and, unless ten frames are open,
    a registration of the reading starts in a fresh frame. *)
Theorem C48_select_beyond : forall X dbg i w s r, frames w = s :: r ->
  (candidate_count s <> 0)%N -> (candidate_count s < 2 ^ 31)%N -> (Z.of_N (candidate_count s) <= i)%Z ->
  let last := set_list (mkCL (cl_key (s_list s)) (candidate_count s - 1) (cl_list (s_list s))) s in
  exists l, exec X dbg (OSelectAt i) w = Ok (OutBool true, with_frames l w) /\
    (length (frames w) < 10 -> exists t, l = st_new Hiragana Direct :: t :: r /\ s_cmode t = Register
        /\ s_list t = s_list last /\ s_comp t = s_comp s /\ s_okuri t = s_okuri s /\ s_conf t = s_conf s) /\
    (10 <= length (frames w) -> l = last :: r).
Proof.
  intros X dbg i w s r Hs Hc Hb Hi last. unfold frames in *. cbn. unfold bind, select_candidate_at, bind, cur. rewrite Hs.
  unfold cl_len, candidate_count in *. set (n := N.of_nat (length (cl_list (s_list s)))) in *.
  assert (Hn : N.eqb n 0 = false) by (apply N.eqb_neq; lia). rewrite Hn.
  assert (H1 : (i <? 0)%Z = false) by (apply Z.ltb_ge; lia). rewrite H1.
  assert (H2 : as_i32 n = Z.of_N n).
  { unfold as_i32. rewrite Z.mod_small by lia. destruct (Z.ltb_spec (Z.of_N n) (2 ^ 31)); lia. }
  rewrite H2. assert (H3 : (Z.of_N n <=? i)%Z = true) by (apply Z.leb_le; lia). rewrite H3.
  unfold modcur. rewrite Hs. unfold set_candidate_pointer, cl_set_pointer, cl_len. fold n.
  assert (H4 : N.ltb (n - 1) n = true) by (apply N.ltb_lt; lia). rewrite H4. cbn [snd].
  unfold enter_register_mode. cbn [set_stack w_ctx x_stack]. unfold REGISTER_MODE_STACK_MAX.
  destruct (Nat.ltb_spec (length (set_list (mkCL (cl_key (s_list s)) (n - 1) (cl_list (s_list s))) s :: r)) 10) as [Hl|Hl].
  - eexists. split; [reflexivity|]. split; [|cbn in Hl |- *; lia]. intros _. eexists. repeat split.
  - eexists. split; [reflexivity|]. split; [cbn in Hl |- *; lia|]. intros _. reflexivity.
Qed.
(** Out of range: nothing happens. *)
Theorem C48_confirm_out_of_range : forall X dbg i w s r, frames w = s :: r ->
  (candidate_count s <= i)%N -> exec X dbg (OConfirmAt i) w = Ok (OutBool false, w).
Proof.
  intros X dbg i w s r Hs Hi. unfold frames in Hs. cbn. unfold bind, confirm_candidate_at, bind, cur, modcur. rewrite Hs.
  unfold set_candidate_pointer, cl_set_pointer, cl_len. unfold candidate_count in Hi.
  assert (H4 : N.ltb i (N.of_nat (length (cl_list (s_list s)))) = false) by (apply N.ltb_ge; lia). 
  rewrite H4. cbn [fst snd]. rewrite Hs, H4. cbn [fst snd].
  unfold ret. do 2 f_equal. replace (set_list (s_list s) s) with s by (destruct s; reflexivity).
  apply (with_frames_same w (s :: r) Hs).
Qed.
(** In range, while selecting: exactly that candidate and the okurigana (in the kana form of the
    input mode) are appended to the confirmed text, everything unconfirmed is cleared, the mode
    is the default one, and every dictionary of the context is told which candidate was taken. *)
Theorem C48_confirm_in_range : forall X dbg i w s r c, frames w = s :: r ->
  s_cmode s = CompositionSelection \/ s_cmode s = Completion \/ s_cmode s = Direct ->
  nth_error (cl_list (s_list s)) (N.to_nat i) = Some c ->
  exists t, exec X dbg (OConfirmAt i) w =
      Ok (OutBool true, with_frames (t :: r) (set_store (upd_dicts (x_dicts (w_ctx w)) (fun d => select_candidate d c) (w_store w)) w))
    /\ s_conf t = s_conf s ++ c_output c ++ adjust_kana_string (x_kf (w_ctx w)) (s_imode s) (s_okuri s)
    /\ s_pre t = [] /\ s_comp t = [] /\ s_raw t = [] /\ s_okuri t = [] /\ candidate_count t = 0%N
    /\ s_hist t = [] /\ s_cmode t = s_default s /\ s_imode t = s_imode s.
Proof.
  intros X dbg i w s r c Hs Hm Hn. unfold frames in Hs. cbn. unfold bind, confirm_candidate_at, bind, cur, modcur. rewrite Hs.
  assert (Hi : (i < N.of_nat (length (cl_list (s_list s))))%N).
  { assert (H : nth_error (cl_list (s_list s)) (N.to_nat i) <> None) by congruence. apply nth_error_Some in H. lia. }
  unfold set_candidate_pointer, cl_set_pointer, cl_len.
  apply N.ltb_lt in Hi. rewrite Hi. cbn [fst snd]. rewrite Hs, Hi. cbn [fst snd]. unfold confirm_current, bind, cur, get, modcur.
  cbn [set_stack w_ctx x_stack set_list s_list]. unfold cl_current. cbn [cl_list cl_cur]. rewrite Hn.
  cbn -[upd_dicts select_candidate push_string adjust_kana_string clear_unconfirmed].
  eexists. split; [reflexivity|]. unfold push_string. cbn -[upd_dicts select_candidate adjust_kana_string].
  destruct Hm as [->|[->| ->]]; repeat split.
Qed.
Example C48_case : exists outs w, typed true (U "A i space") (demo [user_dict dic_small]) = Ok (outs, w)
  /\ (map candidate_count (frames w), map s_cmode (frames w),
      rmap (fun x => confirmed_text (snd x)) (exec ascii_xkb true (OConfirmAt 2) w))
     = ([3%N], [CompositionSelection], Ok (U "相")).
Proof. apply run_case. vm_compute. reflexivity. Qed.
