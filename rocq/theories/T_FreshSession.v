(** C82 and C74: whatever was typed before, a typing session goes on from an idle context exactly as from a new one. *)
From Verif Require Import Str Keys Modes KanaBuilder FormChanger DictTypes Parser Lru
  Dictionary CState Context DefaultRule Demo Spec P_Monad P_Frames P_Inv P_Kana P_Step P_Fresh T_Fresh P_Hidden.
From Verif Require Import T_Frames T_Word T_Session T_SessionDemo.
From Verif Require T_Encoding T_Sentence.

(** The two parts no one can see do not matter: contexts whose frames differ only in the okurigana of the last
    lookup and, without okurigana, in the mark that the kana kept aside are okurigana, answer every call alike,
    have the same dictionaries and show the same. *)
Theorem C82_unseen : forall X dbg w w' ops,
  w_store w = w_store w' ->
  Forall2 (fun s t => exists o b, t = set_cokuri o (set_use b s) /\ (s_okuri s = [] \/ b = s_use s)) (x_stack (w_ctx w)) (x_stack (w_ctx w')) ->
  x_cmd (w_ctx w) = x_cmd (w_ctx w') -> x_kb (w_ctx w) = x_kb (w_ctx w') -> x_kf (w_ctx w) = x_kf (w_ctx w') -> x_am (w_ctx w) = x_am (w_ctx w') ->
  x_dicts (w_ctx w) = x_dicts (w_ctx w') -> x_cfg (w_ctx w) = x_cfg (w_ctx w') ->
  match run X dbg ops w, run X dbg ops w' with
  | Ok (outs, v), Ok (outs', v') => outs = outs' /\ w_store v = w_store v' /\ get_preedit X (w_ctx v) = get_preedit X (w_ctx v')
      /\ get_preedit_detail X (w_ctx v) = get_preedit_detail X (w_ctx v')
  | Panic e, Panic e' => e = e'
  | _, _ => False
  end.
Proof.
  intros X dbg w w' ops E H E1 E2 E3 E4 E5 E6.
  assert (A : alike_w w w') by (split; [exact E|]; unfold ctx_alike; repeat (split; [assumption|]); assumption).
  pose proof (sim_run X dbg ops w w' A) as G. unfold rel in G. destruct (run X dbg ops w) as [[outs v]|e], (run X dbg ops w') as [[outs' v']|e']; try exact G.
  destruct G as [-> [G1 G2]]. destruct (alike_preedit X _ _ G2) as [P1 P2]. auto.
Qed.

(** After every considerate history: from a frame without an open word and without a capital pending, a typing session (C74)
    goes on exactly as from an idle scene: every key is used, and dictionaries, text, mode, keys pending and display are
    those of the scene reached. *)
Theorem C82_session_partial : forall X dbg st r0 kf am ds i ops0 outs0 w s rest r ops S',
  tidy_rule (r_command r0) ->
  let w0 := mkW st (ctx_new X r0 kf am ds i Direct) in
  considerate X dbg ops0 w0 -> run X dbg ops0 w0 = Ok (outs0, w) ->
  frames w = s :: rest -> s_cmode s = Direct -> s_cap s = false ->
  distinct_keys X r -> rows_have_keys X r -> x_kb (w_ctx w) = kb_new X r ->
  session X r (x_cmd (w_ctx w)) (x_kf (w_ctx w)) (x_am (w_ctx w)) (x_cfg (w_ctx w)) (x_dicts (w_ctx w)) (length (frames w))
    (mkSc (s_imode s) Idle (s_pre s) false (s_conf s) (s_hist s) (w_store w)) ops S' ->
  exists w' s' t' rest', run X dbg ops w = Ok (repeat (OutBool true) (length ops), w') /\ w_store w' = sc_dicts S'
    /\ frames w' = s' :: rest' /\ length rest' = length rest
    (* the frame shows the scene, but for the two parts of C82_unseen *)
    /\ shows_scene S' t' /\ (exists o b, s' = set_cokuri o (set_use b t') /\ (s_okuri t' = [] \/ b = s_use t'))
    /\ (rest = [] -> get_preedit X (w_ctx w') = display X (x_kf (w_ctx w)) S').
Proof.
  intros X dbg st r0 kf am ds i ops0 outs0 w s rest r ops S' Ht w0 Hc Hr Hf Hm Hcap Hd Hrows Hb H.
  destruct (C82_partial X dbg st r0 kf am ds i ops0 outs0 w s Ht Hc Hr ltac:(unfold current; unfold frames in Hf; rewrite Hf; reflexivity) Hm) as [(N1 & N2 & N3 & _) _].
  destruct (run_good X dbg ops0 w0 outs0 w (start_good X r0 st kf am ds i Ht) Hc Hr) as [(s1 & r1 & G1 & [[G2 _] _] & _) _].
  unfold frames in Hf. rewrite Hf in G1. injection G1 as <- <-.
  assert (Hh : length (s_hist s) <= 20).
  { apply (C16_history_bounded X dbg w s); [|unfold frames; rewrite Hf; now left]. exists w0, ops0, outs0. split; [|exact Hr].
    exists st, kf, am, ds, i, Direct. left. now exists r0. }
  set (t := set_use false s).
  assert (At : alike t s) by (exists (s_cokuri s), (s_use s); split; [destruct s; reflexivity|left; exact N3]).
  assert (Sh : shows_scene (mkSc (s_imode s) Idle (s_pre s) false (s_conf s) (s_hist s) (w_store w)) t).
  { unfold shows_scene, in_phase. cbn. repeat split; auto; [congruence|]. now exists []. }
  set (v := with_frames (t :: rest) w).
  assert (Av : alike_w v w).
  { split; [reflexivity|]. unfold ctx_alike. cbn. rewrite Hf. repeat (split; [|tauto]). constructor; [exact At|].
    clear. induction rest as [|a rest IH]; constructor; [apply alike_refl|exact IH]. }
  destruct (C74_session X dbg r v t rest _ ops S' Hd Hrows Hb eq_refl Sh eq_refl ltac:(unfold frames in *; cbn [length] in *; rewrite Hf in H; exact H)) as (t' & E & Sh').
  pose proof (sim_run X dbg ops v w Av) as G. rewrite E in G. unfold rel in G. destruct (run X dbg ops w) as [[outs w']|e] eqn:Er; [|contradiction].
  destruct G as [<- [G3 G4]]. pose proof G4 as (G5 & _). cbn [with_frames w_ctx x_stack set_store] in G5.
  inversion G5 as [|a s' l rest' A1 A2 Ea Es]; subst. exists w', s', t', rest'. split; [reflexivity|]. split; [symmetry; exact G3|].
  split; [symmetry; exact Es|]. split; [clear - A2; induction A2; cbn; congruence|]. split; [exact Sh'|].
  split; [destruct A1 as (o & b & -> & Ho); eauto|]. intros ->. destruct (alike_preedit X _ _ G4) as [P _]. rewrite P.
  destruct (shown X (x_kf (w_ctx w)) _ _ Sh') as [D R]. unfold get_preedit. cbn [with_frames w_ctx x_stack x_kf set_stack set_store rev app flat_map].
  rewrite R, !app_nil_r. exact D.
Qed.

(** Met: after the keys of C82_case, whose words were converted, given up, registered and completed, the sentence
    ka A i space is typed and shown behind the text of before. *)
Definition after_words : list act := ascii_keys (U "kaAi") ++ [AAsk (LKey T_Convert.space_key)].
Definition follow_on (fuel : nat) (X : xkb) (r : rule) (acts : list act) (w : world) (s : cstate) :=
  follow X r (x_cmd (w_ctx w)) (x_kf (w_ctx w)) (x_am (w_ctx w)) (x_cfg (w_ctx w)) (x_dicts (w_ctx w)) fuel (length (frames w))
    (mkSc (s_imode s) Idle (s_pre s) false (s_conf s) (s_hist s) (w_store w)) acts.
Definition summary (fuel : nat) (X : xkb) (r : rule) (acts : list act) (w : world) : option (cmode * bool * nat * option (nat * str)) :=
  match frames w with
  | [s] => Some (s_cmode s, s_cap s, length (s_conf s), option_map (fun x => (length (fst x), display X (x_kf (w_ctx w)) (snd x))) (follow_on fuel X r acts w s))
  | _ => None
  end.
Lemma summary_spec fuel X r acts w m cap n len d : summary fuel X r acts w = Some (m, cap, n, Some (len, d)) ->
  exists s ops S', frames w = [s] /\ s_cmode s = m /\ s_cap s = cap /\ length (s_conf s) = n /\ length ops = len /\ display X (x_kf (w_ctx w)) S' = d
    /\ session X r (x_cmd (w_ctx w)) (x_kf (w_ctx w)) (x_am (w_ctx w)) (x_cfg (w_ctx w)) (x_dicts (w_ctx w)) (length (frames w))
        (mkSc (s_imode s) Idle (s_pre s) false (s_conf s) (s_hist s) (w_store w)) ops S'.
Proof.
  unfold summary. destruct (frames w) as [|s [|s2 l]] eqn:Ef; try discriminate. intros H. apply T_Encoding.some_inj in H.
  pose proof (f_equal (fun x => fst (fst (fst x))) H) as H1. pose proof (f_equal (fun x => snd (fst (fst x))) H) as H2.
  pose proof (f_equal (fun x => snd (fst x)) H) as H3. pose proof (f_equal snd H) as H4. cbn [fst snd] in H1, H2, H3, H4. clear H.
  destruct (follow_on fuel X r acts w s) as [[ops S']|] eqn:E; [|discriminate]. unfold follow_on in E. rewrite Ef in E.
  cbn [option_map fst snd] in H4. apply T_Encoding.some_inj in H4. pose proof (f_equal fst H4) as H5. pose proof (f_equal snd H4) as H6. cbn [fst snd] in H5, H6.
  exists s, ops, S'. repeat (split; [first [reflexivity|assumption]|]). exact (follow_spec _ _ _ _ _ _ _ _ _ _ _ _ _ E).
Qed.
Lemma keys_keep_kb X dbg ks w outs w' : x_stack (w_ctx w) <> [] -> run X dbg (map OKey ks) w = Ok (outs, w') -> x_kb (w_ctx w') = x_kb (w_ctx w).
Proof.
  intros Hw Hr.
  assert (G : x_stack (w_ctx w') <> [] /\ x_kb (w_ctx w') = x_kb (w_ctx w)); [|apply G].
  revert Hr. apply (run_inv X dbg (fun v => x_stack (w_ctx v) <> [] /\ x_kb (w_ctx v) = x_kb (w_ctx w)) (fun o => changes_rule o = false)).
  - tauto.
  - intros o v v' Ho [H1 H2] Hs. split; [eapply step_nonempty; eauto|]. destruct Hs as [[Ev _ _]|(_ & _ & G)].
    + destruct Ev as (_ & E & _). congruence.
    + destruct (G Ho) as [-> _]. exact H2.
  - apply Forall_forall. intros o Hin. apply in_map_iff in Hin as (k & <- & _). reflexivity.
  - auto.
Qed.
Lemma demo_kb ds ks outs w : run ascii_xkb false (map OKey ks) (demo ds) = Ok (outs, w) -> x_kb (w_ctx w) = kb_new ascii_xkb default_rule.
Proof.
  intros H. assert (N : x_stack (w_ctx (demo ds)) <> []) by discriminate. exact (keys_keep_kb _ _ _ _ _ _ N H).
Qed.
Example C82_session_case : exists outs w s ops S',
  considerate ascii_xkb false (map OKey (dkeys busy_keys)) (demo [user_dict dic_small])
  /\ run ascii_xkb false (map OKey (dkeys busy_keys)) (demo [user_dict dic_small]) = Ok (outs, w)
  /\ frames w = [s] /\ s_cmode s = Direct /\ s_cap s = false /\ x_kb (w_ctx w) = kb_new ascii_xkb default_rule
  /\ distinct_keys ascii_xkb default_rule /\ rows_have_keys ascii_xkb default_rule
  /\ session ascii_xkb default_rule (x_cmd (w_ctx w)) (x_kf (w_ctx w)) (x_am (w_ctx w)) (x_cfg (w_ctx w)) (x_dicts (w_ctx w)) (length (frames w))
       (mkSc (s_imode s) Idle (s_pre s) false (s_conf s) (s_hist s) (w_store w)) ops S'
  /\ length ops = 5 /\ display ascii_xkb (x_kf (w_ctx w)) S' = U "愛仮名い。あ愛か▼愛".
Proof.
  destruct (run_case (run ascii_xkb false (map OKey (dkeys busy_keys)) (demo [user_dict dic_small])) (summary 50 ascii_xkb default_rule after_words)
    (Some (Direct, false, 7, Some (5, U "愛仮名い。あ愛か▼愛")))) as (outs & w & E & F); [vm_compute; reflexivity|].
  apply summary_spec in F as (s & ops & S' & F1 & F2 & F3 & _ & F4 & F5 & F6). exists outs, w, s, ops, S'.
  split; [exact (proj1 C82_case)|]. split; [exact E|]. split; [exact F1|]. split; [exact F2|]. split; [exact F3|].
  split; [exact (demo_kb _ _ _ _ E)|].
  split; [exact (proj1 C11_case)|]. split; [exact T_Sentence.default_rows_have_keys|]. split; [exact F6|]. split; assumption.
Qed.
