(** Exact answers to claims that are false as stated: not only a counterexample and a
    sufficient condition, but when precisely the claim holds. *)
From Verif Require Import Str Keys Modes KanaBuilder FormChanger DictTypes Parser Lru Dictionary
  CState Context DefaultRule Demo Spec P_Monad P_Frames P_Inv P_Register P_Confirmed P_Step T_Romaji T_Input T_Abort T_Shipped.
From Verif Require T_Frames.

(** * C05: when exactly a context with a shipped rule is dead *)
(** In the two modes without kana: *)
Definition kanaless (i : imode) : Prop := i = Ascii \/ i = Zenkaku.
(** a composition entered before, or a list of candidates with none at the cursor; and
    registering on top of nothing. *)
Definition deadlocked (s : cstate) : Prop :=
  s_cmode s = Register
  \/ (kanaless (s_imode s) /\ (s_cmode s = PreComposition \/ s_cmode s = PreCompositionOkurigana))
  \/ (kanaless (s_imode s) /\ (s_cmode s = CompositionSelection \/ s_cmode s = Completion)
      /\ nth_error (cl_list (s_list s)) (N.to_nat (cl_cur (s_list s))) = None).

Lemma shipped_kanaless ru c i : shipped ru -> kanaless i -> c <> Direct -> c <> Abbreviation -> r_command ru c i = [].
Proof. intros [-> | ->] [-> | ->] H1 H2; destruct c; try congruence; reflexivity. Qed.
Lemma kanaless_rom i c : kanaless i -> has_rom2kana_conversion i c = false.
Proof. intros [-> | ->]; destruct c; reflexivity. Qed.
Lemma plain_ignored X k w s r : x_stack (w_ctx w) = s :: r -> s_cmode s <> Direct -> s_cmode s <> Abbreviation ->
  input_plain X k w = Ok (false, w).
Proof.
  intros Hs H1 H2. unfold input_plain, bind, cur, get. rewrite Hs. destruct (s_cmode s); try congruence; reflexivity.
Qed.
Lemma deadlocked_dead ru X w s r : shipped ru -> x_cmd (w_ctx w) = r_command ru -> frames w = s :: r ->
  deadlocked s -> dead X false w.
Proof.
  intros Hru Hcr Hs Hd k. unfold frames in Hs. unfold process_key_event. destruct (has_mod k M_RELEASE); [reflexivity|].
  unfold process_key_event_inner, bind, cur, get. rewrite Hs. cbn zeta.
  assert (Hrom : has_rom2kana_conversion (s_imode s) (s_cmode s) = false).
  { destruct Hd as [E|[(Hi & _)|(Hi & _)]]; [now rewrite E|now apply kanaless_rom..]. }
  assert (Hm : s_cmode s <> Direct /\ s_cmode s <> Abbreviation).
  { destruct Hd as [E|[(_ & [E|E])|(_ & [E|E] & _)]]; rewrite E; split; discriminate. }
  unfold skip_command. rewrite Hrom. cbn [andb]. rewrite andb_false_r.
  assert (Hins : get_instruction false (x_cmd (w_ctx w)) k (s_imode s) (s_cmode s) = Ok None).
  { unfold get_instruction. rewrite Hcr. destruct (s_cmode s) eqn:Ec; try reflexivity.
    all: destruct Hd as [E|[(Hi & [E|E])|(Hi & [E|E] & _)]]; rewrite Ec in E; try discriminate E;
      (rewrite (shipped_kanaless ru _ _ Hru); [reflexivity|exact Hi|discriminate|discriminate]). }
  rewrite Hins. unfold lift. unfold input_key. destruct (is_modifierless_input k); cbn [negb]; [|reflexivity].
  unfold bind, cur, get. rewrite Hs.
  assert (Hconf : (if (match s_cmode s with CompositionSelection | Completion => true | _ => false end)
        && will_be_processed (x_kb (w_ctx w)) k (s_imode s) (s_cmode s) (s_pre s)
     then confirm_current else ret tt) w = Ok (tt, w)).
  { destruct Hd as [E|[(_ & [E|E])|(_ & E & Hn)]]; try (rewrite E; reflexivity).
    destruct ((match s_cmode s with CompositionSelection | Completion => true | _ => false end) && _); [|reflexivity].
    unfold confirm_current, bind, cur, get. rewrite Hs. unfold cl_current. rewrite Hn. reflexivity. }
  rewrite Hconf. rewrite Hs, Hrom. cbn [andb]. rewrite andb_true_r.
  destruct (is_ascii_inputtable k); [|reflexivity]. now apply (plain_ignored X k w s r).
Qed.
(** Confirming the candidate at the cursor goes back to the default mode. *)
Lemma confirm_goes_back w s r : x_stack (w_ctx w) = s :: r ->
  (s_cmode s = CompositionSelection \/ s_cmode s = Completion) ->
  nth_error (cl_list (s_list s)) (N.to_nat (cl_cur (s_list s))) <> None ->
  exists t w1, confirm_current w = Ok (tt, w1) /\ x_stack (w_ctx w1) = t :: r
    /\ s_imode t = s_imode s /\ s_cmode t = s_default s.
Proof.
  intros Hs Hc Hn. unfold confirm_current, bind, cur, get. rewrite Hs. unfold cl_current.
  destruct (nth_error _ _) as [c|]; [|congruence]. unfold for_dicts, modcur. cbn [set_store w_ctx x_stack]. rewrite Hs.
  eexists _, _. split; [reflexivity|]. cbn [set_stack w_ctx x_stack]. split; [reflexivity|].
  unfold push_string. destruct Hc as [-> | ->]; split; reflexivity.
Qed.
Lemma plain_direct X k ch w s r : x_stack (w_ctx w) = s :: r -> s_cmode s = Direct -> kanaless (s_imode s) ->
  xk_char X (ksym k) = Some ch -> exists w', input_plain X k w = Ok (true, w').
Proof.
  intros Hs Hc Hi Hch. unfold input_plain, bind, cur, get. rewrite Hs, Hc. unfold get_symbol_char. rewrite Hch.
  destruct Hi as [-> | ->]; unfold append_converted, modcur, bind, cur, get; rewrite Hs; try rewrite Hc; eexists; reflexivity.
Qed.
(** A character key is accepted when a candidate is at the cursor. *)
Lemma letter_confirms ru X w s r k ch : shipped ru -> x_cmd (w_ctx w) = r_command ru -> frames w = s :: r ->
  kanaless (s_imode s) -> (s_cmode s = CompositionSelection \/ s_cmode s = Completion) ->
  nth_error (cl_list (s_list s)) (N.to_nat (cl_cur (s_list s))) <> None -> s_default s = Direct -> types X k ch ->
  exists w', process_key_event X false k w = Ok (true, w').
Proof.
  intros Hru Hcr Hs Hi Hc Hn Hd Ht. pose proof Ht as (Hmods & Hr & Hch). unfold frames in Hs.
  rewrite (key_unbound X false k w s r Hs (mods_no_release k Hmods)).
  2: { destruct Hc as [-> | ->]; discriminate. }
  2: { unfold unbound. rewrite Hcr. rewrite (shipped_kanaless ru _ _ Hru); [|exact Hi| |]; [intros k' l []|destruct Hc as [-> | ->]; discriminate..]. }
  unfold input_key. rewrite (mods_modifierless k Hmods). cbn [negb].
  unfold bind, cur, get. rewrite Hs.
  assert (Ew : will_be_processed (x_kb (w_ctx w)) k (s_imode s) (s_cmode s) (s_pre s) = true).
  { unfold will_be_processed. rewrite (kanaless_rom _ _ Hi), (types_ascii X k ch Ht). cbn. now rewrite orb_true_r. }
  rewrite Ew.
  assert (Em : (match s_cmode s with CompositionSelection | Completion => true | _ => false end) = true)
    by (destruct Hc as [-> | ->]; reflexivity).
  rewrite Em. cbn [andb].
  destruct (confirm_goes_back w s r Hs Hc Hn) as (t & w1 & E & Ht1 & Hti & Htc). rewrite E, Ht1.
  rewrite Hti, (kanaless_rom _ _ Hi). cbn [andb]. rewrite (types_ascii X k ch Ht). cbn [andb].
  apply (plain_direct X k ch w1 t r Ht1); [congruence|rewrite Hti; exact Hi|exact Hch].
Qed.
(** Every frame of a context made in direct input goes back to direct input. *)
Lemma run_defaults X dbg r kf am ds i st ops outs w :
  run X dbg ops (mkW st (ctx_new X r kf am ds i Direct)) = Ok (outs, w) -> Forall (fun s => s_default s = Direct) (frames w).
Proof.
  intros H. eapply (run_inv X dbg (fun w => x_stack (w_ctx w) <> [] /\ Forall (fun s => s_default s = Direct) (x_stack (w_ctx w))) (fun _ => True));
    [tauto| | | |exact H].
  - intros o w1 w2 _ (H1 & H2) Hs. split; [eapply step_nonempty; eauto|].
    destruct Hs as [Hs|(-> & _)]; [|exact H2]. destruct Hs as [_ Hs _].
    revert H2. induction Hs as [|l1 l2 l3 _ IH Hst]; intros H2; [exact H2|].
    specialize (IH H1 H2). destruct Hst as [? ? ? Ha| | |].
    + apply Forall_cons_iff in IH as (I1 & I2). constructor; [|exact I2]. now rewrite (astep_default _ _ _ _ _ Ha).
    + apply Forall_cons_iff in IH as (I1 & I2). constructor; [reflexivity|]. constructor; [exact I1|exact I2].
    + now apply Forall_cons_iff in IH.
    + apply Forall_app in IH as (I1 & I2). apply Forall_app. split; [exact I1|]. apply Forall_cons_iff in I2 as (I2 & _).
      constructor; [exact I2|constructor].
  - apply Forall_forall; auto.
  - split; [discriminate|constructor; [reflexivity|constructor]].
Qed.
Lemma run_cmd X dbg r kf am ds i c st ops outs w : Forall (fun o => changes_rule o = false) ops ->
  run X dbg ops (mkW st (ctx_new X r kf am ds i c)) = Ok (outs, w) -> x_stack (w_ctx w) <> [] /\ x_cmd (w_ctx w) = r_command r.
Proof.
  intros Hops H. eapply (run_inv X dbg (fun w => x_stack (w_ctx w) <> [] /\ x_cmd (w_ctx w) = r_command r) (fun o => changes_rule o = false));
      [| | | |exact H].
    - tauto.
    - intros o w1 w2 Ho [H1 H2] Hs. split; [eapply step_nonempty; eauto|].
      destruct Hs as [[(E & _) _ _]|(_ & _ & E)]; [|destruct (E Ho) as [_ E']]; congruence.
    - exact Hops.
    - split; [discriminate|reflexivity].
Qed.
(** C05, exactly, for either shipped rule: whatever calls were made on a context created in direct
    input, it is dead if and only if its current state is deadlocked, and otherwise some key is
    accepted.  [k0] is any character key of the keyboard but the space. *)
Theorem C05_default_exact ru X kf am ds i st ops outs w s r k0 ch : shipped ru -> Forall (fun o => changes_rule o = false) ops ->
  run X false ops (mkW st (ctx_new X ru kf am ds i Direct)) = Ok (outs, w) ->
  frames w = s :: r -> (33 <= ksym k0 <= 126)%N -> types X k0 ch ->
  (deadlocked s -> forall k, process_key_event X false k w = Ok (false, w))
  /\ (~ deadlocked s -> exists k w', process_key_event X false k w = Ok (true, w')).
Proof.
  intros Hru Hops H Hs Hk0 Ht. destruct (run_cmd _ _ _ _ _ _ _ _ _ _ _ _ Hops H) as (_ & Hcr).
  pose proof (run_defaults _ _ _ _ _ _ _ _ _ _ _ H) as Hdf. rewrite Hs in Hdf. apply Forall_cons_iff in Hdf as (Hdf & _).
  split; [intros Hd; now apply (deadlocked_dead ru X w s r)|]. intros Hd.
  assert (Hreg : s_cmode s <> Register) by (intros E; apply Hd; now left).
  destruct (s_imode s) eqn:Ei.
  1-3: exists (mkKey 106 M_CONTROL); apply (C05_default_partial ru X false w s r Hru Hcr Hs Hreg); left; unfold kana_mode; rewrite Ei; auto.
  all: assert (Hi : kanaless (s_imode s)) by (rewrite Ei; unfold kanaless; auto).
  all: destruct (s_cmode s) eqn:Ec; try (exfalso; apply Hd; right; left; split; [exact Hi|rewrite Ec; auto; fail]).
  all: try congruence.
  all: first
    [exists (mkKey 106 M_CONTROL); apply (C05_default_partial ru X false w s r Hru Hcr Hs ltac:(congruence)); right; exact Ec
    |exists k0; apply (C05_abbreviation_partial ru X false w s r k0 ch Hru Hcr Hs Ec Hk0 Ht)
    |exists k0; apply (letter_confirms ru X w s r k0 ch Hru Hcr Hs Hi ltac:(rewrite Ec; auto));
       [intros En; apply Hd; right; right; split; [exact Hi|split; [rewrite Ec; auto|exact En]]|exact Hdf|exact Ht]].
Qed.
(** Both cases occur. *)
Example C05_exact_case :
  (exists outs w s, run ascii_xkb false (map OKey (dkeys (U "A i C-j l C-g"))) (demo [user_dict []]) = Ok (outs, w)
     /\ frames w = [s] /\ deadlocked s)
  /\ (exists outs w s, run ascii_xkb false (map OKey (dkeys (U "A i C-j l a"))) (demo [user_dict []]) = Ok (outs, w)
     /\ frames w = [s] /\ ~ deadlocked s).
Proof.
  split.
  - destruct (run_case (run ascii_xkb false (map OKey (dkeys (U "A i C-j l C-g"))) (demo [user_dict []]))
      (fun w => map (fun s => (s_cmode s, s_imode s)) (frames w)) [(PreComposition, Ascii)]) as (outs & w & Hr & E); [vm_compute; reflexivity|].
    destruct (frames w) as [|s [|? ?]] eqn:Es; try discriminate E. exists outs, w, s. split; [exact Hr|split; [exact Es|]].
    cbn in E. injection E as E1 E2. right. left. unfold kanaless. rewrite E1, E2. auto.
  - destruct (run_case (run ascii_xkb false (map OKey (dkeys (U "A i C-j l a"))) (demo [user_dict []]))
      (fun w => map (fun s => (s_cmode s, s_imode s)) (frames w)) [(Direct, Ascii)]) as (outs & w & Hr & E); [vm_compute; reflexivity|].
    destruct (frames w) as [|s [|? ?]] eqn:Es; try discriminate E. exists outs, w, s. split; [exact Hr|split; [exact Es|]].
    cbn in E. injection E as E1 E2. unfold deadlocked. rewrite E1. intros [H|[(_ & [H|H])|(_ & [H|H] & _)]]; discriminate H.
Qed.

(** * C07: what becomes of confirmed text, for every key of the shipped rules *)
(** The text confirmed in the only frame. *)
Lemma conf_only w s : frames w = [s] -> confirmed_text w = s_conf s.
Proof. intros H. unfold confirmed_text, outermost. unfold frames in H. rewrite H. reflexivity. Qed.
Lemma conf_inner w w' s t fr : frames w = s :: fr -> frames w' = t :: fr -> fr <> [] -> confirmed_text w' = confirmed_text w.
Proof.
  intros H H' Hne. rewrite !confirmed_last. unfold frames in *. rewrite H, H'. destruct fr; [congruence|].
  now rewrite !last_conf_cons.
Qed.
(** Lossless commands. *)
Lemma instrs_keep dbg w w' l c i res b : x_stack (w_ctx w) <> [] -> Forall L (x_stack (w_ctx w)) ->
  forallb (fun x => negb (bad_loss x)) l = true ->
  run_instrs dbg l c i res w = Ok (b, w') -> prefix (confirmed_text w) (confirmed_text w').
Proof.
  intros Hne HL Hl H.
  assert (Ha : Forall (instr_allowed no_loss) l).
  { apply Forall_forall. intros x Hx. rewrite forallb_forall in Hl. specialize (Hl x Hx). destruct x; cbn in *; auto; discriminate. }
  pose proof (r_instrs no_loss dbg (x_kb (w_ctx w)) (x_cmd (w_ctx w)) l c i Ha res w (conj eq_refl eq_refl) Hne) as Hr.
  unfold wp in Hr. rewrite H in Hr. destruct Hr as [_ Hs _]. rewrite !confirmed_last. eapply srel_conf in Hs; [apply Hs|exact HL].
Qed.
Lemma input_keeps X dbg w w' k c u b : x_stack (w_ctx w) <> [] -> Forall L (x_stack (w_ctx w)) ->
  input_key X dbg k c u w = Ok (b, w') -> prefix (confirmed_text w) (confirmed_text w').
Proof.
  intros Hne HL H.
  pose proof (r_input_key X no_loss dbg (x_kb (w_ctx w)) (x_cmd (w_ctx w)) k c u w (conj eq_refl eq_refl) Hne) as Hr.
  unfold wp in Hr. rewrite H in Hr. destruct Hr as [_ Hs _]. rewrite !confirmed_last. eapply srel_conf in Hs; [apply Hs|exact HL].
Qed.
(** Delete takes back at most the last character, of the only frame. *)
Lemma delete_run dbg w w' s fr c i b : frames w = s :: fr -> run_instrs dbg [IDelete] c i true w = Ok (b, w') ->
  confirmed_text w' = confirmed_text w \/ (fr = [] /\ confirmed_text w' = removelast (confirmed_text w)).
Proof.
  intros Hs H. cbn [run_instrs run_instr] in H. unfold bind, cur, modcur, ret in H. unfold frames in Hs. rewrite Hs in H.
  cbv beta iota zeta in H. rewrite Hs in H. injection H as _ <-. destruct fr as [|s2 fr].
  - rewrite (conf_only w s Hs). rewrite (conf_only (set_stack [snd (st_delete s)] w) (snd (st_delete s)) eq_refl). unfold st_delete.
    destruct (s_cmode s); cbn; auto; destruct (negb (is_nil (s_pre s))); cbn; auto.
    all: repeat match goal with |- context [if ?x then _ else _] => destruct x end; cbn; auto.
  - left. eapply conf_inner; [exact Hs|reflexivity|discriminate].
Qed.
(** Every command list of the shipped rules: lossless, or a deletion, or the purge. *)
Definition shape (l : list instr) : bool :=
  forallb (fun x => negb (bad_loss x)) l
  || match l with
     | [IDelete] | [IConfirmComposition; IDelete] | [IPurge; IChangeCompositionMode Direct] => true
     | _ => false
     end.
Lemma shipped_shapes ru c i k l : shipped ru -> In (k, l) (r_command ru c i) -> shape l = true.
Proof.
  intros Hru. assert (H : forallb (fun e => shape (snd e)) (r_command ru c i) = true)
    by (destruct Hru as [-> | ->]; destruct c, i; vm_compute; reflexivity).
  intros Hin. rewrite forallb_forall in H. exact (H _ Hin).
Qed.
Lemma shipped_avoids_clear ru : shipped ru -> rule_avoids bad_clear (r_command ru).
Proof.
  intros Hru. assert (H : forall c i, forallb (fun e : keyev * list instr => forallb (fun x => negb (bad_clear x)) (snd e))
     (r_command ru c i) = true) by (intros c i; destruct Hru as [-> | ->]; destruct c, i; vm_compute; reflexivity).
  intros c i k l Hin x Hx. specialize (H c i). rewrite forallb_forall in H. specialize (H _ Hin).
  cbn in H. rewrite forallb_forall in H. specialize (H _ Hx). now apply Bool.negb_true_iff.
Qed.
Theorem C07_exact : forall ru X dbg kf am ds i c st ops outs w k b w' s fr,
  shipped ru -> Forall (fun o => changes_rule o = false) ops ->
  run X dbg ops (mkW st (ctx_new X ru kf am ds i c)) = Ok (outs, w) -> frames w = s :: fr ->
  exec X dbg (OKey k) w = Ok (OutBool b, w') ->
  let bound_here x := exists l, In (command_key k, l) (r_command ru (s_cmode s) (s_imode s)) /\ In x l in
  (exists new, confirmed_text w' = confirmed_text w ++ new)
  \/ (bound_here IDelete /\ fr = [] /\ exists new, confirmed_text w' = removelast (confirmed_text w ++ new))
  \/ (bound_here IPurge /\ fr = [] /\ confirmed_text w' = []).
Proof.
  intros ru X dbg kf am ds i c st ops outs w k b w' s fr Hru Hops H Hs He bound_here.
  destruct (run_cmd _ _ _ _ _ _ _ _ _ _ _ _ Hops H) as (Hne & Hcr).
  assert (HL : Forall L (x_stack (w_ctx w))).
  { destruct (run_L X dbg ops (mkW st (ctx_new X ru kf am ds i c)) outs w (shipped_avoids_clear ru Hru)) as (_ & _ & HL); auto.
    - eapply Forall_impl; [|exact Hops]. intros o Ho. destruct o; try exact I. discriminate Ho.
    - cbn; discriminate.
    - cbn. constructor; [unfold L; cbn; lia|constructor]. }
  cbn [exec] in He. unfold bind, ret in He. destruct (process_key_event X dbg k w) as [[b0 w1]|] eqn:E; [|discriminate].
  injection He as <- <-. unfold process_key_event in E. destruct (has_mod k M_RELEASE).
  { unfold ret in E. injection E as _ <-. left. exists []. now rewrite app_nil_r. }
  unfold process_key_event_inner, bind, cur, get in E. pose proof Hs as Hs0. unfold frames in Hs. rewrite Hs in E. cbn zeta in E.
  destruct (skip_command _ _ _ _ _); [left; eapply input_keeps; eauto|].
  unfold lift in E. rewrite Hcr in E. unfold get_instruction in E.
  assert (G : forall o, o = assoc_key (command_key k) (r_command ru (s_cmode s) (s_imode s)) ->
    match o with Some l => process_instructions dbg l (s_cmode s) (s_imode s) | None => input_key X dbg k (s_cmode s) (s_pre s) end w = Ok (b0, w1) ->
    (exists new, confirmed_text w1 = confirmed_text w ++ new)
    \/ (bound_here IDelete /\ fr = [] /\ exists new, confirmed_text w1 = removelast (confirmed_text w ++ new))
    \/ (bound_here IPurge /\ fr = [] /\ confirmed_text w1 = [])).
  { clear E. intros o Eo E. destruct o as [l|]; [|left; eapply input_keeps; eauto].
    symmetry in Eo. apply assoc_key_in' in Eo as (k' & Hin & Hk). apply key_eqb_eq in Hk. subst k'.
    pose proof (shipped_shapes ru _ _ _ _ Hru Hin) as Hsh. unfold shape in Hsh. apply orb_true_iff in Hsh as [Hsh|Hsh].
    { left. unfold process_instructions in E. eapply (instrs_keep dbg w); eauto. }
    assert (Hb : forall x, In x l -> bound_here x) by (intros x Hx; exists l; auto). unfold process_instructions in E.
    destruct l as [|x1 [|x2 [|x3 l]]]; [discriminate Hsh| | |].
    3: { exfalso. clear - Hsh. destruct x1; try discriminate Hsh; destruct x2; try discriminate Hsh.
         match goal with c : cmode |- _ => destruct c; discriminate Hsh end. }
    all: destruct x1; try discriminate Hsh.
    - (* Delete *)
      destruct (delete_run dbg w w1 s fr _ _ _ Hs0 E) as [->|(-> & ->)]; [left; exists []; now rewrite app_nil_r|].
      right; left. split; [apply Hb; now left|split; [reflexivity|]]. exists []. now rewrite app_nil_r.
    - (* confirm, then Delete *)
      destruct x2; try discriminate Hsh. cbn [run_instrs] in E. unfold bind at 1 in E.
      destruct (run_instr dbg IConfirmComposition (s_cmode s) (s_imode s) w) as [[o w2]|] eqn:E2; [|discriminate E].
      assert (H2 : prefix (confirmed_text w) (confirmed_text w2) /\ (exists t, frames w2 = t :: fr) /\ o = inl tt).
      { split; [|].
        - apply (instrs_keep dbg w w2 [IConfirmComposition] (s_cmode s) (s_imode s) true (match o with inl _ => true | inr b => b end)); auto.
          cbn [run_instrs]. unfold bind. rewrite E2. destruct o; reflexivity.
        - cbn [run_instr] in E2. unfold confirm_current, bind, cur, get, for_dicts, modcur, ret in E2. rewrite Hs in E2.
          destruct (cl_current (s_list s)).
          + cbn [set_store w_ctx x_stack] in E2. rewrite Hs in E2. injection E2 as <- <-. split; [eexists; reflexivity|reflexivity].
          + injection E2 as <- <-. split; [exists s; exact Hs|reflexivity]. }
      destruct H2 as ((new & Hn) & (t & Ht) & ->).
      destruct (delete_run dbg w2 w1 t fr _ _ _ Ht E) as [->|(-> & ->)].
      + left. exists new. exact Hn.
      + right; left. split; [apply Hb; right; now left|split; [reflexivity|]]. exists new. now rewrite Hn.
    - (* Purge *)
      destruct x2; try discriminate Hsh. destruct c0; try discriminate Hsh.
      cbn [run_instrs run_instr] in E. unfold purge_current, set_composition_mode, bind, cur, get, for_dicts, modcur, ret in E. rewrite Hs in E.
      assert (exists t, frames w1 = t :: fr /\ s_conf t = []) as (t & Ht & Hc).
      { destruct (cl_current (s_list s)); cbn [set_store set_stack w_ctx x_stack] in E; rewrite ?Hs in E;
          cbn [set_store set_stack w_ctx x_stack] in E; injection E as _ <-; eexists; split; reflexivity. }
      destruct fr as [|s2 fr].
      + right; right. split; [apply Hb; now left|split; [reflexivity|]]. now rewrite (conf_only w1 t Ht).
      + left. exists []. rewrite app_nil_r. eapply conf_inner; [exact Hs0|exact Ht|discriminate]. }
  apply (G _ eq_refl).
  assert (R : r_command ru Register (s_imode s) = []) by (destruct Hru as [-> | ->]; destruct (s_imode s); vm_compute; reflexivity).
  destruct (s_cmode s); try exact E. destruct dbg; [discriminate E|]. rewrite R. exact E.
Qed.

(** * C13: when pending input is dropped *)
(** The key cannot continue the pending keys, but converts by itself: then it acts exactly as
    if nothing had been pending, and the pending keys are gone.  Together with
    C13_pending_not_dropped_partial (a key without a conversion of its own) this settles every
    such key. *)
Lemma converted_forgets dbg conv carry u u' v w s fr : reading_mode (s_cmode s) ->
  input_converted_kana dbg conv carry false u (with_frames (set_pre v s :: fr) w)
  = input_converted_kana dbg conv carry false u' (with_frames (s :: fr) w).
Proof.
  intros Hc. unfold input_converted_kana. sxu. change (s_cmode (set_pre v s)) with (s_cmode s).
  destruct Hc as [Hc|[Hc|Hc]]; rewrite Hc; cbn [andb]; unfold append_converted, set_carry_over, push_string; sxu; change (s_cmode (set_pre v s)) with (s_cmode s); rewrite ?Hc; reflexivity.
Qed.
Theorem C13_dropped_exact : forall X dbg k ch w s fr conv carry,
  frames w = s :: fr -> reading_mode (s_cmode s) -> kana_mode (s_imode s) ->
  is_modifierless_input k = true -> is_upper k = false -> get_symbol_char X k = Some ch ->
  ch <> 44%N -> ch <> 46%N ->
  unbound (x_cmd (w_ctx w)) (s_cmode s) (s_imode s) k ->
  can_continue (x_kb (w_ctx w)) k (s_pre s) = false ->
  convert_non_partial (x_kb (w_ctx w)) [ksym k] = Some (conv, carry) ->
  exec X dbg (OKey k) w = exec X dbg (OKey k) (with_frames (set_pre [] s :: fr) w).
Proof.
  intros X dbg k ch w s fr conv carry Hs Hc Hi Hm Hup Hch H44 H46 Hun Hcc Hn.
  replace (exec X dbg (OKey k) w) with (exec X dbg (OKey k) (with_frames (s :: fr) w))
    by now rewrite (with_frames_same w _ Hs).
  assert (Hn0 : convert_non_partial (x_kb (w_ctx w)) (s_pre s ++ [ksym k]) = None).
  { unfold can_continue in Hcc. unfold convert_non_partial. unfold combine_raw in Hcc.
    destruct (get_node (x_kb (w_ctx w)) (s_pre s ++ [ksym k])); [discriminate|reflexivity]. }
  assert (Hp : forall p c, convert_periods ch p c = None).
  { intros p c. unfold convert_periods. rewrite (proj2 (N.eqb_neq _ _) H46), (proj2 (N.eqb_neq _ _) H44). reflexivity. }
  cbn [exec]. unfold bind.
  assert (E1 : process_key_event X dbg k (with_frames (s :: fr) w)
    = (input_converted_kana dbg conv carry false (s_pre s) ;; ret true) (with_frames (s :: fr) w)).
  { rewrite (to_unconverted X dbg k ch w s fr Hc Hi Hm Hup Hch Hun Hn0). unfold input_unconverted. sxu. rewrite Hp, Hcc, Hup.
    cbn [andb]. change (combine_raw k []) with [ksym k]. rewrite Hn. reflexivity. }
  assert (E2 : process_key_event X dbg k (with_frames (set_pre [] s :: fr) w)
    = (input_converted_kana dbg conv carry false [] ;; ret true) (with_frames (set_pre [] s :: fr) w)).
  { rewrite (key_skip X dbg k (with_frames (set_pre [] s :: fr) w) (set_pre [] s) fr); [|reflexivity|apply modifierless_no_release, Hm|].
    - unfold input_key. rewrite Hm. cbn [negb]. sxu. change (s_cmode (set_pre [] s)) with (s_cmode s). change (s_imode (set_pre [] s)) with (s_imode s).
      rewrite (reading_not_selecting _ _ _ Hc). sxu. change (s_cmode (set_pre [] s)) with (s_cmode s). change (s_imode (set_pre [] s)) with (s_imode s).
      rewrite (kana_rom2kana _ _ Hi Hc). cbn [andb]. unfold input_kana. sxu.
      change (combine_raw k (s_pre (set_pre [] s))) with [ksym k]. rewrite Hn. reflexivity.
    - unfold skip_command. rewrite Hm. change (s_cmode (set_pre [] s)) with (s_cmode s). change (s_imode (set_pre [] s)) with (s_imode s).
      rewrite (kana_rom2kana _ _ Hi Hc). change (combine_raw k (s_pre (set_pre [] s))) with [ksym k]. cbn [with_frames w_ctx x_kb set_stack].
      rewrite Hn. cbn. now rewrite orb_true_r. }
  rewrite E1, E2. unfold bind. rewrite (converted_forgets dbg conv carry [] (s_pre s) [] w s fr Hc). reflexivity.
Qed.
(** The hypotheses are met: n, then minus, in the shipped rule. *)
Example C13_dropped_case : exists outs w s, typed true (U "n") (demo []) = Ok (outs, w) /\ frames w = [s]
  /\ reading_mode (s_cmode s) /\ kana_mode (s_imode s) /\ s_pre s = U "n"
  /\ unbound (x_cmd (w_ctx w)) (s_cmode s) (s_imode s) (mkKey 45 0)
  /\ can_continue (x_kb (w_ctx w)) (mkKey 45 0) (s_pre s) = false
  /\ convert_non_partial (x_kb (w_ctx w)) [45%N] = Some (U "ー", []).
Proof.
  destruct (run_case (typed true (U "n") (demo [])) (fun w => (map (fun s => (s_cmode s, s_imode s, s_pre s)) (frames w),
     can_continue (x_kb (w_ctx w)) (mkKey 45 0) (U "n"), convert_non_partial (x_kb (w_ctx w)) [45%N]))
    ([(Direct, Hiragana, U "n")], false, Some (U "ー", [])) ltac:(vm_compute; reflexivity)) as (o & w & H1 & H2).
  assert (G : forall l, map (fun s => (s_cmode s, s_imode s, s_pre s)) l = [(Direct, Hiragana, U "n")] ->
    exists s, l = [s] /\ s_cmode s = Direct /\ s_imode s = Hiragana /\ s_pre s = U "n").
  { intros [|s [|]] Hl; try discriminate Hl. cbn [map] in Hl. exists s. split; [reflexivity|].
    apply (f_equal (fun l => match l with x :: _ => x | [] => (Direct, Hiragana, []) end)) in Hl.
    split; [exact (f_equal (fun x => fst (fst x)) Hl)|split; [exact (f_equal (fun x => snd (fst x)) Hl)|exact (f_equal snd Hl)]]. }
  destruct (G _ (f_equal (fun x => fst (fst x)) H2)) as (s & Es & Ec & Ei & Ep). exists o, w, s.
  split; [exact H1|split; [exact Es|]]. rewrite Ec, Ei, Ep.
  split; [now left|split; [now left|split; [reflexivity|split; [|split]]]].
  - rewrite (T_Frames.typed_cmd _ _ _ _ _ H1). intros k' l Hin ->.
    assert (B : forallb (fun e : keyev * list instr => negb (key_eqb (fst e) (command_key (mkKey 45 0)))) (r_command default_rule Direct Hiragana) = true)
      by (vm_compute; reflexivity).
    rewrite forallb_forall in B. specialize (B _ Hin). cbn [fst] in B. rewrite (proj2 (key_eqb_eq _ _) eq_refl) in B. discriminate B.
  - exact (f_equal (fun x => snd (fst x)) H2).
  - exact (f_equal snd H2).
Qed.
