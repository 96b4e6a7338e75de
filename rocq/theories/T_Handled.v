(** C54 over histories of API calls. *)
From Verif Require Import Str Keys Modes KanaBuilder FormChanger DictTypes Parser Lru
  Dictionary CState Context DefaultRule Demo Spec P_Monad P_Frames P_Inv P_Keeps P_Register P_Kana P_Step
  T_Unhandled P_Tidy.

(* ------------------------------------------------------------ vocabulary *)
(** What is known about the frame while a command list runs: it is not in okurigana mode, or it
    shows something there, or neither. *)
Inductive known := KAway | KShows | KNothing.
(** A command list, run from a mode, does not leave the frame in an empty okurigana mode: what
    empties the reading is followed by something that leaves the mode. *)
Definition after (c0 : cmode) (x : instr) (a : known) : option known :=
  match x with
  | IAbort => Some KAway
  | IChangeCompositionMode c => Some (if cmode_eqb c PreCompositionOkurigana then KNothing else KAway)
  | IClearUnconvertedInputs | IClearKanaConvertedInputs | IClearUnconfirmedInputs | IConfirmAs _ | IPurge =>
      Some (match a with KAway => KAway | _ => KNothing end)
  | IForceKanaConvert _ | ITryNextCandidate | ITryNextCompletion =>
      match a with
      | KAway => Some KAway
      | KShows => if cmode_eqb c0 PreCompositionOkurigana then Some KShows else None
      | KNothing => None
      end
  | IDelete => Some (match a with KAway => KAway | _ => KShows end)
  | IPassthroughKeyEvent | IConfirmDirect => match a with KNothing => None | _ => Some a end
  | IChangeInputMode _ | IFinishKeyEvent => Some a
  | _ => match a with KNothing => None | _ => Some a end
  end.
Fixpoint leaves_no_empty_okuri (c0 : cmode) (l : list instr) (a : known) : bool :=
  match l with
  | [] => match a with KNothing => false | _ => true end
  | x :: r => match after c0 x a with Some a' => leaves_no_empty_okuri c0 r a' | None => false end
  end.
Definition initially (c : cmode) : known := if cmode_eqb c PreCompositionOkurigana then KShows else KAway.
Definition command_shape (cr : command_rule) : Prop :=
  rule_answers_first cr
  /\ forall c i k l, In (k, l) (cr c i) -> leaves_no_empty_okuri c l (initially c) = true.
(** Every conversion yields some kana. *)
Definition conversions_yield (r : rule) : Prop := forall k carry conv, In (k, (carry, conv)) (r_conversion r) -> conv <> [].
(** The caller does not force the okurigana mode on a frame, nor resets in that mode (which
    empties the frame but leaves the mode: C04). *)
Definition gentle_op (o : op) (w : world) : Prop :=
  match o with
  | OSetCompositionMode c => c <> PreCompositionOkurigana
  | OReset => forall s, current w = Some s -> s_cmode s <> PreCompositionOkurigana
  | OSetRule r => command_shape (r_command r) /\ conversions_yield r
  | _ => True
  end.
Fixpoint gentle (X : xkb) (dbg : bool) (ops : list op) (w : world) : Prop :=
  match ops with
  | [] => True
  | o :: r => gentle_op o w
              /\ match exec X dbg o w with Ok (_, w') => gentle X dbg r w' | Panic _ => True end
  end.

(* ------------------------------------------------------------ the invariant *)
Definition pred (a : known) : cstate -> Prop :=
  match a with KAway => away | KShows => tidy | KNothing => base end.
Lemma pred_base a s : pred a s -> base s.
Proof. destruct a; [apply away_base|apply tidy_base|auto]. Qed.
Lemma away_pred a s : away s -> pred a s.
Proof. destruct a; [auto|apply away_tidy|apply away_base]. Qed.
Lemma pred_tidy a s : a <> KNothing -> pred a s -> tidy s.
Proof. destruct a; [intros _; apply away_tidy|auto|congruence]. Qed.
Section I.
Context (b : kb) (X : xkb) (dbg : bool).
Notation h := (h b).
Lemma hp_imode a i : h (pred a) (pred a) (set_input_mode i).
Proof. apply h_modcur. intros s Hs. destruct a; exact Hs. Qed.
Lemma hp_confirm a : a <> KNothing -> h (pred a) (pred a) confirm_current.
Proof.
  intros Ha. unfold confirm_current. apply h_cur_then. intros s Hs. apply h_get_then. intros w0 H0.
  destruct (cl_current (s_list s)); [|apply h_ret]. apply (h_bind _ _ (pred a)); [apply h_for|intros _].
  apply h_modcur. intros s' Hs'. apply away_pred, away_reset. apply (base_push _ (s_cmode s') s' (pred_base a s' Hs')).
Qed.
Lemma tidy_forward s s' : st_forward dbg s = Ok s' -> forall a, pred a s -> pred a s'.
Proof.
  unfold st_forward. destruct (cl_forward dbg (s_list s)); [|discriminate]. intros [= <-] a0. destruct a0; intros H; exact H.
Qed.
Lemma hp_forward a : h (pred a) (pred a) (s <- cur ;; s' <- lift (st_forward dbg s) ;; modcur (fun _ => s')).
Proof.
  apply h_cur. intros s Hs. apply h_lift_then. intros s' E. apply h_modcur. intros s0 _. eapply tidy_forward; eauto.
Qed.
Lemma hp_backward a : h (pred a) (pred a) (modcur st_backward).
Proof. apply h_modcur. intros s Hs. destruct a; exact Hs. Qed.
Lemma h_next_shows i : h tidy tidy (try_next_candidate dbg PreCompositionOkurigana i).
Proof.
  unfold try_next_candidate. cbn [cmode_eqb negb].
  apply (h_bind _ _ tidy); [apply h_output_tidy|intros _]. apply (h_bind _ _ tidy); [apply h_update_tidy|intros _].
  apply h_cur_then. intros s Hs. destruct (_ && _); [apply h_enter; auto using tidy_base, away_tidy|].
  destruct (negb _); [|apply h_ret]. eapply h_post; [apply h_set_cmode; [exact tidy_base|discriminate]|exact away_tidy].
Qed.
Lemma h_completion_shows i : h tidy tidy (try_next_completion dbg PreCompositionOkurigana i).
Proof.
  unfold try_next_completion. cbn [cmode_eqb negb].
  apply (h_bind _ _ tidy); [apply h_output_tidy|intros _]. apply (h_bind _ _ tidy); [apply h_update_completion_tidy|intros _].
  apply h_cur_then. intros s Hs. destruct (_ && _); [apply h_ret|].
  destruct (negb _); [|apply h_ret]. eapply h_post; [apply h_set_cmode; [exact tidy_base|discriminate]|exact away_tidy].
Qed.
Lemma h_go P Q (m : M unit) : h P Q m -> h P Q (m ;; ret (@inl unit bool tt)).
Proof. intros H. apply (h_bind _ _ Q); [exact H|intros _; apply h_ret]. Qed.
Lemma hp_clear a f : (forall s, base s -> base (f s)) -> (forall s, away s -> away (f s)) ->
  h (pred a) (pred (match a with KAway => KAway | _ => KNothing end)) (modcur f).
Proof. intros H1 H2. apply h_modcur. intros s Hs. destruct a; [now apply H2| |]; apply H1; [now apply tidy_base|exact Hs]. Qed.
Lemma hp_instr x c0 i0 a a' : after c0 x a = Some a' -> h (pred a) (pred a') (run_instr dbg x c0 i0).
Proof.
  intros Ha. unfold run_instr. destruct x; cbn [after] in Ha.
  - injection Ha as <-. apply h_go, h_abort, pred_base.
  - injection Ha as <-. apply h_go, hp_imode.
  - apply h_go. apply (h_bind _ _ (pred a')); [|intros _; apply h_ret]. destruct a; [injection Ha as <-; apply h_output| |discriminate].
    destruct (cmode_eqb c0 PreCompositionOkurigana) eqn:E; [|discriminate]. apply cmode_eqb_eq in E. subst. injection Ha as <-. apply h_output_tidy.
  - injection Ha as <-. apply h_go, hp_clear; auto.
  - injection Ha as <-. apply h_go, hp_clear; auto.
  - injection Ha as <-. apply h_go, hp_clear; auto.
  - injection Ha as <-. apply h_go. destruct (cmode_eqb c PreCompositionOkurigana) eqn:E.
    + apply h_modcur. intros s Hs. exact (pred_base _ _ Hs).
    + apply h_set_cmode; [apply pred_base|]. intros ->. discriminate.
  - injection Ha as <-. apply h_ret.
  - destruct a; inversion Ha; subst; apply h_ret.
  - destruct a; [injection Ha as <-; apply h_go, h_try_next| |discriminate].
    destruct (cmode_eqb c0 PreCompositionOkurigana) eqn:E; [|discriminate]. apply cmode_eqb_eq in E. subst. injection Ha as <-. apply h_go, h_next_shows.
  - assert (a' = a) as -> by (destruct a; congruence). apply h_go. apply h_cur_then. intros s Hs.
    destruct (negb (cmode_eqb _ _)); [apply h_ret|]. destruct (negb (cl_has_previous _)); [|apply hp_backward].
    apply (h_bind _ _ base); [apply h_modcur; intros s' Hs'; exact (pred_base _ _ Hs')|intros _].
    eapply h_post; [apply h_set_cmode; [auto|discriminate]|apply away_pred].
  - assert (a' = a) as -> by (destruct a; congruence). apply h_go, hp_forward.
  - assert (a' = a) as -> by (destruct a; congruence). apply h_go, hp_backward.
  - assert (a' = a) as -> by (destruct a; congruence). apply h_go, hp_confirm. destruct a; congruence.
  - injection Ha as <-. apply h_go. unfold confirm_as. apply h_get_then. intros w0 H0.
    apply hp_clear; intros s Hs; cbn zeta; exact Hs.
  - assert (a' = a) as -> by (destruct a; congruence). apply h_get_then. intros w0 H0. destruct (Nat.ltb _ _); [|apply h_ret].
    apply h_cur_then. intros s Hs. apply (h_bind _ _ (pred a)); [|intros _; apply h_ret]. apply h_exit; [apply pred_base|apply away_pred].
  - injection Ha as <-. apply h_go. unfold purge_current. apply h_cur_then. intros s Hs.
    apply (h_bind _ _ (pred a)); [destruct (cl_current _); [apply h_for|apply h_ret]|intros _]. apply hp_clear; auto.
  - injection Ha as <-. apply h_cur_then. intros s Hs. eapply h_bind; [|intros _; apply h_ret]. apply h_modcur. intros s' Hs'.
    destruct a; [now apply away_delete|apply tidy_delete; exact (tidy_base _ Hs')|apply tidy_delete; exact Hs'].
  - destruct a; [injection Ha as <-; apply h_go, h_try_completion| |discriminate].
    destruct (cmode_eqb c0 PreCompositionOkurigana) eqn:E; [|discriminate]. apply cmode_eqb_eq in E. subst. injection Ha as <-. apply h_go, h_completion_shows.
  - assert (a' = a) as -> by (destruct a; congruence). apply h_go. apply h_cur_then. intros s Hs.
    destruct (negb (cmode_eqb _ _)); [apply h_ret|]. destruct (cl_has_previous _); [apply hp_backward|apply h_ret].
Qed.
(** an instruction that ends the list leaves a tidy frame *)
Lemma ending x c0 i0 a a' w r w' : after c0 x a = Some a' -> run_instr dbg x c0 i0 w = Ok (inr r, w') -> a' <> KNothing.
Proof.
  intros Ha E. destruct (terminal x) eqn:T.
  - destruct x; try discriminate; cbn in Ha; destruct a; congruence.
  - exfalso. destruct x; try discriminate; unfold run_instr in E; unfold bind at 1 in E;
    match type of E with match ?m w with _ => _ end = _ => destruct (m w) as [[? ?]|]; discriminate end.
Qed.
Lemma hp_instrs c0 i0 l : forall a res, leaves_no_empty_okuri c0 l a = true -> h (pred a) tidy (run_instrs dbg l c0 i0 res).
Proof.
  induction l as [|x l IH]; intros a res Hl; cbn [leaves_no_empty_okuri run_instrs] in *.
  - eapply h_post; [apply h_ret|]. intros s. apply pred_tidy. destruct a; congruence.
  - destruct (after c0 x a) as [a'|] eqn:Ea; [|discriminate].
    intros w Hw. apply wp_bind. pose proof (hp_instr x c0 i0 a a' Ea w Hw) as G. unfold wp in *.
    destruct (run_instr dbg x c0 i0 w) as [[o w1]|] eqn:E; [|exact I].
    destruct o as [[]|r]; [exact (IH a' res Hl w1 G)|].
    apply ending with (a := a) (a' := a') in E; [|exact Ea]. split; [apply G|].
    destruct G as (_ & s & fr & H1 & H2 & H3). exists s, fr. repeat split; auto; eapply (pred_tidy a'); eauto.
Qed.
Lemma key_tidy k w : V b tidy w -> command_shape (x_cmd (w_ctx w)) -> wp any_panic (process_key_event X dbg k) (fun _ => V b tidy) w.
Proof.
  intros Hw [_ Hr]. unfold process_key_event. destruct (has_mod k M_RELEASE); [exact Hw|].
  pose proof Hw as (_ & s & fr & Hs & Ht & Hf).
  unfold process_key_event_inner. apply wp_bind, wp_cur; [|congruence]. intros s0 r0 H0. rewrite Hs in H0. injection H0 as <- <-.
  apply wp_bind, wp_get. cbn zeta. destruct (skip_command _ _ _ _ _); [eapply input_key_tidy; eauto|].
  apply wp_bind, wp_lift; [|intros; exact I]. intros [l|] Hi; [|eapply input_key_tidy; eauto].
  apply get_instruction_in in Hi as (k' & Hin). unfold process_instructions. apply (hp_instrs _ _ l (initially (s_cmode s))); [eapply Hr; eauto|].
  split; [apply Hw|]. exists s, fr. split; [exact Hs|]. split; [|exact Hf]. unfold initially.
  destruct (cmode_eqb _ _) eqn:E; [exact Ht|]. split; [apply Ht|]. intros H. rewrite H in E. discriminate.
Qed.
End I.
Lemma yields_new X r : conversions_yield r -> yields (kb_new X r).
Proof.
  intros Hr k c l. unfold kb_new, converter_from_map.
  assert (G : forall m t, (forall k carry conv, In (k, (carry, conv)) m -> conv <> []) -> yields t ->
    yields (fold_left (fun t '(k, (carry, conv)) => tinsert (keysyms_from_str X k) (conv, keysyms_from_str X carry) t) m t)).
  { induction m as [|[k0 [carry conv]] m IH]; intros t Hm Ht; [exact Ht|]. cbn. apply IH; [intros; eapply Hm; right; eauto|].
    intros k' c' l'. rewrite tget_insert. destruct (str_eqb _ _); [|apply Ht]. intros [= <- _]. eapply Hm. left; reflexivity. }
  intros H. revert H. apply G; [exact Hr|]. intros k' c' l'. rewrite tget_empty. discriminate.
Qed.
(** The invariant of gentle histories. *)
Definition G54 (w : world) : Prop :=
  command_shape (x_cmd (w_ctx w)) /\ V (x_kb (w_ctx w)) tidy w.
Lemma V_stack b w w' : V b tidy w -> x_stack (w_ctx w') = x_stack (w_ctx w) -> x_kb (w_ctx w') = x_kb (w_ctx w) -> V b tidy w'.
Proof. intros ([H0 H0'] & s & r & H1 & H2 & H3) E1 E2. split; [split; [congruence|exact H0']|]. exists s, r. rewrite E1. auto. Qed.
Lemma exec_V X dbg b o w : V b tidy w -> command_shape (x_cmd (w_ctx w)) -> gentle_op o w -> (forall r, o <> OSetRule r) ->
  wp any_panic (exec X dbg o) (fun _ => V b tidy) w.
Proof.
  intros Hw Hr Ho Hn. pose proof Hw as (Hk & s & fr & Hs & Ht & Hf).
  assert (B : forall {A} (m : M A) (f : A -> out), wp any_panic m (fun _ => V b tidy) w -> wp any_panic (x <- m ;; ret (f x)) (fun _ => V b tidy) w).
  { intros A m f H. apply wp_bind. eapply wp_mono; [exact H|]. intros a w' H'. exact H'. }
  destruct o; cbn [exec]; try (apply B); try exact Hw.
  - now apply key_tidy.
  - unfold wp, poll_output. destruct (rev (x_stack (w_ctx w))) as [|t l] eqn:Er; [exact I|].
    destruct (is_nil (s_conf t)); [exact Hw|]. split; [exact Hk|]. rewrite Hs in Er. cbn [set_stack w_ctx x_stack rev].
    apply (f_equal (@rev _)) in Er. rewrite rev_involutive in Er. cbn in Er.
    destruct (rev l) as [|s1 l1]; cbn in Er |- *; injection Er as -> ->.
    + exists (flush_confirmed t), []. split; [reflexivity|]. split; [exact Ht|constructor].
    + exists s1, (l1 ++ [flush_confirmed t]). repeat split; auto; try apply Ht.
      apply Forall_app in Hf as [H1 H2]. apply Forall_app. split; auto. inversion H2; subst; constructor; auto.
  - unfold wp, reset_state_stack. destruct (rev (x_stack (w_ctx w))) as [|t l] eqn:Er; [exact I|].
    split; [exact Hk|]. exists (clear_all t), []. split; [reflexivity|]. split; [|constructor].
    assert (Hin : In t (s :: fr)) by (rewrite <- Hs; apply in_rev; rewrite Er; left; reflexivity).
    assert (Ha : away t).
    { destruct Hin as [<-|Hin]; [|rewrite Forall_forall in Hf; now apply Hf]. split; [apply Ht|]. apply Ho. unfold current. now rewrite Hs. }
    apply away_tidy. exact Ha.
  - eapply wp_mono; [apply (h_set_cmode b tidy c tidy_base Ho w Hw)|]. intros a w' (H0 & s' & r' & H1 & H2 & H3). split; [exact H0|]. exists s', r'. auto using away_tidy.
  - exact (hp_imode b KShows i w Hw).
  - unfold select_candidate_at. revert w Hw Hr Ho Hk Hs B. intros w Hw _ _ _ _ _. revert w Hw.
    match goal with |- forall w, _ -> wp _ ?m _ w => change (h b tidy tidy m) end.
    apply h_cur_then. intros s0 Hs0. cbn zeta. destruct (N.eqb _ 0); [apply h_ret|]. apply (h_bind _ _ tidy); [|intros _; apply h_ret].
    destruct (i <? 0)%Z; [|destruct (as_i32 _ <=? i)%Z].
    + apply (h_bind _ _ base); [apply h_modcur; intros s' Hs'; exact (tidy_base _ Hs')|intros _].
      eapply h_post; [apply h_set_cmode; [auto|discriminate]|exact away_tidy].
    + apply (h_bind _ _ tidy); [apply h_modcur; intros s' Hs'|intros _; apply h_enter; auto using tidy_base, away_tidy].
      unfold set_candidate_pointer. destruct (cl_set_pointer _ _); exact Hs'.
    + apply h_modcur; intros s' Hs'. unfold set_candidate_pointer. destruct (cl_set_pointer _ _); exact Hs'.
  - unfold confirm_candidate_at. revert w Hw Hr Ho Hk Hs B. intros w Hw _ _ _ _ _. revert w Hw.
    match goal with |- forall w, _ -> wp _ ?m _ w => change (h b tidy tidy m) end.
    apply h_cur_then. intros s0 Hs0. apply (h_bind _ _ tidy).
    + apply h_modcur; intros s' Hs'. unfold set_candidate_pointer. destruct (cl_set_pointer _ _); exact Hs'.
    + intros _. destruct (fst _); [|apply h_ret]. apply (h_bind _ _ tidy); [apply (hp_confirm b KShows); discriminate|intros _; apply h_ret].
  - destruct (Hn r eq_refl).
Qed.
Lemma exec_G54 X dbg o w out w' : G54 w -> gentle_op o w -> exec X dbg o w = Ok (out, w') -> G54 w'.
Proof.
  intros [Hr Hw] Ho He. destruct o as [| | | | | | | | | |r| |] eqn:Eo.
  all: try (assert (Hn : forall r, o <> OSetRule r) by (subst o; discriminate); rewrite <- Eo in He, Ho;
    pose proof (exec_V X dbg _ o w Hw Hr Ho Hn) as G; unfold wp in G; rewrite He in G;
    assert (Hne : x_stack (w_ctx w) <> []) by (destruct Hw as (_ & s & fr & Hs & _); congruence);
    pose proof (exec_step X dbg o w Hne) as S; unfold wp in S; rewrite He in S;
    assert (E : x_cmd (w_ctx w') = x_cmd (w_ctx w) /\ x_kb (w_ctx w') = x_kb (w_ctx w))
      by (destruct S as [[(E1 & E2 & _) _ _]|(_ & _ & S)]; [split; assumption|destruct (S ltac:(subst o; reflexivity)); split; assumption]);
    destruct E as [E1 E2]; split; [now rewrite E1|]; now rewrite E2).
  cbn in He. injection He as <- <-. destruct Ho as [Ho1 Ho2]. split; [exact Ho1|].
  destruct Hw as (_ & s & fr & Hs & Ht & Hf). split; [split; [reflexivity|now apply yields_new]|]. exists s, fr. auto.
Qed.
Lemma run_G54 X dbg ops : forall w outs w', G54 w -> gentle X dbg ops w -> run X dbg ops w = Ok (outs, w') -> G54 w'.
Proof.
  induction ops as [|o ops IH]; intros w outs w' Hw Hc Hr; cbn [run gentle] in *; [injection Hr as <- <-; exact Hw|].
  unfold bind at 1 in Hr. destruct Hc as [Hc1 Hc2]. destruct (exec X dbg o w) as [[x w1]|] eqn:E; [|discriminate].
  unfold bind in Hr. destruct (run X dbg ops w1) as [[xs w2]|] eqn:E2; [|discriminate]. injection Hr as <- <-.
  eapply IH; [|exact Hc2|exact E2]. eapply exec_G54; eauto.
Qed.

(* ------------------------------------------------------------ C54 *)
(** From any state (reached or not) whose current frame returns to Direct, is not in an empty
    okurigana mode and shows a candidate with a text: a key answered with false changed nothing
    in the context and nothing in the dictionaries. *)
Theorem C54_state_partial : forall X dbg k w w' s, printable X -> rule_answers_first (x_cmd (w_ctx w)) ->
  current w = Some s -> tidy s -> shows_text s ->
  process_key_event X dbg k w = Ok (false, w') -> w' = w.
Proof.
  intros X dbg k w w' s HX Hr Hs Ht Hx. unfold current in Hs. destruct (x_stack (w_ctx w)) as [|s0 fr] eqn:E; [discriminate|]. injection Hs as ->.
  now apply (key_inert X dbg k w s fr).
Qed.
(** After every gentle history: the same, with no condition on the state but that the candidate
    shown, if any, has a text. *)
Theorem C54_partial : forall X dbg r st kf am ds i ops outs w k w',
  printable X -> command_shape (r_command r) -> conversions_yield r ->
  gentle X dbg ops (mkW st (ctx_new X r kf am ds i Direct)) ->
  run X dbg ops (mkW st (ctx_new X r kf am ds i Direct)) = Ok (outs, w) ->
  (forall s, current w = Some s -> shows_text s) ->
  process_key_event X dbg k w = Ok (false, w') -> w' = w.
Proof.
  intros X dbg r st kf am ds i ops outs w k w' HX Hr Hy Hg Hrun Hx He.
  assert (Start : G54 (mkW st (ctx_new X r kf am ds i Direct))).
  { split; [exact Hr|]. split; [split; [reflexivity|now apply yields_new]|]. exists (st_new i Direct), []. repeat split; auto. discriminate. }
  destruct (run_G54 X dbg ops _ _ _ Start Hg Hrun) as [Hr' (_ & s & fr & Hs & Ht & _)].
  assert (Hc : current w = Some s) by (unfold current; now rewrite Hs).
  eapply C54_state_partial; eauto. apply Hr'.
Qed.
(** The rule shape, decided. *)
Definition answers_first_b (c : cmode) (l : list instr) : bool :=
  match l with
  | [] => true
  | x :: r => terminal x || negb (existsb terminal r)
              || ((cmode_eqb c CompositionSelection || cmode_eqb c Completion)
                  && match x, r with IConfirmComposition, IDelete :: _ => true | _, _ => false end)
  end.
Definition command_shape_b (cr : command_rule) : bool :=
  forallb (fun c => forallb (fun i => forallb (fun e => answers_first_b c (snd e) && leaves_no_empty_okuri c (snd e) (initially c)) (cr c i))
    [Hiragana; Katakana; HankakuKatakana; Zenkaku; Ascii])
  [Direct; PreComposition; PreCompositionOkurigana; CompositionSelection; Abbreviation; Register; Completion].
Lemma command_shape_b_spec cr : command_shape_b cr = true -> command_shape cr.
Proof.
  unfold command_shape_b. rewrite forallb_forall. intros H.
  assert (G : forall c i k l, In (k, l) (cr c i) -> answers_first_b c l = true /\ leaves_no_empty_okuri c l (initially c) = true).
  { intros c i k l Hin.
    assert (Hc : In c [Direct; PreComposition; PreCompositionOkurigana; CompositionSelection; Abbreviation; Register; Completion])
      by (destruct c; cbn; tauto).
    specialize (H c Hc). rewrite forallb_forall in H.
    assert (Hi : In i [Hiragana; Katakana; HankakuKatakana; Zenkaku; Ascii]) by (destruct i; cbn; tauto).
    specialize (H i Hi). rewrite forallb_forall in H. specialize (H (k, l) Hin). cbn [snd] in H. now apply andb_prop in H. }
  split; intros c i k l Hin; destruct (G c i k l Hin) as [G1 G2]; [|exact G2].
  unfold answers_first_b in G1. unfold answers_first. destruct l as [|x l]; [exact I|].
  apply orb_true_iff in G1 as [G1|G1]; [apply orb_true_iff in G1 as [G1|G1]; [now left|right; left; now apply negb_true_iff]|].
  right. right. apply andb_prop in G1 as [G1 G3]. split; [apply orb_true_iff in G1 as [G1|G1]; apply cmode_eqb_eq in G1; auto|].
  destruct x; try discriminate. destruct l as [|[] l]; try discriminate. eauto.
Qed.
Lemma default_command_shape : command_shape (r_command default_rule).
Proof. apply command_shape_b_spec. vm_compute. reflexivity. Qed.
Lemma default_yields : conversions_yield default_rule.
Proof.
  assert (G : forallb (fun e => negb (is_nil (snd (snd e)))) (r_conversion default_rule) = true) by (vm_compute; reflexivity).
  revert G. unfold conversions_yield. generalize (r_conversion default_rule). intros m G k carry conv Hin ->.
  rewrite forallb_forall in G. specialize (G _ Hin). discriminate.
Qed.
Lemma ascii_printable : printable ascii_xkb.
Proof.
  intros k [H1 H2]. cbn [ascii_xkb xk_char]. apply N.leb_le in H1, H2. rewrite H1, H2. discriminate.
Qed.
(** Any sequence of keys is gentle. *)
Lemma keys_gentle X dbg ks : forall w, gentle X dbg (map OKey ks) w.
Proof.
  induction ks as [|k ks IH]; intros w; [exact I|]. split; [exact I|]. destruct (exec X dbg (OKey k) w) as [[o w']|]; [apply IH|exact I].
Qed.
(** Typing with the default rule, whatever was typed before and whatever the dictionaries hold. *)
Theorem C54_typing_partial : forall dbg ds ks outs w k w',
  run ascii_xkb dbg (map OKey ks) (demo ds) = Ok (outs, w) ->
  (forall s, current w = Some s -> shows_text s) ->
  process_key_event ascii_xkb dbg k w = Ok (false, w') -> w' = w.
Proof.
  intros dbg ds ks outs w k w' Hrun. eapply (C54_partial ascii_xkb dbg default_rule); [exact ascii_printable|exact default_command_shape|exact default_yields|apply keys_gentle|exact Hrun].
Qed.
(** The hypotheses are met and the conclusion is about something: a control key while a
    candidate is shown is answered with false. *)
Example C54_case : exists outs w s c w', typed false (U "A i space") (demo [user_dict dic_small]) = Ok (outs, w)
  /\ current w = Some s /\ s_cmode s = CompositionSelection /\ cl_current (s_list s) = Some c /\ c_output c = U "愛"
  /\ process_key_event ascii_xkb false (mkKey 120 M_CONTROL) w = Ok (false, w').
Proof.
  destruct (run_case (typed false (U "A i space") (demo [user_dict dic_small]))
    (fun w => (option_map (fun s => (s_cmode s, option_map c_output (cl_current (s_list s)))) (current w),
               match process_key_event ascii_xkb false (mkKey 120 M_CONTROL) w with Ok (b, _) => Some b | Panic _ => None end))
    (Some (CompositionSelection, Some (U "愛")), Some false)) as (outs & w & E & F); [vm_compute; reflexivity|].
  destruct (current w) as [s|] eqn:Ec; [|discriminate]. cbn [option_map] in F. injection F as F1 F2 F3.
  destruct (cl_current (s_list s)) as [c|] eqn:El; [|discriminate]. injection F2 as F2.
  destruct (process_key_event ascii_xkb false (mkKey 120 M_CONTROL) w) as [[b w']|] eqn:Ek; [|discriminate]. injection F3 as ->.
  exists outs, w, s, c, w'. auto 10.
Qed.
(** The full claim is false.  After a reset in okurigana mode BackSpace is answered with false
    although it changes the mode. *)
Theorem C54_refuted : exists outs w w' s s', run ascii_xkb false (map OKey (dkeys (U "A i K")) ++ [OReset]) (demo [static_dict dic_small]) = Ok (outs, w)
  /\ process_key_event ascii_xkb false (mkKey 65288 M_NONE) w = Ok (false, w')
  /\ current w = Some s /\ s_cmode s = PreCompositionOkurigana
  /\ current w' = Some s' /\ s_cmode s' = PreComposition.
Proof.
  destruct (run_case (run ascii_xkb false (map OKey (dkeys (U "A i K")) ++ [OReset]) (demo [static_dict dic_small]))
    (fun w => (option_map s_cmode (current w),
               match process_key_event ascii_xkb false (mkKey 65288 M_NONE) w with Ok (b, w') => Some (b, option_map s_cmode (current w')) | Panic _ => None end))
    (Some PreCompositionOkurigana, Some (false, Some PreComposition))) as (outs & w & E & F); [vm_compute; reflexivity|].
  destruct (current w) as [s|] eqn:Ec; [|discriminate].
  destruct (process_key_event ascii_xkb false (mkKey 65288 M_NONE) w) as [[b w']|] eqn:Ek; [|discriminate].
  cbn [option_map] in F. injection F as F1 F2 F3. destruct (current w') as [s'|] eqn:Ec'; [|discriminate]. injection F3 as F3.
  subst b. exists outs, w, w', s, s'. auto 10.
Qed.
