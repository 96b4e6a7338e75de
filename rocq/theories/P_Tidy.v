(** Invariant behind the history form of C54: okurigana mode always shows something. *)
From Verif Require Import Str Keys Modes KanaBuilder FormChanger DictTypes Parser Lru
  Dictionary CState Context Spec P_Monad P_Frames P_Inv P_Keeps P_Register P_Kana P_Step T_Unhandled.

Definition base (s : cstate) : Prop := s_default s = Direct.
Definition away (s : cstate) : Prop := s_default s = Direct /\ s_cmode s <> PreCompositionOkurigana.
Lemma away_tidy s : away s -> tidy s.
Proof. intros [H1 H2]. split; [exact H1|]. intros H; contradiction. Qed.
Lemma tidy_base s : tidy s -> base s. Proof. intros [H _]; exact H. Qed.
Lemma away_base s : away s -> base s. Proof. intros [H _]; exact H. Qed.
(** every conversion of the table yields kana *)
Definition yields (b : kb) : Prop := forall k c l, tget b k = Some (c, l) -> c <> [].
Lemma non_partial_yields b k c l : yields b -> convert_non_partial b k = Some (c, l) -> c <> [].
Proof. intros H E. apply non_partial_tget in E. eapply H; eauto. Qed.

Section Table.
Context (b : kb).
Definition V (P : cstate -> Prop) (w : world) : Prop :=
  (x_kb (w_ctx w) = b /\ yields b) /\ exists s r, x_stack (w_ctx w) = s :: r /\ P s /\ Forall away r.
Definition h {A} (P Q : cstate -> Prop) (m : M A) : Prop := forall w, V P w -> wp any_panic m (fun _ => V Q) w.
Lemma h_post {A} (P Q R : cstate -> Prop) (m : M A) : h P Q m -> (forall s, Q s -> R s) -> h P R m.
Proof.
  intros H HR w Hw. eapply wp_mono; [apply H, Hw|]. intros a w' (H0 & s & r & H1 & H2 & H3). split; [exact H0|]. exists s, r. auto.
Qed.
Lemma h_pre {A} (P Q R : cstate -> Prop) (m : M A) : h P Q m -> (forall s, R s -> P s) -> h R Q m.
Proof. intros H HR w (H0 & s & r & H1 & H2 & H3). apply H. split; [exact H0|]. exists s, r. auto. Qed.
Lemma h_ret {A} (a : A) P : h P P (ret a).
Proof. intros w H; exact H. Qed.
Lemma h_bind {A B} P Q R (m : M A) (f : A -> M B) : h P Q m -> (forall a, h Q R (f a)) -> h P R (bind m f).
Proof. intros Hm Hf w H. apply wp_bind. eapply wp_mono; [apply Hm, H|]. intros a w'. apply Hf. Qed.
Lemma h_cur {A} (P Q : cstate -> Prop) (f : cstate -> M A) :
  (forall s, P s -> h (fun s' => s' = s /\ P s') Q (f s)) -> h P Q (bind cur f).
Proof.
  intros Hf w (H0 & s & r & H1 & H2 & H3). apply wp_bind, wp_cur; [|congruence]. intros s' r' H'. rewrite H1 in H'. injection H' as <- <-.
  apply Hf; [exact H2|]. split; [exact H0|]. exists s, r. auto.
Qed.
Lemma h_cur_then {A} (P Q : cstate -> Prop) (f : cstate -> M A) : (forall s, P s -> h P Q (f s)) -> h P Q (bind cur f).
Proof. intros Hf. apply h_cur. intros s Hs. eapply h_pre; [apply Hf, Hs|]. intros s' [_ H]; exact H. Qed.
Lemma h_get_then {A} P Q (f : world -> M A) : (forall w0, x_kb (w_ctx w0) = b /\ yields b -> h P Q (f w0)) -> h P Q (bind get f).
Proof. intros Hf w Hw. apply wp_bind, wp_get. apply Hf; [apply Hw|exact Hw]. Qed.
Lemma h_lift_then {A B} P Q (r : res A) (f : A -> M B) : (forall a, r = Ok a -> h P Q (f a)) -> h P Q (bind (lift r) f).
Proof. intros Hf w Hw. apply wp_bind, wp_lift; [|intros; exact I]. intros a Ha. now apply Hf. Qed.
Lemma h_modcur (P Q : cstate -> Prop) f : (forall s, P s -> Q (f s)) -> h P Q (modcur f).
Proof.
  intros Hf w (H0 & s & r & H1 & H2 & H3). apply wp_modcur; [|congruence]. intros s' r' H'. rewrite H1 in H'. injection H' as <- <-.
  split; [exact H0|]. exists (f s), r. auto.
Qed.
Lemma h_for P f : h P P (for_dicts f).
Proof. intros w Hw. apply wp_for_dicts. exact Hw. Qed.

(** ** frame updates *)
Lemma away_eq s s' : s_cmode s' = s_cmode s -> s_default s' = s_default s -> away s -> away s'.
Proof. unfold away. intros -> ->. auto. Qed.
Lemma tidy_eq s s' : s_cmode s' = s_cmode s -> s_default s' = s_default s -> s_pre s' = s_pre s -> s_okuri s' = s_okuri s -> tidy s -> tidy s'.
Proof. unfold tidy. intros -> -> -> ->. auto. Qed.
Lemma away_push t c s : away s -> away (push_string_for t c s).
Proof. apply away_eq; destruct c; reflexivity. Qed.
Lemma base_push t c s : base s -> base (push_string_for t c s).
Proof. unfold base. destruct c; auto. Qed.
Lemma away_change c s : c <> PreCompositionOkurigana -> base s -> away (change_composition_mode c s).
Proof. intros Hc H. split; [exact H|exact Hc]. Qed.
Lemma away_abort s : base s -> away (abort_to_previous_mode s).
Proof.
  unfold base, away, abort_to_previous_mode. intros H. destruct (last_opt (s_hist s)) as [[]|]; cbn; split; try assumption; try discriminate. congruence.
Qed.
Lemma away_delete s : away s -> away (snd (st_delete s)).
Proof.
  intros [H1 H2]. split; [now rewrite st_delete_default|]. unfold st_delete. destruct (s_cmode s) eqn:E; cbn; try congruence;
    repeat match goal with |- context [if ?x then _ else _] => destruct x; cbn end; congruence.
Qed.
Lemma tidy_delete s : base s -> tidy (snd (st_delete s)).
Proof.
  intros H. split; [now rewrite st_delete_default|]. unfold st_delete. destruct (s_cmode s) eqn:E; cbn; try congruence.
  1,2,4: repeat match goal with |- context [if ?x then _ else _] => destruct x; cbn end; congruence.
  destruct (negb (is_nil (s_pre s))) eqn:Ep; cbn;
    match goal with |- context [if ?x then _ else _] => destruct x eqn:Ex; cbn end; try discriminate; intros _.
  - destruct (str_pop (s_pre s)); [|left; discriminate]. right. intros H0. rewrite H0 in Ex. discriminate.
  - right. intros H0. rewrite H0 in Ex. apply negb_false_iff in Ep. rewrite Ep in Ex. discriminate.
Qed.
Lemma away_iter n s : away s -> away (Nat.iter n (fun s => snd (st_delete s)) s).
Proof. intros H; induction n; cbn; auto. now apply away_delete. Qed.
Lemma away_new : away (st_new Hiragana Direct).
Proof. split; [reflexivity|discriminate]. Qed.
Lemma h_enter (P Q : cstate -> Prop) p : (forall s, P s -> base s) -> (forall s, P s -> Q s) -> (forall s, away s -> Q s) -> h P Q (enter_register_mode p).
Proof.
  intros HP HQ HA w (H0 & s & r & H1 & H2 & H3). unfold wp, enter_register_mode. destruct (Nat.ltb _ _).
  - rewrite H1. split; [exact H0|]. exists (st_new Hiragana Direct), (change_from_old_mode Register p s :: r).
    split; [reflexivity|]. split; [apply HA, away_new|]. constructor; [|exact H3]. split; [exact (HP s H2)|discriminate].
  - split; [exact H0|]. exists s, r. auto.
Qed.
Lemma nonempty_app (a t : str) : t <> [] -> a ++ t <> [].
Proof. intros H E. apply app_eq_nil in E as [_ E]. contradiction. Qed.

(** ** the frame is not in okurigana mode *)
Ltac aw := repeat first
  [ assumption
  | match goal with
    | |- away (change_composition_mode _ _) => apply away_change; [first [assumption|discriminate]|apply away_base]
    | |- away (snd (st_delete _)) => apply away_delete
    | |- away (if ?x then _ else _) => destruct x
    | |- away (push_string ?t ?s) => apply away_push
    | |- away (push_string_for ?t ?c ?s) => apply away_push
    | |- away (abort_to_previous_mode ?s) => apply away_abort, away_base
    | |- away (reset_to_default ?s) => apply (away_eq (set_cmode Direct s)); [|reflexivity|]
    | |- away (st_backward ?s) => apply (away_eq s); [reflexivity ..|]
    | |- away (set_new_candidate_list _ ?s) => apply (away_eq s); [reflexivity ..|]
    | |- away (add_new_candidates _ ?s) => apply (away_eq s); [reflexivity ..|]
    | |- away (consolidate ?s) => apply (away_eq s); [reflexivity ..|]
    | |- away (clear_candidate_list ?s) => apply (away_eq s); [reflexivity ..|]
    | |- away (clear_unconfirmed ?s) => apply (away_eq s); [reflexivity ..|]
    | |- away (clear_all ?s) => apply (away_eq s); [reflexivity ..|]
    | |- away (clear_kanas ?s) => apply (away_eq s); [reflexivity ..|]
    | |- away (clear_preconverted ?s) => apply (away_eq s); [reflexivity ..|]
    | |- away (set_pre _ ?s) => apply (away_eq s); [reflexivity ..|]
    | |- away (set_cap _ ?s) => apply (away_eq s); [reflexivity ..|]
    | |- away (set_imode _ ?s) => apply (away_eq s); [reflexivity ..|]
    | |- away (set_converted_to_postfix _ ?s) => apply (away_eq s); [reflexivity ..|]
    | |- away (Nat.iter _ _ ?s) => apply away_iter
    end ].
Create HintDb ha.
Ltac h1 := first
  [ assumption
  | solve [auto 2 with ha nocore]
  | match goal with
    | |- h ?P ?P (ret _) => apply h_ret
    | |- h ?P ?P (for_dicts _) => apply h_for
    | |- h away _ (bind cur _) => apply h_cur_then; intros ? ?
    | |- h _ _ (bind get _) => apply h_get_then; intros ? ?
    | |- h _ _ (bind (lift _) _) => apply h_lift_then; intros ? ?
    | |- h away _ (bind _ _) => apply (h_bind away away); [|intros ?]
    | |- h away away (modcur _) => apply h_modcur; intros ? ?; cbn beta zeta; solve [aw]
    | |- h away away (enter_register_mode _) => apply h_enter; [apply away_base|auto ..]
    | |- h away away (lift _) => intros ? ?; apply wp_lift; [intros; assumption|intros; exact I]
    | |- h _ _ (match ?x with _ => _ end) => destruct x eqn:?
    | |- h _ _ (if ?x then _ else _) => destruct x eqn:?
    end ].
Ltac hh := cbn beta zeta; repeat (h1; cbn beta zeta).
Lemma away_reset s : base s -> away (reset_to_default s).
Proof. unfold base. intros H. split; [exact H|]. cbn. rewrite H. discriminate. Qed.
Section Ops.
Context (X : xkb) (dbg : bool).
Lemma h_append t : h away away (append_converted t).
Proof.
  intros w Hw. unfold append_converted. apply (h_modcur away away); [|exact Hw]. intros s0 H0. cbn beta. aw.
Qed.
Lemma h_carry u : h away away (set_carry_over u).
Proof. unfold set_carry_over. hh. Qed.
Lemma h_set_imode i : h away away (set_input_mode i).
Proof. unfold set_input_mode. hh. Qed.
Lemma h_set_cmode (P : cstate -> Prop) c : (forall s, P s -> base s) -> c <> PreCompositionOkurigana -> h P away (set_composition_mode c).
Proof. intros HP H. apply h_modcur. intros s Hs. apply away_change; auto. Qed.
Lemma h_set_cmode_away c : c <> PreCompositionOkurigana -> h away away (set_composition_mode c).
Proof. apply h_set_cmode, away_base. Qed.
Lemma h_update : h away away update_candidate_list.
Proof. unfold update_candidate_list. hh. Qed.
Lemma h_update_completion : h away away update_completion_list.
Proof. unfold update_completion_list. hh. Qed.
Hint Resolve h_append h_carry h_set_imode h_update h_update_completion : ha.
Lemma h_output i c : h away away (output_converted_kana_if_any i c).
Proof. unfold output_converted_kana_if_any. hh. Qed.
Hint Resolve h_output : ha.
Lemma h_continuous k : h away away (input_as_continuous_kana k).
Proof. unfold input_as_continuous_kana. hh. Qed.
Hint Resolve h_continuous : ha.
(** a confirmed candidate brings any frame to its first mode *)
Lemma h_confirm : h away away confirm_current.
Proof.
  unfold confirm_current. apply h_cur_then. intros s Hs. apply h_get_then. intros w0 H0. destruct (cl_current (s_list s)); [|apply h_ret].
  apply (h_bind away away); [apply h_for|intros _]. apply h_modcur. intros s' Hs'. apply away_reset.
  unfold base. pose proof (away_base _ (away_push (c_output c ++ adjust_kana_string (x_kf (w_ctx w0)) (s_imode s') (s_okuri s')) (s_cmode s') s' Hs')) as G. exact G.
Qed.
Hint Resolve h_confirm : ha.
Lemma h_forward : h away away (s <- cur ;; s' <- lift (st_forward dbg s) ;; modcur (fun _ => s')).
Proof.
  apply h_cur. intros s Hs. apply h_lift_then. intros s' E. apply h_modcur. intros s0 _.
  unfold st_forward in E. destruct (cl_forward dbg (s_list s)); [|discriminate]. injection E as <-. revert Hs. apply away_eq; reflexivity.
Qed.
Lemma h_try_next c i : h away away (try_next_candidate dbg c i).
Proof.
  unfold try_next_candidate. destruct (negb _).
  - hh. apply h_set_cmode_away. discriminate.
  - apply h_cur. intros s Hs. apply h_lift_then. intros nx Hb. destruct (negb nx).
    + eapply h_pre; [apply (h_enter away); auto using away_base|]. intros s' [_ H']; exact H'.
    + apply h_lift_then. intros s' E. apply h_modcur. intros s0 _.
      unfold st_forward in E. destruct (cl_forward dbg (s_list s)); [|discriminate]. injection E as <-. revert Hs. apply away_eq; reflexivity.
Qed.
Lemma h_try_completion c i : h away away (try_next_completion dbg c i).
Proof.
  unfold try_next_completion. destruct (negb _).
  - hh. apply h_set_cmode_away. discriminate.
  - apply h_cur. intros s Hs. apply h_lift_then. intros nx Hb. destruct (negb nx).
    + eapply h_pre; [apply h_ret|]. intros s' [_ H']; exact H'.
    + apply h_lift_then. intros s' E. apply (h_bind _ away); [|intros _; apply h_set_cmode_away; discriminate]. apply h_modcur. intros s0 _.
      unfold st_forward in E. destruct (cl_forward dbg (s_list s)); [|discriminate]. injection E as <-. revert Hs. apply away_eq; reflexivity.
Qed.
Hint Resolve h_try_next h_try_completion : ha.
Lemma h_auto : h away away (auto_start_henkan dbg).
Proof. unfold auto_start_henkan. hh. Qed.
Hint Resolve h_auto : ha.
Lemma h_finish : h away away (finish_kana_input dbg).
Proof. unfold finish_kana_input. hh. Qed.
Hint Resolve h_finish : ha.
Lemma h_set_sel : h away away (set_composition_mode CompositionSelection).
Proof. apply h_set_cmode_away. discriminate. Qed.
Hint Resolve h_set_sel : ha.
Lemma h_converted conv carry d u : h away away (input_converted_kana dbg conv carry d u).
Proof. unfold input_converted_kana. hh. Qed.
Hint Resolve h_converted : ha.
Lemma h_periods i c conv : h away away (input_periods dbg i c conv).
Proof. unfold input_periods. hh. Qed.
Lemma h_direct_char k ch i c : h away away (input_direct_char dbg k ch i c).
Proof. unfold input_direct_char. hh. Qed.
Hint Resolve h_periods h_direct_char : ha.
Lemma h_capital k c d : c <> PreComposition -> h away away (transition_by_capital k c d).
Proof.
  intros Hc. unfold transition_by_capital. hh.
  - apply h_set_cmode_away. discriminate.
  - exfalso. destruct c; try congruence; rewrite Bool.andb_false_r in *; discriminate.
Qed.
Hint Resolve h_capital : ha.
Lemma h_unconverted k u ch c : c <> PreComposition -> h away away (input_unconverted dbg k u ch c).
Proof. intros Hc. unfold input_unconverted. hh. Qed.
Lemma h_plain k : h away away (input_plain X k).
Proof. unfold input_plain. hh. Qed.
Hint Resolve h_plain : ha.
Lemma h_abort (P : cstate -> Prop) : (forall s, P s -> base s) -> h P away abort.
Proof.
  intros HP. unfold abort. apply (h_bind P base); [apply h_modcur; exact HP|intros _].
  apply h_cur_then. intros s Hs.
  apply (h_bind base base).
  - assert (G : h base base (abort_register_mode ;; ret tt)).
    { intros w (H0 & s0 & r & H1 & H2 & H3). unfold wp, bind, abort_register_mode. rewrite H1. destruct r as [|s1 r].
      - split; [exact H0|]. exists s0, []. auto.
      - split; [exact H0|]. cbn. exists s1, r. inversion H3; subst. repeat split; auto. now apply away_base. }
    destruct (s_cmode s); try apply h_ret; exact G.
  - intros _. apply (h_bind base away); [apply h_modcur; intros; now apply away_abort|intros _].
    apply h_cur_then. intros s1 Hs1. unfold when. destruct (_ && _); [|apply h_ret].
    apply h_modcur. intros s2 Hs2. apply away_abort, away_base, Hs2.
Qed.
Lemma h_exit (P : cstate -> Prop) t : (forall s, P s -> base s) -> (forall s, away s -> P s) -> h P P (exit_register_mode t).
Proof.
  intros HP HA w (H0 & s & r & H1 & H2 & H3). unfold wp, exit_register_mode. rewrite H1. destruct r as [|s1 r].
  { split; [exact H0|]. exists s, []. auto. }
  set (w1 := set_stack (tl (s :: s1 :: r)) w).
  assert (Hw1 : V away w1).
  { inversion H3; subst. split; [exact H0|]. exists s1, r. auto. }
  assert (G : h away P (if is_nil t then modcur abort_to_previous_mode
       else modcur (set_cmode Direct) ;; s <- cur ;; w <- get ;; cs <- lift (registered_candidates (ctx_dicts w) s t) ;;
         modcur (add_new_candidates cs) ;; confirm_current)).
  { apply (h_post away away); [|exact HA]. hh. apply h_modcur. intros s0 Hs0. split; [apply Hs0|discriminate]. }
  exact (G w1 Hw1).
Qed.

(** ** the frame may be in okurigana mode *)
(** okurigana mode with a okurigana *)
Definition okd (s : cstate) : Prop := base s /\ (s_cmode s = PreCompositionOkurigana -> s_okuri s <> []).
Lemma okd_tidy s : okd s -> tidy s. Proof. intros [H1 H2]. split; auto. Qed.
Lemma okd_base s : okd s -> base s. Proof. intros [H1 H2]. exact H1. Qed.
Lemma V_split P w : V P w -> (forall s, P s -> base s) ->
  V away w \/ V (fun s => P s /\ s_cmode s = PreCompositionOkurigana) w.
Proof.
  intros (H0 & s & r & H1 & H2 & H3) Hb. destruct (cmode_eqb (s_cmode s) PreCompositionOkurigana) eqn:E.
  - right. split; [exact H0|]. exists s, r. apply cmode_eqb_eq in E. auto.
  - left. split; [exact H0|]. exists s, r. repeat split; auto; [now apply Hb|]. intros H. rewrite H in E. discriminate.
Qed.
Lemma wp_away {A} (m : M A) w : V away w -> h away away m -> wp any_panic m (fun _ => V tidy) w.
Proof. intros Hw Hm. apply (h_post away away tidy m Hm away_tidy w Hw). Qed.
Lemma h_carry_base u : h base base (set_carry_over u).
Proof. apply h_modcur. intros s Hs. cbn zeta. destruct (is_nil u); exact Hs. Qed.
Lemma h_carry_okd u : h okd okd (set_carry_over u).
Proof. apply h_modcur. intros s Hs. cbn zeta. destruct (is_nil u); exact Hs. Qed.
Lemma h_carry_tidy u : u <> [] -> h base tidy (set_carry_over u).
Proof. intros Hu. apply h_modcur. intros s Hs. cbn zeta. destruct (is_nil u); (split; [exact Hs|left; exact Hu]). Qed.
Lemma h_update_okd : h okd okd update_candidate_list.
Proof.
  unfold update_candidate_list. apply h_cur_then. intros s Hs. apply h_get_then. intros w0 H0. apply h_lift_then. intros cs _.
  apply h_modcur. intros s' Hs'. exact Hs'.
Qed.
Lemma h_update_tidy : h tidy tidy update_candidate_list.
Proof.
  unfold update_candidate_list. apply h_cur_then. intros s Hs. apply h_get_then. intros w0 H0. apply h_lift_then. intros cs _.
  apply h_modcur. intros s' Hs'. exact Hs'.
Qed.
Lemma h_update_completion_tidy : h tidy tidy update_completion_list.
Proof.
  unfold update_completion_list. apply h_cur_then. intros s Hs. apply h_get_then. intros w0 H0. apply h_lift_then. intros cs _.
  apply h_modcur. intros s' Hs'. exact Hs'.
Qed.
Lemma push_okd t s : t <> [] -> base s -> okd (push_string t s).
Proof.
  intros Ht Hb. split; [now apply base_push|]. unfold push_string. destruct (s_cmode s) eqn:E; cbn; rewrite ?E; try discriminate.
  intros _. now apply nonempty_app.
Qed.
Lemma h_converted_tidy conv carry d u : conv <> [] -> h base tidy (input_converted_kana dbg conv carry d u).
Proof.
  intros Hc w Hw. destruct (V_split _ _ Hw) as [Ha|Ho]; [auto|apply wp_away; [exact Ha|apply h_converted]|].
  revert w Hw Ho. intros w _. revert w.
  match goal with |- forall w, _ -> wp _ ?m _ w => change (h (fun s => base s /\ s_cmode s = PreCompositionOkurigana) tidy m) end.
  unfold input_converted_kana. apply h_cur_then. intros s [Hb Hm]. rewrite Hm.
  destruct (_ && _ && _) eqn:Eb.
  - assert (Hn : carry <> []) by (intros ->; rewrite Bool.andb_false_r in Eb; discriminate).
    assert (En : is_nil carry = false) by (destruct carry; [congruence|reflexivity]).
    apply (h_bind _ base); [apply h_modcur; intros s' [H' _]; now apply base_push|intros _].
    apply (h_bind _ tidy); [now apply h_carry_tidy|intros _].
    apply h_cur_then. intros s1 Hs1. rewrite En. apply h_ret.
  - apply (h_bind _ okd); [apply h_modcur; intros s' [H' _]; now apply push_okd|intros _].
    apply (h_bind _ okd); [apply h_carry_okd|intros _].
    apply h_cur_then. intros s1 Hs1. destruct (is_nil carry && _); [|apply (h_post okd okd tidy); [apply h_ret|exact okd_tidy]].
    apply (h_bind _ okd); [apply h_update_okd|intros _].
    apply h_cur_then. intros s2 Hs2. destruct (cl_is_empty _).
    + apply h_enter; [exact okd_base|exact okd_tidy|exact away_tidy].
    + apply (h_post _ away); [apply h_set_cmode; [exact okd_base|discriminate]|exact away_tidy].
Qed.
Lemma h_finish_tidy : h tidy tidy (finish_kana_input dbg).
Proof.
  intros w Hw. destruct (V_split _ _ Hw tidy_base) as [Ha|Ho]; [apply wp_away; [exact Ha|apply h_finish]|].
  clear Hw. revert w Ho.
  match goal with |- forall w, _ -> wp _ ?m _ w => change (h (fun s => tidy s /\ s_cmode s = PreCompositionOkurigana) tidy m) end.
  unfold finish_kana_input. apply h_cur_then. intros s [Hb Hm]. rewrite Hm. cbn [cmode_eqb].
  apply (h_bind _ (fun s => tidy s /\ s_cmode s = PreCompositionOkurigana)); [apply h_ret|intros _].
  apply (h_post _ (fun s => tidy s /\ s_cmode s = PreCompositionOkurigana)); [apply h_ret|]. intros s' [H' _]; exact H'.
Qed.
(** flushing the pending conversion *)
Lemma h_output_base i c : h base base (output_converted_kana_if_any i c).
Proof.
  unfold output_converted_kana_if_any. apply h_cur_then. intros s Hs. apply h_get_then. intros w0 H0.
  destruct (convert_greedy _ _) as [[kana carry]|]; [|apply h_ret].
  destruct c; try apply h_ret; (apply (h_bind _ base); [apply h_modcur; intros; assumption|intros _]);
    (apply (h_bind _ base); [apply h_carry_base|intros _; apply h_ret]).
Qed.
Lemma h_output_tidy i : h tidy tidy (output_converted_kana_if_any i PreCompositionOkurigana).
Proof.
  unfold output_converted_kana_if_any. apply h_cur_then. intros s Hs. apply h_get_then. intros w0 H0.
  destruct (convert_greedy _ _) as [[kana carry]|] eqn:E; [|apply h_ret]. rewrite (proj1 H0) in E. apply (proj2 H0) in E.
  apply (h_bind _ okd).
  { apply h_modcur. intros s' [H' _]. split; [exact H'|]. intros _. cbn. now apply nonempty_app. }
  intros _. apply (h_bind _ okd); [apply h_carry_okd|intros _]. apply (h_post okd okd); [apply h_ret|exact okd_tidy].
Qed.
Definition at_pre (u : list N) (s : cstate) : Prop := base s /\ s_pre s = u.
Lemma next_nonempty k u : can_continue b k u || can_continue_lower b k u || can_continue b k [] = true -> next_unprocessed_state b k u <> [].
Proof.
  unfold next_unprocessed_state. destruct (can_continue b k u); [intros _ H; apply app_eq_nil in H as [_ H]; discriminate|].
  destruct (can_continue_lower b k u); [intros _ H; apply app_eq_nil in H as [_ H]; discriminate|].
  cbn. intros ->. discriminate.
Qed.
Lemma lower_next k u : can_continue_lower b k u = true -> next_unprocessed_state b (to_lower k) u <> [].
Proof.
  intros H. apply next_nonempty. replace (can_continue b (to_lower k) u) with (can_continue_lower b k u); [now rewrite H|].
  unfold can_continue_lower, can_continue, combine_lower, combine_raw, uncapitalize, to_lower, is_upper.
  destruct (_ && _); reflexivity.
Qed.
Lemma h_continuous_tidy k u : next_unprocessed_state b k u <> [] ->
  h (at_pre u) tidy (input_as_continuous_kana k ;; finish_kana_input dbg).
Proof.
  intros Hn. apply (h_bind _ tidy); [|intros _; apply h_finish_tidy]. unfold input_as_continuous_kana.
  apply h_cur. intros s [Hb Hp]. apply h_get_then. intros w0 [Hw0 Hy]. rewrite Hw0, Hp.
  assert (G : h (fun s' => s' = s /\ at_pre u s') tidy (modcur (set_pre (next_unprocessed_state b k u)) ;; ret true)).
  { apply (h_bind _ tidy); [|intros _; apply h_ret]. apply h_modcur. intros s' [-> _]. split; [exact Hb|]. intros _. left. exact Hn. }
  destruct (s_cmode s) eqn:Em; try exact G.
  all: eapply h_post; [apply h_ret|]; intros s' [-> _]; apply away_tidy; split; [exact Hb|congruence].
Qed.
Lemma h_capital_pre u k c d : h (at_pre u) (at_pre u) (transition_by_capital k c d).
Proof.
  unfold transition_by_capital. apply h_cur_then. intros s Hs.
  assert (G : forall m, h (at_pre u) (at_pre u) (set_composition_mode m ;; modcur (set_cap true) ;; ret true)).
  { intros m. apply (h_bind _ (at_pre u)); [apply h_modcur; intros s' H'; exact H'|intros _].
    apply (h_bind _ (at_pre u)); [apply h_modcur; intros s' H'; exact H'|intros _]. apply h_ret. }
  destruct (_ && _ && _); [apply G|]. destruct (_ && _ && _ && _); [apply G|apply h_ret].
Qed.
Lemma at_base u s : at_pre u s -> base s. Proof. intros [H _]; exact H. Qed.
Lemma h_clear_pre : h base (at_pre []) (modcur clear_preconverted).
Proof. apply h_modcur. intros s Hs. split; [exact Hs|reflexivity]. Qed.
Lemma h_push_finish t : t <> [] -> h base tidy (modcur (push_string t) ;; finish_kana_input dbg).
Proof.
  intros Ht. apply (h_bind _ okd); [apply h_modcur; intros; now apply push_okd|intros _].
  eapply h_pre; [apply h_finish_tidy|exact okd_tidy].
Qed.
Lemma h_output_clear i c : h base (at_pre []) (output_converted_kana_if_any i c ;; modcur clear_preconverted).
Proof. apply (h_bind _ base); [apply h_output_base|intros _; apply h_clear_pre]. Qed.
Definition entry_pre (u : list N) (s : cstate) : Prop := tidy s /\ s_pre s = u.
Lemma entry_at u s : entry_pre u s -> at_pre u s.
Proof. intros [[H _] H2]. split; auto. Qed.
Lemma entry_base u s : entry_pre u s -> base s.
Proof. intros [[H _] H2]. exact H. Qed.
Lemma period_text ch p c conv : convert_periods ch p c = Some conv -> conv <> [].
Proof. unfold convert_periods. destruct (N.eqb ch 46); [destruct p; intros [= <-]; discriminate|]. destruct (N.eqb ch 44); [destruct c; intros [= <-]; discriminate|discriminate]. Qed.
Lemma h_periods_tidy i c conv : conv <> [] -> h base tidy (input_periods dbg i c conv).
Proof.
  intros Hc. unfold input_periods. apply (h_bind _ base); [apply h_output_base|intros _].
  apply (h_bind _ base); [apply h_modcur; intros s Hs; exact Hs|intros _].
  intros w Hw. destruct (V_split _ _ Hw) as [Ha|Ho]; [auto|apply wp_away; [exact Ha|]|].
  { hh. }
  clear Hw. revert w Ho.
  match goal with |- forall w, _ -> wp _ ?m _ w => change (h (fun s => base s /\ s_cmode s = PreCompositionOkurigana) tidy m) end.
  apply h_cur_then. intros s [Hb Hm]. rewrite Hm.
  apply (h_bind _ okd); [apply h_modcur; intros s' [H' _]; now apply push_okd|intros _].
  apply (h_bind _ okd); [apply h_modcur; intros s' H'; exact H'|intros _].
  eapply h_pre; [apply h_finish_tidy|exact okd_tidy].
Qed.
Lemma h_direct_char_tidy k ch i c : h tidy tidy (input_direct_char dbg k ch i c).
Proof.
  unfold input_direct_char. destruct (is_ascii_inputtable k); [|apply h_ret].
  apply (h_bind _ base); [eapply h_pre; [apply h_output_base|exact tidy_base]|intros _].
  apply (h_bind _ base); [apply h_modcur; intros s Hs; exact Hs|intros _].
  intros w Hw. destruct (V_split _ _ Hw) as [Ha|Ho]; [auto|apply wp_away; [exact Ha|]|].
  { hh. }
  clear Hw. revert w Ho.
  match goal with |- forall w, _ -> wp _ ?m _ w => change (h (fun s => base s /\ s_cmode s = PreCompositionOkurigana) tidy m) end.
  apply h_cur_then. intros s [Hb Hm]. rewrite Hm. eapply h_pre; [apply h_push_finish; discriminate|]. intros s' [H' _]; exact H'.
Qed.
Lemma h_assoc {A B C} P Q (m1 : M A) (m2 : M B) (f : M C) : h P Q (bind (bind m1 (fun _ => m2)) (fun _ => f)) -> h P Q (m1 ;; m2 ;; f).
Proof. intros H w Hw. specialize (H w Hw). unfold wp, bind in *. destruct (m1 w) as [[a w1]|]; exact H. Qed.
Lemma h_unconverted_tidy k u ch c : h (entry_pre u) tidy (input_unconverted dbg k u ch c).
Proof.
  unfold input_unconverted. apply h_cur_then. intros s Hs. apply h_get_then. intros w0 [Hw0 Hy]. cbn zeta. rewrite Hw0.
  destruct (convert_periods _ _ _) as [conv|] eqn:Ep.
  { eapply h_pre; [apply h_periods_tidy; now apply period_text in Ep|apply entry_base]. }
  destruct (can_continue b k u) eqn:Ec.
  { eapply h_pre; [apply h_continuous_tidy; apply next_nonempty; now rewrite Ec|apply entry_at]. }
  destruct (is_upper k && can_continue_lower b k u) eqn:El.
  { apply andb_prop in El as [_ El]. apply (h_bind _ (at_pre u)); [eapply h_pre; [apply h_capital_pre|apply entry_at]|intros _].
    apply h_continuous_tidy. now apply lower_next. }
  destruct (convert_non_partial b (combine_raw k [])) as [[conv carry]|] eqn:E1.
  { apply (h_bind _ tidy); [|intros _; apply h_ret].
    eapply h_pre; [apply h_converted_tidy; eapply non_partial_yields; eauto|apply entry_base]. }
  destruct (convert_non_partial b (combine_lower k [])) as [[conv carry]|] eqn:E2.
  { destruct (is_upper k).
    - apply (h_bind _ (at_pre u)); [eapply h_pre; [apply h_capital_pre|apply entry_at]|intros d].
      apply (h_bind _ tidy); [|intros _; apply h_ret].
      eapply h_pre; [apply h_converted_tidy; eapply non_partial_yields; eauto|apply at_base].
    - eapply h_pre; [apply h_finish_tidy|]. intros s' [H' _]; exact H'. }
  destruct (can_continue b k []) eqn:E3.
  { apply h_assoc. apply (h_bind _ (at_pre [])); [eapply h_pre; [apply h_output_clear|apply entry_base]|intros _].
    apply h_continuous_tidy. apply next_nonempty. now rewrite E3. }
  destruct (can_continue_lower b k []) eqn:E4.
  { apply (h_bind _ base); [eapply h_post; [eapply h_pre; [apply h_capital_pre|apply entry_at]|apply at_base]|intros _].
    apply h_assoc. apply (h_bind _ (at_pre [])); [apply h_output_clear|intros _].
    apply h_continuous_tidy. now apply lower_next. }
  eapply h_pre; [apply h_direct_char_tidy|]. intros s' [H' _]; exact H'.
Qed.
Lemma h_kana_tidy k u : h (entry_pre u) tidy (input_kana X dbg k u).
Proof.
  unfold input_kana. apply h_cur_then. intros s Hs. apply h_get_then. intros w0 [Hw0 Hy]. cbn zeta. rewrite Hw0.
  assert (Hu : h (entry_pre u) tidy match get_symbol_char X k with Some ch => input_unconverted dbg k u ch (s_cmode s) | None => ret false end).
  { destruct (get_symbol_char X k); [apply h_unconverted_tidy|]. eapply h_post; [apply h_ret|]. intros s' [H' _]; exact H'. }
  destruct (convert_non_partial b (combine_raw k u)) as [[conv carry]|] eqn:E1.
  { apply (h_bind _ tidy); [|intros _; apply h_ret].
    eapply h_pre; [apply h_converted_tidy; eapply non_partial_yields; eauto|apply entry_base]. }
  destruct (is_upper k); [|exact Hu].
  destruct (convert_non_partial b (combine_lower k u)) as [[conv carry]|] eqn:E2; [|exact Hu].
  apply (h_bind _ (at_pre u)); [eapply h_pre; [apply h_capital_pre|apply entry_at]|intros d].
  apply (h_bind _ tidy); [|intros _; apply h_ret].
  eapply h_pre; [apply h_converted_tidy; eapply non_partial_yields; eauto|apply at_base].
Qed.
(** right after a confirmation *)
Definition atd (s : cstate) : Prop := away s /\ s_cmode s = Direct.
Lemma h_kana_direct k u : h atd away (input_kana X dbg k u).
Proof.
  unfold input_kana. apply h_cur_then. intros s [Hs Hm]. apply h_get_then. intros w0 [Hw0 Hy]. cbn zeta. rewrite Hm.
  eapply (h_pre away); [|intros s' [H' _]; exact H'].
  assert (Hu : h away away match get_symbol_char X k with Some ch => input_unconverted dbg k u ch Direct | None => ret false end).
  { destruct (get_symbol_char X k); [apply h_unconverted; discriminate|apply h_ret]. }
  assert (Hc : forall cv cr d, h away away (input_converted_kana dbg cv cr d u ;; ret true)).
  { intros. apply (h_bind _ away); [apply h_converted|intros _; apply h_ret]. }
  destruct (convert_non_partial _ _) as [[conv carry]|]; [apply Hc|].
  destruct (is_upper k); [|exact Hu].
  destruct (convert_non_partial _ _) as [[conv carry]|]; [|exact Hu].
  apply (h_bind _ away); [apply h_capital; discriminate|intros d; apply Hc].
Qed.
Lemma V_eq P w s r : V P w -> x_stack (w_ctx w) = s :: r -> P s /\ Forall away r.
Proof. intros (_ & s' & r' & E & H1 & H2) Hs. rewrite E in Hs. injection Hs as <- <-. auto. Qed.
Lemma input_key_tidy k w s r : V tidy w -> x_stack (w_ctx w) = s :: r ->
  wp any_panic (input_key X dbg k (s_cmode s) (s_pre s)) (fun _ => V tidy) w.
Proof.
  intros Hw Hs. destruct (V_eq _ _ _ _ Hw Hs) as [Ht Hr]. unfold input_key. destruct (negb (is_modifierless_input k)); [exact Hw|].
  apply wp_bind, wp_cur; [|congruence]. intros s' r' H'. rewrite Hs in H'. injection H' as <- <-. apply wp_bind, wp_get.
  assert (Rest : forall w1 s1, V tidy w1 -> x_stack (w_ctx w1) = s1 :: r -> (s_pre s1 = s_pre s \/ s_cmode s1 = Direct) ->
    wp any_panic (s1 <- cur ;; (if has_rom2kana_conversion (s_imode s1) (s_cmode s1) && is_modifierless_input k then input_kana X dbg k (s_pre s)
      else if is_ascii_inputtable k && is_modifierless_input k then input_plain X k else ret false)) (fun _ => V tidy) w1).
  { intros w1 s1 Hw1 Hs1 Hp. apply wp_bind, wp_cur; [|congruence]. intros s' r' H'. rewrite Hs1 in H'. injection H' as <- <-.
    destruct (V_eq _ _ _ _ Hw1 Hs1) as [Ht1 Hr1].
    destruct (_ && _) eqn:E1.
    - destruct Hp as [Hp|Hp].
      + apply h_kana_tidy. split; [apply Hw1|]. exists s1, r. repeat split; auto; apply Ht1.
      + eapply wp_mono; [apply h_kana_direct|].
        * split; [apply Hw1|]. exists s1, r. repeat split; auto; try apply Ht1. congruence.
        * intros a w2 Hw2. split; [apply Hw2|]. destruct Hw2 as (_ & s2 & r2 & A & B & D). exists s2, r2. auto using away_tidy.
    - destruct (is_ascii_inputtable k && _); [|exact Hw1].
      destruct (V_split _ _ Hw1 tidy_base) as [Ha|Ho]; [apply wp_away; [exact Ha|apply h_plain]|].
      revert Ho. clear. revert w1.
      match goal with |- forall w, _ -> wp _ ?m _ w => change (h (fun s => tidy s /\ s_cmode s = PreCompositionOkurigana) tidy m) end.
      unfold input_plain. apply h_cur_then. intros s [Hb Hm]. rewrite Hm. apply h_get_then. intros w0 _.
      eapply h_post; [apply h_ret|]. intros s' [H' _]; exact H'. }
  destruct (_ && will_be_processed _ _ _ _ _) eqn:E; [|apply wp_bind, wp_ret; eapply Rest; eauto].
  assert (Ha : V away w).
  { split; [apply Hw|]. exists s, r. repeat split; auto; [apply Ht|]. intros Hm. rewrite Hm in E. discriminate. }
  apply wp_bind. pose proof (h_confirm w Ha) as G. unfold wp in *. destruct (confirm_current w) as [[[] w1]|] eqn:Ec; [|exact I].
  apply (confirm_outcome w s r _ Hs) in Ec.
  assert (Hw1 : V tidy w1).
  { split; [apply G|]. destruct G as (_ & s2 & r2 & A & B & D). exists s2, r2. auto using away_tidy. }
  destruct Ec as [[_ ->]|(c & s1 & _ & Hs1 & Hm1 & _)]; [eapply Rest; eauto|].
  eapply Rest; eauto. right. rewrite Hm1. apply Ht.
Qed.
End Ops.
End Table.
