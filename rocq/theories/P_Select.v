(** Invariant behind C19: a list is shown only while it has a current candidate. *)
From Verif Require Import Str Keys Modes KanaBuilder FormChanger DictTypes Parser Lru
  Dictionary CState Context Spec P_Monad P_Frames P_Inv P_Keeps P_Register.

(** modes that show a list *)
Definition listing (c : cmode) : bool := match c with CompositionSelection | Completion => true | _ => false end.
Definition plainmode (c : cmode) : bool := match c with CompositionSelection | Completion | Register => false | _ => true end.
Definition has_current (s : cstate) : Prop := cl_current (s_list s) <> None.
Definition hist_plain (h : list cmode) : Prop := Forall (fun c => plainmode c = true) h.
(** the current frame; [J0]: in a mode without list *)
Definition J0 (s : cstate) : Prop :=
  plainmode (s_cmode s) = true /\ plainmode (s_default s) = true /\ hist_plain (s_hist s).
Definition J1 (s : cstate) : Prop :=
  s_cmode s <> Register /\ (listing (s_cmode s) = true -> has_current s)
  /\ plainmode (s_default s) = true /\ hist_plain (s_hist s).
(** a frame waiting for a registration *)
Definition JL (s : cstate) : Prop :=
  s_cmode s = Register /\ plainmode (s_default s) = true
  /\ exists h p, s_hist s = h ++ [p] /\ hist_plain h /\ p <> Register /\ (listing p = true -> has_current s).
Definition W (P : cstate -> Prop) (w : world) : Prop :=
  exists s r, x_stack (w_ctx w) = s :: r /\ P s /\ Forall JL r.
Lemma J01 s : J0 s -> J1 s.
Proof. intros (H1 & H2 & H3). repeat split; auto; destruct (s_cmode s); try discriminate. Qed.
Lemma W01 w : W J0 w -> W J1 w.
Proof. intros (s & r & H1 & H2 & H3). exists s, r. auto using J01. Qed.
Definition q {A} (P Q : cstate -> Prop) (m : M A) : Prop := forall w, W P w -> wp any_panic m (fun _ => W Q) w.
Lemma q_weaken {A} P Q (m : M A) : q P J0 m -> (Q = J1 \/ Q = J0) -> q P Q m.
Proof. intros H [->| ->]; [|exact H]. intros w Hw. eapply wp_mono; [apply H, Hw|]. intros a w'. apply W01. Qed.
Lemma q_ret0 {A} (a : A) P : q P P (ret a).
Proof. intros w H; exact H. Qed.
Lemma q_ret1 {A} (a : A) : q J0 J1 (ret a).
Proof. intros w H. now apply W01. Qed.
Lemma q_bind {A B} P Q R (m : M A) (f : A -> M B) : q P Q m -> (forall a, q Q R (f a)) -> q P R (bind m f).
Proof. intros Hm Hf w H. apply wp_bind. eapply wp_mono; [apply Hm, H|]. intros a w'. apply Hf. Qed.
Lemma q_cur {A} (P Q : cstate -> Prop) (f : cstate -> M A) : (forall s r w, x_stack (w_ctx w) = s :: r -> P s -> Forall JL r -> wp any_panic (f s) (fun _ => W Q) w) -> q P Q (bind cur f).
Proof.
  intros Hf w (s & r & H1 & H2 & H3). apply wp_bind, wp_cur; [|congruence]. intros s' r' H'. rewrite H1 in H'. injection H' as <- <-. eauto.
Qed.
Lemma q_cur_then {A} (P Q : cstate -> Prop) (f : cstate -> M A) : (forall s, P s -> q P Q (f s)) -> q P Q (bind cur f).
Proof. intros Hf. apply q_cur. intros s r w H1 H2 H3. apply Hf; [exact H2|]. exists s, r; auto. Qed.
Lemma q_get_then {A} P Q (f : world -> M A) : (forall w0, q P Q (f w0)) -> q P Q (bind get f).
Proof. intros Hf w H. apply wp_bind, wp_get. apply Hf; auto. Qed.
Lemma q_lift_then {A B} P Q (r : res A) (f : A -> M B) : (forall a, r = Ok a -> q P Q (f a)) -> q P Q (bind (lift r) f).
Proof. intros Hf w H. apply wp_bind, wp_lift; [|intros; exact I]. intros a Ha. now apply Hf. Qed.
Lemma q_modcur (P Q : cstate -> Prop) f : (forall s, P s -> Q (f s)) -> q P Q (modcur f).
Proof.
  intros Hf w (s & r & H1 & H2 & H3). apply wp_modcur; [|congruence]. intros s' r' H'. rewrite H1 in H'. injection H' as <- <-.
  exists (f s), r. repeat split; auto.
Qed.
Lemma q_for P f : q P P (for_dicts f).
Proof. intros w H. apply wp_for_dicts. exact H. Qed.

(** ** frame updates *)
Lemma hp_push h m : hist_plain h -> plainmode m = true -> hist_plain (push_history m h).
Proof.
  intros H Hm. assert (G : hist_plain (h ++ [m])) by (apply Forall_app; split; auto).
  unfold push_history. destruct (Nat.ltb _ _); [|exact G]. destruct (h ++ [m]); [exact G|]. now inversion G.
Qed.
Lemma hp_removelast h : hist_plain h -> hist_plain (removelast h).
Proof. intros H. apply Forall_forall. intros c Hc. apply in_removelast in Hc. unfold hist_plain in H. rewrite Forall_forall in H. auto. Qed.
Lemma hp_last h m : hist_plain h -> last_opt h = Some m -> plainmode m = true.
Proof. intros H E. apply last_opt_in in E. unfold hist_plain in H. rewrite Forall_forall in H. auto. Qed.
Lemma J0_eq s s' : s_cmode s' = s_cmode s -> s_default s' = s_default s -> s_hist s' = s_hist s -> J0 s -> J0 s'.
Proof. unfold J0. intros -> -> ->. auto. Qed.
Lemma J0_push t c s : J0 s -> J0 (push_string_for t c s).
Proof. destruct c; intros H; exact H. Qed.
Lemma J0_change c s : plainmode c = true -> J0 s -> J0 (change_composition_mode c s).
Proof. intros Hc (H1 & H2 & H3). split; [exact Hc|]. split; [exact H2|]. now apply hp_push. Qed.
Lemma J0_abort s : plainmode (s_default s) = true -> hist_plain (s_hist s) -> J0 (abort_to_previous_mode s).
Proof.
  intros H2 H3. unfold abort_to_previous_mode. destruct (last_opt (s_hist s)) as [m|] eqn:E.
  - pose proof (hp_last _ _ H3 E) as Hm. pose proof (hp_removelast _ H3). destruct m; try discriminate; (split; [reflexivity|split; assumption]).
  - split; [exact H2|split; assumption].
Qed.
Lemma J0_delete s : J0 s -> J0 (snd (st_delete s)).
Proof.
  intros (H1 & H2 & H3). unfold st_delete. destruct (s_cmode s) eqn:E; try discriminate; cbn;
    repeat match goal with |- context [if ?x then _ else _] => destruct x; cbn end; unfold J0; cbn; rewrite ?E; auto.
Qed.
Lemma J0_iter n s : J0 s -> J0 (Nat.iter n (fun s => snd (st_delete s)) s).
Proof. intros H; induction n; cbn; auto. now apply J0_delete. Qed.
Lemma J1_list s cs k : cs <> [] -> J1 s -> J1 (set_list (cl_set k cs (s_list s)) s).
Proof.
  intros Hc (H1 & H2 & H3 & H4). repeat split; auto. intros _. unfold has_current, cl_current. cbn.
  destruct cs; [congruence|discriminate].
Qed.
(** changing to a mode with a list *)
Lemma J1_change c s : c <> Register -> has_current s -> J0 s -> J1 (change_composition_mode c s).
Proof.
  intros Hc Hh (H1 & H2 & H3). split; [exact Hc|]. split; [intros _; exact Hh|]. split; [exact H2|]. now apply hp_push.
Qed.
Lemma JL_enter p s : p <> Register -> plainmode (s_default s) = true -> hist_plain (s_hist s) -> (listing p = true -> has_current s) ->
  JL (change_from_old_mode Register p s).
Proof.
  intros Hp H2 H3 Hl. split; [reflexivity|]. split; [exact H2|].
  cbn. unfold push_history. destruct (Nat.ltb HISTORY_MAX _) eqn:E.
  - destruct (s_hist s) as [|c h]; [discriminate|]. exists h, p. inversion H3; subst. repeat split; auto.
  - exists (s_hist s), p. repeat split; auto.
Qed.
Lemma q_enter (P : cstate -> Prop) p : p <> Register ->
  (forall s, P s -> plainmode (s_default s) = true /\ hist_plain (s_hist s) /\ (listing p = true -> has_current s)) ->
  (forall s, P s -> J1 s) -> q P J1 (enter_register_mode p).
Proof.
  intros Hp HP HJ w (s & r & H1 & H2 & H3). unfold wp, enter_register_mode. destruct (Nat.ltb _ _).
  - rewrite H1. destruct (HP s H2) as (G1 & G2 & G3). exists (st_new Hiragana Direct), (change_from_old_mode Register p s :: r).
    split; [reflexivity|]. split; [|constructor; [now apply JL_enter|exact H3]].
    split; [discriminate|]. split; [discriminate|]. split; [reflexivity|constructor].
  - exists s, r. auto.
Qed.

Ltac jz := repeat first
  [ assumption
  | match goal with
    | |- J0 (change_composition_mode _ _) => apply J0_change; [reflexivity|]
    | |- J0 (snd (st_delete _)) => apply J0_delete
    | |- J0 (if ?x then _ else _) => destruct x
    | |- J0 (push_string ?t ?s) => apply J0_push
    | |- J0 (push_string_for ?t ?c ?s) => apply J0_push
    | |- J0 (st_backward ?s) => apply (J0_eq s); [reflexivity ..|]
    | |- J0 (set_new_candidate_list _ ?s) => apply (J0_eq s); [reflexivity ..|]
    | |- J0 (add_new_candidates _ ?s) => apply (J0_eq s); [reflexivity ..|]
    | |- J0 (consolidate ?s) => apply (J0_eq s); [reflexivity ..|]
    | |- J0 (clear_candidate_list ?s) => apply (J0_eq s); [reflexivity ..|]
    | |- J0 (clear_unconfirmed ?s) => apply (J0_eq s); [reflexivity ..|]
    | |- J0 (clear_kanas ?s) => apply (J0_eq s); [reflexivity ..|]
    | |- J0 (clear_preconverted ?s) => apply (J0_eq s); [reflexivity ..|]
    | |- J0 (set_pre _ ?s) => apply (J0_eq s); [reflexivity ..|]
    | |- J0 (set_cap _ ?s) => apply (J0_eq s); [reflexivity ..|]
    | |- J0 (set_imode _ ?s) => apply (J0_eq s); [reflexivity ..|]
    | |- J0 (set_converted_to_postfix _ ?s) => apply (J0_eq s); [reflexivity ..|]
    | |- J0 (Nat.iter _ _ ?s) => apply J0_iter
    end ].
Create HintDb qj.
Ltac q1 := first
  [ assumption
  | solve [auto 2 with qj nocore]
  | match goal with
    | |- q ?P ?P (ret _) => apply q_ret0
    | |- q J0 J1 (ret _) => apply q_ret1
    | |- q ?P ?P (for_dicts _) => apply q_for
    | |- q J0 _ (bind cur _) => apply q_cur_then; intros ? ?
    | |- q _ _ (bind get _) => apply q_get_then; intros ?
    | |- q _ _ (bind (lift _) _) => apply q_lift_then; intros ? ?
    | |- q J0 _ (bind _ _) => apply (q_bind J0 J0); [|intros ?]
    | |- q J0 J0 (modcur _) => apply q_modcur; intros ? ?; cbn beta zeta; solve [jz]
    | |- q _ _ (match ?x with _ => _ end) => destruct x eqn:?
    | |- q _ _ (if ?x then _ else _) => destruct x eqn:?
    end ].
Ltac qq := cbn beta zeta; repeat (q1; cbn beta zeta).
Section Ops.
Context (X : xkb) (dbg : bool).
Lemma q_append t : q J0 J0 (append_converted t).
Proof.
  intros w (s & r & H1 & H2 & H3). unfold append_converted.
  apply (q_modcur J0 J0); [|exists s, r; auto]. intros s0 H0. cbn beta. jz.
Qed.
Lemma q_carry u : q J0 J0 (set_carry_over u).
Proof. unfold set_carry_over. qq. Qed.
Lemma q_set_imode i : q J0 J0 (set_input_mode i).
Proof. unfold set_input_mode. qq. Qed.
Lemma q_set_cmode c : plainmode c = true -> q J0 J0 (set_composition_mode c).
Proof. intros H. apply q_modcur. intros s Hs. now apply J0_change. Qed.
Lemma q_update : q J0 J0 update_candidate_list.
Proof. unfold update_candidate_list. qq. Qed.
Lemma q_update_completion : q J0 J0 update_completion_list.
Proof. unfold update_completion_list. qq. Qed.
Hint Resolve q_append q_carry q_set_imode q_update q_update_completion : qj.
Lemma q_output i c : q J0 J0 (output_converted_kana_if_any i c).
Proof. unfold output_converted_kana_if_any. qq. Qed.
Hint Resolve q_output : qj.
Lemma q_capital k c d : q J0 J0 (transition_by_capital k c d).
Proof. unfold transition_by_capital. qq. all: apply q_set_cmode; reflexivity. Qed.
Lemma q_continuous k : q J0 J0 (input_as_continuous_kana k).
Proof. unfold input_as_continuous_kana. qq. Qed.
Hint Resolve q_capital q_continuous : qj.
(** entering a mode with a list after filling it *)
Lemma q_listed c : c <> Register -> forall s r w, x_stack (w_ctx w) = s :: r -> J0 s -> Forall JL r ->
  has_current s -> wp any_panic (set_composition_mode c) (fun _ => W J1) w.
Proof.
  intros Hc s r w H1 H2 H3 Hh. apply wp_modcur; [|congruence]. intros s' r' H'. rewrite H1 in H'. injection H' as <- <-.
  exists (change_composition_mode c s), r. split; [reflexivity|]. split; [now apply J1_change|exact H3].
Qed.
Lemma q_enter0 p : plainmode p = true -> q J0 J1 (enter_register_mode p).
Proof.
  intros Hp. apply q_enter.
  - intros ->. discriminate.
  - intros s (H1 & H2 & H3). repeat split; auto. destruct p; discriminate.
  - intros s. apply J01.
Qed.
(** right after a lookup a non-empty list has a current candidate *)
Definition fresh (s : cstate) : Prop := J0 s /\ (cl_list (s_list s) <> [] -> has_current s).
Lemma fresh_new cs s : J0 s -> fresh (set_new_candidate_list cs s).
Proof.
  intros H. split; [jz|]. unfold has_current, cl_current. cbn. intros Hc. destruct cs; [congruence|discriminate].
Qed.
Lemma q_update_fresh : q J0 fresh update_candidate_list.
Proof.
  unfold update_candidate_list. apply q_cur_then. intros s Hs. apply q_get_then. intros w. apply q_lift_then. intros cs _.
  apply q_modcur. intros s' Hs'. now apply fresh_new.
Qed.
Lemma q_update_completion_fresh : q J0 fresh update_completion_list.
Proof.
  unfold update_completion_list. apply q_cur_then. intros s Hs. apply q_get_then. intros w. apply q_lift_then. intros cs _.
  apply q_modcur. intros s' Hs'. now apply fresh_new.
Qed.
Lemma q_fresh {A} Q (m : M A) : q J0 Q m -> q fresh Q m.
Proof. intros H w (s & r & H1 & [H2 _] & H3). apply H. exists s, r. auto. Qed.
Lemma nonempty_list s : cl_is_empty (s_list s) = false -> cl_list (s_list s) <> [].
Proof. unfold cl_is_empty. destruct (cl_list (s_list s)); [discriminate|congruence]. Qed.
Lemma q_next c i : plainmode c = true -> q J0 J1 (try_next_candidate dbg c i).
Proof.
  intros Hc. unfold try_next_candidate. assert (cmode_eqb c CompositionSelection = false) as -> by (destruct c; try discriminate; reflexivity).
  cbn [negb]. apply (q_bind J0 J0); [auto with qj|intros ?]. apply (q_bind J0 fresh); [apply q_update_fresh|intros ?].
  apply q_cur. intros s r w H1 [H2 Hf] H3. destruct (_ && _). { apply q_enter0; [exact Hc|]. exists s, r; auto. }
  destruct (cl_is_empty (s_list s)) eqn:Ee; cbn [negb].
  - apply q_ret1. exists s, r; auto.
  - eapply q_listed; eauto; [discriminate|]. apply Hf. now apply nonempty_list.
Qed.
Lemma q_next_completion c i : plainmode c = true -> q J0 J1 (try_next_completion dbg c i).
Proof.
  intros Hc. unfold try_next_completion. assert (cmode_eqb c Completion = false) as -> by (destruct c; try discriminate; reflexivity).
  cbn [negb]. apply (q_bind J0 J0); [auto with qj|intros ?]. apply (q_bind J0 fresh); [apply q_update_completion_fresh|intros ?].
  apply q_cur. intros s r w H1 [H2 Hf] H3. destruct (_ && _). { apply q_ret1. exists s, r; auto. }
  destruct (cl_is_empty (s_list s)) eqn:Ee; cbn [negb].
  - apply q_ret1. exists s, r; auto.
  - eapply q_listed; eauto; [discriminate|]. apply Hf. now apply nonempty_list.
Qed.
Lemma q_auto_start : q J0 J1 (auto_start_henkan dbg).
Proof.
  unfold auto_start_henkan. apply q_cur_then. intros s Hs. destruct (negb _).
  { intros w Hw. unfold wp, lift. exact I. }
  apply q_get_then. intros w. destruct (matching_keyword _ _); [|apply q_ret1].
  apply (q_bind J0 J0). { apply q_modcur. intros s' Hs'. jz. }
  intros ?. apply q_cur_then. intros s' Hs'. now apply q_next.
Qed.
Lemma q_finish : q J0 J1 (finish_kana_input dbg).
Proof.
  unfold finish_kana_input. apply q_cur_then. intros s Hs. apply (q_bind J0 J1).
  - destruct (cmode_eqb _ _); [apply q_auto_start|apply q_ret1].
  - intros ?. apply q_ret0.
Qed.
Hint Resolve q_auto_start q_finish : qj.
Lemma q_converted conv carry did u : q J0 J1 (input_converted_kana dbg conv carry did u).
Proof.
  unfold input_converted_kana. apply q_cur_then. intros s Hs. destruct (s_cmode s) eqn:Em; try apply q_ret1.
  - apply q_weaken; [|auto]. qq.
  - apply (q_bind J0 J0); [qq|intros ?]. apply (q_bind J0 J0); [qq|intros ?]. apply q_auto_start.
  - apply (q_bind J0 J0); [qq|intros ?]. apply (q_bind J0 J0); [qq|intros ?]. apply q_cur_then. intros s1 H1.
    destruct (_ && _); [|apply q_ret1]. apply (q_bind J0 fresh); [apply q_update_fresh|intros ?].
    apply q_cur. intros s2 r w G1 [G2 G3] G4. destruct (cl_is_empty (s_list s2)) eqn:Ee.
    + apply q_enter0; [apply G2|]. exists s2, r; auto.
    + eapply q_listed; eauto; [discriminate|]. apply G3. now apply nonempty_list.
Qed.
Hint Resolve q_converted : qj.
Lemma q_then_true {A} (m : M A) : q J0 J1 m -> q J0 J1 (m ;; ret true).
Proof. intros H. apply (q_bind J0 J1); [exact H|intros ?; apply q_ret0]. Qed.
Lemma q_periods i c t : q J0 J1 (input_periods dbg i c t).
Proof. unfold input_periods. qq. Qed.
Lemma q_direct_char k ch i c : q J0 J1 (input_direct_char dbg k ch i c).
Proof. unfold input_direct_char. qq. Qed.
Hint Resolve q_periods q_direct_char : qj.
Lemma q_unconverted k u ch c : q J0 J1 (input_unconverted dbg k u ch c).
Proof.
  unfold input_unconverted. apply q_cur_then. intros s Hs. apply q_get_then. intros w. cbn zeta.
  repeat match goal with
  | |- q _ _ (input_converted_kana _ _ _ _ _ ;; _) => apply q_then_true; auto with qj
  | _ => q1; cbn beta zeta
  end.
Qed.
Lemma q_kana k u : q J0 J1 (input_kana X dbg k u).
Proof.
  unfold input_kana. apply q_cur_then. intros s Hs. apply q_get_then. intros w. cbn zeta.
  assert (U : q J0 J1 match get_symbol_char X k with Some ch => input_unconverted dbg k u ch (s_cmode s) | None => ret false end).
  { destruct (get_symbol_char X k); [apply q_unconverted|apply q_ret1]. }
  destruct (convert_non_partial _ (combine_raw k u)) as [[t l]|]; [apply q_then_true; auto with qj|].
  destruct (is_upper k); [|exact U]. destruct (convert_non_partial _ (combine_lower k u)) as [[t l]|]; [|exact U].
  apply (q_bind J0 J0); [auto with qj|intros ?]. apply q_then_true; auto with qj.
Qed.
Lemma q_plain k : q J0 J1 (input_plain X k).
Proof. apply q_weaken; [|auto]. unfold input_plain. qq. Qed.
(** ** confirming, aborting, registering *)
Lemma J10 s : J1 s -> cl_current (s_list s) = None -> J0 s.
Proof.
  intros (H1 & H2 & H3 & H4) E. split; [|split; assumption].
  destruct (s_cmode s); try reflexivity; try congruence; exfalso; apply (H2 eq_refl), E.
Qed.
Lemma J0_reset s : plainmode (s_default s) = true -> J0 (reset_to_default s).
Proof. intros H. split; [exact H|split; [exact H|constructor]]. Qed.
Lemma default_push t c s : s_default (push_string_for t c s) = s_default s.
Proof. destruct c; reflexivity. Qed.
(** confirming from a frame that can be in any mode but has a current candidate *)
Definition D (s : cstate) : Prop := plainmode (s_default s) = true /\ has_current s.
Lemma q_confirm_has : q D J0 confirm_current.
Proof.
  unfold confirm_current. apply q_cur. intros s r w H1 [H2 Hh] H3. apply wp_bind, wp_get.
  pose proof Hh as Hh'. unfold has_current in Hh'. destruct (cl_current (s_list s)) as [c|] eqn:Ec; [|congruence]. clear Hh'.
  apply wp_bind, wp_for_dicts. apply (q_modcur D J0).
  - intros s' [H' _]. apply J0_reset. cbn. unfold push_string. now rewrite default_push.
  - exists s, r. split; [exact H1|]. split; [split; assumption|exact H3].
Qed.
Lemma q_confirm1 : q J1 J0 confirm_current.
Proof.
  intros w (s & r & H1 & H2 & H3). destruct (cl_current (s_list s)) as [c|] eqn:E.
  - apply q_confirm_has. exists s, r. split; [exact H1|]. split; [|exact H3]. split; [apply H2|]. unfold has_current. congruence.
  - unfold confirm_current. apply wp_bind, wp_cur; [|congruence]. intros s' r' H'. rewrite H1 in H'. injection H' as <- <-.
    apply wp_bind, wp_get. rewrite E. exists s, r. split; [exact H1|]. split; [now apply J10|exact H3].
Qed.
Lemma q_pre {A} (P P' Q : cstate -> Prop) (m : M A) : (forall s, P s -> P' s) -> q P' Q m -> q P Q m.
Proof. intros H Hm w (s & r & H1 & H2 & H3). apply Hm. exists s, r. auto. Qed.
Lemma q_confirm0 : q J0 J0 confirm_current.
Proof. eapply q_pre; [exact J01|exact q_confirm1]. Qed.
Hint Resolve q_confirm0 : qj.
Lemma q_confirm_as i : q J0 J0 (confirm_as i).
Proof. unfold confirm_as. qq. Qed.
Lemma q_purge : q J0 J0 purge_current.
Proof.
  unfold purge_current. apply q_cur_then. intros s Hs. apply (q_bind J0 J0); [qq|intros ?].
  apply q_modcur. intros s' (H1 & H2 & H3). split; [exact H1|split; [exact H2|constructor]].
Qed.
Hint Resolve q_confirm_as q_purge : qj.
Lemma last_app {A} (h : list A) p : last_opt (h ++ [p]) = Some p.
Proof. apply last_opt_app. Qed.
Lemma JL_abort s : JL s -> J1 (abort_to_previous_mode s).
Proof.
  intros (H1 & H2 & h & p & E & Hh & Hp & Hl). unfold abort_to_previous_mode. rewrite E, last_app.
  assert (R : removelast (h ++ [p]) = h) by (rewrite removelast_app by discriminate; apply app_nil_r).
  destruct p; try congruence; rewrite R;
    (split; [discriminate|]; split; [|split; assumption]); intros L; try discriminate; apply Hl; reflexivity.
Qed.
(** mode and list do not matter before an abort *)
Definition A0 (s : cstate) : Prop := s_cmode s <> Register /\ plainmode (s_default s) = true /\ hist_plain (s_hist s).
Lemma q_abort : q A0 J1 abort.
Proof.
  unfold abort. apply (q_bind A0 A0). { apply q_modcur. intros s (H1 & H2 & H3). split; [exact H1|split; assumption]. }
  intros ?. apply q_cur. intros s r w H1 (Hr & H2 & H3) HL.
  assert (N : q A0 J0 (modcur abort_to_previous_mode)) by (apply q_modcur; intros s' (_ & G1 & G2); now apply J0_abort).
  assert (K : forall b, q J0 J1 (when b (modcur abort_to_previous_mode))).
  { intros b. unfold when. destruct b; [|apply q_ret1]. apply q_modcur. intros s' (_ & G1 & G2). now apply J01, J0_abort. }
  destruct (cmode_eqb (s_cmode s) Direct) eqn:Ed.
  - apply cmode_eqb_eq in Ed. rewrite Ed. destruct r as [|s' r].
    + (* the only frame *)
      apply wp_bind. apply wp_bind. unfold wp at 1, abort_register_mode. rewrite H1. cbn [ret].
      apply wp_ret. apply wp_bind. eapply wp_mono; [apply N; exists s, []; repeat split; auto|].
      intros ? w1 Hw1. revert w1 Hw1. match goal with |- forall w, _ -> wp _ ?m _ w => change (q J0 J1 m) end. apply q_cur_then. intros s1 G. apply K.
    + inversion HL as [|? ? HL1 HL2]; subst.
      apply wp_bind. apply wp_bind. unfold wp at 1, abort_register_mode. rewrite H1. cbn [tl].
      apply wp_ret. apply wp_bind. eapply wp_mono.
      * apply (q_modcur JL J1); [exact JL_abort|]. exists s', r. auto.
      * intros ? w1 Hw1. apply (q_cur J1 J1); [|exact Hw1]. intros s1 r1 w2 G1 G2 G3. unfold when. cbn [cmode_eqb andb]. exists s1, r1. auto.
  - assert (E : match s_cmode s with Direct => abort_register_mode ;; ret tt | _ => ret tt end = ret tt)
      by (destruct (s_cmode s); [discriminate|reflexivity ..]). rewrite E.
    apply wp_bind, wp_ret. apply wp_bind. eapply wp_mono; [apply N; exists s, r; repeat split; auto|].
    intros ? w1 Hw1. revert w1 Hw1. match goal with |- forall w, _ -> wp _ ?m _ w => change (q J0 J1 m) end. apply q_cur_then. intros s1 G. apply K.
Qed.
Lemma templates_none s : ~ In 35%N s -> templates s = [].
Proof.
  induction s as [|c s IH]; intros H; [reflexivity|]. cbn [templates]. destruct s as [|c' s]; [reflexivity|].
  destruct (N.eqb_spec c 35) as [->|Hc]; [exfalso; apply H; now left|]. cbn [andb]. apply IH. intros H'. apply H. now right.
Qed.
Lemma q_exit t : ~ In 35%N t -> q J1 J1 (exit_register_mode t).
Proof.
  intros Ht w (s & r & H1 & H2 & H3). unfold wp, exit_register_mode. rewrite H1. destruct r as [|s' r].
  { exists s, []. auto. }
  inversion H3 as [|? ? HL1 HL2]; subst. cbn [tl].
  match goal with |- match ?m ?w0 with _ => _ end => set (m0 := m); set (w1 := w0) end.
  assert (G : q JL J1 m0).
  { subst m0. destruct (is_nil t). { apply q_modcur. exact JL_abort. }
    apply (q_bind JL (fun s => plainmode (s_default s) = true)). { apply q_modcur. intros s0 (_ & G & _). exact G. }
    intros ?. apply q_cur_then. intros s0 H0. apply q_get_then. intros w2. apply q_lift_then. intros cs Ec.
    assert (Hc : exists c, cs = [c]).
    { unfold registered_candidates, numeric_entry_count in Ec. rewrite (templates_none t Ht) in Ec. cbn in Ec. injection Ec as <-. eauto. }
    destruct Hc as (c & ->). apply (q_bind _ D).
    - apply q_modcur. intros s1 G1. split; [exact G1|]. unfold has_current, cl_current. cbn.
      rewrite app_length. cbn [length]. replace (N.to_nat _) with (length (cl_list (s_list s1))) by lia.
      rewrite nth_error_app2 by lia. rewrite Nat.sub_diag. discriminate.
    - intros ?. apply q_weaken; [apply q_confirm_has|auto]. }
  apply G. exists s', r. auto.
Qed.

(** ** moving in a list *)
Lemma forward_current s s' : st_forward dbg s = Ok s' -> has_current s -> has_current s'.
Proof.
  unfold has_current, cl_current, st_forward, cl_forward. intros E H. apply nth_error_Some in H.
  assert (S1 : usize_sub dbg (cl_len (s_list s)) 1 = Ok (cl_len (s_list s) - 1)%N).
  { unfold usize_sub. assert (N.leb 1 (cl_len (s_list s)) = true) as -> by (apply N.leb_le; unfold cl_len; lia). reflexivity. }
  rewrite S1 in E. cbn [rbind] in E. destruct (N.ltb_spec (cl_cur (s_list s)) (cl_len (s_list s) - 1)) as [L|L].
  - unfold usize_add in E. unfold cl_len in L. destruct (N.ltb_spec (cl_cur (s_list s) + 1) usize_mod).
    + cbn in E. injection E as <-. cbn. apply nth_error_Some. lia.
    + destruct dbg; [discriminate|]. cbn in E. injection E as <-. cbn. apply nth_error_Some.
      assert (M0 : usize_mod <> 0%N) by discriminate. pose proof (N.mod_le (cl_cur (s_list s) + 1) usize_mod M0) as Hm.
      set (z := ((cl_cur (s_list s) + 1) mod usize_mod)%N) in *. clearbody z. lia.
  - cbn in E. injection E as <-. cbn. apply nth_error_Some. lia.
Qed.
Lemma forward_same s s' : st_forward dbg s = Ok s' -> s_cmode s' = s_cmode s /\ s_default s' = s_default s /\ s_hist s' = s_hist s.
Proof. unfold st_forward. destruct (cl_forward dbg (s_list s)); cbn; [|discriminate]. intros [= <-]. auto. Qed.
Lemma J1_forward s s' : st_forward dbg s = Ok s' -> J1 s -> J1 s'.
Proof.
  intros E (H1 & H2 & H3 & H4). pose proof (forward_same s s' E) as (E1 & E2 & E3). unfold J1. rewrite E1, E2, E3.
  repeat split; auto. intros L. eapply forward_current; eauto.
Qed.
Lemma J0_forward s s' : st_forward dbg s = Ok s' -> J0 s -> J0 s'.
Proof. intros E. pose proof (forward_same s s' E) as (E1 & E2 & E3). now apply J0_eq. Qed.
Lemma J1_backward s : J1 s -> J1 (st_backward s).
Proof.
  intros (H1 & H2 & H3 & H4). repeat split; auto. intros L. specialize (H2 L). unfold has_current, cl_current in *.
  apply nth_error_Some in H2. unfold st_backward, cl_backward. destruct (N.ltb _ _); cbn; apply nth_error_Some; lia.
Qed.
Lemma J1_eq s s' : s_cmode s' = s_cmode s -> s_default s' = s_default s -> s_hist s' = s_hist s -> s_list s' = s_list s -> J1 s -> J1 s'.
Proof. unfold J1, has_current. intros -> -> -> ->. auto. Qed.
Lemma J1_delete s : J1 s -> J1 (snd (st_delete s)).
Proof.
  intros H. destruct (listing (s_cmode s)) eqn:E.
  - unfold st_delete. destruct (s_cmode s); try discriminate; exact H.
  - apply J01, J0_delete. destruct H as (H1 & _ & H3 & H4). split; [|split; assumption]. destruct (s_cmode s); try reflexivity; try discriminate; congruence.
Qed.
Lemma q_forward (P : cstate -> Prop) : (forall s s', st_forward dbg s = Ok s' -> P s -> P s') ->
  q P P (s <- cur ;; s' <- lift (st_forward dbg s) ;; modcur (fun _ => s')).
Proof.
  intros HP. apply q_cur. intros s r w H1 H2 H3. apply wp_bind, wp_lift; [|intros; exact I]. intros s' E.
  apply wp_modcur; [|congruence]. intros s0 r0 H0. rewrite H1 in H0. injection H0 as <- <-. exists s', r. split; [reflexivity|]. split; [eauto|exact H3].
Qed.

(** ** instructions *)
(** in a mode without list *)
Definition pbody (x : instr) : bool :=
  match x with
  | IChangeCompositionMode m => plainmode m
  | IAbort | IConfirmDirect | ITryNextCandidate | ITryNextCompletion => false
  | _ => true
  end.
(** in a mode with a list *)
Definition lbody (x : instr) : bool :=
  match x with
  | IChangeInputMode _ | IForceKanaConvert _ | IClearUnconvertedInputs | IClearKanaConvertedInputs
  | IConfirmComposition | IPassthroughKeyEvent | INextCandidatePointer | IPreviousCandidatePointer
  | IDelete | IFinishKeyEvent => true
  | _ => false
  end.
Lemma q_go P Q (m : M unit) : q P Q m -> q P Q (m ;; ret (@inl unit bool tt)).
Proof. intros H. apply (q_bind P Q); [exact H|intros ?; apply q_ret0]. Qed.
Lemma q_pbody x c i : pbody x = true -> q J0 J0 (run_instr dbg x c i).
Proof.
  intros Hx. destruct x; try discriminate; cbn [run_instr pbody] in *; try apply q_ret0; try apply q_go; try (qq; fail).
  - now apply q_set_cmode.
  - apply q_cur_then. intros s Hs. assert (cmode_eqb (s_cmode s) CompositionSelection = false) as ->.
    { destruct Hs as [Hs _]. destruct (s_cmode s); try discriminate; reflexivity. } apply q_ret0.
  - apply q_forward. intros s s' E. now apply J0_forward.
Qed.
Lemma q_lbody x c i : listing c = true -> lbody x = true -> q J1 J1 (run_instr dbg x c i).
Proof.
  intros Hc Hx. destruct x; try discriminate; cbn [run_instr] in *; try apply q_ret0; try apply q_go.
  - apply q_modcur. intros s. now apply J1_eq.
  - apply (q_bind J1 J1); [|intros ?; apply q_ret0]. unfold output_converted_kana_if_any. apply q_cur_then. intros s Hs. apply q_get_then. intros w.
    destruct (convert_greedy _ _) as [[kana carry]|]; [|apply q_ret0]. destruct c; try discriminate; apply q_ret0.
  - apply q_modcur. intros s. now apply J1_eq.
  - apply q_modcur. intros s. now apply J1_eq.
  - apply q_forward. intros s s'. apply J1_forward.
  - apply q_modcur. intros s. apply J1_backward.
  - apply q_weaken; [apply q_confirm1|auto].
  - apply q_cur_then. intros s Hs. apply (q_bind J1 J1); [|intros ?; apply q_ret0]. apply q_modcur. intros s'. apply J1_delete.
Qed.
Lemma q_pbodies l c i : forallb pbody l = true -> forall b, q J0 J0 (run_instrs dbg l c i b).
Proof.
  induction l as [|x l IH]; intros Hl b; cbn [run_instrs]; [apply q_ret0|]. cbn in Hl. apply andb_true_iff in Hl as [Hx Hl].
  apply (q_bind J0 J0); [now apply q_pbody|]. intros [|]; [now apply IH|apply q_ret0].
Qed.
(** a list of a mode with a list: once it confirmed, anything that does not convert or abort *)
Fixpoint confirming (l : list instr) : bool :=
  match l with
  | [] => true
  | x :: r => match x with IConfirmComposition => forallb pbody r | _ => lbody x && confirming r end
  end.
Lemma q_lbodies l c i : listing c = true -> confirming l = true -> forall b, q J1 J1 (run_instrs dbg l c i b).
Proof.
  intros Hc. induction l as [|x l IH]; intros Hl b; [apply q_ret0|]. cbn [confirming] in Hl.
  assert (K : lbody x && confirming l = true -> q J1 J1 (run_instrs dbg (x :: l) c i b)).
  { intros H. apply andb_true_iff in H as [Hx H]. cbn [run_instrs]. apply (q_bind J1 J1); [now apply q_lbody|]. intros [|]; [now apply IH|apply q_ret0]. }
  destruct x; try (apply K; exact Hl). cbn [run_instrs run_instr]. apply (q_bind J1 J0).
  - apply q_go, q_confirm1.
  - intros [|]; [apply q_weaken; [now apply q_pbodies|auto]|]. apply q_ret1.
Qed.
(** an instruction list of a mode without list: only the last may start a conversion or abort *)
Definition final (x : instr) : bool :=
  match x with IAbort | ITryNextCandidate | ITryNextCompletion => true | _ => pbody x end.
Fixpoint plain_list (l : list instr) : bool :=
  match l with
  | [] => true
  | x :: r => if is_nil r then final x else pbody x && plain_list r
  end.
Lemma q_single x c i b : q J0 J1 (run_instr dbg x c i) -> q J0 J1 (run_instrs dbg [x] c i b).
Proof.
  intros H. cbn [run_instrs]. apply (q_bind J0 J1); [exact H|]. intros [|]; apply q_ret0.
Qed.
Lemma q_plain_list l c i : plainmode c = true -> plain_list l = true -> forall b, q J0 J1 (run_instrs dbg l c i b).
Proof.
  intros Hc. induction l as [|x l IH]; intros Hl b; [apply q_ret1|]. cbn [plain_list] in Hl. destruct l as [|y l].
  - cbn [is_nil] in Hl. destruct (pbody x) eqn:Ex.
    + apply q_single. apply q_weaken; [now apply q_pbody|auto].
    + apply q_single. destruct x; try discriminate; try (cbn in Hl, Ex; congruence); cbn [run_instr]; (apply (q_bind J0 J1); [|intros ?; apply q_ret0]).
      * eapply q_pre; [|apply q_abort]. intros s (H1 & H2 & H3). split; [|split; assumption]. intros E. rewrite E in H1. discriminate.
      * now apply q_next.
      * now apply q_next_completion.
  - cbn [is_nil] in Hl. apply andb_true_iff in Hl as [Hx Hl]. cbn [run_instrs]. apply (q_bind J0 J0); [now apply q_pbody|].
    intros [|]; [now apply IH|apply q_ret1].
Qed.
(** the lists a rule may bind in a mode *)
Definition list_ok (c : cmode) (l : list instr) : bool :=
  if listing c then
    confirming l
    || match l with
       | [IAbort] => true
       | [ITryNextCandidate] | [ITryPreviousCandidate] => cmode_eqb c CompositionSelection
       | _ => false
       end
  else plain_list l || match l with [IConfirmDirect] => true | _ => false end.
(** what the user has to avoid: stepping back from the first candidate, and registering a text
    with a number sign *)
Definition avoids (l : list instr) (s : cstate) : Prop :=
  (In IConfirmDirect l -> ~ In 35%N (s_conf s))
  /\ (s_cmode s = CompositionSelection -> In ITryPreviousCandidate l -> cl_has_previous (s_list s) = true).
Lemma wp_instrs l s r w i : x_stack (w_ctx w) = s :: r -> J1 s -> Forall JL r -> list_ok (s_cmode s) l = true -> avoids l s ->
  wp any_panic (process_instructions dbg l (s_cmode s) i) (fun _ => W J1) w.
Proof.
  intros H1 H2 H3 Hl [Ha Hb]. unfold process_instructions. generalize (negb (is_nil l)). intros b. unfold list_ok in Hl.
  assert (HW : W J1 w) by (exists s, r; auto).
  destruct (listing (s_cmode s)) eqn:El.
  - apply orb_true_iff in Hl as [Hl|Hl]; [now apply q_lbodies|].
    destruct l as [|x [|y l]]; try discriminate; [|destruct x; discriminate].
    destruct x; try discriminate; cbn [run_instrs run_instr].
    + apply wp_bind, wp_bind. eapply wp_mono; [eapply q_pre; [|apply q_abort|exact HW]|].
      * intros s0 (G1 & _ & G2 & G3). split; [exact G1|split; assumption].
      * intros ? w1 Hw1. exact Hw1.
    + apply cmode_eqb_eq in Hl. rewrite Hl. apply wp_bind, wp_bind.
      unfold try_next_candidate. cbn [cmode_eqb negb]. apply wp_bind, wp_cur; [|congruence]. intros s0 r0 H0.
      rewrite H1 in H0. injection H0 as <- <-. apply wp_bind, wp_lift; [|intros; exact I]. intros has _.
      assert (Hh : has_current s) by (apply H2; exact El).
      eapply wp_mono with (Q := fun _ => W J1); [|intros ? w1 Hw1; exact Hw1].
      destruct (negb has).
      * apply (q_enter (fun s => J1 s /\ has_current s)); [discriminate| | |exists s, r; auto].
        -- intros s0 [(G1 & G2 & G3 & G4) G5]. auto.
        -- intros s0 [G _]. exact G.
      * apply wp_bind, wp_lift; [|intros; exact I]. intros s' E. apply wp_modcur; [|congruence]. intros s0 r0 H0.
        rewrite H1 in H0. injection H0 as <- <-. exists s', r. split; [reflexivity|]. split; [eapply J1_forward; eauto|exact H3].
    + apply cmode_eqb_eq in Hl. apply wp_bind, wp_bind, wp_bind, wp_cur; [|congruence]. intros s0 r0 H0.
      rewrite H1 in H0. injection H0 as <- <-. rewrite Hl. cbn [cmode_eqb negb]. rewrite (Hb Hl (or_introl eq_refl)). cbn [negb].
      eapply wp_mono with (Q := fun _ => W J1); [|intros ? w1 Hw1; exact Hw1]. apply (q_modcur J1 J1); [exact J1_backward|exact HW].
  - assert (Hp : plainmode (s_cmode s) = true). { destruct H2 as [G _]. destruct (s_cmode s); try reflexivity; try discriminate; congruence. }
    assert (HW0 : W J0 w). { exists s, r. split; [exact H1|]. split; [|exact H3]. destruct H2 as (_ & _ & G). split; assumption. }
    apply orb_true_iff in Hl as [Hl|Hl]; [now apply q_plain_list|].
    destruct l as [|x [|y l]]; try discriminate; [|destruct x; discriminate]. destruct x; try discriminate. cbn [run_instrs run_instr].
    apply wp_bind, wp_bind, wp_get. destruct (Nat.ltb _ _); [|exact HW]. apply wp_bind, wp_cur; [|congruence]. intros s0 r0 H0.
    rewrite H1 in H0. injection H0 as <- <-. apply wp_bind. eapply wp_mono; [apply q_exit; [|exact HW]|].
    + apply Ha. now left.
    + intros ? w1 Hw1. exact Hw1.
Qed.

(** ** a key *)
Lemma q_input k c u s r w : x_stack (w_ctx w) = s :: r -> J1 s -> Forall JL r -> s_cmode s = c ->
  wp any_panic (input_key X dbg k c u) (fun _ => W J1) w.
Proof.
  intros H1 H2 H3 Hc. assert (HW : W J1 w) by (exists s, r; auto).
  unfold input_key. destruct (negb _); [exact HW|]. apply wp_bind, wp_cur; [|congruence]. intros s0 r0 H0.
  rewrite H1 in H0. injection H0 as <- <-. apply wp_bind, wp_get.
  assert (K : forall w, W J0 w -> wp any_panic (s1 <- cur ;;
    if has_rom2kana_conversion (s_imode s1) (s_cmode s1) && is_modifierless_input k
    then input_kana X dbg k u
    else if is_ascii_inputtable k && is_modifierless_input k then input_plain X k
    else ret false) (fun _ => W J1) w).
  { match goal with |- forall w, _ -> wp _ ?m _ w => change (q J0 J1 m) end. apply q_cur_then. intros s1 G.
    destruct (_ && _); [apply q_kana|]. destruct (_ && _); [apply q_plain|apply q_ret1]. }
  fold (listing c). destruct (listing c && will_be_processed _ _ _ _ _) eqn:Ew.
  - apply wp_bind. eapply wp_mono; [apply q_confirm1; exact HW|]. intros ? w1 Hw1. now apply K.
  - destruct (listing c) eqn:El.
    + (* the key is not for us *)
      apply wp_bind, wp_ret, wp_bind, wp_cur; [|congruence]. intros s0 r0 H0. rewrite H1 in H0. injection H0 as <- <-. rewrite Hc.
      assert (has_rom2kana_conversion (s_imode s) c = false) as -> by (destruct c; try discriminate; destruct (s_imode s); reflexivity).
      cbn [andb]. destruct (_ && _); [|exact HW]. unfold input_plain. apply wp_bind, wp_cur; [|congruence]. intros s0 r0 H0.
      rewrite H1 in H0. injection H0 as <- <-. apply wp_bind, wp_get. rewrite Hc. destruct c; try discriminate; exact HW.
    + apply wp_bind, wp_ret, K. exists s, r. split; [exact H1|]. split; [|exact H3]. destruct H2 as (G1 & _ & G). rewrite Hc in G1.
      split; [|exact G]. rewrite Hc. destruct c; try reflexivity; try discriminate; congruence.
Qed.
Definition key_ok (k : keyev) (w : world) : Prop :=
  forall s r l, x_stack (w_ctx w) = s :: r -> bound (x_cmd (w_ctx w)) (s_cmode s) (s_imode s) k l ->
    list_ok (s_cmode s) l = true /\ avoids l s.
Theorem key_lists k w : W J1 w -> key_ok k w -> wp any_panic (process_key_event X dbg k) (fun _ => W J1) w.
Proof.
  intros HW Hk. unfold process_key_event. destruct (has_mod k M_RELEASE); [exact HW|].
  destruct HW as (s & r & H1 & H2 & H3). unfold process_key_event_inner. apply wp_bind, wp_cur; [|congruence]. intros s0 r0 H0.
  rewrite H1 in H0. injection H0 as <- <-. apply wp_bind, wp_get. cbn zeta.
  destruct (skip_command _ _ _ _ _); [eapply q_input; eauto|].
  apply wp_bind, wp_lift; [|intros; exact I]. intros [l|] Hi; [|eapply q_input; eauto].
  assert (Hb : bound (x_cmd (w_ctx w)) (s_cmode s) (s_imode s) k l).
  { unfold get_instruction in Hi. unfold bound. destruct (s_cmode s); try congruence. destruct dbg; discriminate. }
  destruct (Hk s r l H1 Hb) as [Hl Ha]. eapply wp_instrs; eauto.
Qed.
End Ops.
