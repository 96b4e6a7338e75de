(** C03: registration frames are exactly the outer frames. *)
From Verif Require Import Str Keys Modes KanaBuilder FormChanger DictTypes Parser Lru
  Dictionary CState Context Spec P_Monad P_Frames P_Inv P_Keeps.

(** No command list of the rule enters Register mode by itself. *)
Definition rule_no_register (cr : command_rule) : Prop :=
  forall c i k l, In (k, l) (cr c i) -> ~ In (IChangeCompositionMode Register) l.
Definition nr (s : cstate) : Prop := ~ In Register (s_hist s) /\ s_default s <> Register.
Definition Tr (s : cstate) : Prop := s_cmode s <> Register /\ nr s.
Definition Or (s : cstate) : Prop := s_cmode s = Register /\ nr s.
Definition Cr (c : ctx) : Prop := rule_no_register (x_cmd c).
Notation kr := (keeps Tr Or Cr).

Lemma in_removelast {A} (x : A) l : In x (removelast l) -> In x l.
Proof.
  induction l as [|y l IH]; cbn; auto. destruct l; [tauto|]. intros [H|H]; [auto|]. right. apply IH, H.
Qed.
Lemma last_opt_in {A} (l : list A) x : last_opt l = Some x -> In x l.
Proof.
  induction l as [|y l IH]; [discriminate|]. destruct l as [|z l].
  - cbn. intros [= ->]. auto.
  - intros H. right. apply IH, H.
Qed.
Lemma push_history_in m x h : In x (push_history m h) -> In x h \/ x = m.
Proof.
  unfold push_history. destruct (Nat.ltb _ _); intros H.
  - assert (H' : In x (h ++ [m])) by (destruct (h ++ [m]); [destruct H|right; exact H]).
    apply in_app_or in H' as [H'|[H'|[]]]; auto.
  - apply in_app_or in H as [H'|[H'|[]]]; auto.
Qed.
Lemma nr_hist s l : nr s -> (forall x, In x l -> In x (s_hist s)) -> nr (set_hist l s).
Proof. intros [H1 H2] H. split; cbn; auto. Qed.
Lemma nr_change n p s : p <> Register -> nr s -> nr (change_from_old_mode n p s).
Proof.
  intros Hp [H1 H2]. split; cbn; auto. intros H. apply push_history_in in H as [H|H]; auto.
Qed.
Lemma Tr_abort s : nr s -> Tr (abort_to_previous_mode s).
Proof.
  intros [H1 H2]. unfold abort_to_previous_mode.
  destruct (last_opt (s_hist s)) as [m|] eqn:E.
  - apply last_opt_in in E.
    assert (Hr : ~ In Register (removelast (s_hist s))) by (intros H; apply H1, in_removelast, H).
    destruct m; split; cbn; try discriminate; try (split; assumption). contradiction.
  - split; cbn; auto. split; auto.
Qed.
Lemma nr_Tr s : Tr s -> nr s. Proof. intros [_ H]; exact H. Qed.
Lemma Tr_eq s s' : s_cmode s' = s_cmode s -> s_hist s' = s_hist s -> s_default s' = s_default s -> Tr s -> Tr s'.
Proof. unfold Tr, nr. intros -> -> ->; auto. Qed.
Lemma st_delete_default s : s_default (snd (st_delete s)) = s_default s.
Proof.
  unfold st_delete. destruct (s_cmode s); cbn; auto;
    destruct (negb (is_nil (s_pre s))); cbn; auto; repeat destruct (_ && _); cbn; auto;
    destruct (is_nil _); auto.
Qed.
Lemma Tr_delete s : Tr s -> Tr (snd (st_delete s)).
Proof.
  intros [H [H1 H2]]. split.
  - unfold st_delete. destruct (s_cmode s) eqn:E; cbn; try congruence;
      destruct (negb (is_nil (s_pre s))); cbn; try congruence;
      repeat match goal with |- context [if ?x then _ else _] => destruct x end; cbn; congruence.
  - split; [rewrite st_delete_hist|rewrite st_delete_default]; auto.
Qed.
Lemma Tr_push t c s : Tr s -> Tr (push_string_for t c s).
Proof. apply Tr_eq; destruct c; reflexivity. Qed.
Lemma Tr_pushs t s : Tr s -> Tr (push_string t s).
Proof. apply Tr_push. Qed.
Lemma Tr_change c s : c <> Register -> Tr s -> Tr (change_composition_mode c s).
Proof. intros Hc [H1 H2]. split; [exact Hc|]. apply nr_change; auto. Qed.
Lemma Tr_reset s : Tr s -> Tr (reset_to_default s).
Proof. intros [_ [H1 H2]]. split; cbn; auto. split; cbn; auto. Qed.
Lemma Tr_new : Tr (st_new Hiragana Direct).
Proof. repeat split; cbn; try discriminate; auto. Qed.
Lemma Or_enter p s : p <> Register -> Tr s -> Or (change_from_old_mode Register p s).
Proof. intros Hp [_ H]. split; [reflexivity|]. apply nr_change; auto. Qed.
Lemma Tr_clear_all s : Tr s -> Tr (clear_all s).
Proof. intros [H1 [H2 H3]]. repeat split; cbn; auto. Qed.
Lemma Tr_forward d s s' : st_forward d s = Ok s' -> Tr s -> Tr s'.
Proof.
  unfold st_forward. destruct (cl_forward d (s_list s)); cbn; [|discriminate]. intros [= <-].
  apply Tr_eq; reflexivity.
Qed.
Lemma Tr_pointer i s : Tr s -> Tr (snd (set_candidate_pointer i s)).
Proof. apply Tr_eq; unfold set_candidate_pointer; destruct (cl_set_pointer i (s_list s)); reflexivity. Qed.
Lemma Tr_iter n s : Tr s -> Tr (Nat.iter n (fun s => snd (st_delete s)) s).
Proof. intros H; induction n; cbn; auto. apply Tr_delete; auto. Qed.

Lemma HCr w l : Cr (w_ctx w) -> Cr (w_ctx (set_stack l w)).
Proof. auto. Qed.

Ltac same := match goal with
  | H : Tr ?s |- Tr _ => apply (Tr_eq s); [reflexivity|reflexivity|reflexivity|exact H] end.
Ltac tr := repeat first
  [ assumption | discriminate | same
  | apply Tr_pushs | apply Tr_push | apply Tr_reset | apply Tr_delete | apply Tr_clear_all
  | apply Tr_pointer | (apply Tr_abort; apply nr_Tr) | (apply Tr_change; [first [assumption|discriminate]|])
  | match goal with
    | |- Tr (set_pre _ ?s) => apply (Tr_eq s); [reflexivity|reflexivity|reflexivity|]
    | |- Tr (set_cap _ ?s) => apply (Tr_eq s); [reflexivity|reflexivity|reflexivity|]
    | |- Tr (clear_preconverted ?s) => apply (Tr_eq s); [reflexivity|reflexivity|reflexivity|]
    | |- Tr (clear_unconfirmed ?s) => apply (Tr_eq s); [reflexivity|reflexivity|reflexivity|]
    | |- Tr (clear_candidate_list ?s) => apply (Tr_eq s); [reflexivity|reflexivity|reflexivity|]
    | |- Tr (set_converted_to_postfix _ ?s) => apply (Tr_eq s); [reflexivity|reflexivity|reflexivity|]
    | |- Tr (consolidate ?s) => apply (Tr_eq s); [reflexivity|reflexivity|reflexivity|]
    | |- Tr (if ?x then _ else _) => destruct x
    end ].
Create HintDb kr.
Ltac kr1 :=
  first
  [ assumption | apply keeps_ret | apply keeps_for
  | solve [auto 2 with kr]
  | match goal with
    | |- kr (bind cur _) => apply keeps_cur_then; intros ? ?
    | |- kr (bind get _) => apply keeps_get_then; intros ? ?
    | |- kr (bind (lift _) _) => apply keeps_lift_then; intros ? ?
    | |- kr (bind _ _) => apply keeps_bind; [|intros ?]
    | |- kr (lift _) => apply keeps_lift
    | |- kr (modcur _) => apply keeps_modcur; [exact HCr|]; intros ? ?; cbn beta zeta; solve [tr]
    | |- kr (enter_register_mode _) =>
        apply keeps_enter; [exact HCr| |exact Tr_new];
        intros; apply Or_enter; [first [assumption | discriminate | (apply nr_Tr; assumption) | (match goal with H : Tr ?s |- s_cmode ?s <> _ => apply H end)]|assumption]
    | |- kr (match ?x with _ => _ end) => destruct x eqn:?
    | |- kr (if ?x then _ else _) => destruct x eqn:?
    end ].
Ltac kr := cbn beta zeta; repeat (kr1; cbn beta zeta).

Section R.
Context (X : xkb) (dbg : bool).
Lemma k_append t : kr (append_converted t).
Proof. apply (keeps_modcur_w _ _ _ HCr (fun w s => push_string _ s)). intros; tr. Qed.
Lemma k_carry u : kr (set_carry_over u).
Proof. unfold set_carry_over. kr. Qed.
Lemma k_update_candidates : kr update_candidate_list.
Proof. unfold update_candidate_list. kr. Qed.
Lemma k_update_completion : kr update_completion_list.
Proof. unfold update_completion_list. kr. Qed.
Lemma k_purge : kr purge_current.
Proof. unfold purge_current. kr. Qed.
Lemma k_confirm : kr confirm_current.
Proof. unfold confirm_current. kr. Qed.
Lemma k_confirm_as i : kr (confirm_as i).
Proof. unfold confirm_as. kr. Qed.
Lemma k_set_cmode c : c <> Register -> kr (set_composition_mode c).
Proof. intros Hc. unfold set_composition_mode. kr. Qed.
Lemma k_set_imode i : kr (set_input_mode i).
Proof. unfold set_input_mode. kr. Qed.
Hint Resolve k_append k_carry k_update_candidates k_update_completion k_purge k_confirm
  k_confirm_as k_set_imode : kr.
Ltac kc := match goal with |- kr (set_composition_mode ?c) => apply k_set_cmode; first [discriminate|assumption] end.
Ltac krc := cbn beta zeta; repeat (first [kc|kr1]; cbn beta zeta).

(** leaving a registration: the outer frame becomes current again *)
Lemma stk_pop w s s' r : Cr (w_ctx w) -> x_stack (w_ctx w) = s :: s' :: r ->
  Forall Or (s' :: r) -> nr s' /\ Forall Or r.
Proof. intros _ _ H. inversion H as [|? ? [_ Hn] Hr]; subst. auto. Qed.
Lemma k_abort : kr abort.
Proof.
  unfold abort. apply keeps_bind; [kr|intros _].
  intros w (Hc & s & r & Hs & Ht & Ho). apply wp_bind, wp_cur; [|intros; exact I].
  intros s0 r0 H0. assert (s0 = s) as -> by congruence. clear H0 r0.
  assert (Hrest : forall c1 w1, (exists s1 r1, x_stack (w_ctx w1) = s1 :: r1 /\ nr s1 /\ Forall Or r1) ->
    Cr (w_ctx w1) ->
    wp any_panic (modcur abort_to_previous_mode ;; s1 <- cur ;;
      when (cmode_eqb c1 PreCompositionOkurigana && cmode_eqb (s_cmode s1) PreComposition)
       (modcur abort_to_previous_mode)) (fun _ => stk Tr Or Cr) w1).
  { intros c1 w1 (s1 & r1 & Hs1 & Hn1 & Ho1) Hc1. apply wp_bind, wp_modcur; [|congruence].
    intros s2 r2 H2. assert (s2 = s1 /\ r2 = r1) as [-> ->] by (split; congruence).
    assert (Hk : kr (s1 <- cur ;;
      when (cmode_eqb c1 PreCompositionOkurigana && cmode_eqb (s_cmode s1) PreComposition)
       (modcur abort_to_previous_mode))) by (unfold when; kr).
    apply Hk. split; [exact Hc1|]. exists (abort_to_previous_mode s1), r1.
    repeat split; auto; apply Tr_abort; auto. }
  apply wp_bind. destruct (s_cmode s) eqn:Ec;
    try (apply wp_ret, Hrest; [exists s, r; destruct Ht; auto|exact Hc]).
  apply wp_bind. unfold wp at 1, abort_register_mode. rewrite Hs.
  destruct r as [|s' r].
  - apply wp_ret. apply Hrest; auto. exists s, []. destruct Ht; auto.
  - apply wp_ret. apply Hrest; auto. cbn. exists s', r. inversion Ho as [|? ? [_ Hn] Hr]; subst. auto.
Qed.
Lemma k_exit t : kr (exit_register_mode t).
Proof.
  intros w (Hc & s & r & Hs & Ht & Ho). unfold wp, exit_register_mode. rewrite Hs.
  destruct r as [|s' r]; [split; eauto|].
  inversion Ho as [|? ? [_ Hn] Hr]; subst. cbn [tl].
  match goal with |- match ?m ?w0 with _ => _ end => set (m0 := m); set (w1 := w0) end.
  assert (H : wp any_panic m0 (fun _ => stk Tr Or Cr) w1); [|exact H].
  subst m0. destruct (is_nil t).
  - apply wp_modcur; [|intros; exact I]. intros s1 r1 H1. cbn in H1. injection H1 as <- <-.
    split; [exact Hc|]. exists (abort_to_previous_mode s'), r. repeat split; auto; apply Tr_abort; auto.
  - apply wp_bind, wp_modcur; [|intros; exact I]. intros s1 r1 H1. cbn in H1. injection H1 as <- <-.
    assert (Hk : kr (s <- cur ;; w <- get ;;
         cs <- lift (registered_candidates (ctx_dicts w) s t) ;;
         modcur (add_new_candidates cs) ;; confirm_current)) by kr.
    apply Hk. split; [exact Hc|]. exists (set_cmode Direct s'), r.
    split; [reflexivity|]. split; auto. split; [discriminate|]. exact Hn.
Qed.
Hint Resolve k_abort k_exit : kr.
Lemma k_output i c : kr (output_converted_kana_if_any i c).
Proof. unfold output_converted_kana_if_any. krc. Qed.
Lemma k_capital k c d : kr (transition_by_capital k c d).
Proof. unfold transition_by_capital. krc. Qed.
Hint Resolve k_output k_capital : kr.
Lemma k_forward : kr (s <- cur ;; s' <- lift (st_forward dbg s) ;; modcur (fun _ => s')).
Proof.
  apply keeps_cur_at. intros s w Ht Hw Hs. apply wp_bind, wp_lift; [|intros; exact I].
  intros s' Hs'. eapply wp_modcur_const; eauto using HCr. apply (Tr_forward dbg); auto.
Qed.
Lemma k_next_or (m k : M unit) : kr m -> kr k ->
  kr (s <- cur ;; x <- lift (cl_has_next dbg (s_list s)) ;;
     if negb x then m else s' <- lift (st_forward dbg s) ;; modcur (fun _ => s') ;; k).
Proof.
  intros Hm Hk. apply keeps_cur_at. intros s w Ht Hw Hs.
  apply wp_bind, wp_lift; [|intros; exact I]. intros x _. destruct (negb x); [apply Hm, Hw|].
  apply wp_bind, wp_lift; [|intros; exact I]. intros s' Hs'.
  apply wp_keeps_bind; [|intros; exact Hk]. eapply wp_modcur_const; eauto using HCr.
  apply (Tr_forward dbg); auto.
Qed.
Lemma k_next_candidate c i : c <> Register -> kr (try_next_candidate dbg c i).
Proof.
  intros Hc. unfold try_next_candidate. destruct (negb (cmode_eqb c CompositionSelection)); [krc|].
  apply keeps_cur_at. intros s w Ht Hw Hs.
  apply wp_bind, wp_lift; [|intros; exact I]. intros x _. destruct (negb x).
  - assert (Hk : kr (enter_register_mode c)) by kr. apply Hk, Hw.
  - apply wp_bind, wp_lift; [|intros; exact I]. intros s' Hs'.
    eapply wp_modcur_const; eauto using HCr. apply (Tr_forward dbg); auto.
Qed.
Lemma k_next_completion c i : kr (try_next_completion dbg c i).
Proof.
  unfold try_next_completion. destruct (negb (cmode_eqb c Completion)); [krc|].
  apply k_next_or; krc.
Qed.
Hint Resolve k_forward k_next_completion : kr.
Lemma k_auto_start : kr (auto_start_henkan dbg).
Proof.
  unfold auto_start_henkan. krc.
  - apply keeps_modcur; [exact HCr|]. intros z Hz. tr. apply Tr_iter; auto.
  - apply k_next_candidate; discriminate.
Qed.
Hint Resolve k_auto_start : kr.
Lemma k_input_converted conv carry did u : kr (input_converted_kana dbg conv carry did u).
Proof. unfold input_converted_kana. krc. Qed.
Lemma k_continuous k : kr (input_as_continuous_kana k).
Proof. unfold input_as_continuous_kana. krc. Qed.
Hint Resolve k_input_converted k_continuous : kr.
Lemma k_instr ins c i : c <> Register -> ins <> IChangeCompositionMode Register ->
  kr (run_instr dbg ins c i).
Proof.
  intros Hc Hi. pose proof (k_next_candidate c i Hc).
  unfold run_instr. destruct ins; try (krc; fail).
  apply keeps_bind; [|krc]. apply k_set_cmode. congruence.
Qed.
Lemma k_instrs l c i : c <> Register -> ~ In (IChangeCompositionMode Register) l ->
  forall res, kr (run_instrs dbg l c i res).
Proof.
  intros Hc. induction l as [|x l IH]; intros Hl res; cbn [run_instrs]; [kr|].
  apply keeps_bind; [apply k_instr; auto; intros ->; apply Hl; left; reflexivity|].
  intros [?|?]; [|kr]. apply IH. intros H; apply Hl; right; exact H.
Qed.
Lemma k_finish : kr (finish_kana_input dbg).
Proof. unfold finish_kana_input. krc. Qed.
Hint Resolve k_finish : kr.
Lemma k_periods i c t : kr (input_periods dbg i c t).
Proof. unfold input_periods. krc. Qed.
Lemma k_direct_char k c i cm : kr (input_direct_char dbg k c i cm).
Proof. unfold input_direct_char. krc. Qed.
Hint Resolve k_periods k_direct_char : kr.
Lemma k_unconverted k u ch c : kr (input_unconverted dbg k u ch c).
Proof. unfold input_unconverted. krc. Qed.
Hint Resolve k_unconverted : kr.
Lemma k_kana k u : kr (input_kana X dbg k u).
Proof. unfold input_kana. krc. Qed.
Lemma k_plain k : kr (input_plain X k).
Proof. unfold input_plain. krc. Qed.
Hint Resolve k_kana k_plain : kr.
Lemma k_input_key k c u : kr (input_key X dbg k c u).
Proof. unfold input_key. krc. Qed.
Hint Resolve k_input_key : kr.
Lemma assoc_key_in {A} k (l : list (keyev * A)) v : assoc_key k l = Some v -> exists k', In (k', v) l.
Proof.
  induction l as [|[k' v'] l IH]; cbn; [discriminate|]. destruct (key_eqb k k').
  - intros [= ->]. eauto.
  - intros H. destruct (IH H) as [k2 H2]. eauto.
Qed.
Lemma get_instruction_in cr k i c l : get_instruction dbg cr k i c = Ok (Some l) ->
  exists k', In (k', l) (cr c i).
Proof.
  unfold get_instruction. destruct c; try (destruct dbg; discriminate);
    intros [= H]; eapply assoc_key_in; eauto.
Qed.
Lemma k_key k : kr (process_key_event X dbg k).
Proof.
  unfold process_key_event. destruct (has_mod k M_RELEASE); [kr|].
  unfold process_key_event_inner. apply keeps_cur_then. intros s Hs. apply keeps_get_then. intros w0 Hw0.
  cbn zeta. destruct (skip_command _ _ _ _ _); [kr|].
  apply keeps_lift_then. intros [l|] Hl; [|kr].
  apply get_instruction_in in Hl as [k' Hl]. apply k_instrs; [apply Hs|]. eapply Hw0; eauto.
Qed.
Lemma k_select_at i : kr (select_candidate_at i).
Proof. unfold select_candidate_at. krc. Qed.
Lemma k_confirm_at i : kr (confirm_candidate_at i).
Proof. unfold confirm_candidate_at. krc. Qed.

(** The calls allowed in C03: no reset, Register mode never set by hand. *)
Definition op_no_register (o : op) : Prop :=
  match o with
  | OReset => False
  | OSetCompositionMode c => c <> Register
  | OSetRule r => rule_no_register (r_command r)
  | _ => True
  end.
Lemma k_exec o : op_no_register o -> kr (exec X dbg o).
Proof.
  intros Ho. destruct o; cbn in Ho |- *; try contradiction.
  - pose proof (k_key k). kr.
  - apply keeps_bind; [|kr]. apply keeps_poll; [exact HCr| |];
      intros s [H1 [H2 H3]]; repeat split; auto.
  - pose proof (k_set_cmode c Ho). kr.
  - kr.
  - pose proof (k_select_at i). kr.
  - pose proof (k_confirm_at i). kr.
  - intros w Hw; exact Hw.
  - intros w Hw; exact Hw.
  - intros w Hw; exact Hw.
  - intros w [Hc Hw]; split; [exact Ho|exact Hw].
  - intros w Hw; exact Hw.
  - intros w Hw; exact Hw.
Qed.
Lemma k_run ops : Forall op_no_register ops -> kr (run X dbg ops).
Proof. induction 1; cbn [run]; [kr|]. pose proof (k_exec x H). kr. Qed.
End R.
