(** Every operation of Context.v only performs the atomic steps of P_Monad.v. *)
From Verif Require Import Str Keys Modes KanaBuilder FormChanger DictTypes Parser Lru
  Dictionary CState Context P_Monad.

(** panics that are not the empty stack *)
Definition safe_res {A} (r : res A) : Prop := forall e, r = Panic e -> e <> PanicEmptyStack.
Lemma safe_Ok {A} (a : A) : safe_res (Ok a).
Proof. intros e; discriminate. Qed.
Lemma safe_rmap {A B} (f : A -> B) r : safe_res r -> safe_res (rmap f r).
Proof. destruct r; cbn; intros H e He; [discriminate|]. injection He as <-. now apply H. Qed.
Lemma safe_rbind {A B} (r : res A) (f : A -> res B) :
  safe_res r -> (forall a, safe_res (f a)) -> safe_res (rbind r f).
Proof. destruct r; cbn; intros H Hf e He; [eapply Hf; eauto|]. injection He as <-. now apply H. Qed.
Lemma safe_panic {A} r : r <> PanicEmptyStack -> safe_res (@Panic A r).
Proof. intros H e [= <-]; exact H. Qed.
Ltac safe := repeat first
  [ simple apply safe_Ok | simple apply safe_rmap | (simple apply safe_rbind; [|intros ?])
  | (simple apply safe_panic; discriminate)
  | assumption
  | match goal with |- safe_res (match ?x with _ => _ end) => destruct x end ].

Lemma safe_sub d a c : safe_res (usize_sub d a c).
Proof. unfold usize_sub; safe. Qed.
Lemma safe_add d a c : safe_res (usize_add d a c).
Proof. unfold usize_add; safe. Qed.
Lemma safe_has_next d l : safe_res (cl_has_next d l).
Proof. unfold cl_has_next; safe; apply safe_sub. Qed.
Lemma safe_forward d s : safe_res (st_forward d s).
Proof. unfold st_forward, cl_forward; safe; first [apply safe_sub | apply safe_add]. Qed.
Lemma safe_dict_key k : safe_res (get_dict_key k).
Proof. unfold get_dict_key; safe. Qed.
Lemma safe_lookup d k : safe_res (lookup d k).
Proof. unfold lookup; safe; apply safe_dict_key. Qed.
Lemma safe_complete d k : safe_res (complete d k).
Proof. unfold complete; safe; apply safe_dict_key. Qed.
Lemma safe_in_order ds k : safe_res (candidates_in_order ds k).
Proof. induction ds; cbn; safe; apply safe_lookup. Qed.
Lemma safe_res_map {A B} (f : A -> res B) l : (forall a, safe_res (f a)) -> safe_res (res_map f l).
Proof. intros H; induction l; cbn; safe; apply H. Qed.
Lemma safe_of_dcand k c : safe_res (candidate_of_dcand k c).
Proof. unfold candidate_of_dcand; safe; apply safe_dict_key. Qed.
Lemma safe_exact ds k : safe_res (exact_candidates ds k).
Proof. unfold exact_candidates; safe; [apply safe_in_order|]. apply safe_res_map, safe_of_dcand. Qed.
Lemma safe_kanji n : safe_res (numeric_to_simple_kanji_as_number n).
Proof. unfold numeric_to_simple_kanji_as_number; safe. Qed.
Lemma safe_daiji n l : safe_res (numeric_to_daiji_as_number n l).
Proof. unfold numeric_to_daiji_as_number; safe. Qed.
Lemma safe_template ds t n : safe_res (template_texts ds t n).
Proof. unfold template_texts; safe; first [apply safe_kanji | apply safe_daiji | apply safe_exact]. Qed.
Lemma safe_replace_templates ds ts : forall ns cur, safe_res (replace_templates ds ts ns cur).
Proof.
  induction ts as [|t ts IH]; intros ns cur; cbn; safe; [apply safe_template|]. apply IH.
Qed.
Lemma safe_all_candidates ds k : safe_res (get_all_candidates ds k).
Proof.
  unfold get_all_candidates; safe; try apply safe_exact.
  apply safe_res_map; intros; unfold replace_numeric_match; safe. apply safe_replace_templates.
Qed.
Lemma safe_complete_order ds k : safe_res (complete_in_order ds k).
Proof. induction ds; cbn; safe; apply safe_complete. Qed.
Lemma safe_all_complete ds k : safe_res (get_all_complete ds k).
Proof. unfold get_all_complete; safe; apply safe_complete_order. Qed.
Lemma safe_registered ds s c : safe_res (registered_candidates ds s c).
Proof. unfold registered_candidates; cbn zeta; safe; apply safe_replace_templates. Qed.
Lemma safe_instruction d cr k i c : safe_res (get_instruction d cr k i c).
Proof. unfold get_instruction; safe. Qed.

Ltac ast1 := eapply as_step; [|first
  [ (apply a_imode; assumption) | apply a_change | apply a_direct | apply a_abort | apply a_default
  | (apply a_clear_all; assumption) | apply a_clear_unconfirmed | (apply a_clear_kanas; assumption) | apply a_clear_pre
  | apply a_clear_list | apply a_push | apply a_consolidate | apply a_postfix | apply a_cap
  | (apply a_delete; assumption) | apply a_new_list | apply a_add | apply a_pointer | apply a_backward
  | apply a_carry; assumption ]].
Ltac ast := repeat (first [apply as_refl | ast1]).
Create HintDb reach.
Ltac reach1 :=
  first
  [ assumption
  | apply reaches_ret | apply reaches_for_select | apply reaches_for_purge
  | solve [auto 2 with reach]
  | match goal with
    | |- reaches _ _ _ _ (bind get _) => apply reaches_get_then; intros ? ?
    | |- reaches _ _ _ _ (bind _ _) => apply reaches_bind; [|intros ?]
    | |- reaches _ _ _ _ cur => apply reaches_cur
    | |- reaches _ _ _ _ get => apply reaches_get
    | |- reaches _ _ _ _ (lift (Panic ?r)) => apply reaches_lift; apply safe_panic; discriminate
    | |- reaches _ _ _ _ (modcur _) => apply reaches_modcur; intros ?; solve [ast]
    | |- reaches _ _ _ _ (match ?x with _ => _ end) => destruct x eqn:?
    | |- reaches _ _ _ _ (if ?x then _ else _) => destruct x eqn:?
    end ].
Ltac reach := cbn beta zeta; repeat (reach1; cbn beta zeta).

Section F.
Context (X : xkb) (fl : flags) (dbg : bool) (b : kb) (cr : command_rule).

Lemma r_append t : reaches fl dbg b cr (append_converted t).
Proof. apply (reaches_modcur_w fl dbg b cr (fun w s => push_string _ s)). intros; ast. Qed.
Lemma r_carry u : (u = [] \/ is_carry b u) -> reaches fl dbg b cr (set_carry_over u).
Proof.
  intros Hu. apply reaches_modcur. intros s. cbn zeta. destruct Hu as [->|Hu].
  - cbn. (* an empty carry-over: the pending input is cleared *) change (set_cap false (set_pre [] s)) with (clear_preconverted s). ast.
  - destruct (is_nil u); ast.
Qed.
Lemma r_update_candidates : reaches fl dbg b cr update_candidate_list.
Proof. unfold update_candidate_list; reach. apply reaches_lift, safe_all_candidates. Qed.
Lemma r_update_completion : reaches fl dbg b cr update_completion_list.
Proof. unfold update_completion_list; reach. apply reaches_lift, safe_all_complete. Qed.
Lemma r_purge : fl_all fl -> reaches fl dbg b cr purge_current.
Proof. intros Hfl. unfold purge_current; reach. Qed.
Lemma r_confirm : reaches fl dbg b cr confirm_current.
Proof. unfold confirm_current; reach. Qed.
Lemma r_confirm_as i : reaches fl dbg b cr (confirm_as i).
Proof. unfold confirm_as; reach. Qed.
Lemma r_set_cmode c : reaches fl dbg b cr (set_composition_mode c).
Proof. unfold set_composition_mode, change_composition_mode; reach. Qed.
Lemma r_set_imode i : fl_imode fl i -> reaches fl dbg b cr (set_input_mode i).
Proof. intros Hfl. unfold set_input_mode; reach. Qed.
Lemma r_enter p : reaches fl dbg b cr (enter_register_mode p).
Proof.
  intros w Hb Hw. unfold wp, enter_register_mode.
  destruct (Nat.ltb_spec (length (x_stack (w_ctx w))) REGISTER_MODE_STACK_MAX) as [Hl|Hl];
    [|apply wrel_refl].
  destruct (x_stack (w_ctx w)) as [|s r] eqn:Es; [congruence|].
  apply wrel_stack. rewrite Es. eapply sr_step; [apply sr_refl|]. now apply ss_push.
Qed.
Lemma srel_pop_all b' l s : srel fl dbg b' (l ++ [s]) [s].
Proof.
  induction l as [|x l IH]; [constructor|].
  eapply srel_trans; [|exact IH]. eapply sr_step; [apply sr_refl|].
  cbn. destruct (l ++ [s]) eqn:E; [destruct l; discriminate|]. apply ss_pop.
Qed.
Lemma r_reset : fl_all fl -> reaches fl dbg b cr reset_state_stack.
Proof.
  intros Hfl w Hb Hw. unfold wp, reset_state_stack.
  destruct (rev (x_stack (w_ctx w))) as [|t l] eqn:Er.
  - apply (f_equal (@rev _)) in Er. rewrite rev_involutive in Er. cbn in Er. congruence.
  - apply (f_equal (@rev _)) in Er. rewrite rev_involutive in Er. cbn in Er.
    apply wrel_stack. rewrite Er. eapply srel_trans; [apply srel_pop_all|].
    apply asteps_srel. ast.
Qed.
Lemma r_poll : fl_flush fl -> reaches fl dbg b cr poll_output.
Proof.
  intros Hfl w Hb Hw. unfold wp, poll_output.
  destruct (rev (x_stack (w_ctx w))) as [|t l] eqn:Er.
  - apply (f_equal (@rev _)) in Er. rewrite rev_involutive in Er. cbn in Er. congruence.
  - apply (f_equal (@rev _)) in Er. rewrite rev_involutive in Er. cbn in Er.
    destruct (is_nil (s_conf t)); [apply wrel_refl|].
    apply wrel_stack. rewrite Er. cbn. eapply sr_step; [apply sr_refl|]. apply ss_flush, Hfl.
Qed.
Lemma r_abort_register : reaches fl dbg b cr abort_register_mode.
Proof.
  intros w Hb Hw. unfold wp, abort_register_mode.
  destruct (x_stack (w_ctx w)) as [|s [|s' r]] eqn:Es; try apply wrel_refl.
  apply wrel_stack. rewrite Es. cbn. eapply sr_step; [apply sr_refl|]. apply ss_pop.
Qed.
Lemma r_exit t : reaches fl dbg b cr (exit_register_mode t).
Proof.
  intros w Hb Hw. unfold wp, exit_register_mode.
  destruct (x_stack (w_ctx w)) as [|s [|s' r]] eqn:Es; try apply wrel_refl.
  match goal with |- match ?m ?w0 with _ => _ end => set (m0 := m); set (w1 := w0) end.
  assert (Hm : reaches fl dbg b cr m0).
  { subst m0. pose proof r_confirm. reach. apply reaches_lift, safe_registered. }
  assert (H1 : wrel fl dbg w w1).
  { subst w1. apply wrel_stack. rewrite Es. cbn. eapply sr_step; [apply sr_refl|]. apply ss_pop. }
  assert (Hw1 : x_stack (w_ctx w1) <> []) by (subst w1; cbn; discriminate).
  specialize (Hm w1 Hb Hw1). unfold wp in Hm.
  destruct (m0 w1) as [[a w2]|e]; [|exact Hm]. exact (wrel_trans _ _ _ _ _ H1 Hm).
Qed.
Hint Resolve r_append r_update_candidates r_update_completion r_purge r_confirm r_confirm_as
  r_set_cmode r_set_imode r_enter r_reset r_poll r_abort_register r_exit : reach.

Lemma tget_carry k c l : tget b k = Some (c, l) -> l = [] \/ is_carry b l.
Proof. intros H. right. exists k, c. exact H. Qed.
Lemma non_partial_tget b' k v : convert_non_partial b' k = Some v -> tget b' k = Some v.
Proof.
  unfold convert_non_partial, tget. destruct (get_node b' k); [|discriminate].
  destruct (is_leaf _); [auto|discriminate].
Qed.
Lemma r_output i c : reaches fl dbg b cr (output_converted_kana_if_any i c).
Proof.
  unfold output_converted_kana_if_any. apply reaches_bind; [apply reaches_cur|intros s].
  apply reaches_get_then. intros w [Hw _]. rewrite Hw.
  destruct (convert_greedy b (s_pre s)) as [[kana carry]|] eqn:Ec; [|reach].
  pose proof (r_carry carry (tget_carry _ _ _ Ec)). reach.
Qed.
Lemma r_capital k c d : reaches fl dbg b cr (transition_by_capital k c d).
Proof. unfold transition_by_capital; reach. Qed.
Hint Resolve r_output r_capital : reach.
Lemma r_forward : reaches fl dbg b cr (s <- cur ;; s' <- lift (st_forward dbg s) ;; modcur (fun _ => s')).
Proof.
  apply reaches_cur_then. intros s w Hb [r Hs]. apply wp_bind, wp_lift; [|apply safe_forward].
  intros s' Hs'. apply (wp_modcur_asteps fl dbg b cr); [exact Hb|congruence|].
  intros s0 r0 H0. assert (s0 = s) by congruence. subst s0.
  apply asteps_one. now apply (a_forward fl dbg b s s').
Qed.
(** the same after an [if] on [has_next] *)
Lemma r_next_or (m : M unit) (k : M unit) : reaches fl dbg b cr m -> reaches fl dbg b cr k ->
  reaches fl dbg b cr (s <- cur ;; x <- lift (cl_has_next dbg (s_list s)) ;;
     if negb x then m else s' <- lift (st_forward dbg s) ;; modcur (fun _ => s') ;; k).
Proof.
  intros Hm Hk. apply reaches_cur_then. intros s w Hb [r Hs].
  assert (Hne : x_stack (w_ctx w) <> []) by congruence.
  apply wp_bind, wp_lift; [|apply safe_has_next].
  intros x _. destruct (negb x); [apply Hm; auto|].
  apply wp_bind, wp_lift; [|apply safe_forward]. intros s' Hs'.
  apply (wp_reaches_bind fl dbg b cr); auto. apply (wp_modcur_asteps fl dbg b cr); [exact Hb|congruence|].
  intros s0 r0 H0. assert (s0 = s) by congruence. subst s0.
  apply asteps_one. now apply (a_forward fl dbg b s s').
Qed.
Lemma bind_ret {A} (m : M A) w : bind m ret w = m w.
Proof. unfold bind, ret. destruct (m w) as [[a w']|]; reflexivity. Qed.
Lemma reaches_ext {A} (m m' : M A) : (forall w, m w = m' w) -> reaches fl dbg b cr m -> reaches fl dbg b cr m'.
Proof. intros He H w Hb Hw. unfold wp. rewrite <- He. apply H; auto. Qed.
Lemma r_next_candidate c i : reaches fl dbg b cr (try_next_candidate dbg c i).
Proof.
  unfold try_next_candidate. destruct (negb (cmode_eqb c CompositionSelection)); [reach|].
  pose proof (r_next_or (enter_register_mode c) (ret tt) (r_enter c) (reaches_ret fl dbg b cr tt)) as H.
  eapply reaches_ext; [|exact H]. intros w. unfold bind, lift, cur, ret, modcur.
  destruct (x_stack (w_ctx w)) as [|s r] eqn:Es; [reflexivity|].
  destruct (cl_has_next dbg (s_list s)) as [x|]; [|reflexivity].
  destruct (negb x); [reflexivity|]. destruct (st_forward dbg s); [|reflexivity].
  rewrite Es. reflexivity.
Qed.
Lemma r_next_completion c i : reaches fl dbg b cr (try_next_completion dbg c i).
Proof.
  unfold try_next_completion. destruct (negb (cmode_eqb c Completion)); [reach|].
  apply r_next_or; reach.
Qed.
Hint Resolve r_forward r_next_candidate r_next_completion : reach.

Lemma matching_keyword_spec kws raw kw : matching_keyword kws raw = Some kw ->
  raw <> kw /\ exists p, raw = p ++ kw.
Proof.
  unfold matching_keyword. intros H. apply find_some in H as [_ H].
  apply andb_true_iff in H as [H1 H2]. split.
  - intros ->. rewrite str_eqb_refl in H1. discriminate.
  - apply is_suffixb_spec in H2. exact H2.
Qed.
Lemma r_auto_start : reaches fl dbg b cr (auto_start_henkan dbg).
Proof.
  unfold auto_start_henkan. apply reaches_cur_then. intros s w Hb [r Hs].
  destruct (cmode_eqb (s_cmode s) PreComposition) eqn:Ec; cbn [negb].
  2:{ apply wp_lift; [discriminate|]. intros e [= <-]. discriminate. }
  apply cmode_eqb_eq in Ec.
  apply wp_bind, wp_get. destruct (matching_keyword _ _) as [kw|] eqn:Ek; [|apply wp_ret, wrel_refl].
  apply matching_keyword_spec in Ek as [Hne [p Hp]].
  assert (Hraw : ck_to (get_composite_key s) = s_raw s)
    by (unfold get_composite_key; destruct (_ && _); reflexivity).
  rewrite Hraw in *.
  apply (wp_reaches_bind fl dbg b cr); [exact Hb|congruence| |].
  - apply (wp_modcur_asteps fl dbg b cr); [exact Hb|congruence|].
    intros s0 r0 H0. assert (s0 = s) as -> by congruence.
    eapply as_step; [|apply a_postfix]. apply asteps_one. apply a_auto; [exact Ec|].
    rewrite Hp, app_length. destruct p; [exfalso; apply Hne; rewrite Hp; reflexivity|cbn; lia].
  - intros _. reach.
Qed.
Hint Resolve r_auto_start : reach.
Lemma r_input_converted conv carry did u k : tget b k = Some (conv, carry) ->
  reaches fl dbg b cr (input_converted_kana dbg conv carry did u).
Proof.
  intros Hk. pose proof (r_carry carry (tget_carry _ _ _ Hk)) as Hc.
  unfold input_converted_kana, push_string. reach.
Qed.
Lemma r_continuous k : reaches fl dbg b cr (input_as_continuous_kana k).
Proof.
  unfold input_as_continuous_kana. apply reaches_cur_then. intros s w Hb [r Hs].
  apply wp_bind, wp_get.
  assert (Hne : x_stack (w_ctx w) <> []) by congruence.
  assert (H : wp not_empty_stack
     (modcur (set_pre (next_unprocessed_state (x_kb (w_ctx w)) k (s_pre s))) ;; ret true)
     (fun _ w' => wrel fl dbg w w') w).
  { apply (wp_reaches_bind fl dbg b cr); auto; [|intros; apply reaches_ret].
    apply (wp_modcur_asteps fl dbg b cr); auto. intros s0 r0 H0. assert (s0 = s) by congruence. subst s0.
    destruct Hb as [-> _]. apply asteps_one. apply a_next. }
  destruct (s_cmode s); try exact H; apply wp_ret, wrel_refl.
Qed.
Hint Resolve r_continuous : reach.
Lemma r_abort : reaches fl dbg b cr abort.
Proof. unfold abort, when. reach. Qed.
Hint Resolve r_abort : reach.
(** the instruction only does what the flags allow *)
Definition instr_allowed (ins : instr) : Prop :=
  match ins with
  | IPurge => fl_all fl
  | IDelete => fl_del fl
  | IClearKanaConvertedInputs => fl_ck fl
  | IChangeInputMode i => fl_imode fl i
  | _ => True
  end.
Lemma r_instr ins c i : instr_allowed ins -> reaches fl dbg b cr (run_instr dbg ins c i).
Proof. unfold run_instr. intros Ha. pose proof r_purge. destruct ins; cbn in Ha; reach. Qed.
Lemma r_instrs l c i : Forall instr_allowed l -> forall res, reaches fl dbg b cr (run_instrs dbg l c i res).
Proof.
  induction 1 as [|x l Hx Hl IH]; intros res; cbn [run_instrs]; [reach|].
  pose proof (r_instr x c i Hx). reach.
Qed.
Lemma r_instructions l c i : Forall instr_allowed l -> reaches fl dbg b cr (process_instructions dbg l c i).
Proof. intros H. apply r_instrs, H. Qed.
Lemma r_finish : reaches fl dbg b cr (finish_kana_input dbg).
Proof. unfold finish_kana_input. reach. Qed.
Hint Resolve r_finish : reach.
Lemma r_periods i c t : reaches fl dbg b cr (input_periods dbg i c t).
Proof. unfold input_periods, push_string. reach. Qed.
Lemma r_direct_char k c i cm : reaches fl dbg b cr (input_direct_char dbg k c i cm).
Proof. unfold input_direct_char, push_string. reach. Qed.
Hint Resolve r_periods r_direct_char : reach.
Ltac conv_carry := match goal with
  | H : convert_non_partial ?b ?k = Some (?c, ?l) |- reaches _ _ _ _ (input_converted_kana _ ?c ?l _ _) =>
      apply (r_input_converted c l _ _ k), non_partial_tget; congruence
  end.
Lemma r_unconverted k u ch c : reaches fl dbg b cr (input_unconverted dbg k u ch c).
Proof.
  unfold input_unconverted. apply reaches_bind; [apply reaches_cur|intros s].
  apply reaches_get_then. intros w [Hw _]. cbn zeta. rewrite Hw.
  repeat (reach1 || conv_carry).
Qed.
Hint Resolve r_unconverted : reach.
Lemma r_kana k u : reaches fl dbg b cr (input_kana X dbg k u).
Proof.
  unfold input_kana. apply reaches_bind; [apply reaches_cur|intros s].
  apply reaches_get_then. intros w [Hw _]. cbn zeta. rewrite Hw.
  repeat (reach1 || conv_carry).
Qed.
Lemma r_plain k : reaches fl dbg b cr (input_plain X k).
Proof. unfold input_plain, push_string. reach. Qed.
Hint Resolve r_kana r_plain : reach.
Lemma r_input_key k c u : reaches fl dbg b cr (input_key X dbg k c u).
Proof. unfold input_key. reach. Qed.
Hint Resolve r_input_key : reach.
(** every command list the key can run is allowed *)
Definition key_allowed (k : keyev) : Prop :=
  forall i c l, get_instruction dbg cr k i c = Ok (Some l) -> Forall instr_allowed l.
Lemma reaches_lift_then {A B} (r : res A) (f : A -> M B) :
  safe_res r -> (forall a, r = Ok a -> reaches fl dbg b cr (f a)) -> reaches fl dbg b cr (bind (lift r) f).
Proof.
  intros Hs H w Hb Hw. apply wp_bind, wp_lift; [|apply Hs]. intros a Ha. apply H; auto.
Qed.
Lemma r_inner k : key_allowed k -> reaches fl dbg b cr (process_key_event_inner X dbg k).
Proof.
  intros Hk. unfold process_key_event_inner. apply reaches_bind; [apply reaches_cur|intros s].
  apply reaches_get_then. intros w [_ Hw]. cbn zeta. rewrite Hw. destruct (skip_command _ _ _ _ _); [reach|].
  apply reaches_lift_then; [apply safe_instruction|]. intros [l|] Hl; [|reach].
  apply r_instructions. eapply Hk, Hl.
Qed.
Lemma r_key k : key_allowed k -> reaches fl dbg b cr (process_key_event X dbg k).
Proof. intros Hk. pose proof (r_inner k Hk). unfold process_key_event. reach. Qed.
Lemma r_select_at i : reaches fl dbg b cr (select_candidate_at i).
Proof. unfold select_candidate_at. reach. Qed.
Lemma r_confirm_at i : reaches fl dbg b cr (confirm_candidate_at i).
Proof. unfold confirm_candidate_at. reach. Qed.
End F.

Lemma all_allowed dbg cr k : key_allowed all_flags dbg cr k.
Proof. intros i c l _. apply Forall_forall. intros x _. destruct x; exact I. Qed.
