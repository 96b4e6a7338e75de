(** Histories and dictionaries: a property of the store kept by confirming (and, if the rule
    purges, by purging), and a property of every candidate in every list. *)
From Verif Require Import Str Keys Modes KanaBuilder FormChanger DictTypes Parser Lru
  Dictionary CState Context Spec P_Monad P_Frames P_Inv P_Keeps P_Register.

Lemma assoc_key_at {A} k (l : list (keyev * A)) v : assoc_key k l = Some v ->
  exists k', In (k', v) l /\ key_eqb k k' = true.
Proof.
  induction l as [|[k' v'] l IH]; cbn; [discriminate|]. destruct (key_eqb k k') eqn:E.
  - intros [= ->]. eauto.
  - intros H. destruct (IH H) as (k2 & H2 & H3). eauto.
Qed.
Lemma get_instruction_at dbg cr k i c l : get_instruction dbg cr k i c = Ok (Some l) ->
  exists k', In (k', l) (cr c i) /\ key_eqb (command_key k) k' = true.
Proof.
  unfold get_instruction. destruct c; try (destruct dbg; discriminate);
    intros [= H]; eapply assoc_key_at; eauto.
Qed.
Section S.
(** [St]: the store, [G]: the candidates; with [purging] commands may purge, otherwise only the
    keys [K] are pressed, and they do not. *)
Context (St : list dict -> Prop) (G : candidate -> Prop) (purging : bool) (K : keyev -> Prop).
Context (Hsel : forall ids st c, St st -> G c -> St (upd_dicts ids (fun d => select_candidate d c) st)).
Context (Hpur : purging = true -> forall ids st k c, St st -> G c -> St (upd_dicts ids (fun d => purge_candidate d k c) st)).
Context (Hcands : forall w k cs, St (w_store w) -> get_all_candidates (ctx_dicts w) k = Ok cs -> Forall G cs).
Context (Hcomps : forall w k cs, St (w_store w) -> get_all_complete (ctx_dicts w) k = Ok cs -> Forall G cs).
Context (Hreg : forall w s t cs, St (w_store w) -> t <> [] -> registered_candidates (ctx_dicts w) s t = Ok cs -> Forall G cs).

Definition gl (s : cstate) : Prop := Forall G (cl_list (s_list s)).
Definition allowed (cr : command_rule) : Prop :=
  purging = true \/ forall k, K k -> ~ key_runs cr k IPurge.
Definition IC (w : world) : Prop :=
  St (w_store w) /\ Forall gl (x_stack (w_ctx w)) /\ allowed (x_cmd (w_ctx w)).
Definition kg {A} (m : M A) : Prop := forall w, IC w -> wp any_panic m (fun _ => IC) w.

Lemma kg_ret {A} (a : A) : kg (ret a).
Proof. intros w H. exact H. Qed.
Lemma kg_bind {A B} (m : M A) (f : A -> M B) : kg m -> (forall a, kg (f a)) -> kg (bind m f).
Proof. intros Hm Hf w Hw. apply wp_bind. eapply wp_mono; [apply Hm, Hw|]. intros a w' Hw'. apply Hf, Hw'. Qed.
Lemma kg_cur {A} (f : cstate -> M A) : (forall s, gl s -> kg (f s)) -> kg (bind cur f).
Proof.
  intros Hf w Hw. apply wp_bind, wp_cur; [|intros; exact I]. intros s r Hs. apply Hf; [|exact Hw].
  destruct Hw as (_ & H & _). rewrite Hs in H. now inversion H.
Qed.
Lemma kg_get {A} (f : world -> M A) : (forall w0, St (w_store w0) -> allowed (x_cmd (w_ctx w0)) -> kg (f w0)) -> kg (bind get f).
Proof. intros Hf w Hw. apply wp_bind, wp_get. apply Hf; auto; apply Hw. Qed.
Lemma kg_lift {A} (r : res A) : kg (lift r).
Proof. intros w Hw. apply wp_lift; [intros; exact Hw|intros; exact I]. Qed.
Lemma kg_lift_then {A B} (r : res A) (f : A -> M B) : (forall a, r = Ok a -> kg (f a)) -> kg (bind (lift r) f).
Proof. intros H w Hw. apply wp_bind, wp_lift; [|intros; exact I]. intros a Ha. apply H; auto. Qed.
Lemma IC_top w s r s' : IC w -> x_stack (w_ctx w) = s :: r -> (gl s -> gl s') -> IC (set_stack (s' :: r) w).
Proof.
  intros (H1 & H2 & H3) Hs Hf. split; [exact H1|]. split; [|exact H3]. cbn. rewrite Hs in H2. inversion H2; subst. auto.
Qed.
Lemma kg_modcur f : (forall s, gl s -> gl (f s)) -> kg (modcur f).
Proof. intros Hf w Hw. apply wp_modcur; [|intros; exact I]. intros s r Hs. eapply IC_top; eauto. Qed.
Lemma kg_modcur_w (F : world -> cstate -> cstate) : (forall w s, gl s -> gl (F w s)) -> kg (fun w => modcur (F w) w).
Proof.
  intros Hf w Hw. unfold wp. apply (wp_modcur any_panic (F w) (fun _ => IC) w); [|intros; exact I].
  intros s r Hs. eapply IC_top; eauto.
Qed.
Lemma kg_select c : G c -> kg (for_dicts (fun d => select_candidate d c)).
Proof. intros Hc w (H1 & H2 & H3). apply wp_for_dicts. split; [|split; [exact H2|exact H3]]. cbn. now apply Hsel. Qed.
Lemma kg_purge_dicts k c : purging = true -> G c -> kg (for_dicts (fun d => purge_candidate d k c)).
Proof. intros Hp Hc w (H1 & H2 & H3). apply wp_for_dicts. split; [|split; [exact H2|exact H3]]. cbn. now apply Hpur. Qed.

(** states *)
Lemma gl_eq s s' : s_list s' = s_list s -> gl s -> gl s'.
Proof. unfold gl. now intros ->. Qed.
Lemma gl_nil s : cl_list (s_list s) = [] -> gl s.
Proof. unfold gl. intros ->. constructor. Qed.
Lemma gl_current s c : gl s -> cl_current (s_list s) = Some c -> G c.
Proof. unfold gl, cl_current. rewrite Forall_forall. intros H E. eapply H, nth_error_In, E. Qed.
Lemma gl_delete s : gl s -> gl (snd (st_delete s)).
Proof.
  apply gl_eq. unfold st_delete. destruct (s_cmode s); cbn; auto;
    destruct (negb (is_nil (s_pre s))); cbn; auto;
    repeat match goal with |- context [if ?x then _ else _] => destruct x end; reflexivity.
Qed.
Lemma gl_iter n s : gl s -> gl (Nat.iter n (fun s => snd (st_delete s)) s).
Proof. intros H; induction n; cbn; auto using gl_delete. Qed.
Lemma gl_abort s : gl s -> gl (abort_to_previous_mode s).
Proof. apply gl_eq. unfold abort_to_previous_mode. destruct (last_opt (s_hist s)) as [m|]; [destruct m|]; reflexivity. Qed.
Lemma gl_push t c s : gl s -> gl (push_string_for t c s).
Proof. apply gl_eq; destruct c; reflexivity. Qed.
Lemma gl_pushs t s : gl s -> gl (push_string t s).
Proof. apply gl_push. Qed.
Lemma gl_pointer i s : gl s -> gl (snd (set_candidate_pointer i s)).
Proof. unfold set_candidate_pointer, cl_set_pointer, gl. destruct (N.ltb _ _); cbn; auto. Qed.
Lemma gl_backward s : gl s -> gl (st_backward s).
Proof. unfold gl, st_backward, cl_backward. cbn. repeat match goal with |- context [if ?x then _ else _] => destruct x end; auto. Qed.
Lemma gl_forward d s s' : st_forward d s = Ok s' -> gl s -> gl s'.
Proof.
  unfold st_forward, cl_forward. intros H Hs. destruct (usize_sub d (cl_len (s_list s)) 1) as [m|]; cbn in H; [|discriminate].
  destruct (N.ltb (cl_cur (s_list s)) m); cbn in H.
  - destruct (usize_add d (cl_cur (s_list s)) 1); cbn in H; [|discriminate]. injection H as <-. exact Hs.
  - injection H as <-. exact Hs.
Qed.
Lemma gl_new_list cs s : Forall G cs -> gl (set_new_candidate_list cs s).
Proof. auto. Qed.
Lemma gl_add cs s : Forall G cs -> gl s -> gl (add_new_candidates cs s).
Proof. unfold gl. intros H1 H2. cbn. now apply Forall_app. Qed.
Ltac gs := repeat first
  [ assumption
  | apply gl_pushs | apply gl_push | apply gl_delete | apply gl_abort | apply gl_pointer | apply gl_backward | apply gl_iter
  | apply gl_add; [assumption|] | (apply gl_new_list; assumption)
  | (apply gl_nil; reflexivity)
  | match goal with
    | |- gl (if ?x then _ else _) => destruct x
    | |- gl (set_pre _ ?s) => apply (gl_eq s); [reflexivity|]
    | |- gl (set_cap _ ?s) => apply (gl_eq s); [reflexivity|]
    | |- gl (set_cmode _ ?s) => apply (gl_eq s); [reflexivity|]
    | |- gl (set_imode _ ?s) => apply (gl_eq s); [reflexivity|]
    | |- gl (clear_kanas ?s) => apply (gl_eq s); [reflexivity|]
    | |- gl (clear_preconverted ?s) => apply (gl_eq s); [reflexivity|]
    | |- gl (consolidate ?s) => apply (gl_eq s); [reflexivity|]
    | |- gl (reset_to_default ?s) => apply (gl_eq s); [reflexivity|]
    | |- gl (change_composition_mode _ ?s) => apply (gl_eq s); [reflexivity|]
    | |- gl (change_from_old_mode _ _ ?s) => apply (gl_eq s); [reflexivity|]
    | |- gl (set_converted_to_postfix _ ?s) => apply (gl_eq s); [reflexivity|]
    | |- gl (flush_confirmed ?s) => apply (gl_eq s); [reflexivity|]
    end ].
Lemma gl_forward_at {A} dbg (f : M A) : kg f ->
  forall s, gl s -> kg (bind (lift (st_forward dbg s)) (fun s' => bind (modcur (fun _ => s')) (fun _ => f))).
Proof.
  intros Hf s Hs. apply kg_lift_then. intros s' Hs'. apply kg_bind; [|intros; exact Hf]. apply kg_modcur. intros _ _. eapply gl_forward; eauto.
Qed.
Create HintDb kg.
Ltac kg1 :=
  first
  [ assumption | apply kg_ret
  | solve [auto 2 with kg]
  | match goal with
    | |- kg (bind cur _) => apply kg_cur; intros ? ?
    | |- kg (bind get _) => apply kg_get; intros ? ? ?
    | |- kg (bind (lift _) _) => apply kg_lift_then; intros ? ?
    | |- kg (bind _ _) => apply kg_bind; [|intros ?]
    | |- kg (lift _) => apply kg_lift
    | H : gl ?s, E : cl_current (s_list ?s) = Some ?c |- kg (for_dicts (fun d => select_candidate d ?c)) => apply kg_select; exact (gl_current s c H E)
    | H : gl ?s, E : st_forward _ ?s = Ok ?s' |- kg (modcur (fun _ => ?s')) => apply kg_modcur; intros _ _; exact (gl_forward _ _ _ E H)
    | |- kg (modcur _) => apply kg_modcur; intros ? ?; cbn beta zeta; solve [gs]
    | |- kg (match ?x with _ => _ end) => destruct x eqn:?
    | |- kg (if ?x then _ else _) => destruct x eqn:?
    end ].
Ltac kgs := cbn beta zeta; repeat (kg1; cbn beta zeta).

Section R.
Context (X : xkb) (dbg : bool).
Lemma g_enter p : kg (enter_register_mode p).
Proof.
  intros w (H1 & H2 & H3). unfold wp, enter_register_mode. destruct (Nat.ltb _ _); [|split; auto].
  destruct (x_stack (w_ctx w)) as [|s r]; [exact I|]. inversion H2; subst. split; [exact H1|]. split; [|exact H3].
  constructor; [apply gl_nil; reflexivity|]. constructor; [gs|assumption].
Qed.
Lemma g_append t : kg (append_converted t).
Proof. apply (kg_modcur_w (fun w s => push_string _ s)). intros; gs. Qed.
Lemma g_carry u : kg (set_carry_over u).
Proof. unfold set_carry_over. kgs. Qed.
Lemma g_update_candidates : kg update_candidate_list.
Proof.
  unfold update_candidate_list. apply kg_cur. intros s Hs. apply kg_get. intros w0 Hw _. apply kg_lift_then. intros cs Hcs.
  apply Hcands in Hcs; [|exact Hw]. kgs.
Qed.
Lemma g_update_completion : kg update_completion_list.
Proof.
  unfold update_completion_list. apply kg_cur. intros s Hs. apply kg_get. intros w0 Hw _. apply kg_lift_then. intros cs Hcs.
  apply Hcomps in Hcs; [|exact Hw]. kgs.
Qed.
Lemma g_purge : purging = true -> kg purge_current.
Proof.
  intros Hp. unfold purge_current. apply kg_cur. intros s Hs. apply kg_bind; [|intros ?; kgs].
  destruct (cl_current (s_list s)) eqn:E; [|kgs]. apply kg_purge_dicts; [exact Hp|]. eapply gl_current; eauto.
Qed.
Lemma g_confirm : kg confirm_current.
Proof. unfold confirm_current. kgs. Qed.
Lemma g_confirm_as i : kg (confirm_as i).
Proof. unfold confirm_as. kgs. Qed.
Lemma g_set_cmode c : kg (set_composition_mode c).
Proof. unfold set_composition_mode. kgs. Qed.
Lemma g_set_imode i : kg (set_input_mode i).
Proof. unfold set_input_mode. kgs. Qed.
Lemma g_abort_register : kg abort_register_mode.
Proof.
  intros w (H1 & H2 & H3). unfold wp, abort_register_mode. destruct (x_stack (w_ctx w)) as [|s [|s' r]] eqn:E; [split; auto; rewrite E; auto..|].
  split; [exact H1|]. split; [|exact H3]. inversion H2; subst. assumption.
Qed.
Hint Resolve g_enter g_append g_carry g_update_candidates g_update_completion g_confirm g_confirm_as g_set_cmode g_set_imode g_abort_register : kg.
Lemma g_abort : kg abort.
Proof. unfold abort, when. kgs. Qed.
Lemma g_exit t : kg (exit_register_mode t).
Proof.
  intros w (H1 & H2 & H3). unfold wp, exit_register_mode. destruct (x_stack (w_ctx w)) as [|s [|s' r]] eqn:E; [split; auto; rewrite E; auto..|].
  inversion H2; subst. cbn [tl].
  match goal with |- match ?m ?w0 with _ => _ end => set (m0 := m); set (w1 := w0) end.
  assert (Km : kg m0).
  { subst m0. destruct (is_nil t) eqn:Et; [kgs|]. apply kg_bind; [kgs|intros _]. apply kg_cur. intros s1 Hs1. apply kg_get. intros w0 Hw _.
    apply kg_lift_then. intros cs Hcs. apply Hreg in Hcs; [|exact Hw|now destruct t]. kgs. }
  apply Km. split; [exact H1|]. split; [assumption|exact H3].
Qed.
Hint Resolve g_abort g_exit : kg.
Lemma g_output i c : kg (output_converted_kana_if_any i c).
Proof. unfold output_converted_kana_if_any. kgs. Qed.
Lemma g_capital k c d : kg (transition_by_capital k c d).
Proof. unfold transition_by_capital. kgs. Qed.
Hint Resolve g_output g_capital : kg.
Lemma g_next_candidate c i : kg (try_next_candidate dbg c i).
Proof. unfold try_next_candidate. kgs. Qed.
Lemma g_next_completion c i : kg (try_next_completion dbg c i).
Proof. unfold try_next_completion. kgs. Qed.
Hint Resolve g_next_candidate g_next_completion : kg.
Lemma g_auto_start : kg (auto_start_henkan dbg).
Proof. unfold auto_start_henkan. kgs. Qed.
Hint Resolve g_auto_start : kg.
Lemma g_input_converted conv carry did u : kg (input_converted_kana dbg conv carry did u).
Proof. unfold input_converted_kana. kgs. Qed.
Lemma g_continuous k : kg (input_as_continuous_kana k).
Proof. unfold input_as_continuous_kana. kgs. Qed.
Hint Resolve g_input_converted g_continuous : kg.
Lemma g_instr ins c i : purging = true \/ ins <> IPurge -> kg (run_instr dbg ins c i).
Proof.
  intros Hp. unfold run_instr. destruct ins; try (kgs; fail).
  apply kg_bind; [|intros ?; kgs]. apply g_purge. now destruct Hp.
Qed.
Lemma g_instrs l c i : purging = true \/ ~ In IPurge l -> forall res, kg (run_instrs dbg l c i res).
Proof.
  induction l as [|x l IH]; intros Hl res; cbn [run_instrs]; [kgs|].
  apply kg_bind; [apply g_instr; destruct Hl as [Hl|Hl]; [auto|right; intros ->; apply Hl; now left]|].
  intros [?|?]; [|kgs]. apply IH. destruct Hl as [Hl|Hl]; [auto|right; intros H; apply Hl; now right].
Qed.
Lemma g_finish : kg (finish_kana_input dbg).
Proof. unfold finish_kana_input. kgs. Qed.
Hint Resolve g_finish : kg.
Lemma g_periods i c t : kg (input_periods dbg i c t).
Proof. unfold input_periods. kgs. Qed.
Lemma g_direct_char k c i cm : kg (input_direct_char dbg k c i cm).
Proof. unfold input_direct_char. kgs. Qed.
Hint Resolve g_periods g_direct_char : kg.
Lemma g_unconverted k u ch c : kg (input_unconverted dbg k u ch c).
Proof. unfold input_unconverted. kgs. Qed.
Hint Resolve g_unconverted : kg.
Lemma g_kana k u : kg (input_kana X dbg k u).
Proof. unfold input_kana. kgs. Qed.
Lemma g_plain k : kg (input_plain X k).
Proof. unfold input_plain. kgs. Qed.
Hint Resolve g_kana g_plain : kg.
Lemma g_input_key k c u : kg (input_key X dbg k c u).
Proof. unfold input_key. kgs. Qed.
Hint Resolve g_input_key : kg.
Lemma g_key k : K k -> kg (process_key_event X dbg k).
Proof.
  intros HK.
  unfold process_key_event. destruct (has_mod k M_RELEASE); [kgs|].
  unfold process_key_event_inner. apply kg_cur. intros s Hs. apply kg_get. intros w0 _ Hw0.
  cbn zeta. destruct (skip_command _ _ _ _ _); [kgs|].
  apply kg_lift_then. intros [l|] Hl; [|kgs].
  apply get_instruction_at in Hl as (k' & Hl & Hk). apply g_instrs. destruct Hw0 as [H|H]; [auto|right].
  intros Hin. apply (H k HK). exists (s_cmode s), (s_imode s), k', l. auto.
Qed.
Lemma g_select_at i : kg (select_candidate_at i).
Proof. unfold select_candidate_at. kgs. Qed.
Lemma g_confirm_at i : kg (confirm_candidate_at i).
Proof. unfold confirm_candidate_at. kgs. Qed.
Lemma g_poll : kg poll_output.
Proof.
  intros w (H1 & H2 & H3). unfold wp, poll_output. destruct (rev (x_stack (w_ctx w))) as [|t l] eqn:E; [exact I|].
  destruct (is_nil (s_conf t)); [split; auto|]. split; [exact H1|]. split; [|exact H3]. cbn.
  apply Forall_rev in H2. rewrite E in H2. inversion H2; subst. apply Forall_app. split; [now apply Forall_rev|]. constructor; [gs|constructor].
Qed.
(** The history does not purge if the store property does not allow it, and replaced dictionaries
    have the store property. *)
Definition op_cands (o : op) : Prop :=
  match o with OKey k => K k | OSetRule r => allowed (r_command r) | OOther st => St st | _ => True end.
Lemma g_exec o : op_cands o -> kg (exec X dbg o).
Proof.
  intros Ho. destruct o; cbn in Ho |- *.
  - pose proof (g_key k Ho). kgs.
  - apply kg_bind; [apply g_poll|intros ?; kgs].
  - intros w (H1 & H2 & H3). unfold wp, bind, reset_state_stack. destruct (rev (x_stack (w_ctx w))) as [|t l] eqn:E; [exact I|].
    split; [exact H1|]. split; [|exact H3]. cbn. constructor; [apply gl_nil; reflexivity|constructor].
  - kgs.
  - kgs.
  - pose proof (g_select_at i). kgs.
  - pose proof (g_confirm_at i). kgs.
  - intros w Hw; exact Hw.
  - intros w Hw; exact Hw.
  - intros w Hw; exact Hw.
  - intros w (H1 & H2 & H3). split; [exact H1|]. split; [exact H2|exact Ho].
  - intros w Hw; exact Hw.
  - intros w (H1 & H2 & H3). split; [exact Ho|]. split; [exact H2|exact H3].
Qed.
Lemma g_run ops : Forall op_cands ops -> kg (run X dbg ops).
Proof. induction 1; cbn [run]; [kgs|]. pose proof (g_exec x H). kgs. Qed.
Lemma run_IC ops w outs w' : Forall op_cands ops -> IC w -> run X dbg ops w = Ok (outs, w') -> IC w'.
Proof. intros Ho Hw Hr. pose proof (g_run ops Ho w Hw) as H. unfold wp in H. now rewrite Hr in H. Qed.
End R.
End S.
