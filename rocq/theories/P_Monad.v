(** Weakest preconditions for the context monad, and the decomposition of every operation
    into atomic steps on the stack of frames. *)
From Verif Require Import Str Keys Modes KanaBuilder FormChanger DictTypes Parser Lru
  Dictionary CState Context.

Definition wp {A} (E : reason -> Prop) (m : M A) (Q : A -> world -> Prop) (w : world) : Prop :=
  match m w with Ok (a, w') => Q a w' | Panic r => E r end.

Section WP.
Context (E : reason -> Prop).
Lemma wp_mono {A} (m : M A) (Q Q' : A -> world -> Prop) w :
  wp E m Q w -> (forall a w', Q a w' -> Q' a w') -> wp E m Q' w.
Proof. unfold wp; destruct (m w) as [[a w']|r]; auto. Qed.
Lemma wp_bind {A B} (m : M A) (f : A -> M B) (Q : B -> world -> Prop) w :
  wp E m (fun a => wp E (f a) Q) w -> wp E (bind m f) Q w.
Proof. unfold wp, bind; destruct (m w) as [[a w']|r]; auto. Qed.
Lemma wp_ret {A} (a : A) (Q : A -> world -> Prop) w : Q a w -> wp E (ret a) Q w.
Proof. auto. Qed.
Lemma wp_get (Q : world -> world -> Prop) w : Q w w -> wp E get Q w.
Proof. auto. Qed.
Lemma wp_lift {A} (r : res A) (Q : A -> world -> Prop) w :
  (forall a, r = Ok a -> Q a w) -> (forall e, r = Panic e -> E e) -> wp E (lift r) Q w.
Proof. unfold wp, lift; destruct r; auto. Qed.
Lemma wp_cur (Q : cstate -> world -> Prop) w :
  (forall s r, x_stack (w_ctx w) = s :: r -> Q s w) ->
  (x_stack (w_ctx w) = [] -> E PanicEmptyStack) -> wp E cur Q w.
Proof. unfold wp, cur; destruct (x_stack (w_ctx w)) eqn:?; eauto. Qed.
Lemma wp_modcur f (Q : unit -> world -> Prop) w :
  (forall s r, x_stack (w_ctx w) = s :: r -> Q tt (set_stack (f s :: r) w)) ->
  (x_stack (w_ctx w) = [] -> E PanicEmptyStack) -> wp E (modcur f) Q w.
Proof. unfold wp, modcur; destruct (x_stack (w_ctx w)) eqn:?; eauto. Qed.
Lemma wp_for_dicts f (Q : unit -> world -> Prop) w :
  Q tt (set_store (upd_dicts (x_dicts (w_ctx w)) f (w_store w)) w) -> wp E (for_dicts f) Q w.
Proof. auto. Qed.
Lemma wp_Ok {A} (m : M A) (Q : A -> world -> Prop) w a w' :
  wp E m Q w -> m w = Ok (a, w') -> Q a w'.
Proof. unfold wp; intros H He; rewrite He in H; exact H. Qed.
End WP.

Lemma stack_set_stack l w : x_stack (w_ctx (set_stack l w)) = l.
Proof. reflexivity. Qed.
Lemma kb_set_stack l w : x_kb (w_ctx (set_stack l w)) = x_kb (w_ctx w).
Proof. reflexivity. Qed.

(* ------------------------------------------------------------ atomic steps *)
Definition is_carry (b : kb) (l : list N) : Prop := exists k c, tget b k = Some (c, l).
(** Which of the destructive steps are allowed: clearing everything (Purge, reset), deleting a
    character (Delete), clearing the reading only (ClearKanaConvertedInputs), polling, changing
    the input mode. *)
Record flags := mkFlags { fl_all : Prop; fl_del : Prop; fl_ck : Prop; fl_flush : Prop; fl_imode : imode -> Prop }.
Definition all_flags : flags := mkFlags True True True True (fun _ => True).
Section Steps.
Context (fl : flags) (dbg : bool).
(** Steps of one frame.  [b] is the conversion table. *)
Inductive astep (b : kb) : cstate -> cstate -> Prop :=
| a_imode s i : fl_imode fl i -> astep b s (set_imode i s)
| a_change s n o : astep b s (change_from_old_mode n o s)
| a_direct s : astep b s (set_cmode Direct s)
| a_abort s : astep b s (abort_to_previous_mode s)
| a_default s : astep b s (reset_to_default s)
| a_clear_all s : fl_all fl -> astep b s (clear_all s)
| a_clear_unconfirmed s : astep b s (clear_unconfirmed s)
| a_clear_kanas s : fl_ck fl -> astep b s (clear_kanas s)
| a_clear_pre s : astep b s (clear_preconverted s)
| a_clear_list s : astep b s (clear_candidate_list s)
| a_push s t c : astep b s (push_string_for t c s)
| a_consolidate s : astep b s (consolidate s)
| a_postfix s t : astep b s (set_converted_to_postfix t s)
| a_carry s u : is_carry b u -> astep b s (set_pre u s)
| a_next s k : astep b s (set_pre (next_unprocessed_state b k (s_pre s)) s)
| a_cap s v : astep b s (set_cap v s)
| a_delete s : fl_del fl -> astep b s (snd (st_delete s))
| a_auto s n : s_cmode s = PreComposition -> n < length (s_raw s) ->
    astep b s (Nat.iter n (fun s => snd (st_delete s)) s)
| a_new_list s cs : astep b s (set_new_candidate_list cs s)
| a_add s cs : astep b s (add_new_candidates cs s)
| a_pointer s i : astep b s (snd (set_candidate_pointer i s))
| a_forward s s' : st_forward dbg s = Ok s' -> astep b s s'
| a_backward s : astep b s (st_backward s).
(** Steps of the stack (current frame first). *)
Inductive sstep (b : kb) : list cstate -> list cstate -> Prop :=
| ss_cur s s' r : astep b s s' -> sstep b (s :: r) (s' :: r)
| ss_push s r prev : length (s :: r) < REGISTER_MODE_STACK_MAX ->
    sstep b (s :: r) (st_new Hiragana Direct :: change_from_old_mode Register prev s :: r)
| ss_pop s s' r : sstep b (s :: s' :: r) (s' :: r)
| ss_flush l s : fl_flush fl -> sstep b (l ++ [s]) (l ++ [flush_confirmed s]).
Inductive srel (b : kb) : list cstate -> list cstate -> Prop :=
| sr_refl l : srel b l l
| sr_step l1 l2 l3 : srel b l1 l2 -> sstep b l2 l3 -> srel b l1 l3.

Lemma srel_trans b l1 l2 l3 : srel b l1 l2 -> srel b l2 l3 -> srel b l1 l3.
Proof. intros H1 H2; induction H2; eauto using srel. Qed.

(** The parts of the context no key and no frame step changes. *)
Definition same_env (w w' : world) : Prop :=
  x_cmd (w_ctx w') = x_cmd (w_ctx w) /\ x_kb (w_ctx w') = x_kb (w_ctx w) /\
  x_kf (w_ctx w') = x_kf (w_ctx w) /\ x_am (w_ctx w') = x_am (w_ctx w) /\
  x_dicts (w_ctx w') = x_dicts (w_ctx w) /\ x_cfg (w_ctx w') = x_cfg (w_ctx w).
Lemma same_env_refl w : same_env w w.
Proof. repeat split. Qed.
Lemma same_env_trans w1 w2 w3 : same_env w1 w2 -> same_env w2 w3 -> same_env w1 w3.
Proof. unfold same_env; intuition congruence. Qed.

(** The store changes only by the two dictionary updates, on dictionaries of the context. *)
Inductive dstep (ids : list nat) : list dict -> list dict -> Prop :=
| ds_select st c : dstep ids st (upd_dicts ids (fun d => select_candidate d c) st)
| ds_purge st k c : dstep ids st (upd_dicts ids (fun d => purge_candidate d k c) st).
Inductive drel (ids : list nat) : list dict -> list dict -> Prop :=
| dr_refl st : drel ids st st
| dr_step s1 s2 s3 : drel ids s1 s2 -> dstep ids s2 s3 -> drel ids s1 s3.
Lemma drel_trans ids s1 s2 s3 : drel ids s1 s2 -> drel ids s2 s3 -> drel ids s1 s3.
Proof. intros H1 H2; induction H2; eauto using drel. Qed.

Record wrel (w w' : world) : Prop := {
  wr_env : same_env w w';
  wr_stack : srel (x_kb (w_ctx w)) (x_stack (w_ctx w)) (x_stack (w_ctx w'));
  wr_store : drel (x_dicts (w_ctx w)) (w_store w) (w_store w') }.
Lemma wrel_refl w : wrel w w.
Proof. constructor; [apply same_env_refl|constructor|constructor]. Qed.
Lemma wrel_trans w1 w2 w3 : wrel w1 w2 -> wrel w2 w3 -> wrel w1 w3.
Proof.
  intros [E1 S1 D1] [E2 S2 D2].
  pose proof E1 as (_ & Hkb & _ & _ & Hds & _).
  constructor; [eapply same_env_trans; eauto| |].
  - rewrite Hkb in S2; eapply srel_trans; eauto.
  - rewrite Hds in D2; eapply drel_trans; eauto.
Qed.

(** Stack non-empty: preserved by every step. *)
Lemma sstep_nonempty b l l' : sstep b l l' -> l <> [] -> l' <> [].
Proof. intros H; inversion H; subst; intros _; try congruence. destruct l0; cbn; congruence. Qed.
Lemma srel_nonempty b l l' : srel b l l' -> l <> [] -> l' <> [].
Proof. induction 1; eauto using sstep_nonempty. Qed.

(** [reaches b cr cr m]: from a world with a frame, conversion table [b] and commands [cr], [m] only performs
    atomic steps and does not meet an empty stack. *)
Definition not_empty_stack (r : reason) : Prop := r <> PanicEmptyStack.
Definition envp (b : kb) (cr : command_rule) (w : world) : Prop :=
  x_kb (w_ctx w) = b /\ x_cmd (w_ctx w) = cr.
Definition reaches {A} (b : kb) (cr : command_rule) (m : M A) : Prop :=
  forall w, envp b cr w -> x_stack (w_ctx w) <> [] ->
    wp not_empty_stack m (fun _ w' => wrel w w') w.

Lemma reaches_ret {A} b cr (a : A) : reaches b cr (ret a).
Proof. intros w _ _. apply wp_ret, wrel_refl. Qed.
Lemma wp_reaches_bind {A B} b cr (m : M A) (f : A -> M B) w :
  envp b cr w -> x_stack (w_ctx w) <> [] ->
  wp not_empty_stack m (fun _ w' => wrel w w') w -> (forall a, reaches b cr (f a)) ->
  wp not_empty_stack (bind m f) (fun _ w' => wrel w w') w.
Proof.
  intros Hb Hw Hm Hf. apply wp_bind.
  eapply wp_mono; [apply Hm|]. intros a w' Hr.
  assert (Hw' : x_stack (w_ctx w') <> []) by (eapply srel_nonempty; [apply Hr|apply Hw]).
  assert (Hb' : envp b cr w') by (destruct Hr as [(E1 & E2 & _) _ _]; destruct Hb; split; congruence).
  eapply wp_mono; [apply (Hf a), Hw'; exact Hb'|].
  intros y w2 H2; cbn in H2 |- *. exact (wrel_trans _ _ _ Hr H2).
Qed.
Lemma reaches_bind {A B} b cr (m : M A) (f : A -> M B) :
  reaches b cr m -> (forall a, reaches b cr (f a)) -> reaches b cr (bind m f).
Proof. intros Hm Hf w Hb Hw. eapply wp_reaches_bind; eauto. Qed.
Lemma reaches_get b cr : reaches b cr get.
Proof. intros w _ _. apply wp_get, wrel_refl. Qed.
Lemma reaches_cur b cr : reaches b cr cur.
Proof. intros w _ Hw. apply wp_cur; [|congruence]. intros; apply wrel_refl. Qed.
Lemma reaches_lift {A} b cr (r : res A) : (forall e, r = Panic e -> e <> PanicEmptyStack) -> reaches b cr (lift r).
Proof. intros H w _ _. apply wp_lift; [intros; apply wrel_refl|exact H]. Qed.

(** A state update made of several atomic steps. *)
Inductive asteps (b : kb) : cstate -> cstate -> Prop :=
| as_refl s : asteps b s s
| as_step s1 s2 s3 : asteps b s1 s2 -> astep b s2 s3 -> asteps b s1 s3.
Lemma asteps_srel b s s' r : asteps b s s' -> srel b (s :: r) (s' :: r).
Proof.
  induction 1 as [|s1 s2 s3 H IH Hs]; [constructor|].
  eapply sr_step; [apply IH|]. now constructor.
Qed.
Lemma asteps_one b s s' : astep b s s' -> asteps b s s'.
Proof. intros H; eapply as_step; [apply as_refl|exact H]. Qed.
Lemma asteps_trans b s1 s2 s3 : asteps b s1 s2 -> asteps b s2 s3 -> asteps b s1 s3.
Proof. intros H1 H2; induction H2; eauto using asteps. Qed.
Lemma wrel_stack w l :
  srel (x_kb (w_ctx w)) (x_stack (w_ctx w)) l -> wrel w (set_stack l w).
Proof. intros H; constructor; [repeat split|exact H|constructor]. Qed.
(** With access to the world, for updates that depend on the context. *)
Lemma wp_modcur_asteps b cr f w : envp b cr w -> x_stack (w_ctx w) <> [] ->
  (forall s r, x_stack (w_ctx w) = s :: r -> asteps b s (f s)) ->
  wp not_empty_stack (modcur f) (fun _ w' => wrel w w') w.
Proof.
  intros Hb Hw H. apply wp_modcur; [|congruence]. intros s r Hs. apply wrel_stack.
  rewrite Hs. destruct Hb as [-> _]. apply asteps_srel. eapply H; eauto.
Qed.
Lemma reaches_modcur_w b cr (F : world -> cstate -> cstate) :
  (forall w s, envp b cr w -> asteps b s (F w s)) -> reaches b cr (fun w => modcur (F w) w).
Proof.
  intros H w Hb Hw. unfold wp. apply (wp_modcur_asteps b cr (F w) w Hb Hw); auto.
Qed.
Lemma reaches_modcur b cr f : (forall s, asteps b s (f s)) -> reaches b cr (modcur f).
Proof. intros H. apply (reaches_modcur_w b cr (fun _ => f)). auto. Qed.
(** A read of the current state followed by something depending on it. *)
Lemma reaches_cur_then {A} b cr (f : cstate -> M A) :
  (forall s w, envp b cr w -> (exists r, x_stack (w_ctx w) = s :: r) ->
     wp not_empty_stack (f s) (fun _ w' => wrel w w') w) ->
  reaches b cr (bind cur f).
Proof.
  intros H w Hb Hw. apply wp_bind, wp_cur; [|congruence]. intros s r Hs. apply H; eauto.
Qed.
Lemma reaches_get_then {A} b cr (f : world -> M A) :
  (forall w0, envp b cr w0 -> reaches b cr (f w0)) -> reaches b cr (bind get f).
Proof. intros H w Hb Hw. apply wp_bind, wp_get. apply H; auto. Qed.
Lemma reaches_for_select b cr c : reaches b cr (for_dicts (fun d => select_candidate d c)).
Proof.
  intros w _ _. apply wp_for_dicts. constructor; [repeat split|constructor|].
  eapply dr_step; [constructor|]. apply ds_select.
Qed.
Lemma reaches_for_purge b cr k c : reaches b cr (for_dicts (fun d => purge_candidate d k c)).
Proof.
  intros w _ _. apply wp_for_dicts. constructor; [repeat split|constructor|].
  eapply dr_step; [constructor|]. apply ds_purge.
Qed.
End Steps.
