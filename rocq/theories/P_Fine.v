(** Every call, at the granularity of Fine.v and whatever the dictionaries answer, only performs
    the atomic steps of P_Monad.v on its own frames and only accesses its own dictionaries. *)
From Verif Require Import Str Keys Modes KanaBuilder FormChanger DictTypes Parser Lru
  Dictionary CState Context P_Monad P_Frames Fine.
Local Open Scope f_scope.

(** All runs of a program, with arbitrary answers: panics, accesses and results. *)
Fixpoint pall {A} (E : reason -> Prop) (V : nat -> access -> Prop) (Q : A -> Prop) (p : prog A) : Prop :=
  match p with
  | Done a => Q a
  | Crash r => E r
  | Acc i a k => V i a /\ forall x, pall E V Q (k x)
  end.
Lemma pall_bind {A B} E V (p : prog A) (f : A -> prog B) Q :
  pall E V (fun a => pall E V Q (f a)) p -> pall E V Q (pbind p f).
Proof. induction p as [a|r|i a k IH]; cbn; auto. intros [H1 H2]. split; auto. Qed.
Lemma pall_mono {A} E V (Q Q' : A -> Prop) p : pall E V Q p -> (forall a, Q a -> Q' a) -> pall E V Q' p.
Proof. induction p as [a|r|i a k IH]; cbn; auto. intros [H1 H2] H. split; auto. Qed.
Lemma pall_weaken {A} (E E' : reason -> Prop) (V V' : nat -> access -> Prop) (Q : A -> Prop) p :
  (forall r, E r -> E' r) -> (forall i a, V i a -> V' i a) -> pall E V Q p -> pall E' V' Q p.
Proof. intros He Hv. induction p as [a|r|i a k IH]; cbn; auto. intros [H1 H2]. split; auto. Qed.
Lemma pall_and {A} E V (Q Q' : A -> Prop) p : pall E V Q p -> pall E V Q' p -> pall E V (fun a => Q a /\ Q' a) p.
Proof. induction p as [a|r|i a k IH]; cbn; auto. intros [H1 H2] [_ H3]. split; auto. Qed.

Definition proper (k : ckey) : Prop := ck_okuri k <> Some [].
(** The accesses a context over the dictionaries [ids] makes. *)
Definition may (fl : flags) (ids : list nat) (i : nat) (a : access) : Prop :=
  In i ids /\ match a with
              | ALookup k | AComplete k => proper k
              | ASelect _ => True
              | APurge _ _ => fl_all fl
              end.
Lemma proper_key k : proper k -> exists s, get_dict_key k = Ok s.
Proof.
  unfold proper, get_dict_key. destruct (ck_okuri k) as [[|c o]|]; [intros []; reflexivity| |]; intros _; eauto.
  destruct (kana_to_okuri_prefix c); eauto.
Qed.
(** so no guarded section panics *)
Lemma may_guarded fl ids i a : may fl ids i a -> forall d, exists x d', guarded a d = Ok (x, d').
Proof.
  intros [_ H] d. destruct a; cbn in *; [| |eauto|eauto].
  - destruct (proper_key k H) as [s Hs]. unfold lookup. destruct (d_kind d); rewrite ?Hs; cbn; eauto.
  - destruct (proper_key k H) as [s Hs]. destruct (d_completable d); cbn; [|eauto].
    unfold complete. destruct (liter_sorted _); rewrite ?Hs; cbn; eauto.
Qed.
Lemma proper_composite s : proper (get_composite_key s).
Proof.
  unfold proper, get_composite_key. destruct (_ && _) eqn:E; cbn; [|discriminate].
  intros [= H]. rewrite H in E. cbn in E. rewrite andb_false_r in E || cbn in E. discriminate.
Qed.

(** Queries: nothing but lookups of proper keys in dictionaries of the context. *)
Definition query {A} (fl : flags) (ids : list nat) (p : prog A) : Prop :=
  pall not_empty_stack (may fl ids) (fun _ => True) p.
Section Q.
Context (fl : flags) (all : list nat).
Lemma q_done {A} (a : A) : query fl all (Done a).
Proof. exact I. Qed.
Lemma q_res {A} (r : res A) : safe_res r -> query fl all (of_res r).
Proof. intros H. destruct r as [a|e]; [exact I|]. cbn. now apply H. Qed.
Lemma q_bind {A B} (p : prog A) (f : A -> prog B) : query fl all p -> (forall a, query fl all (f a)) -> query fl all (pbind p f).
Proof. intros H1 H2. apply pall_bind. eapply pall_mono; [exact H1|]. intros a _. apply H2. Qed.
Lemma q_map {A B} (f : A -> B) p : query fl all p -> query fl all (pmap f p).
Proof. intros H. apply q_bind; [exact H|]. intros a. exact I. Qed.
Lemma q_in_order ids k : incl ids all -> proper k -> query fl all (f_in_order ids k).
Proof.
  intros Hi Hk. induction ids as [|i r IH]; [exact I|]. cbn [f_in_order]. apply q_bind.
  - split; [split; [apply Hi; now left|exact Hk]|]. intros []; exact I.
  - intros oe. apply q_map, IH. intros j Hj. apply Hi. now right.
Qed.
Lemma q_exact ids k : incl ids all -> proper k -> query fl all (f_exact ids k).
Proof. intros Hi Hk. apply q_bind; [now apply q_in_order|]. intros l. apply q_res, safe_res_map, safe_of_dcand. Qed.
Lemma q_template ids t n : incl ids all -> query fl all (f_template_texts ids t n).
Proof.
  intros Hi. unfold f_template_texts. destruct (N.eqb t 52); [|apply q_res, safe_template].
  apply q_map, q_exact; [exact Hi|]. unfold proper. cbn. discriminate.
Qed.
Lemma q_templates ids ts : incl ids all -> forall ns cur, query fl all (f_replace_templates ids ts ns cur).
Proof.
  intros Hi. induction ts as [|t ts IH]; intros [|n ns] cur; cbn [f_replace_templates]; try exact I.
  destruct cur as [|x cur]; [exact I|]. apply q_bind; [now apply q_template|]. intros reps. apply IH.
Qed.
Lemma q_pseq {A B} (f : A -> prog B) l : (forall a, query fl all (f a)) -> query fl all (pseq f l).
Proof. intros H. induction l as [|x r IH]; cbn [pseq]; [exact I|]. apply q_bind; [apply H|]. intros y. now apply q_map. Qed.
Lemma q_all ids k : incl ids all -> proper k -> query fl all (f_all_candidates ids k).
Proof.
  intros Hi Hk. unfold f_all_candidates. destruct (to_numeric_key k) as [k' ns] eqn:E.
  assert (Hk' : proper k') by (unfold to_numeric_key in E; injection E as <- _; exact Hk).
  apply q_bind; [now apply q_exact|]. intros ex. destruct (ckey_eqb k' k); [exact I|].
  apply q_bind; [now apply q_exact|]. intros cs. apply q_map, q_pseq. intros c.
  apply q_map, q_templates, Hi.
Qed.
Lemma q_complete_order ids k : incl ids all -> proper k -> query fl all (f_complete_in_order ids k).
Proof.
  intros Hi Hk. induction ids as [|i r IH]; [exact I|]. cbn [f_complete_in_order]. apply q_bind.
  - split; [split; [apply Hi; now left|exact Hk]|]. intros []; exact I.
  - intros oe. apply q_map, IH. intros j Hj. apply Hi. now right.
Qed.
Lemma q_all_complete ids k : incl ids all -> proper k -> query fl all (f_all_complete ids k).
Proof. intros. now apply q_map, q_complete_order. Qed.
Lemma q_registered ids s t : incl ids all -> query fl all (f_registered_candidates ids s t).
Proof.
  intros Hi. unfold f_registered_candidates. cbn zeta. destruct (negb _ && _); [|exact I].
  destruct (to_numeric_key _) as [dk ns]. now apply q_map, q_templates.
Qed.
Lemma q_each a ids : incl ids all -> (forall i, In i all -> may fl all i a) -> query fl all (f_each a ids).
Proof.
  intros Hi Ha. induction ids as [|i r IH]; [exact I|]. cbn. split; [apply Ha, Hi; now left|].
  intros _. apply IH. intros j Hj. apply Hi. now right.
Qed.
End Q.

Section R.
Context (fl : flags) (dbg : bool).
(** The atomic steps between two contexts. *)
Definition crel (c c' : ctx) : Prop := wrel fl dbg (mkW [] c) (mkW [] c').
Lemma crel_refl c : crel c c.
Proof. apply wrel_refl. Qed.
Lemma crel_trans c1 c2 c3 : crel c1 c2 -> crel c2 c3 -> crel c1 c3.
Proof. apply wrel_trans. Qed.
Lemma crel_stack c l : srel fl dbg (x_kb c) (x_stack c) l -> crel c (set_stk l c).
Proof. intros H. apply (wrel_stack fl dbg (mkW [] c) l H). Qed.
Definition fwp {A} (ids : list nat) (m : F A) (Q : A -> ctx -> Prop) (c : ctx) : Prop :=
  pall not_empty_stack (may fl ids) (fun r => Q (fst r) (snd r)) (m c).
Lemma fwp_mono {A} ids (m : F A) (Q Q' : A -> ctx -> Prop) c :
  fwp ids m Q c -> (forall a c', Q a c' -> Q' a c') -> fwp ids m Q' c.
Proof. intros H1 H2. eapply pall_mono; [exact H1|]. intros [a c']; cbn; auto. Qed.
Lemma fwp_bind {A B} ids (m : F A) (f : A -> F B) (Q : B -> ctx -> Prop) c :
  fwp ids m (fun a => fwp ids (f a) Q) c -> fwp ids (f_bind m f) Q c.
Proof. intros H. apply pall_bind. eapply pall_mono; [exact H|]. intros [a c']; cbn; auto. Qed.
Lemma fwp_ret {A} ids (a : A) (Q : A -> ctx -> Prop) c : Q a c -> fwp ids (f_ret a) Q c.
Proof. auto. Qed.
Lemma fwp_get ids (Q : ctx -> ctx -> Prop) c : Q c c -> fwp ids f_get Q c.
Proof. auto. Qed.
Lemma fwp_lift {A} ids (r : res A) (Q : A -> ctx -> Prop) c :
  (forall a, r = Ok a -> Q a c) -> safe_res r -> fwp ids (f_lift r) Q c.
Proof. unfold fwp, f_lift. destruct r; cbn; intros H1 H2; [now apply H1|now apply H2]. Qed.
Lemma fwp_cur ids (Q : cstate -> ctx -> Prop) c :
  (forall s r, x_stack c = s :: r -> Q s c) -> x_stack c <> [] -> fwp ids f_cur Q c.
Proof. unfold fwp, f_cur; destruct (x_stack c) eqn:?; cbn; intros H1 H2; [congruence|eauto]. Qed.
Lemma fwp_modcur ids f (Q : unit -> ctx -> Prop) c :
  (forall s r, x_stack c = s :: r -> Q tt (set_stk (f s :: r) c)) -> x_stack c <> [] -> fwp ids (f_modcur f) Q c.
Proof. unfold fwp, f_modcur; destruct (x_stack c) eqn:?; cbn; intros H1 H2; [congruence|eauto]. Qed.

Definition fenv (b : kb) (cr : command_rule) (ids : list nat) (c : ctx) : Prop :=
  x_kb c = b /\ x_cmd c = cr /\ x_dicts c = ids.
Definition freaches {A} (b : kb) (cr : command_rule) (ids : list nat) (m : F A) : Prop :=
  forall c, fenv b cr ids c -> x_stack c <> [] -> fwp ids m (fun _ c' => crel c c') c.
Lemma freaches_ret {A} b cr ids (a : A) : freaches b cr ids (f_ret a).
Proof. intros c _ _. apply fwp_ret, crel_refl. Qed.
Lemma fenv_crel b cr ids c c' : crel c c' -> fenv b cr ids c -> fenv b cr ids c'.
Proof. intros [(E1 & E2 & _ & _ & E5 & _) _ _] (H1 & H2 & H3). cbn in *. repeat split; congruence. Qed.
Lemma fwp_reaches_bind {A B} b cr ids (m : F A) (f : A -> F B) c :
  fenv b cr ids c -> x_stack c <> [] ->
  fwp ids m (fun _ c' => crel c c') c -> (forall a, freaches b cr ids (f a)) ->
  fwp ids (f_bind m f) (fun _ c' => crel c c') c.
Proof.
  intros Hb Hw Hm Hf. apply fwp_bind.
  eapply fwp_mono; [apply Hm|]. intros a c' Hr.
  assert (Hw' : x_stack c' <> []) by (eapply srel_nonempty; [apply Hr|apply Hw]).
  apply (fwp_mono ids (f a) (fun _ w2 => crel c' w2)); [apply (Hf a); [exact (fenv_crel b cr ids c c' Hr Hb)|exact Hw']|].
  intros y w2 H2. exact (crel_trans _ _ _ Hr H2).
Qed.
Lemma freaches_bind {A B} b cr ids (m : F A) (f : A -> F B) :
  freaches b cr ids m -> (forall a, freaches b cr ids (f a)) -> freaches b cr ids (f_bind m f).
Proof. intros Hm Hf w Hb Hw. eapply fwp_reaches_bind; eauto. Qed.
Lemma freaches_get b cr ids : freaches b cr ids f_get.
Proof. intros w _ _. apply fwp_get, crel_refl. Qed.
Lemma freaches_cur b cr ids : freaches b cr ids f_cur.
Proof. intros w _ Hw. apply fwp_cur; [|exact Hw]. intros; apply crel_refl. Qed.
Lemma freaches_lift {A} b cr ids (r : res A) : safe_res r -> freaches b cr ids (f_lift r).
Proof. intros H w _ _. apply fwp_lift; [intros; apply crel_refl|exact H]. Qed.
Lemma freaches_prog {A} b cr ids (p : prog A) : query fl ids p -> freaches b cr ids (f_prog p).
Proof.
  intros H w _ _. unfold fwp, f_prog. apply pall_bind. eapply pall_mono; [exact H|].
  intros a _. cbn. apply crel_refl.
Qed.
Lemma fwp_modcur_asteps b cr ids f w : fenv b cr ids w -> x_stack w <> [] ->
  (forall s r, x_stack w = s :: r -> asteps fl dbg b s (f s)) ->
  fwp ids (f_modcur f) (fun _ w' => crel w w') w.
Proof.
  intros Hb Hw H. apply fwp_modcur; [|exact Hw]. intros s r Hs. apply crel_stack.
  rewrite Hs. destruct Hb as (-> & _ & _). apply asteps_srel. eapply H; eauto.
Qed.
Lemma freaches_modcur_w b cr ids (G : ctx -> cstate -> cstate) :
  (forall w s, fenv b cr ids w -> asteps fl dbg b s (G w s)) -> freaches b cr ids (fun w => f_modcur (G w) w).
Proof.
  intros H w Hb Hw. unfold fwp. apply (fwp_modcur_asteps b cr ids (G w) w Hb Hw); auto.
Qed.
Lemma freaches_modcur b cr ids f : (forall s, asteps fl dbg b s (f s)) -> freaches b cr ids (f_modcur f).
Proof. intros H. apply (freaches_modcur_w b cr ids (fun _ => f)). auto. Qed.
Lemma freaches_cur_then {A} b cr ids (f : cstate -> F A) :
  (forall s w, fenv b cr ids w -> (exists r, x_stack w = s :: r) ->
     fwp ids (f s) (fun _ w' => crel w w') w) ->
  freaches b cr ids (f_bind f_cur f).
Proof.
  intros H w Hb Hw. apply fwp_bind, fwp_cur; [|exact Hw]. intros s r Hs. apply H; eauto.
Qed.
Lemma freaches_get_then {A} b cr ids (f : ctx -> F A) :
  (forall w0, fenv b cr ids w0 -> freaches b cr ids (f w0)) -> freaches b cr ids (f_bind f_get f).
Proof. intros H w Hb Hw. apply fwp_bind, fwp_get. apply H; auto. Qed.
End R.

Create HintDb freach.
Ltac freach1 :=
  first
  [ assumption
  | apply freaches_ret
  | solve [auto 2 with freach]
  | match goal with
    | |- freaches _ _ _ _ _ (f_bind f_get _) => apply freaches_get_then; intros ? ?
    | |- freaches _ _ _ _ _ (f_bind _ _) => apply freaches_bind; [|intros ?]
    | |- freaches _ _ _ _ _ f_cur => apply freaches_cur
    | |- freaches _ _ _ _ _ f_get => apply freaches_get
    | |- freaches _ _ _ _ _ (f_lift (Panic ?r)) => apply freaches_lift; apply safe_panic; discriminate
    | |- freaches _ _ _ _ _ (f_modcur _) => apply freaches_modcur; intros ?; solve [ast]
    | |- freaches _ _ _ _ _ (match ?x with _ => _ end) => destruct x eqn:?
    | |- freaches _ _ _ _ _ (if ?x then _ else _) => destruct x eqn:?
    end ].
Ltac freach := cbn beta zeta; repeat (freach1; cbn beta zeta).

Section F.
Context (X : xkb) (fl : flags) (dbg : bool) (b : kb) (cr : command_rule) (ids : list nat).

Lemma fr_append t : freaches fl dbg b cr ids (f_append_converted t).
Proof. apply (freaches_modcur_w fl dbg b cr ids (fun w s => push_string _ s)). intros; ast. Qed.
Lemma fr_carry u : (u = [] \/ is_carry b u) -> freaches fl dbg b cr ids (f_set_carry_over u).
Proof.
  intros Hu. apply freaches_modcur. intros s. cbn zeta. destruct Hu as [->|Hu].
  - cbn. (* an empty carry-over: the pending input is cleared *) change (set_cap false (set_pre [] s)) with (clear_preconverted s). ast.
  - destruct (is_nil u); ast.
Qed.
Lemma fr_update_candidates : freaches fl dbg b cr ids f_update_candidate_list.
Proof. unfold f_update_candidate_list; freach. apply freaches_prog, q_all; [|apply proper_composite]. match goal with H : fenv _ _ _ _ |- _ => destruct H as (_ & _ & ->) end. apply incl_refl. Qed.
Lemma fr_update_completion : freaches fl dbg b cr ids f_update_completion_list.
Proof. unfold f_update_completion_list; freach. apply freaches_prog, q_all_complete; [|apply proper_composite]. match goal with H : fenv _ _ _ _ |- _ => destruct H as (_ & _ & ->) end. apply incl_refl. Qed.
Lemma fr_purge : fl_all fl -> freaches fl dbg b cr ids f_purge_current.
Proof. intros Hfl. unfold f_purge_current; freach. apply freaches_prog, q_each; [|intros; split; [assumption|exact Hfl]]. match goal with H : fenv _ _ _ _ |- _ => destruct H as (_ & _ & ->) end. apply incl_refl. Qed.
Lemma fr_confirm : freaches fl dbg b cr ids f_confirm_current.
Proof. unfold f_confirm_current; freach. apply freaches_prog, q_each; [|intros; split; [assumption|exact I]]. match goal with H : fenv _ _ _ _ |- _ => destruct H as (_ & _ & ->) end. apply incl_refl. Qed.
Lemma fr_confirm_as i : freaches fl dbg b cr ids (f_confirm_as i).
Proof. unfold f_confirm_as; freach. Qed.
Lemma fr_set_cmode c : freaches fl dbg b cr ids (f_set_composition_mode c).
Proof. unfold f_set_composition_mode, change_composition_mode; freach. Qed.
Lemma fr_set_imode i : fl_imode fl i -> freaches fl dbg b cr ids (f_set_input_mode i).
Proof. intros Hfl. unfold f_set_input_mode; freach. Qed.
Lemma fr_enter p : freaches fl dbg b cr ids (f_enter_register_mode p).
Proof.
  intros w Hb Hw. unfold fwp, f_enter_register_mode.
  destruct (Nat.ltb_spec (length (x_stack w)) REGISTER_MODE_STACK_MAX) as [Hl|Hl];
    [|apply crel_refl].
  destruct (x_stack w) as [|s r] eqn:Es; [congruence|].
  apply crel_stack. rewrite Es. eapply sr_step; [apply sr_refl|]. now apply ss_push.
Qed.
Lemma fr_reset : fl_all fl -> freaches fl dbg b cr ids f_reset_state_stack.
Proof.
  intros Hfl w Hb Hw. unfold fwp, f_reset_state_stack.
  destruct (rev (x_stack w)) as [|t l] eqn:Er.
  - apply (f_equal (@rev _)) in Er. rewrite rev_involutive in Er. cbn in Er. congruence.
  - apply (f_equal (@rev _)) in Er. rewrite rev_involutive in Er. cbn in Er.
    apply crel_stack. rewrite Er. eapply srel_trans; [apply srel_pop_all|].
    apply asteps_srel. ast.
Qed.
Lemma fr_poll : fl_flush fl -> freaches fl dbg b cr ids f_poll_output.
Proof.
  intros Hfl w Hb Hw. unfold fwp, f_poll_output.
  destruct (rev (x_stack w)) as [|t l] eqn:Er.
  - apply (f_equal (@rev _)) in Er. rewrite rev_involutive in Er. cbn in Er. congruence.
  - apply (f_equal (@rev _)) in Er. rewrite rev_involutive in Er. cbn in Er.
    destruct (is_nil (s_conf t)); [apply crel_refl|].
    apply crel_stack. rewrite Er. cbn. eapply sr_step; [apply sr_refl|]. apply ss_flush, Hfl.
Qed.
Lemma fr_abort_register : freaches fl dbg b cr ids f_abort_register_mode.
Proof.
  intros w Hb Hw. unfold fwp, f_abort_register_mode.
  destruct (x_stack w) as [|s [|s' r]] eqn:Es; try apply crel_refl.
  apply crel_stack. rewrite Es. cbn. eapply sr_step; [apply sr_refl|]. apply ss_pop.
Qed.
Lemma fr_exit t : freaches fl dbg b cr ids (f_exit_register_mode t).
Proof.
  intros w Hb Hw. unfold fwp, f_exit_register_mode.
  destruct (x_stack w) as [|s [|s' r]] eqn:Es; try apply crel_refl.
  match goal with |- pall _ _ _ (?m ?w0) => set (m0 := m); set (w1 := w0) end.
  assert (Hm : freaches fl dbg b cr ids m0).
  { subst m0. pose proof fr_confirm. freach. apply freaches_prog, q_registered.
    match goal with H : fenv _ _ _ _ |- _ => destruct H as (_ & _ & ->) end. apply incl_refl. }
  assert (H1 : crel fl dbg w w1).
  { subst w1. apply crel_stack. rewrite Es. cbn. eapply sr_step; [apply sr_refl|]. apply ss_pop. }
  assert (Hw1 : x_stack w1 <> []) by (subst w1; cbn; discriminate).
  specialize (Hm w1 Hb Hw1). apply (fwp_mono fl ids m0 _ (fun _ c' => crel fl dbg w c') w1 Hm).
  intros a w2 H2. exact (crel_trans _ _ _ _ _ H1 H2).
Qed.
Hint Resolve fr_append fr_update_candidates fr_update_completion fr_purge fr_confirm fr_confirm_as
  fr_set_cmode fr_set_imode fr_enter fr_reset fr_poll fr_abort_register fr_exit : freach.

Lemma fr_output i c : freaches fl dbg b cr ids (f_output_converted_kana_if_any i c).
Proof.
  unfold f_output_converted_kana_if_any. apply freaches_bind; [apply freaches_cur|intros s].
  apply freaches_get_then. intros w (Hw & _). rewrite Hw.
  destruct (convert_greedy b (s_pre s)) as [[kana carry]|] eqn:Ec; [|freach].
  pose proof (fr_carry carry (tget_carry _ _ _ _ Ec)). freach.
Qed.
Lemma fr_capital k c d : freaches fl dbg b cr ids (f_transition_by_capital k c d).
Proof. unfold f_transition_by_capital; freach. Qed.
Hint Resolve fr_output fr_capital : freach.
Lemma fr_forward : freaches fl dbg b cr ids (s <- f_cur ;; s' <- f_lift (st_forward dbg s) ;; f_modcur (fun _ => s')).
Proof.
  apply freaches_cur_then. intros s w Hb [r Hs]. apply fwp_bind, fwp_lift; [|apply safe_forward].
  intros s' Hs'. apply (fwp_modcur_asteps fl dbg b cr ids); [exact Hb|congruence|].
  intros s0 r0 H0. assert (s0 = s) by congruence. subst s0.
  apply asteps_one. now apply (a_forward fl dbg b s s').
Qed.
(** the same after an [if] on [has_next] *)
Lemma fr_next_or (m : F unit) (k : F unit) : freaches fl dbg b cr ids m -> freaches fl dbg b cr ids k ->
  freaches fl dbg b cr ids (s <- f_cur ;; x <- f_lift (cl_has_next dbg (s_list s)) ;;
     if negb x then m else s' <- f_lift (st_forward dbg s) ;; f_modcur (fun _ => s') ;; k).
Proof.
  intros Hm Hk. apply freaches_cur_then. intros s w Hb [r Hs].
  assert (Hne : x_stack w <> []) by congruence.
  apply fwp_bind, fwp_lift; [|apply safe_has_next].
  intros x _. destruct (negb x); [apply Hm; auto|].
  apply fwp_bind, fwp_lift; [|apply safe_forward]. intros s' Hs'.
  apply (fwp_reaches_bind fl dbg b cr ids); auto. apply (fwp_modcur_asteps fl dbg b cr ids); [exact Hb|congruence|].
  intros s0 r0 H0. assert (s0 = s) by congruence. subst s0.
  apply asteps_one. now apply (a_forward fl dbg b s s').
Qed.
Lemma freaches_ext {A} (m m' : F A) : (forall w, m w = m' w) -> freaches fl dbg b cr ids m -> freaches fl dbg b cr ids m'.
Proof. intros He H w Hb Hw. unfold fwp. rewrite <- He. apply H; auto. Qed.
Lemma fr_next_candidate c i : freaches fl dbg b cr ids (f_try_next_candidate dbg c i).
Proof.
  unfold f_try_next_candidate. destruct (negb (cmode_eqb c CompositionSelection)); [freach|].
  pose proof (fr_next_or (f_enter_register_mode c) (f_ret tt) (fr_enter c) (freaches_ret fl dbg b cr ids tt)) as H.
  eapply freaches_ext; [|exact H]. intros w. unfold f_bind, f_lift, f_cur, f_ret, f_modcur.
  destruct (x_stack w) as [|s r] eqn:Es; [reflexivity|]. cbn [pbind].
  destruct (cl_has_next dbg (s_list s)) as [x|]; [|reflexivity]. cbn [pbind].
  destruct (negb x); [reflexivity|]. destruct (st_forward dbg s); [|reflexivity]. cbn [pbind].
  rewrite Es. reflexivity.
Qed.
Lemma fr_next_completion c i : freaches fl dbg b cr ids (f_try_next_completion dbg c i).
Proof.
  unfold f_try_next_completion. destruct (negb (cmode_eqb c Completion)); [freach|].
  apply fr_next_or; freach.
Qed.
Hint Resolve fr_forward fr_next_candidate fr_next_completion : freach.

Lemma fr_auto_start : freaches fl dbg b cr ids (f_auto_start_henkan dbg).
Proof.
  unfold f_auto_start_henkan. apply freaches_cur_then. intros s w Hb [r Hs].
  destruct (cmode_eqb (s_cmode s) PreComposition) eqn:Ec; cbn [negb].
  2:{ apply fwp_lift; [discriminate|]. intros e [= <-]. discriminate. }
  apply cmode_eqb_eq in Ec.
  apply fwp_bind, fwp_get. destruct (matching_keyword _ _) as [kw|] eqn:Ek; [|apply fwp_ret, crel_refl].
  apply matching_keyword_spec in Ek as [Hne [p Hp]].
  assert (Hraw : ck_to (get_composite_key s) = s_raw s)
    by (unfold get_composite_key; destruct (_ && _); reflexivity).
  rewrite Hraw in *.
  apply (fwp_reaches_bind fl dbg b cr ids); [exact Hb|congruence| |].
  - apply (fwp_modcur_asteps fl dbg b cr ids); [exact Hb|congruence|].
    intros s0 r0 H0. assert (s0 = s) as -> by congruence.
    eapply as_step; [|apply a_postfix]. apply asteps_one. apply a_auto; [exact Ec|].
    rewrite Hp, app_length. destruct p; [exfalso; apply Hne; rewrite Hp; reflexivity|cbn; lia].
  - intros _. freach.
Qed.
Hint Resolve fr_auto_start : freach.
Lemma fr_input_converted conv carry did u k : tget b k = Some (conv, carry) ->
  freaches fl dbg b cr ids (f_input_converted_kana dbg conv carry did u).
Proof.
  intros Hk. pose proof (fr_carry carry (tget_carry _ _ _ _ Hk)) as Hc.
  unfold f_input_converted_kana, push_string. freach.
Qed.
Lemma fr_continuous k : freaches fl dbg b cr ids (f_input_as_continuous_kana k).
Proof.
  unfold f_input_as_continuous_kana. apply freaches_cur_then. intros s w Hb [r Hs].
  apply fwp_bind, fwp_get.
  assert (Hne : x_stack w <> []) by congruence.
  assert (H : fwp fl ids
     (f_modcur (set_pre (next_unprocessed_state (x_kb w) k (s_pre s))) ;; f_ret true)
     (fun _ w' => crel fl dbg w w') w).
  { apply (fwp_reaches_bind fl dbg b cr ids); auto; [|intros; apply freaches_ret].
    apply (fwp_modcur_asteps fl dbg b cr ids); auto. intros s0 r0 H0. assert (s0 = s) by congruence. subst s0.
    destruct Hb as (-> & _). apply asteps_one. apply a_next. }
  destruct (s_cmode s); try exact H; apply fwp_ret, crel_refl.
Qed.
Hint Resolve fr_continuous : freach.
Lemma fr_abort : freaches fl dbg b cr ids f_abort.
Proof. unfold f_abort, f_when. freach. Qed.
Hint Resolve fr_abort : freach.
Lemma fr_instr ins c i : instr_allowed fl ins -> freaches fl dbg b cr ids (f_run_instr dbg ins c i).
Proof. unfold f_run_instr. intros Ha. pose proof fr_purge. destruct ins; cbn in Ha; freach. Qed.
Lemma fr_instrs l c i : Forall (instr_allowed fl) l -> forall res, freaches fl dbg b cr ids (f_run_instrs dbg l c i res).
Proof.
  induction 1 as [|x l Hx Hl IH]; intros res; cbn [f_run_instrs]; [freach|].
  pose proof (fr_instr x c i Hx). freach.
Qed.
Lemma fr_instructions l c i : Forall (instr_allowed fl) l -> freaches fl dbg b cr ids (f_process_instructions dbg l c i).
Proof. intros H. apply fr_instrs, H. Qed.
Lemma fr_finish : freaches fl dbg b cr ids (f_finish_kana_input dbg).
Proof. unfold f_finish_kana_input. freach. Qed.
Hint Resolve fr_finish : freach.
Lemma fr_periods i c t : freaches fl dbg b cr ids (f_input_periods dbg i c t).
Proof. unfold f_input_periods, push_string. freach. Qed.
Lemma fr_direct_char k c i cm : freaches fl dbg b cr ids (f_input_direct_char dbg k c i cm).
Proof. unfold f_input_direct_char, push_string. freach. Qed.
Hint Resolve fr_periods fr_direct_char : freach.
Ltac conv_carry := match goal with
  | H : convert_non_partial ?b ?k = Some (?c, ?l) |- freaches _ _ _ _ _ (f_input_converted_kana _ ?c ?l _ _) =>
      apply (fr_input_converted c l _ _ k), non_partial_tget; congruence
  end.
Lemma fr_unconverted k u ch c : freaches fl dbg b cr ids (f_input_unconverted dbg k u ch c).
Proof.
  unfold f_input_unconverted. apply freaches_bind; [apply freaches_cur|intros s].
  apply freaches_get_then. intros w (Hw & _). cbn zeta. rewrite Hw.
  repeat (freach1 || conv_carry).
Qed.
Hint Resolve fr_unconverted : freach.
Lemma fr_kana k u : freaches fl dbg b cr ids (f_input_kana X dbg k u).
Proof.
  unfold f_input_kana. apply freaches_bind; [apply freaches_cur|intros s].
  apply freaches_get_then. intros w (Hw & _). cbn zeta. rewrite Hw.
  repeat (freach1 || conv_carry).
Qed.
Lemma fr_plain k : freaches fl dbg b cr ids (f_input_plain X k).
Proof. unfold f_input_plain, push_string. freach. Qed.
Hint Resolve fr_kana fr_plain : freach.
Lemma fr_input_key k c u : freaches fl dbg b cr ids (f_input_key X dbg k c u).
Proof. unfold f_input_key. freach. Qed.
Hint Resolve fr_input_key : freach.
Lemma freaches_lift_then {A B} (r : res A) (f : A -> F B) :
  safe_res r -> (forall a, r = Ok a -> freaches fl dbg b cr ids (f a)) -> freaches fl dbg b cr ids (f_bind (f_lift r) f).
Proof.
  intros Hs H w Hb Hw. apply fwp_bind, fwp_lift; [|apply Hs]. intros a Ha. apply H; auto.
Qed.
Lemma fr_inner k : key_allowed fl dbg cr k -> freaches fl dbg b cr ids (f_process_key_event_inner X dbg k).
Proof.
  intros Hk. unfold f_process_key_event_inner. apply freaches_bind; [apply freaches_cur|intros s].
  apply freaches_get_then. intros w (_ & Hw & _). cbn zeta. rewrite Hw. destruct (skip_command _ _ _ _ _); [freach|].
  apply freaches_lift_then; [apply safe_instruction|]. intros [l|] Hl; [|freach].
  apply fr_instructions. eapply Hk, Hl.
Qed.
Lemma fr_key k : key_allowed fl dbg cr k -> freaches fl dbg b cr ids (f_process_key_event X dbg k).
Proof. intros Hk. pose proof (fr_inner k Hk). unfold f_process_key_event. freach. Qed.
Lemma fr_select_at i : freaches fl dbg b cr ids (f_select_candidate_at i).
Proof. unfold f_select_candidate_at. freach. Qed.
Lemma fr_confirm_at i : freaches fl dbg b cr ids (f_confirm_candidate_at i).
Proof. unfold f_confirm_candidate_at. freach. Qed.
End F.

