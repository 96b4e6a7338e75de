(** Two runs that differ only in how much of the confirmed text has been polled. *)
From Verif Require Import Str Keys Modes KanaBuilder FormChanger DictTypes Parser Lru
  Dictionary CState Context Spec P_Monad P_Frames P_Inv P_Keeps P_Register P_Confirmed P_Step.

Section Rel.
Context (p : str).
Definition pre (s : cstate) : cstate := set_conf (p ++ s_conf s) s.
(** [w2] is [w1] with [p] in front of the outermost confirmed text. *)
Definition Rel (w1 w2 : world) : Prop :=
  exists inner t, x_stack (w_ctx w1) = inner ++ [t] /\ Forall L (x_stack (w_ctx w1))
    /\ w2 = set_stack (inner ++ [pre t]) w1.
Definition out2 {A} (r1 r2 : res (A * world)) : Prop :=
  match r1, r2 with
  | Ok (a, w1), Ok (b, w2) => a = b /\ Rel w1 w2
  | Panic e, Panic e' => e = e'
  | _, _ => False
  end.
Definition rm {A} (m1 m2 : M A) : Prop := forall w1 w2, Rel w1 w2 -> out2 (m1 w1) (m2 w2).

(** the shape of related stacks *)
Lemma rel_cases w1 w2 : Rel w1 w2 ->
  (exists t, x_stack (w_ctx w1) = [t] /\ L t /\ w2 = set_stack [pre t] w1)
  \/ (exists s inner t, x_stack (w_ctx w1) = s :: inner ++ [t] /\ L s /\ Forall L (inner ++ [t]) /\ w2 = set_stack (s :: inner ++ [pre t]) w1).
Proof.
  intros (inner & t & E & HL & ->). destruct inner as [|s inner]; rewrite E in HL; cbn in *.
  - left. exists t. inversion HL; subst. auto.
  - right. exists s, inner, t. inversion HL; subst. auto.
Qed.
Lemma set_stack_twice a b w : set_stack a (set_stack b w) = set_stack a w.
Proof. reflexivity. Qed.
Lemma rel_one t w : L t -> Rel (set_stack [t] w) (set_stack [pre t] w).
Proof. intros H. exists [], t. cbn. auto. Qed.
Lemma rel_more inner t w : Forall L (inner ++ [t]) -> Rel (set_stack (inner ++ [t]) w) (set_stack (inner ++ [pre t]) w).
Proof. intros H. exists inner, t. cbn. auto. Qed.

Lemma rm_ret {A} (a : A) : rm (ret a) (ret a).
Proof. intros w1 w2 H. cbn. auto. Qed.
Lemma rm_lift {A} (r : res A) : rm (lift r) (lift r).
Proof. intros w1 w2 H. unfold lift. destruct r; cbn; auto. Qed.
Lemma rm_bind {A B} (m1 m2 : M A) (f1 f2 : A -> M B) : rm m1 m2 -> (forall a, rm (f1 a) (f2 a)) -> rm (bind m1 f1) (bind m2 f2).
Proof.
  intros Hm Hf w1 w2 H. specialize (Hm w1 w2 H). unfold bind.
  destruct (m1 w1) as [[a w1']|]; destruct (m2 w2) as [[b w2']|]; cbn in Hm; try tauto.
  destruct Hm as [-> Hm]. apply Hf, Hm.
Qed.
Lemma rm_lift_then {A B} (r : res A) (f1 f2 : A -> M B) : (forall a, r = Ok a -> rm (f1 a) (f2 a)) -> rm (bind (lift r) f1) (bind (lift r) f2).
Proof. intros H w1 w2 Hw. unfold bind, lift. destruct r as [a|e]; [|reflexivity]. apply H; auto. Qed.
Lemma rm_cur {A} (f1 f2 : cstate -> M A) : (forall s c, L s -> rm (f1 s) (f2 (set_conf c s))) -> rm (bind cur f1) (bind cur f2).
Proof.
  intros Hf w1 w2 H. unfold bind, cur. destruct (rel_cases _ _ H) as [(t & E & HL & E2)|(s & inner & t & E & HL & _ & E2)];
    rewrite E; rewrite E2 at 1; cbn [set_stack w_ctx x_stack].
  - apply Hf; auto.
  - specialize (Hf s (s_conf s) HL). rewrite set_conf_same in Hf. apply Hf; auto.
Qed.
Lemma rm_get {A} (f1 f2 : world -> M A) : (forall w st, length (x_stack (w_ctx w)) = length st -> rm (f1 w) (f2 (set_stack st w))) -> rm (bind get f1) (bind get f2).
Proof.
  intros Hf w1 w2 H. unfold bind, get. pose proof H as (inner & t & E & HL & ->). apply Hf; [|exact H].
  rewrite E, !app_length. reflexivity.
Qed.
(** actions on the current state that do not look at the confirmed text but may append to it *)
Definition sf (f : cstate -> cstate) : Prop := forall s, L s -> f (pre s) = pre (f s) /\ L (f s).
Lemma rm_modcur f : sf f -> rm (modcur f) (modcur f).
Proof.
  intros Hf w1 w2 H. destruct (rel_cases _ _ H) as [(t & E & HL & ->)|(s & inner & t & E & HL & Hr & ->)]; unfold modcur; rewrite E; cbn [set_stack w_ctx x_stack out2].
  - destruct (Hf t HL) as [Ep HL']. rewrite Ep. exact (conj eq_refl (rel_one (f t) w1 HL')).
  - destruct (Hf s HL) as [_ HL']. refine (conj eq_refl (rel_more (f s :: inner) t w1 _)). now constructor.
Qed.
Lemma rm_modcur_w (F : world -> cstate -> cstate) : (forall w st, F (set_stack st w) = F w) -> (forall w, sf (F w)) ->
  rm (fun w => modcur (F w) w) (fun w => modcur (F w) w).
Proof.
  intros HF Hf w1 w2 H. pose proof (rm_modcur (F w1) (Hf w1) w1 w2 H) as G.
  assert (E : F w2 = F w1) by (destruct H as (inner & t & _ & _ & ->); apply HF). now rewrite E.
Qed.
Lemma rm_for_dicts f : rm (for_dicts f) (for_dicts f).
Proof.
  intros w1 w2 (inner & t & E & HL & ->). cbn. split; [reflexivity|]. exists inner, t. cbn. rewrite <- E in *. auto.
Qed.
(** ** actions *)
Lemma sf_intro f : (forall s, f (pre s) = pre (f s)) -> (forall s, L s -> L (f s)) -> sf f.
Proof. intros H1 H2 s Hs. auto. Qed.
Lemma sf_push_for t c : sf (push_string_for t c).
Proof.
  apply sf_intro; intros s; [|unfold L; intros H]; destruct c; cbn; auto; try (rewrite !app_length; lia); unfold pre; cbn; now rewrite <- ?app_assoc.
Qed.
Lemma sf_push t : sf (push_string t).
Proof. intros s Hs. unfold push_string. change (s_cmode (pre s)) with (s_cmode s). now apply sf_push_for. Qed.
Lemma sf_comp f g : sf f -> sf g -> sf (fun s => f (g s)).
Proof. intros Hf Hg s Hs. destruct (Hg s Hs) as [E H]. rewrite E. now apply Hf. Qed.
Lemma sf_simple f : (forall s c, f (set_conf c s) = set_conf c (f s)) -> (forall s, s_conf (f s) = s_conf s) -> (forall s, L s -> L (f s)) -> sf f.
Proof. intros H1 H2 H3. apply sf_intro; [|exact H3]. intros s. unfold pre. now rewrite H1, H2. Qed.

Ltac sfs := first [assumption | apply sf_push | apply sf_push_for | apply sf_simple; [reflexivity|reflexivity|unfold L; intros ? ?; cbn; rewrite ?app_length; lia]].
Lemma sf_id : sf (fun s => s).
Proof. intros s H; auto. Qed.
Lemma sf_clear_pre : sf clear_preconverted. Proof. sfs. Qed.
Lemma sf_clear_unconfirmed : sf clear_unconfirmed. Proof. sfs. Qed.
Lemma sf_clear_candidate_list : sf clear_candidate_list. Proof. sfs. Qed.
Lemma sf_consolidate : sf consolidate. Proof. sfs. Qed.
Lemma sf_reset_default : sf reset_to_default. Proof. sfs. Qed.
Lemma sf_set_imode i : sf (set_imode i). Proof. sfs. Qed.
Lemma sf_set_cmode i : sf (set_cmode i). Proof. sfs. Qed.
Lemma sf_set_cap i : sf (set_cap i). Proof. sfs. Qed.
Lemma sf_set_pre i : sf (set_pre i). Proof. sfs. Qed.
Lemma sf_set_new l : sf (set_new_candidate_list l). Proof. sfs. Qed.
Lemma sf_add_new l : sf (add_new_candidates l). Proof. sfs. Qed.
Lemma sf_ccm l : sf (change_composition_mode l). Proof. sfs. Qed.
Lemma sf_cfo n l : sf (change_from_old_mode n l). Proof. sfs. Qed.
Lemma sf_backward : sf st_backward. Proof. sfs. Qed.
Lemma sf_set_list l : sf (set_list l). Proof. sfs. Qed.
Lemma sf_pointer i : sf (fun s => snd (set_candidate_pointer i s)).
Proof.
  intros s H. unfold set_candidate_pointer. change (s_list (pre s)) with (s_list s).
  destruct (cl_set_pointer i (s_list s)) as [b l]. cbn [snd]. apply (sf_set_list l s H).
Qed.
Lemma sf_abort_prev : sf abort_to_previous_mode.
Proof.
  intros s H. unfold abort_to_previous_mode. change (s_hist (pre s)) with (s_hist s).
  destruct (last_opt (s_hist s)) as [[]|]; split; try reflexivity; unfold L in *; cbn; rewrite ?app_length; lia.
Qed.
Lemma sf_carry u : sf (fun s => let s' := set_pre u s in if is_nil u then set_cap false s' else s').
Proof. cbv zeta. destruct (is_nil u); sfs. Qed.

(** ** the functions of the context *)
Hint Resolve sf_push sf_push_for sf_clear_pre sf_clear_unconfirmed sf_clear_candidate_list sf_consolidate
  sf_reset_default sf_set_imode sf_set_cmode sf_set_cap sf_set_pre sf_set_new sf_add_new sf_ccm sf_cfo
  sf_backward sf_set_list sf_pointer sf_abort_prev sf_carry sf_id : sfdb.
Ltac simp := cbn [set_conf set_stack w_ctx x_kb x_kf x_am x_cfg x_cmd x_dicts s_imode s_cmode s_default s_hist s_pre s_raw s_comp s_okuri s_list s_cokuri s_cap s_use];
  repeat change (get_composite_key (set_conf ?c ?s)) with (get_composite_key s);
  repeat change (ctx_dicts (set_stack ?c ?s)) with (ctx_dicts s).
Ltac rm1 := match goal with
  | |- rm (ret _) (ret _) => apply rm_ret
  | |- rm (bind cur _) (bind cur _) => apply rm_cur; intros ? ? ?; simp
  | |- rm (bind get _) (bind get _) => apply rm_get; intros ? ? ?; simp
  | |- rm (bind (lift _) _) (bind (lift _) _) => apply rm_lift_then; intros ? ?
  | |- rm (lift _) (lift _) => apply rm_lift
  | |- rm (bind _ _) (bind _ _) => apply rm_bind; [|intros ?]
  | |- rm (modcur _) (modcur _) => apply rm_modcur; auto with sfdb
  | |- rm (for_dicts _) (for_dicts _) => apply rm_for_dicts
  | |- rm (match ?x with _ => _ end) _ => destruct x
  | |- rm (if ?x then _ else _) _ => destruct x
  end.
Ltac rms := repeat (first [rm1 | solve [auto with rmdb]]).
Lemma rm_append t : rm (append_converted t) (append_converted t).
Proof.
  unfold append_converted. refine (rm_modcur_w (fun w s => push_string (adjust_kana_string (x_kf (w_ctx w)) (s_imode s) t) s) _ _); [reflexivity|].
  intros w s Hs. change (s_imode (pre s)) with (s_imode s). apply (sf_push _ s Hs).
Qed.
Lemma rm_carry u : rm (set_carry_over u) (set_carry_over u).
Proof. unfold set_carry_over. rms. Qed.
Lemma rm_update_cands : rm update_candidate_list update_candidate_list.
Proof. unfold update_candidate_list. rms. Qed.
Lemma rm_update_comps : rm update_completion_list update_completion_list.
Proof. unfold update_completion_list. rms. Qed.
Hint Resolve rm_append rm_carry rm_update_cands rm_update_comps : rmdb.
Lemma rm_confirm : rm confirm_current confirm_current.
Proof.
  unfold confirm_current. rms.
  intros z Hz. change (s_imode (pre z)) with (s_imode z). change (s_okuri (pre z)) with (s_okuri z).
  refine (sf_comp reset_to_default (fun s => clear_unconfirmed (push_string _ s)) _ _ z Hz); auto with sfdb.
  apply (sf_comp clear_unconfirmed (push_string _)); auto with sfdb.
Qed.
Hint Resolve rm_confirm : rmdb.
Lemma rm_confirm_as i : rm (confirm_as i) (confirm_as i).
Proof.
  unfold confirm_as. rms. intros z Hz. change (s_comp (pre z)) with (s_comp z).
  refine (sf_comp clear_unconfirmed (push_string_for _ Direct) _ _ z Hz); auto with sfdb.
Qed.
Lemma rm_set_cmode c : rm (set_composition_mode c) (set_composition_mode c).
Proof. unfold set_composition_mode. rms. Qed.
Lemma rm_set_imode c : rm (set_input_mode c) (set_input_mode c).
Proof. unfold set_input_mode. rms. Qed.
Lemma L_new i c : L (st_new i c). Proof. unfold L. cbn. lia. Qed.
Lemma rm_enter c : rm (enter_register_mode c) (enter_register_mode c).
Proof.
  intros w1 w2 H. pose proof H as H0. unfold enter_register_mode.
  destruct (rel_cases _ _ H) as [(t & E & HL & ->)|(s & inner & t & E & HL & Hr & ->)]; rewrite E;
    cbn [set_stack w_ctx x_stack].
  - cbn [length Nat.ltb Nat.leb REGISTER_MODE_STACK_MAX]. refine (conj eq_refl (rel_more [st_new Hiragana Direct] (change_from_old_mode Register c t) w1 _)).
    constructor; [apply L_new|]. constructor; [exact HL|constructor].
  - assert (El : length (s :: inner ++ [pre t]) = length (s :: inner ++ [t])) by (cbn; now rewrite !app_length).
    rewrite El. destruct (Nat.ltb _ _); [|exact (conj eq_refl H0)].
    refine (conj eq_refl (rel_more (st_new Hiragana Direct :: change_from_old_mode Register c s :: inner) t w1 _)).
    constructor; [apply L_new|]. constructor; [exact HL|exact Hr].
Qed.
Lemma rm_abort_register : rm abort_register_mode abort_register_mode.
Proof.
  intros w1 w2 H. pose proof H as H0. unfold abort_register_mode.
  destruct (rel_cases _ _ H) as [(t & E & HL & ->)|(s & inner & t & E & HL & Hr & ->)]; rewrite E;
    cbn [set_stack w_ctx x_stack].
  - exact (conj eq_refl H0).
  - destruct inner as [|s1 inner]; cbn [app tl].
    + refine (conj eq_refl (rel_more [] t w1 Hr)).
    + refine (conj eq_refl (rel_more (s1 :: inner) t w1 Hr)).
Qed.
Hint Resolve rm_confirm_as rm_set_cmode rm_set_imode rm_enter rm_abort_register : rmdb.
Lemma rm_exit text : rm (exit_register_mode text) (exit_register_mode text).
Proof.
  assert (HB : rm (if is_nil text then modcur abort_to_previous_mode
       else
         modcur (set_cmode Direct) ;;
         s <- cur ;; w <- get ;;
         cs <- lift (registered_candidates (ctx_dicts w) s text) ;;
         modcur (add_new_candidates cs) ;;
         confirm_current)
       (if is_nil text then modcur abort_to_previous_mode
       else
         modcur (set_cmode Direct) ;;
         s <- cur ;; w <- get ;;
         cs <- lift (registered_candidates (ctx_dicts w) s text) ;;
         modcur (add_new_candidates cs) ;;
         confirm_current)).
  { destruct (is_nil text); [rms|]. apply rm_bind; [rms|intros _]. apply rm_cur; intros s c Hs. apply rm_get; intros w st Hst.
    change (registered_candidates (ctx_dicts (set_stack st w)) (set_conf c s) text) with (registered_candidates (ctx_dicts w) s text).
    rms. }
  intros w1 w2 H. pose proof H as H0. unfold exit_register_mode.
  destruct (rel_cases _ _ H) as [(t & E & HL & ->)|(s & inner & t & E & HL & Hr & ->)]; rewrite E;
    cbn [set_stack w_ctx x_stack].
  - exact (conj eq_refl H0).
  - destruct inner as [|s1 inner]; cbn [app tl]; apply HB.
    + exact (rel_more [] t w1 Hr).
    + exact (rel_more (s1 :: inner) t w1 Hr).
Qed.
Lemma rm_confirm_direct : rm (w <- get ;; if Nat.ltb 1 (length (x_stack (w_ctx w))) then
        s <- cur ;; exit_register_mode (s_conf s) ;; ret (inr (A := unit) true)
      else ret (inr false))
  (w <- get ;; if Nat.ltb 1 (length (x_stack (w_ctx w))) then
        s <- cur ;; exit_register_mode (s_conf s) ;; ret (inr true)
      else ret (inr false)).
Proof.
  intros w1 w2 H. pose proof H as H0. unfold bind, get, cur.
  destruct (rel_cases _ _ H) as [(t & E & HL & ->)|(s & inner & t & E & HL & Hr & ->)]; rewrite E;
    cbn [set_stack w_ctx x_stack].
  - exact (conj eq_refl H0).
  - assert (E1 : forall z, Nat.ltb 1 (length (s :: inner ++ [z])) = true)
      by (intros z; apply Nat.ltb_lt; cbn [length]; rewrite app_length; cbn [length]; lia).
    rewrite !E1, E. exact (rm_bind (exit_register_mode (s_conf s)) _ _ _ (rm_exit (s_conf s)) (fun _ => rm_ret (inr true)) _ _ H0).
Qed.
Hint Resolve rm_exit rm_confirm_direct : rmdb.
Lemma rm_force i c : rm (output_converted_kana_if_any i c) (output_converted_kana_if_any i c).
Proof.
  unfold output_converted_kana_if_any. rms;
  match goal with |- sf (fun s => clear_preconverted (push_string_for ?t ?c s)) =>
    apply (sf_comp clear_preconverted (push_string_for t c)); auto with sfdb end.
Qed.
Lemma rm_transition k c b : rm (transition_by_capital k c b) (transition_by_capital k c b).
Proof. unfold transition_by_capital. rms. Qed.
Hint Resolve rm_force rm_transition : rmdb.
Lemma rm_forward dbg : rm (s <- cur ;; s' <- lift (st_forward dbg s) ;; modcur (fun _ => s'))
  (s <- cur ;; s' <- lift (st_forward dbg s) ;; modcur (fun _ => s')).
Proof.
  intros w1 w2 H. unfold bind at 1 3, cur, st_forward.
  destruct (rel_cases _ _ H) as [(t & E & HL & E2)|(s & inner & t & E & HL & Hr & E2)]; rewrite E; rewrite E2 at 1; cbn [set_stack w_ctx x_stack].
  - change (s_list (pre t)) with (s_list t). destruct (cl_forward dbg (s_list t)) as [l|e]; cbn [rmap rbind bind lift]; [|reflexivity].
    pose proof (rm_modcur (set_list l) (sf_set_list l) w1 w2 H) as G. rewrite E2 in *. unfold modcur in *. rewrite E in *. exact G.
  - destruct (cl_forward dbg (s_list s)) as [l|e]; cbn [rmap rbind bind lift]; [|reflexivity].
    pose proof (rm_modcur (set_list l) (sf_set_list l) w1 w2 H) as G. rewrite E2 in *. unfold modcur in *. rewrite E in *. exact G.
Qed.
Lemma bind_bind {A B D} (m : M A) (f : A -> M B) (g : B -> M D) w : bind (bind m f) g w = bind m (fun a => bind (f a) g) w.
Proof. unfold bind. destruct (m w) as [[a w']|]; reflexivity. Qed.
Lemma bind_ext {A B} (m : M A) (f g : A -> M B) w : (forall a w, f a w = g a w) -> bind m f w = bind m g w.
Proof. intros H. unfold bind. destruct (m w) as [[a w']|]; auto. Qed.
Lemma rm_ext {A} (m n m' n' : M A) : (forall w, m w = m' w) -> (forall w, n w = n' w) -> rm m' n' -> rm m n.
Proof. intros H1 H2 H w1 w2 Hw. rewrite H1, H2. now apply H. Qed.
(** moving on needs the state only for its list *)
Lemma rm_next_or dbg {A} (b1 : cstate -> res bool) (no : M A) (k : unit -> M A) : rm no no -> (forall u, rm (k u) (k u)) ->
  (forall s c, b1 (set_conf c s) = b1 s) ->
  rm (s <- cur ;; b <- lift (b1 s) ;; if negb b then no else s' <- lift (st_forward dbg s) ;; u <- modcur (fun _ => s') ;; k u)
     (s <- cur ;; b <- lift (b1 s) ;; if negb b then no else s' <- lift (st_forward dbg s) ;; u <- modcur (fun _ => s') ;; k u).
Proof.
  intros Hno Hk Hb.
  assert (E : forall w, (s <- cur ;; b <- lift (b1 s) ;; if negb b then no else s' <- lift (st_forward dbg s) ;; u <- modcur (fun _ => s') ;; k u) w
    = (s <- cur ;; b <- lift (b1 s) ;; if negb b then no else u <- (s <- cur ;; s' <- lift (st_forward dbg s) ;; modcur (fun _ => s')) ;; k u) w).
  { intros w. unfold bind, cur, lift. destruct (x_stack (w_ctx w)) as [|s r] eqn:Es; [reflexivity|]. destruct (b1 s) as [[]|]; [|reflexivity|reflexivity].
    cbn [negb]. rewrite Es. destruct (st_forward dbg s); reflexivity. }
  eapply rm_ext; [exact E|exact E|].
  apply rm_cur; intros s c Hs. rewrite Hb. apply rm_lift_then; intros b _. destruct (negb b); [exact Hno|].
  apply rm_bind; [apply rm_forward|exact Hk].
Qed.
Lemma rm_next dbg c i : rm (try_next_candidate dbg c i) (try_next_candidate dbg c i).
Proof.
  unfold try_next_candidate. destruct (negb _); [rms|].
  eapply rm_ext; [| |apply (rm_next_or dbg (fun s => cl_has_next dbg (s_list s)) (enter_register_mode c) (fun u => ret u)); auto with rmdb; intros; apply rm_ret].
  - intros w. unfold bind, cur, lift, modcur, ret. destruct (x_stack (w_ctx w)) as [|s r]; [reflexivity|].
    destruct (cl_has_next dbg (s_list s)) as [[]|]; try reflexivity. cbn [negb]. destruct (st_forward dbg s); try reflexivity.
    destruct (x_stack (w_ctx w)); reflexivity.
  - intros w. unfold bind, cur, lift, modcur, ret. destruct (x_stack (w_ctx w)) as [|s r]; [reflexivity|].
    destruct (cl_has_next dbg (s_list s)) as [[]|]; try reflexivity. cbn [negb]. destruct (st_forward dbg s); try reflexivity.
    destruct (x_stack (w_ctx w)); reflexivity.
Qed.
Lemma rm_completion dbg c i : rm (try_next_completion dbg c i) (try_next_completion dbg c i).
Proof.
  unfold try_next_completion. destruct (negb _); [rms|].
  apply (rm_next_or dbg (fun s => cl_has_next dbg (s_list s)) (ret tt) (fun _ => set_composition_mode Completion)); auto with rmdb. apply rm_ret.
Qed.
Hint Resolve rm_forward rm_next rm_completion : rmdb.
Lemma rm_bind_at {A B} (m1 m2 : M A) (f1 f2 : A -> M B) w1 w2 : out2 (m1 w1) (m2 w2) -> (forall a, rm (f1 a) (f2 a)) -> out2 (bind m1 f1 w1) (bind m2 f2 w2).
Proof.
  intros Hm Hf. unfold bind.
  destruct (m1 w1) as [[a w1']|]; destruct (m2 w2) as [[b w2']|]; cbn in Hm; try tauto.
  destruct Hm as [-> Hm]. apply Hf, Hm.
Qed.
Lemma rm_modcur_at f w1 w2 : Rel w1 w2 -> (forall s r, x_stack (w_ctx w1) = s :: r -> L s -> f (pre s) = pre (f s) /\ L (f s)) -> out2 (modcur f w1) (modcur f w2).
Proof.
  intros H Hf. destruct (rel_cases _ _ H) as [(t & E & HL & ->)|(s & inner & t & E & HL & Hr & ->)]; unfold modcur; rewrite E; cbn [set_stack w_ctx x_stack out2].
  - destruct (Hf _ _ E HL) as [Ep HL']. rewrite Ep. exact (conj eq_refl (rel_one (f t) w1 HL')).
  - destruct (Hf _ _ E HL) as [_ HL']. refine (conj eq_refl (rel_more (f s :: inner) t w1 _)). now constructor.
Qed.
Lemma delete_pre c s : s_cmode s = PreComposition -> snd (st_delete (set_conf c s)) = set_conf c (snd (st_delete s)) /\ (s_comp s <> [] -> s_cmode (snd (st_delete s)) = PreComposition).
Proof.
  intros Hc. unfold st_delete. change (s_cmode (set_conf c s)) with (s_cmode s). rewrite Hc.
  change (s_pre (set_conf c s)) with (s_pre s). change (s_comp (set_conf c s)) with (s_comp s).
  destruct (negb (is_nil (s_pre s))); cbn; [auto|]. destruct (s_comp s); cbn; [tauto|auto].
Qed.
Lemma iter_pre c n : forall s, s_cmode s = PreComposition -> n <= length (s_comp s) ->
  Nat.iter n (fun s => snd (st_delete s)) (set_conf c s) = set_conf c (Nat.iter n (fun s => snd (st_delete s)) s).
Proof.
  induction n as [|n IH]; intros s Hc Hn; [reflexivity|].
  change (Nat.iter (S n) (fun s => snd (st_delete s)) (set_conf c s)) with (snd (st_delete (Nat.iter n (fun s => snd (st_delete s)) (set_conf c s)))).
  change (Nat.iter (S n) (fun s => snd (st_delete s)) s) with (snd (st_delete (Nat.iter n (fun s => snd (st_delete s)) s))).
  rewrite (IH s Hc) by lia. destruct (auto_delete n s Hc ltac:(lia)) as (H1 & _ & _). now apply delete_pre.
Qed.
Lemma suffix_length a b : is_suffixb a b = true -> length a <= length b.
Proof.
  unfold is_suffixb. intros H. apply is_prefixb_spec in H as [r E]. apply (f_equal (@length _)) in E.
  rewrite app_length, !rev_length in E. lia.
Qed.
Lemma rm_cur_at {A} (f1 f2 : cstate -> M A) : (forall s c r w1 w2, x_stack (w_ctx w1) = s :: r -> L s -> Rel w1 w2 -> out2 (f1 s w1) (f2 (set_conf c s) w2)) -> rm (bind cur f1) (bind cur f2).
Proof.
  intros Hf w1 w2 H. unfold bind, cur. destruct (rel_cases _ _ H) as [(t & E & HL & E2)|(s & inner & t & E & HL & _ & E2)];
    rewrite E; rewrite E2 at 1; cbn [set_stack w_ctx x_stack].
  - eapply Hf; eauto.
  - rewrite <- (set_conf_same s) at 2. eapply Hf; eauto.
Qed.
Lemma rm_auto dbg : rm (auto_start_henkan dbg) (auto_start_henkan dbg).
Proof.
  unfold auto_start_henkan. apply rm_cur_at. intros t c r w1 w2 E HL H. simp.
  destruct (cmode_eqb (s_cmode t) PreComposition) eqn:Ec; cbn [negb]; [|exact (eq_refl PanicDebugAssert)].
  unfold bind at 1, get at 1. cbv beta iota.
  assert (E2 : (w <- get ;; match matching_keyword (cf_auto (x_cfg (w_ctx w))) (ck_to (get_composite_key t)) with
      | None => ret tt
      | Some kw => modcur (fun s => set_converted_to_postfix kw (Nat.iter (length kw) (fun s => snd (st_delete s)) s)) ;;
        s' <- cur ;; try_next_candidate dbg PreComposition (s_imode s') end) w2
    = match matching_keyword (cf_auto (x_cfg (w_ctx w1))) (ck_to (get_composite_key t)) with
      | None => ret tt
      | Some kw => modcur (fun s => set_converted_to_postfix kw (Nat.iter (length kw) (fun s => snd (st_delete s)) s)) ;;
        s' <- cur ;; try_next_candidate dbg PreComposition (s_imode s') end w2).
  { destruct H as (inner & z & _ & _ & ->). reflexivity. }
  rewrite E2. clear E2.
  destruct (matching_keyword (cf_auto (x_cfg (w_ctx w1))) (ck_to (get_composite_key t))) as [kw|] eqn:Ek; [|exact (conj eq_refl H)].
  apply rm_bind_at; [|intros _; apply rm_cur; intros; simp; auto with rmdb].
  apply rm_modcur_at; [exact H|]; intros s r' Es Hs; rewrite E in Es; injection Es as <- _.
  assert (Hc : s_cmode t = PreComposition) by (destruct (s_cmode t); cbn in Ec; congruence).
  assert (Hk : length kw <= length (s_comp t)).
  { apply find_some in Ek as [_ Ek]; apply andb_true_iff in Ek as [_ Ek]; apply suffix_length in Ek;
     unfold get_composite_key in Ek; unfold L in HL; destruct (s_use t && _); cbn in Ek; lia. }
  unfold pre at 1; rewrite (iter_pre _ _ _ Hc Hk); split; [unfold pre; cbn; destruct (auto_delete _ _ Hc Hk) as (_ & -> & _); reflexivity|].
  unfold L; cbn; apply (L_iter _ _ HL).
Qed.
Hint Resolve rm_auto : rmdb.
Lemma rm_input_converted dbg a b c d : rm (input_converted_kana dbg a b c d) (input_converted_kana dbg a b c d).
Proof. unfold input_converted_kana. rms. Qed.
Lemma rm_continuous k : rm (input_as_continuous_kana k) (input_as_continuous_kana k).
Proof. unfold input_as_continuous_kana. rms. Qed.
Lemma rm_abort : rm abort abort.
Proof.
  unfold abort, when. rms.
  apply (sf_comp clear_candidate_list (fun s => consolidate (clear_preconverted s))); auto with sfdb.
  apply (sf_comp consolidate clear_preconverted); auto with sfdb.
Qed.
Lemma rm_finish dbg : rm (finish_kana_input dbg) (finish_kana_input dbg).
Proof. unfold finish_kana_input. rms. Qed.
Hint Resolve rm_input_converted rm_continuous rm_abort rm_finish : rmdb.
Lemma rm_periods dbg a b c : rm (input_periods dbg a b c) (input_periods dbg a b c).
Proof. unfold input_periods. rms. Qed.
Lemma rm_direct_char dbg a b c d : rm (input_direct_char dbg a b c d) (input_direct_char dbg a b c d).
Proof. unfold input_direct_char. rms. Qed.
Hint Resolve rm_periods rm_direct_char : rmdb.
Lemma rm_unconverted dbg a b c d : rm (input_unconverted dbg a b c d) (input_unconverted dbg a b c d).
Proof. unfold input_unconverted. rms. Qed.
Hint Resolve rm_unconverted : rmdb.
Lemma rm_input_kana X dbg a b : rm (input_kana X dbg a b) (input_kana X dbg a b).
Proof. unfold input_kana. rms. Qed.
Lemma rm_plain X a : rm (input_plain X a) (input_plain X a).
Proof. unfold input_plain. rms. Qed.
Hint Resolve rm_input_kana rm_plain : rmdb.
Lemma rm_input_key X dbg k c u : rm (input_key X dbg k c u) (input_key X dbg k c u).
Proof. unfold input_key. rms. Qed.
Hint Resolve rm_input_key : rmdb.

(** ** commands *)
Definition unsafe_poll (x : instr) : bool :=
  match x with IClearKanaConvertedInputs | IPurge => true | _ => false end.
Definition is_delete (x : instr) : bool := match x with IDelete => true | _ => false end.
Lemma rm_instr dbg x c i : unsafe_poll x = false -> is_delete x = false -> rm (run_instr dbg x c i) (run_instr dbg x c i).
Proof.
  intros H1 H2. destruct x; try discriminate; unfold run_instr; cbv zeta;
    first [apply rm_confirm_direct | apply rm_bind; [apply rm_forward|intros; apply rm_ret] | rms].
  apply (sf_comp clear_candidate_list consolidate); auto with sfdb.
Qed.
(** Delete: related, or nothing was there to delete *)
Lemma rm_delete dbg c i w1 w2 : Rel w1 w2 ->
  out2 (run_instr dbg IDelete c i w1) (run_instr dbg IDelete c i w2) \/ exists w, run_instr dbg IDelete c i w1 = Ok (inr false, w).
Proof.
  intros H. unfold run_instr, bind, cur.
  destruct (rel_cases _ _ H) as [(t & E & HL & ->)|(s & inner & t & E & HL & Hr & ->)]; unfold modcur; rewrite E; cbn [set_stack w_ctx x_stack].
  - destruct (fst (st_delete t)) eqn:Ed; [left|right; rewrite E; eexists; reflexivity]. rewrite E. cbn [ret].
    assert (Hp : st_delete (pre t) = (true, pre (snd (st_delete t)))).
    { revert Ed. unfold st_delete. change (s_cmode (pre t)) with (s_cmode t). change (s_pre (pre t)) with (s_pre t).
      change (s_comp (pre t)) with (s_comp t). change (s_okuri (pre t)) with (s_okuri t).
      destruct (s_cmode t); cbn [fst snd]; try discriminate.
      - destruct (negb (is_nil (s_pre t))); cbn [fst snd]; [reflexivity|]. intros Ed.
        assert (Hne : s_conf t <> []) by (intros En; rewrite En in Ed; discriminate).
        unfold pre, str_pop. cbn [set_conf s_conf]. rewrite removelast_app by exact Hne.
        destruct (s_conf t) as [|x l]; [congruence|]. destruct p; reflexivity.
      - destruct (negb (is_nil (s_pre t))); cbn [fst snd]; [reflexivity|]. destruct (is_nil (s_comp t)); reflexivity.
      - destruct (negb (is_nil (s_pre t))); cbn.
        + destruct (is_nil (str_pop (s_pre t)) && is_nil (s_okuri t)); reflexivity.
        + intros ->. destruct (is_nil (s_pre t) && is_nil (str_pop (s_okuri t))); reflexivity.
      - destruct (negb (is_nil (s_pre t))); cbn [fst snd]; [reflexivity|]. destruct (is_nil (s_comp t)); reflexivity. }
    rewrite Hp. cbn [fst snd]. refine (conj eq_refl (rel_one (snd (st_delete t)) w1 _)). now apply L_delete.
  - left. rewrite E. refine (conj eq_refl (rel_more (snd (st_delete s) :: inner) t w1 _)). constructor; [now apply L_delete|exact Hr].
Qed.
Lemma rm_instrs dbg c i : forall l r w1 w2, forallb (fun x => negb (unsafe_poll x)) l = true -> Rel w1 w2 ->
  out2 (run_instrs dbg l c i r w1) (run_instrs dbg l c i r w2)
  \/ (existsb is_delete l = true /\ exists w, run_instrs dbg l c i r w1 = Ok (false, w)).
Proof.
  induction l as [|x l IH]; intros r w1 w2 Hl H; [left; exact (conj eq_refl H)|].
  cbn [forallb existsb] in *. apply andb_true_iff in Hl as [Hx Hl]. apply negb_true_iff in Hx.
  assert (G : out2 (run_instr dbg x c i w1) (run_instr dbg x c i w2) \/ (is_delete x = true /\ exists w, run_instr dbg x c i w1 = Ok (inr false, w))).
  { destruct (is_delete x) eqn:Ed; [|left; now apply rm_instr]. destruct x; try discriminate.
    destruct (rm_delete dbg c i w1 w2 H); auto. }
  cbn [run_instrs]. unfold bind. destruct G as [G|(Hd & w & ->)].
  - destruct (run_instr dbg x c i w1) as [[[u|b] w1']|]; destruct (run_instr dbg x c i w2) as [[[u'|b'] w2']|]; cbn in G;
      try tauto; try (destruct G as [G _]; discriminate).
    + destruct G as [_ G]. destruct (IH r w1' w2' Hl G) as [G'|[G1 G2]]; [auto|]. right. split; [|exact G2]. rewrite G1. apply orb_true_r.
    + left. destruct G as [[= ->] G]. exact (conj eq_refl G).
  - right. split; [now rewrite Hd|]. eexists; reflexivity.
Qed.
Lemma rm_select_at i : rm (select_candidate_at i) (select_candidate_at i).
Proof. unfold select_candidate_at. rms. apply (sf_comp clear_candidate_list consolidate); auto with sfdb. Qed.
Lemma rm_confirm_at i : rm (confirm_candidate_at i) (confirm_candidate_at i).
Proof.
  unfold confirm_candidate_at. apply rm_cur. intros s c Hs.
  replace (fst (set_candidate_pointer i (set_conf c s))) with (fst (set_candidate_pointer i s))
    by (unfold set_candidate_pointer; cbn [set_conf s_list]; destruct (cl_set_pointer i (s_list s)); reflexivity).
  rms.
Qed.
End Rel.
