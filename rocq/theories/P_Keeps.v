(** Invariants with different conditions on the current frame and on the outer frames. *)
From Verif Require Import Str Keys Modes KanaBuilder FormChanger DictTypes Parser Lru
  Dictionary CState Context P_Monad.

Definition any_panic (r : reason) : Prop := True.
Section Keeps.
(** [T]: the current frame, [O]: the outer frames, [C]: the context apart from the frames. *)
Context (T O : cstate -> Prop) (C : ctx -> Prop).
Definition stk (w : world) : Prop :=
  C (w_ctx w) /\ exists s r, x_stack (w_ctx w) = s :: r /\ T s /\ Forall O r.
Definition keeps {A} (m : M A) : Prop := forall w, stk w -> wp any_panic m (fun _ => stk) w.
(** [C] does not look at the frames *)
Context (HC : forall w l, C (w_ctx w) -> C (w_ctx (set_stack l w))).

Lemma keeps_ret {A} (a : A) : keeps (ret a).
Proof. intros w Hw. exact Hw. Qed.
Lemma keeps_bind {A B} (m : M A) (f : A -> M B) :
  keeps m -> (forall a, keeps (f a)) -> keeps (bind m f).
Proof.
  intros Hm Hf w Hw. apply wp_bind. eapply wp_mono; [apply Hm, Hw|].
  intros a w' Hw'. apply Hf, Hw'.
Qed.
Lemma keeps_cur_then {A} (f : cstate -> M A) :
  (forall s, T s -> keeps (f s)) -> keeps (bind cur f).
Proof.
  intros Hf w Hw. destruct (Hw) as (_ & s & r & Hs & Ht & _). apply wp_bind, wp_cur; [|congruence].
  intros s' r' Hs'. assert (s' = s) as -> by congruence. apply Hf; auto.
Qed.
(** with the knowledge that the state read is still the current one *)
Lemma keeps_cur_at {A} (f : cstate -> M A) :
  (forall s w, T s -> stk w -> (exists r, x_stack (w_ctx w) = s :: r) -> wp any_panic (f s) (fun _ => stk) w) ->
  keeps (bind cur f).
Proof.
  intros Hf w Hw. destruct (Hw) as (_ & s & r & Hs & Ht & _). apply wp_bind, wp_cur; [|congruence].
  intros s' r' Hs'. assert (s' = s) as -> by congruence. apply Hf; eauto.
Qed.
Lemma keeps_get_then {A} (f : world -> M A) :
  (forall w0, C (w_ctx w0) -> keeps (f w0)) -> keeps (bind get f).
Proof. intros Hf w Hw. apply wp_bind, wp_get. apply Hf; auto. apply Hw. Qed.
Lemma keeps_lift {A} (r : res A) : keeps (lift r).
Proof. intros w Hw. apply wp_lift; [intros; exact Hw|intros; exact I]. Qed.
Lemma keeps_lift_then {A B} (r : res A) (f : A -> M B) :
  (forall a, r = Ok a -> keeps (f a)) -> keeps (bind (lift r) f).
Proof.
  intros H w Hw. apply wp_bind, wp_lift; [|intros; exact I]. intros a Ha. apply H; auto.
Qed.
Lemma stk_set_top w s r s' : stk w -> x_stack (w_ctx w) = s :: r -> (T s -> T s') ->
  stk (set_stack (s' :: r) w).
Proof.
  intros (Hc & s0 & r0 & Hs & Ht & Ho) Hs' Hf. assert (s0 = s /\ r0 = r) as [-> ->] by (split; congruence).
  split; [now apply HC|]. exists s', r. auto.
Qed.
Lemma keeps_modcur f : (forall s, T s -> T (f s)) -> keeps (modcur f).
Proof.
  intros Hf w Hw. apply wp_modcur; [|intros; exact I]. intros s r Hs. eapply stk_set_top; eauto.
Qed.
Lemma keeps_modcur_w (F : world -> cstate -> cstate) :
  (forall w s, C (w_ctx w) -> T s -> T (F w s)) -> keeps (fun w => modcur (F w) w).
Proof.
  intros Hf w Hw. unfold wp. apply (wp_modcur any_panic (F w) (fun _ => stk) w); [|intros; exact I].
  intros s r Hs. eapply stk_set_top; eauto. apply Hf, Hw.
Qed.
Lemma wp_modcur_const s' w s : stk w -> (exists r, x_stack (w_ctx w) = s :: r) -> (T s -> T s') ->
  wp any_panic (modcur (fun _ => s')) (fun _ => stk) w.
Proof.
  intros Hw [r Hs] Hf. apply wp_modcur; [|intros; exact I]. intros s0 r0 H0.
  assert (s0 = s) as -> by congruence. eapply stk_set_top; eauto.
Qed.
Lemma keeps_for f : keeps (for_dicts f).
Proof. intros w Hw. apply wp_for_dicts. exact Hw. Qed.
Lemma wp_keeps_bind {A B} (m : M A) (f : A -> M B) w :
  wp any_panic m (fun _ => stk) w -> (forall a, keeps (f a)) -> wp any_panic (bind m f) (fun _ => stk) w.
Proof.
  intros Hm Hf. apply wp_bind. eapply wp_mono; [exact Hm|]. intros a w' Hw'. apply Hf, Hw'.
Qed.
Lemma keeps_enter p :
  (forall s, T s -> O (change_from_old_mode Register p s)) -> T (st_new Hiragana Direct) ->
  keeps (enter_register_mode p).
Proof.
  intros Hp Hn w Hw. unfold wp, enter_register_mode.
  destruct (Nat.ltb _ _); [|exact Hw].
  destruct Hw as (Hc & s & r & Hs & Ht & Ho). rewrite Hs.
  split; [now apply HC|]. exists (st_new Hiragana Direct), (change_from_old_mode Register p s :: r).
  repeat split; auto.
Qed.
Lemma keeps_poll : (forall s, T s -> T (flush_confirmed s)) -> (forall s, O s -> O (flush_confirmed s)) ->
  keeps poll_output.
Proof.
  intros Ht Ho w Hw. unfold wp, poll_output. destruct Hw as (Hc & s & r & Hs & Hts & Hor).
  destruct (rev (x_stack (w_ctx w))) as [|t l] eqn:Er; [exact I|].
  destruct (is_nil (s_conf t)); [split; eauto|].
  split; [now apply HC|]. rewrite Hs in Er. cbn.
  apply (f_equal (@rev _)) in Er. rewrite rev_involutive in Er. cbn in Er.
  destruct (rev l) as [|s1 l1] eqn:El; cbn in Er |- *.
  - injection Er as -> ->. exists (flush_confirmed t), []. auto.
  - injection Er as -> ->. exists s1, (l1 ++ [flush_confirmed t]). repeat split; auto.
    apply Forall_app in Hor as [H1 H2]. apply Forall_app. split; auto.
    inversion H2; subst; constructor; auto.
Qed.
End Keeps.
