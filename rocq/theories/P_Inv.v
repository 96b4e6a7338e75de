(** Invariants of the stack of frames over all histories of API calls. *)
From Verif Require Import Str Keys Modes KanaBuilder FormChanger DictTypes Parser Lru
  Dictionary CState Context Spec P_Monad P_Frames.

Section Inv.
Context (X : xkb) (dbg : bool).

(** What one API call can do. *)
Definition changes_rule (o : op) : bool := match o with OSetRule _ => true | _ => false end.
Definition changes_store (o : op) : bool := match o with OOther _ => true | _ => false end.
Definition step_rel_fl (fl : flags) (o : op) (w w' : world) : Prop :=
  wrel fl dbg w w' \/
  (x_stack (w_ctx w') = x_stack (w_ctx w) /\ (changes_store o = false -> w_store w' = w_store w) /\
   (changes_rule o = false -> x_kb (w_ctx w') = x_kb (w_ctx w) /\ x_cmd (w_ctx w') = x_cmd (w_ctx w))).
Definition op_allowed (fl : flags) (o : op) (w : world) : Prop :=
  match o with
  | OKey k => key_allowed fl dbg (x_cmd (w_ctx w)) k
  | OReset => fl_all fl
  | OPoll => fl_flush fl
  | OSetInputMode i => fl_imode fl i
  | _ => True
  end.
Notation step_rel := (step_rel_fl all_flags).
Lemma exec_step_fl fl o w : op_allowed fl o w -> x_stack (w_ctx w) <> [] ->
  wp not_empty_stack (exec X dbg o) (fun _ w' => step_rel_fl fl o w w') w.
Proof.
  intros Ha Hw.
  assert (H : forall A (m : M A) (f : A -> out), reaches fl dbg (x_kb (w_ctx w)) (x_cmd (w_ctx w)) m ->
    wp not_empty_stack (bind m (fun x => ret (f x))) (fun _ w' => step_rel_fl fl o w w') w).
  { intros A m f Hm. apply wp_bind. eapply wp_mono; [apply Hm; [split|]; auto|].
    intros a w' Hr; left; exact Hr. }
  destruct o; cbn [exec]; cbn in Ha; try (apply H).
  - apply r_key, Ha.
  - apply r_poll, Ha.
  - apply r_reset, Ha.
  - apply r_set_cmode.
  - apply r_set_imode, Ha.
  - apply r_select_at.
  - apply r_confirm_at.
  - right; auto.
  - right; auto.
  - right; auto.
  - right; repeat split; auto; discriminate.
  - right; auto.
  - right; repeat split; auto; discriminate.
Qed.
Lemma op_allowed_all o w : op_allowed all_flags o w.
Proof. destruct o; cbn; auto. apply all_allowed. Qed.
Lemma exec_step o w : x_stack (w_ctx w) <> [] ->
  wp not_empty_stack (exec X dbg o) (fun _ w' => step_rel o w w') w.
Proof. apply exec_step_fl, op_allowed_all. Qed.
Lemma step_nonempty fl o w w' : step_rel_fl fl o w w' -> x_stack (w_ctx w) <> [] -> x_stack (w_ctx w') <> [].
Proof.
  intros [H|(H & _)] Hw; [|congruence]. eapply srel_nonempty; [apply H|exact Hw].
Qed.

(** Induction over histories: [I] holds along every history if every step keeps it. *)
Lemma run_inv_fl fl (I : world -> Prop) (okop : op -> Prop) :
  (forall w, I w -> x_stack (w_ctx w) <> []) ->
  (forall o w, okop o -> I w -> op_allowed fl o w) ->
  (forall o w w' out, okop o -> I w -> exec X dbg o w = Ok (out, w') -> step_rel_fl fl o w w' -> I w') ->
  forall ops w outs w', Forall okop ops -> I w -> run X dbg ops w = Ok (outs, w') -> I w'.
Proof.
  intros Hne Hal Hstep. induction ops as [|o ops IH]; intros w outs w' Hok Hi H; cbn in H.
  - injection H as _ <-. exact Hi.
  - inversion Hok as [|? ? Ho Hops]; subst.
    unfold bind at 1 in H. pose proof (exec_step_fl fl o w (Hal o w Ho Hi) (Hne w Hi)) as He. unfold wp in He.
    destruct (exec X dbg o w) as [[x w1]|] eqn:E1; [|discriminate].
    unfold bind in H. destruct (run X dbg ops w1) as [[xs w2]|] eqn:E2; [|discriminate].
    injection H as _ <-. eapply IH; [exact Hops| |exact E2]. eapply Hstep; eauto.
Qed.
Lemma run_inv (I : world -> Prop) (okop : op -> Prop) :
  (forall w, I w -> x_stack (w_ctx w) <> []) ->
  (forall o w w', okop o -> I w -> step_rel o w w' -> I w') ->
  forall ops w outs w', Forall okop ops -> I w -> run X dbg ops w = Ok (outs, w') -> I w'.
Proof.
  intros Hne Hstep. apply (run_inv_fl all_flags); auto; [intros; apply op_allowed_all|].
  intros o w w' _ Ho Hi _ Hs. eapply Hstep; eauto.
Qed.
Lemma run_no_empty ops : forall w, x_stack (w_ctx w) <> [] ->
  run X dbg ops w <> Panic PanicEmptyStack.
Proof.
  induction ops as [|o ops IH]; intros w Hw H; cbn in H; [discriminate|].
  unfold bind at 1 in H. pose proof (exec_step o w Hw) as He. unfold wp in He.
  destruct (exec X dbg o w) as [[x w1]|e] eqn:E1; [|injection H as ->; now apply He].
  unfold bind in H. destruct (run X dbg ops w1) as [[xs w2]|e] eqn:E2; [discriminate|].
  injection H as ->. eapply IH; [|exact E2]. eapply step_nonempty; eauto.
Qed.
Lemma run_app ops1 : forall ops2 w outs1 w1,
  run X dbg ops1 w = Ok (outs1, w1) ->
  run X dbg (ops1 ++ ops2) w = match run X dbg ops2 w1 with
                               | Ok (o2, w2) => Ok (outs1 ++ o2, w2)
                               | Panic e => Panic e
                               end.
Proof.
  induction ops1 as [|o ops1 IH]; intros ops2 w outs1 w1 H; cbn in H |- *.
  - injection H as <- <-. destruct (run X dbg ops2 w) as [[? ?]|]; reflexivity.
  - unfold bind in *. destruct (exec X dbg o w) as [[x w']|]; [|discriminate].
    destruct (run X dbg ops1 w') as [[xs w2]|] eqn:E; [|discriminate].
    injection H as <- <-. rewrite (IH ops2 _ _ _ E).
    destruct (run X dbg ops2 w2) as [[? ?]|]; reflexivity.
Qed.

Lemma started_stack w : started X w -> exists i c, x_stack (w_ctx w) = [st_new i c].
Proof. intros (st & kf & am & ds & i & c & [[r ->]| ->]); cbn; eauto. Qed.

(* ------------------------------------------------------- bounds of the stack *)
Lemma sstep_length fl b l l' : sstep fl dbg b l l' -> 1 <= length l <= 10 -> 1 <= length l' <= 10.
Proof.
  intros H; inversion H; subst; cbn; unfold REGISTER_MODE_STACK_MAX in *; cbn in *; try lia.
  rewrite !app_length; cbn; lia.
Qed.
Lemma srel_length fl b l l' : srel fl dbg b l l' -> 1 <= length l <= 10 -> 1 <= length l' <= 10.
Proof. induction 1; eauto using sstep_length. Qed.
Lemma step_length fl o w w' : step_rel_fl fl o w w' ->
  1 <= length (x_stack (w_ctx w)) <= 10 -> 1 <= length (x_stack (w_ctx w')) <= 10.
Proof. intros [H|(H & _)]; [|rewrite H; auto]. eapply srel_length, H. Qed.
Lemma reachable_length w : reachable X dbg w -> 1 <= length (x_stack (w_ctx w)) <= 10.
Proof.
  intros (w0 & ops & outs & Hs & Hr).
  eapply (run_inv (fun w => 1 <= length (x_stack (w_ctx w)) <= 10) (fun _ => True));
    [..|exact Hr].
  - intros w1 H1 E; rewrite E in H1; cbn in H1; lia.
  - intros o w1 w2 _ H1 Hst. eapply step_length; eauto.
  - apply Forall_forall; auto.
  - destruct (started_stack _ Hs) as (i & c & ->); cbn; lia.
Qed.
Lemma reachable_nonempty w : reachable X dbg w -> x_stack (w_ctx w) <> [].
Proof. intros H E. apply reachable_length in H. rewrite E in H; cbn in H; lia. Qed.
Lemma reachable_step w ops outs w' : reachable X dbg w -> run X dbg ops w = Ok (outs, w') ->
  reachable X dbg w'.
Proof.
  intros (w0 & ops0 & outs0 & Hs & Hr) H. exists w0, (ops0 ++ ops), (outs0 ++ outs).
  split; [exact Hs|]. rewrite (run_app _ _ _ _ _ Hr), H. reflexivity.
Qed.

(* ------------------------------------------- invariants of single frames *)
Lemma sstep_forall fl b (P : cstate -> Prop) :
  (forall s s', astep fl dbg b s s' -> P s -> P s') -> P (st_new Hiragana Direct) ->
  (forall s, P s -> P (flush_confirmed s)) ->
  forall l l', sstep fl dbg b l l' -> Forall P l -> Forall P l'.
Proof.
  intros Ha Hn Hf l l' H Hl; inversion H; subst.
  - inversion Hl; subst; constructor; eauto.
  - inversion Hl; subst; constructor; [exact Hn|]. constructor; auto. eapply Ha; [|eauto]. constructor.
  - inversion Hl; subst; auto.
  - apply Forall_app in Hl as [H1 H2]. apply Forall_app; split; auto.
    inversion H2; subst. constructor; auto.
Qed.
Lemma srel_forall fl b (P : cstate -> Prop) :
  (forall s s', astep fl dbg b s s' -> P s -> P s') -> P (st_new Hiragana Direct) ->
  (forall s, P s -> P (flush_confirmed s)) ->
  forall l l', srel fl dbg b l l' -> Forall P l -> Forall P l'.
Proof. intros Ha Hn Hf l l' H; induction H; eauto using sstep_forall. Qed.
Lemma reachable_frames (P : cstate -> Prop) :
  (forall b s s', astep all_flags dbg b s s' -> P s -> P s') -> (forall i c, P (st_new i c)) ->
  (forall s, P s -> P (flush_confirmed s)) ->
  forall w, reachable X dbg w -> Forall P (x_stack (w_ctx w)).
Proof.
  intros Ha Hn Hf w (w0 & ops & outs & Hs & Hr).
  eapply (run_inv (fun w => Forall P (x_stack (w_ctx w)) /\ x_stack (w_ctx w) <> []) (fun _ => True));
    [..|exact Hr].
  - intros w1 [_ H]; exact H.
  - intros o w1 w2 _ [H1 Hne] Hst. split; [|eapply step_nonempty; eauto].
    destruct Hst as [H|(-> & _)]; [|exact H1].
    eapply srel_forall; [| | |apply H|exact H1]; eauto.
  - apply Forall_forall; auto.
  - destruct (started_stack _ Hs) as (i & c & ->). split; [repeat constructor; apply Hn|discriminate].
Qed.

(* -------------------------------------------------- C16: the mode history *)
Definition hist_ok (s : cstate) : Prop := length (s_hist s) <= 20.
Lemma hist_push m h : length h <= 20 -> length (push_history m h) <= 20.
Proof.
  intros H. unfold push_history. destruct (Nat.ltb_spec HISTORY_MAX (length (h ++ [m]))) as [Hl|Hl];
    unfold HISTORY_MAX in Hl.
  - destruct h; cbn in *; [lia|]. rewrite app_length; cbn; lia.
  - lia.
Qed.
Lemma removelast_len {A} (l : list A) : length (removelast l) <= length l.
Proof. induction l as [|x [|y l] IH]; cbn in *; lia. Qed.
Lemma st_delete_hist s : s_hist (snd (st_delete s)) = s_hist s.
Proof.
  unfold st_delete. destruct (s_cmode s); cbn; auto;
    destruct (negb (is_nil (s_pre s))); cbn; auto; repeat destruct (_ && _); cbn; auto;
    destruct (is_nil _); auto.
Qed.
Lemma iter_delete_hist n s : s_hist (Nat.iter n (fun s => snd (st_delete s)) s) = s_hist s.
Proof. induction n; cbn; auto. rewrite st_delete_hist; auto. Qed.
Lemma hist_astep fl b s s' : astep fl dbg b s s' -> hist_ok s -> hist_ok s'.
Proof.
  unfold hist_ok. intros H Hs; destruct H; cbn; auto.
  - apply hist_push, Hs.
  - unfold abort_to_previous_mode. destruct (last_opt (s_hist s)) as [[]|]; cbn; auto;
      etransitivity; [apply removelast_len|exact Hs| apply removelast_len|exact Hs
      | apply removelast_len|exact Hs| apply removelast_len|exact Hs| apply removelast_len|exact Hs
      | apply removelast_len|exact Hs| apply removelast_len|exact Hs].
  - lia.
  - lia.
  - destruct c; cbn; auto.
  - rewrite st_delete_hist; auto.
  - rewrite iter_delete_hist; auto.
  - unfold set_candidate_pointer. destruct (cl_set_pointer i (s_list s)); cbn; auto.
  - unfold st_forward in H. destruct (cl_forward dbg (s_list s)); cbn in H; [|discriminate].
    injection H as <-. cbn; auto.
Qed.
Lemma reachable_hist w : reachable X dbg w -> Forall hist_ok (x_stack (w_ctx w)).
Proof.
  apply reachable_frames; [intros; eapply hist_astep; eauto|intros; unfold hist_ok; cbn; lia|auto].
Qed.

(* ------------------------------------------------ C17: the candidate cursor *)
(** In every build: never beyond the number of candidates when there are some; with debug
    assertions also 0 when there are none. *)
Definition cursor_ok (l : clist) : Prop :=
  (cl_list l <> [] -> (cl_cur l <= cl_len l)%N) /\ (cl_list l = [] -> dbg = true -> cl_cur l = 0%N).
Lemma cl_len_nil (l : clist) : cl_len l = 0%N -> cl_list l = [].
Proof. unfold cl_len. destruct (cl_list l); cbn; [auto|lia]. Qed.
Lemma cursor_forward l l' : cl_forward dbg l = Ok l' ->
  cursor_ok l -> cursor_ok l'.
Proof.
  unfold cl_forward, cursor_ok, usize_sub, usize_add. intros H [H1 H2].
  destruct (N.leb_spec 1 (cl_len l)) as [Hl|Hl]; cbn in H.
  - destruct (N.ltb_spec (cl_cur l) (cl_len l - 1)) as [Hc|Hc];
      [|injection H as <-; split; auto].
    assert (Hne : cl_list l <> []) by (intros E; unfold cl_len in Hl; rewrite E in Hl; cbn in Hl; lia).
    destruct (N.ltb_spec (cl_cur l + 1) usize_mod) as [Hm|Hm]; cbn in H.
    + injection H as <-. cbn. unfold cl_len in *; cbn. split; intros; [lia|congruence].
    + destruct dbg; [discriminate|]. cbn in H. injection H as <-. cbn. unfold cl_len in *; cbn.
      split; intros; [|congruence]. etransitivity; [apply N.mod_le; unfold usize_mod; lia|]. lia.
  - assert (Hn : cl_list l = []) by (apply cl_len_nil; lia).
    destruct dbg; [discriminate|]. cbn in H.
    destruct (N.ltb _ _); [|injection H as <-; split; [congruence|intros; discriminate]].
    destruct (N.ltb _ _); cbn in H; injection H as <-; cbn; split; intros; discriminate || congruence.
Qed.
Lemma st_delete_list s : s_list (snd (st_delete s)) = s_list s.
Proof.
  unfold st_delete. destruct (s_cmode s); cbn; auto;
    destruct (negb (is_nil (s_pre s))); cbn; auto; repeat destruct (_ && _); cbn; auto;
    destruct (is_nil _); auto.
Qed.
Lemma cursor_nil k : cursor_ok (mkCL k 0 []).
Proof. split; cbn; auto; congruence. Qed.

Lemma iter_delete_list n s : s_list (Nat.iter n (fun s => snd (st_delete s)) s) = s_list s.
Proof. induction n; cbn; auto. rewrite st_delete_list; auto. Qed.
Lemma cursor_new : cursor_ok cl_new.
Proof. apply cursor_nil. Qed.
Lemma cursor_astep fl b s s' : astep fl dbg b s s' -> cursor_ok (s_list s) -> cursor_ok (s_list s').
Proof.
  intros H Hs; destruct H; cbn; try exact cursor_new; auto.
  - unfold abort_to_previous_mode. destruct (last_opt (s_hist s)) as [[]|]; cbn; auto.
  - destruct c; cbn; auto.
  - rewrite st_delete_list; auto.
  - rewrite iter_delete_list; auto.
  - split; cbn; [lia|auto].
  - split; cbn.
    + intros _. unfold cl_len; cbn. rewrite app_length. lia.
    + intros E _. rewrite E. reflexivity.
  - unfold set_candidate_pointer, cl_set_pointer.
    destruct (N.ltb_spec i (cl_len (s_list s))) as [Hl|Hl]; cbn; auto.
    split; cbn; [unfold cl_len in *; cbn; lia|].
    intros E _. unfold cl_len in Hl. rewrite E in Hl; cbn in Hl; lia.
  - unfold st_forward in H. destruct (cl_forward dbg (s_list s)) eqn:E; cbn in H; [|discriminate].
    injection H as <-. cbn. eapply cursor_forward; eauto.
  - unfold cl_backward. destruct (N.ltb_spec 0 (cl_cur (s_list s))); auto.
    destruct Hs as [H1 H2]. split; cbn; unfold cl_len in *; cbn.
    + intros Hn. specialize (H1 Hn). lia.
    + intros Hn Hd. specialize (H2 Hn Hd). lia.
Qed.
Lemma reachable_cursor w : reachable X dbg w ->
  Forall (fun s => cursor_ok (s_list s)) (x_stack (w_ctx w)).
Proof.
  apply (reachable_frames (fun s => cursor_ok (s_list s)));
    [intros; eapply cursor_astep; eauto|intros; apply cursor_nil|auto].
Qed.

(* ------------------------------------------- C28: read-only dictionaries *)
Lemma nth_error_update_nth {A} (f : A -> A) l : forall i j,
  nth_error (update_nth i f l) j = if Nat.eqb i j then option_map f (nth_error l j) else nth_error l j.
Proof.
  induction l as [|x l IH]; intros i j; cbn.
  - destruct i, j; cbn; try reflexivity; destruct (Nat.eqb _ _); reflexivity.
  - destruct i, j; cbn; auto.
Qed.
Lemma upd_dicts_read_only f ids : (forall d, read_only d -> f d = d) ->
  forall st i d, nth_error st i = Some d -> read_only d -> nth_error (upd_dicts ids f st) i = Some d.
Proof.
  intros Hf. unfold upd_dicts. induction ids as [|x ids IH]; intros st i d Hd Hr; cbn; auto.
  apply IH; auto. rewrite nth_error_update_nth, Hd. destruct (Nat.eqb x i); cbn; auto.
  now rewrite Hf.
Qed.
Lemma select_read_only c d : read_only d -> select_candidate d c = d.
Proof. unfold read_only, select_candidate. destruct (d_kind d); tauto. Qed.
Lemma purge_read_only k c d : read_only d -> purge_candidate d k c = d.
Proof. unfold read_only, purge_candidate. destruct (d_kind d); tauto. Qed.
Lemma drel_read_only ids st st' : drel ids st st' -> forall i d,
  nth_error st i = Some d -> read_only d -> nth_error st' i = Some d.
Proof.
  induction 1 as [|s1 s2 s3 _ IH Hs]; intros i d Hd Hr; auto.
  specialize (IH i d Hd Hr). destruct Hs; apply upd_dicts_read_only; auto;
    intros; [apply select_read_only|apply purge_read_only]; auto.
Qed.
Lemma upd_dicts_length f ids : forall st, length (upd_dicts ids f st) = length st.
Proof.
  unfold upd_dicts. induction ids as [|x ids IH]; intros st; cbn; auto. rewrite IH.
  clear. revert x; induction st; intros [|x]; cbn; auto.
Qed.
Lemma run_read_only ops w outs w' i d : x_stack (w_ctx w) <> [] ->
  Forall (fun o => changes_store o = false) ops ->
  run X dbg ops w = Ok (outs, w') -> dict_at i w = Some d -> read_only d -> dict_at i w' = Some d.
Proof.
  intros Hw Hops Hr Hd Hro.
  eapply (run_inv (fun w => x_stack (w_ctx w) <> [] /\ dict_at i w = Some d) (fun o => changes_store o = false));
    [..|exact Hr]; auto.
  - tauto.
  - intros o w1 w2 Ho [Hne H] Hst. split; [eapply step_nonempty; eauto|].
    destruct Hst as [Hst|(_ & Hst & _)].
    + eapply drel_read_only; [apply Hst|exact H|exact Hro].
    + unfold dict_at in *. now rewrite (Hst Ho).
Qed.
End Inv.
