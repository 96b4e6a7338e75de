(** C66: several threads, each with its own context, over shared dictionaries, interleaved at
    every single dictionary access. *)
From Verif Require Import Str Keys Modes KanaBuilder FormChanger DictTypes Parser Lru
  Dictionary CState Context DefaultRule Demo Spec P_Monad P_Frames P_Inv T_Entry Multi Fine P_FineAlone P_Fine.
From Verif Require T_Frames.

Lemma Forall_update {A} (P : A -> Prop) n x l : Forall P l -> P x -> Forall P (update_nth n (fun _ => x) l).
Proof.
  intros H Hx. revert n. induction H as [|y l Hy Hl IH]; intros [|n]; cbn; constructor; auto.
Qed.
Lemma sched_app X dbg l1 l2 y : sched X dbg (l1 ++ l2) y = sched X dbg l2 (sched X dbg l1 y).
Proof. apply fold_left_app. Qed.

Section T.
Context (X : xkb) (dbg : bool).
Lemma f_exec_step fl o c : op_allowed dbg fl o (mkW [] c) -> x_stack c <> [] ->
  pall not_empty_stack (may fl (x_dicts c)) (fun r => step_rel_fl dbg fl o (mkW [] c) (mkW [] (snd r))) (f_exec X dbg o c).
Proof.
  intros Ha Hc.
  assert (H : forall A (m : F A) (f : A -> out), freaches fl dbg (x_kb c) (x_cmd c) (x_dicts c) m ->
    pall not_empty_stack (may fl (x_dicts c)) (fun r => step_rel_fl dbg fl o (mkW [] c) (mkW [] (snd r)))
      (f_bind m (fun x => f_ret (f x)) c)).
  { intros A m f Hm. apply pall_bind. eapply pall_mono; [apply (Hm c); [repeat split|exact Hc]|].
    intros [a c'] Hr. left. exact Hr. }
  destruct o; cbn [f_exec]; cbn in Ha; try (apply H).
  - apply fr_key, Ha.
  - apply fr_poll, Ha.
  - apply fr_reset, Ha.
  - apply fr_set_cmode.
  - apply fr_set_imode, Ha.
  - apply fr_select_at.
  - apply fr_confirm_at.
  - right; auto.
  - right; auto.
  - right; auto.
  - right; repeat split; auto; discriminate.
  - right; auto.
  - right; auto.
Qed.

(* ------------------------------------------- invariants over all schedules *)
Section G.
Context (Ic : ctx -> Prop) (ok : op -> Prop) (E : reason -> Prop) (V : nat -> access -> Prop)
  (SP : list dict -> Prop).
Context (Hop : forall o c, ok o -> Ic c -> pall E V (fun r => Ic (snd r)) (f_exec X dbg o c)).
Context (HV : forall i a, V i a -> forall d, exists x d', guarded a d = Ok (x, d')).
Context (HS : forall i a x d st, V i a -> SP st -> guarded a (nth i st empty_dict) = Ok (x, d) ->
  SP (update_nth i (fun _ => d) st)).
Definition tinv (t : thread) : Prop :=
  Ic (t_ctx t) /\ Forall ok (t_todo t) /\
  match t_phase t with
  | Idle => True
  | Running p => pall E V (fun r => Ic (snd r)) p
  | Holding i a k => V i a /\ forall x, pall E V (fun r => Ic (snd r)) (k x)
  | Dead r => E r
  end.
Definition sinv (y : sys) : Prop := y_poisoned y = [] /\ Forall tinv (y_threads y) /\ SP (y_store y).
Lemma tinv_phase t p : tinv t ->
  match p with
  | Idle => True
  | Running p => pall E V (fun r => Ic (snd r)) p
  | Holding i a k => V i a /\ forall x, pall E V (fun r => Ic (snd r)) (k x)
  | Dead r => E r
  end -> tinv (set_phase p t).
Proof. intros (H1 & H2 & _) H. repeat split; assumption. Qed.
Lemma tstep_inv n y : sinv y -> sinv (tstep X dbg n y).
Proof.
  intros (Hp & Ht & Hs). unfold tstep. destruct (nth_error (y_threads y) n) as [t|] eqn:En; [|repeat split; assumption].
  assert (Hi : tinv t) by (rewrite Forall_forall in Ht; eapply Ht, nth_error_In, En).
  assert (Hset : forall t', tinv t' -> sinv (set_thread n t' y)).
  { intros t' H'. split; [exact Hp|split; [|exact Hs]]. now apply Forall_update. }
  pose proof Hi as (Hc & Hok & Hph). destruct (t_phase t) as [|p|i a k|r] eqn:Eph.
  - destruct (t_todo t) as [|o r] eqn:Eo; [repeat split; assumption|]. apply Hset, tinv_phase; [exact Hi|].
    apply Hop; [|exact Hc]. now inversion Hok.
  - destruct p as [[x c]|r|i a k].
    + apply Hset. split; [exact Hph|]. split; [|exact I]. cbn. destruct Hok; [constructor|assumption].
    + apply Hset, tinv_phase; [exact Hi|exact Hph].
    + destruct (locked i y); [repeat split; assumption|]. rewrite Hp. cbn [existsb].
      apply Hset, tinv_phase; [exact Hi|exact Hph].
  - destruct Hph as [Hv Hk]. destruct (HV i a Hv (nth i (y_store y) empty_dict)) as (x & d & Eg). rewrite Eg.
    split; [exact Hp|split; [|eapply HS; eauto]]. apply Forall_update; [exact Ht|]. apply tinv_phase; [exact Hi|apply Hk].
  - repeat split; assumption.
Qed.
Lemma sched_inv l : forall y, sinv y -> sinv (sched X dbg l y).
Proof. induction l as [|n l IH]; intros y H; [exact H|]. apply IH, tstep_inv, H. Qed.
Lemma launch_inv st ts : SP st -> (forall c ops, In (c, ops) ts -> Ic c /\ Forall ok ops) -> sinv (launch st ts).
Proof.
  intros Hs H. split; [reflexivity|split; [|exact Hs]]. cbn. apply Forall_forall. intros t Ht.
  apply in_map_iff in Ht as ([c ops] & <- & Hin). destruct (H c ops Hin). repeat split; assumption.
Qed.
End G.
End T.

(* -------------------------------------------------------------- the contexts *)
(** The contexts of the threads are fresh, the calls are arbitrary. *)
Definition fresh (X : xkb) (c : ctx) : Prop := started X (mkW [] c).
Definition fresh_threads (X : xkb) (ts : list (ctx * list op)) : Prop :=
  forall c ops, In (c, ops) ts -> fresh X c.
Definition frame_ok (dbg : bool) (s : cstate) : Prop :=
  length (s_hist s) <= 20 /\
  ((candidate_count s <> 0)%N -> (cursor s <= candidate_count s)%N) /\
  (candidate_count s = 0%N -> dbg = true -> cursor s = 0%N).
Definition Ic_frames (dbg : bool) (c : ctx) : Prop :=
  1 <= length (x_stack c) <= 10 /\ Forall (fun s => hist_ok s /\ cursor_ok dbg (s_list s)) (x_stack c).
Lemma frames_exec X dbg o c : Ic_frames dbg c ->
  pall not_empty_stack (may all_flags (x_dicts c)) (fun r => Ic_frames dbg (snd r)) (f_exec X dbg o c).
Proof.
  intros [Hl Hf]. eapply pall_mono; [apply (f_exec_step X dbg all_flags)|].
  - apply op_allowed_all.
  - intros E. rewrite E in Hl. cbn in Hl. lia.
  - intros [x c'] Hr. cbn in Hr |- *. split; [exact (step_length dbg all_flags o (mkW [] c) (mkW [] c') Hr Hl)|].
    destruct Hr as [H|(E & _)]; [|cbn in E; rewrite E; exact Hf].
    apply (srel_forall dbg all_flags (x_kb c) (fun s => hist_ok s /\ cursor_ok dbg (s_list s))) with (l := x_stack c).
    + intros s s' Ha [H1 H2]. split; [eapply hist_astep; eauto|eapply cursor_astep; eauto].
    + split; [unfold hist_ok; cbn; lia|apply cursor_nil].
    + intros s [H1 H2]. split; [exact H1|exact H2].
    + apply H.
    + exact Hf.
Qed.
Definition polite (i : nat) (a : access) : Prop :=
  match a with ALookup k | AComplete k => proper k | _ => True end.
Lemma may_polite fl ids i a : may fl ids i a -> polite i a.
Proof. intros [_ H]. destruct a; cbn in *; auto. Qed.
Lemma polite_guarded i a : polite i a -> forall d, exists x d', guarded a d = Ok (x, d').
Proof. intros H. apply (may_guarded all_flags [i] i). split; [now left|]. destruct a; cbn in *; auto. Qed.
Lemma fresh_frames X dbg c : fresh X c -> Ic_frames dbg c.
Proof.
  intros H. destruct (started_stack X _ H) as (i & m & E). cbn in E. unfold Ic_frames. rewrite E. cbn. split; [lia|].
  repeat constructor; cbn; unfold hist_ok, cursor_ok; cbn; try lia; auto.
Qed.
Lemma frames_sched X dbg st ts l : fresh_threads X ts ->
  sinv (Ic_frames dbg) (fun _ => True) not_empty_stack polite (fun _ => True) (sched X dbg l (launch st ts)).
Proof.
  intros Hf. apply sched_inv.
  - intros o c _ Hc. eapply pall_weaken; [| |apply frames_exec, Hc]; [auto|intros i a; apply may_polite].
  - intros i a H. now apply (polite_guarded i).
  - auto.
  - apply launch_inv; [exact I|]. intros c ops Hin. split; [eapply fresh_frames, Hf, Hin|apply Forall_forall; auto].
Qed.
(** C02, C16 and C17 at every point of every schedule. *)
Theorem C66_frames : forall X dbg st ts l t, fresh_threads X ts ->
  In t (y_threads (sched X dbg l (launch st ts))) ->
  1 <= length (get_preedit_detail X (t_ctx t)) <= 10 /\ Forall (frame_ok dbg) (x_stack (t_ctx t)).
Proof.
  intros X dbg st ts l t Hf Hin. pose proof (frames_sched X dbg st ts l Hf) as (_ & Ht & _).
  rewrite Forall_forall in Ht. destruct (Ht t Hin) as ([Hl Hfr] & _). split.
  - unfold get_preedit_detail. now rewrite map_length, rev_length.
  - eapply Forall_impl; [|exact Hfr]. intros s [H1 [H2 H3]]. split; [exact H1|]. unfold candidate_count, cursor. split.
    + intros Hc. apply H2. intros E. rewrite E in Hc. cbn in Hc. lia.
    + intros Hc. apply H3. destruct (cl_list (s_list s)); [reflexivity|cbn in Hc; lia].
Qed.
(** A panic never happens while a dictionary is locked: whatever happens to one thread, no
    dictionary becomes unusable for the others. *)
Theorem C66_never_poisoned : forall X dbg st ts l, fresh_threads X ts ->
  y_poisoned (sched X dbg l (launch st ts)) = []
  /\ forall t, In t (y_threads (sched X dbg l (launch st ts))) -> t_phase t <> Dead PanicEmptyStack.
Proof.
  intros X dbg st ts l Hf. pose proof (frames_sched X dbg st ts l Hf) as (Hp & Ht & _). split; [exact Hp|].
  intros t Hin E. rewrite Forall_forall in Ht. destruct (Ht t Hin) as (_ & _ & H). rewrite E in H. now apply H.
Qed.

(* -------------------------------------------------------------- the dictionaries *)
(** What a guarded section makes of the dictionary. *)
Definition after (a : access) (d : dict) : dict :=
  match a with ASelect c => select_candidate d c | APurge k c => purge_candidate d k c | _ => d end.
Lemma guarded_after a d x d' : guarded a d = Ok (x, d') -> d' = after a d.
Proof.
  destruct a; cbn; [| |congruence|congruence].
  - destruct (lookup d k); cbn; congruence.
  - destruct (if d_completable d then complete d k else Ok []); cbn; congruence.
Qed.
(** The guarded sections of dictionary [j], of thread [n], in order. *)
Definition on_dict (j : nat) (log : list (nat * nat * access)) : list access :=
  map snd (filter (fun e => Nat.eqb (snd (fst e)) j) log).
Definition of_thread (n : nat) (log : list (nat * nat * access)) : list (nat * access) :=
  map (fun e => (snd (fst e), snd e)) (filter (fun e => Nat.eqb (fst (fst e)) n) log).
Lemma on_dict_app j a b : on_dict j (a ++ b) = on_dict j a ++ on_dict j b.
Proof. unfold on_dict. now rewrite filter_app, map_app. Qed.
Lemma of_thread_app j a b : of_thread j (a ++ b) = of_thread j a ++ of_thread j b.
Proof. unfold of_thread. now rewrite filter_app, map_app. Qed.
Definition replay (l : list access) (d : dict) : dict := fold_left (fun d a => after a d) l d.
Lemma tstep_log X dbg n y : exists more, y_log (tstep X dbg n y) = y_log y ++ more
  /\ forall j, nth_error (y_store (tstep X dbg n y)) j
     = option_map (replay (on_dict j more)) (nth_error (y_store y) j).
Proof.
  assert (Hsame : forall y', y_log y' = y_log y -> y_store y' = y_store y -> exists more, y_log y' = y_log y ++ more
    /\ forall j, nth_error (y_store y') j = option_map (replay (on_dict j more)) (nth_error (y_store y) j)).
  { intros y' -> ->. exists []. rewrite app_nil_r. split; [reflexivity|]. intros j. destruct (nth_error _ j); reflexivity. }
  unfold tstep. destruct (nth_error (y_threads y) n) as [t|] eqn:En; [|now apply Hsame].
  destruct (t_phase t) as [|[[x c]|r|i a k]|i a k|r]; try (now apply Hsame).
  - destruct (t_todo t); now apply Hsame.
  - destruct (locked i y); [now apply Hsame|]. destruct (existsb _ _); now apply Hsame.
  - destruct (guarded a _) as [[x d]|r] eqn:Eg; [|now apply Hsame].
    exists [(n, i, a)]. split; [reflexivity|]. intros j. cbn [y_store]. rewrite nth_error_update_nth.
    unfold on_dict. cbn [filter fst snd]. destruct (Nat.eqb_spec i j) as [->|Hne].
    + destruct (nth_error (y_store y) j) as [d0|] eqn:Ed; [|reflexivity]. cbn. f_equal.
      rewrite (nth_error_nth _ _ _ Ed) in Eg. now apply guarded_after in Eg.
    + cbn. destruct (nth_error (y_store y) j); reflexivity.
Qed.
(** No update is lost and none happens twice: at every point a dictionary is what its guarded
    sections, one after the other, made of what it was. *)
Theorem C66_no_lost_update : forall X dbg l y, exists more,
  y_log (sched X dbg l y) = y_log y ++ more
  /\ forall j, nth_error (y_store (sched X dbg l y)) j
     = option_map (replay (on_dict j more)) (nth_error (y_store y) j).
Proof.
  intros X dbg l. induction l as [|n l IH]; intros y.
  - exists []. rewrite app_nil_r. split; [reflexivity|]. intros j. cbn. destruct (nth_error _ j); reflexivity.
  - destruct (tstep_log X dbg n y) as (m1 & E1 & S1). destruct (IH (tstep X dbg n y)) as (m2 & E2 & S2).
    exists (m1 ++ m2). change (sched X dbg (n :: l) y) with (sched X dbg l (tstep X dbg n y)). split.
    + now rewrite E2, E1, <- app_assoc.
    + intros j. rewrite S2, S1. destruct (nth_error (y_store y) j) as [d|]; [|reflexivity]. cbn. f_equal.
      unfold replay. now rewrite on_dict_app, fold_left_app.
Qed.
(** Read-only dictionaries stay exactly as they are. *)
Theorem C66_read_only : forall X dbg l y j d, nth_error (y_store y) j = Some d -> read_only d ->
  nth_error (y_store (sched X dbg l y)) j = Some d.
Proof.
  intros X dbg l y j d Hd Hr. destruct (C66_no_lost_update X dbg l y) as (more & _ & H). rewrite H, Hd. cbn. f_equal.
  unfold replay. induction (on_dict j more) as [|a r IH]; [reflexivity|]. cbn.
  replace (after a d) with d; [exact IH|]. destruct a; cbn; [reflexivity|reflexivity| |].
  - symmetry. now apply select_read_only.
  - symmetry. now apply purge_read_only.
Qed.

(* --------------------------------------------------- the calls of each thread *)
(** The accesses a program can make, with some answers, on its way to a result. *)
Inductive trace {A} : prog A -> list (nat * access) -> A -> Prop :=
| tr_done a : trace (Done a) [] a
| tr_acc i a k x l r : trace (k x) l r -> trace (Acc i a k) ((i, a) :: l) r.
(** Calls made one after the other by a context, with their answers and accesses. *)
Inductive calls (X : xkb) (dbg : bool) : ctx -> list (op * out) -> list (nat * access) -> ctx -> Prop :=
| calls_none c : calls X dbg c [] [] c
| calls_more c made l c1 o x l1 c2 : calls X dbg c made l c1 -> trace (f_exec X dbg o c1) l1 (x, c2) ->
    calls X dbg c (made ++ [(o, x)]) (l ++ l1) c2.
(** A program that has made the accesses [l] and goes on as [q]. *)
Inductive part {A} : prog A -> list (nat * access) -> prog A -> Prop :=
| pt_none p : part p [] p
| pt_more p l i a k x : part p l (Acc i a k) -> part p (l ++ [(i, a)]) (k x).
Lemma part_trace {A} (p : prog A) l q : part p l q -> forall l' r, trace q l' r -> trace p (l ++ l') r.
Proof.
  induction 1 as [p|p l i a k x H IH]; intros l' r Hr; [exact Hr|]. rewrite <- app_assoc. cbn.
  apply IH. now apply tr_acc with (x := x).
Qed.
Section O.
Context (X : xkb) (dbg : bool) (n : nat).
(** Where thread [n] is, seen from a point where it was between two calls with the context [c],
    had made the calls [m0] and gone through the guarded sections [l0], with [ops] to do. *)
Definition whereabouts (c : ctx) (m0 : list (op * out)) (l0 : list (nat * access)) (ops : list op)
    (log : list (nat * nat * access)) (t : thread) : Prop :=
  exists made l, t_made t = m0 ++ made /\ calls X dbg c made l (t_ctx t) /\ ops = map fst made ++ t_todo t /\
  match t_phase t with
  | Idle => of_thread n log = l0 ++ l
  | Running p => exists o r l1, t_todo t = o :: r /\ part (f_exec X dbg o (t_ctx t)) l1 p /\ of_thread n log = l0 ++ l ++ l1
  | Holding i a k => exists o r l1, t_todo t = o :: r /\ part (f_exec X dbg o (t_ctx t)) l1 (Acc i a k) /\ of_thread n log = l0 ++ l ++ l1
  | Dead _ => exists l1, of_thread n log = l0 ++ l ++ l1
  end.
Definition is_where (c : ctx) (m0 : list (op * out)) (l0 : list (nat * access)) (ops : list op) (y : sys) : Prop :=
  exists t, nth_error (y_threads y) n = Some t /\ whereabouts c m0 l0 ops (y_log y) t.
Lemma where_set c m0 l0 ops y m t t' : is_where c m0 l0 ops y -> nth_error (y_threads y) m = Some t ->
  (whereabouts c m0 l0 ops (y_log y) t -> whereabouts c m0 l0 ops (y_log y) t') -> is_where c m0 l0 ops (set_thread m t' y).
Proof.
  intros (s & Hs & H) En Ht. cbn. unfold is_where. cbn [set_thread y_threads y_log]. rewrite nth_error_update_nth.
  destruct (Nat.eqb_spec m n) as [->|Hne]; [|now exists s].
  rewrite En. cbn. exists t'. split; [reflexivity|]. apply Ht. congruence.
Qed.
Lemma where_step c m0 l0 ops m y : is_where c m0 l0 ops y -> is_where c m0 l0 ops (tstep X dbg m y).
Proof.
  intros H. unfold tstep. destruct (nth_error (y_threads y) m) as [t|] eqn:En; [|exact H].
  destruct (t_phase t) as [|[[x c1]|r|i a k]|i a k|r] eqn:Ep; [| | | | |exact H].
  - destruct (t_todo t) as [|o r] eqn:Eo; [exact H|]. eapply where_set; [exact H|exact En|].
    intros (made & l & H0 & H1 & H2 & H3). rewrite Ep in H3. exists made, l. split; [exact H0|]. split; [exact H1|]. split; [exact H2|]. cbn.
    exists o, r, []. split; [exact Eo|]. split; [constructor|]. now rewrite app_nil_r.
  - eapply where_set; [exact H|exact En|]. intros (made & l & H0 & H1 & H2 & H3). rewrite Ep in H3.
    destruct H3 as (o & r & l1 & H3 & H4 & H5). rewrite H3 in *. unfold whereabouts. cbn [t_made t_ctx t_todo t_phase tl].
    exists (made ++ [(o, x)]), (l ++ l1). split; [now rewrite H0, app_assoc|]. split; [|split; [|exact H5]].
    + apply (calls_more X dbg c made l (t_ctx t) o x l1 c1 H1).
      replace l1 with (l1 ++ []) by apply app_nil_r. eapply part_trace; [exact H4|constructor].
    + rewrite map_app, <- app_assoc. exact H2.
  - eapply where_set; [exact H|exact En|]. intros (made & l & H0 & H1 & H2 & H3). rewrite Ep in H3.
    destruct H3 as (o & r1 & l1 & H3 & H4 & H5). exists made, l. split; [exact H0|]. split; [exact H1|]. split; [exact H2|]. now exists l1.
  - destruct (locked i y); [exact H|]. destruct (existsb _ _); (eapply where_set; [exact H|exact En|]);
      intros (made & l & H0 & H1 & H2 & H3); exists made, l; (split; [exact H0|]); (split; [exact H1|]); (split; [exact H2|]); rewrite Ep in H3.
    + destruct H3 as (o & r1 & l1 & H3 & H4 & H5). now exists l1.
    + exact H3.
  - destruct H as (s & Hs & H). destruct (guarded a _) as [[x d]|r] eqn:Eg; unfold is_where; cbn [y_threads y_log];
      rewrite nth_error_update_nth; (destruct (Nat.eqb_spec m n) as [->|Hne]).
    + rewrite En. cbn. eexists. split; [reflexivity|]. assert (s = t) as -> by congruence.
      destruct H as (made & l & H0 & H1 & H2 & H3). rewrite Ep in H3.
      destruct H3 as (o & r & l1 & H3 & H4 & H5). exists made, l. split; [exact H0|]. split; [exact H1|]. split; [exact H2|]. cbn.
      exists o, r, (l1 ++ [(i, a)]). split; [exact H3|]. split; [now constructor|].
      rewrite of_thread_app, H5. unfold of_thread. cbn. rewrite Nat.eqb_refl. cbn. now rewrite !app_assoc.
    + exists s. split; [exact Hs|]. destruct H as (made & l & H0 & H1 & H2 & H3). exists made, l.
      split; [exact H0|]. split; [exact H1|]. split; [exact H2|].
      assert (Eo : of_thread n (y_log y ++ [(m, i, a)]) = of_thread n (y_log y)).
      { rewrite of_thread_app. unfold of_thread at 2. cbn [filter fst snd]. apply Nat.eqb_neq in Hne. rewrite Hne. apply app_nil_r. }
      rewrite Eo. exact H3.
    + rewrite En. cbn. eexists. split; [reflexivity|]. assert (s = t) as -> by congruence.
      destruct H as (made & l & H0 & H1 & H2 & H3). rewrite Ep in H3. destruct H3 as (o & r1 & l1 & H3 & H4 & H5).
      exists made, l. split; [exact H0|]. split; [exact H1|]. split; [exact H2|]. now exists l1.
    + now exists s.
Qed.
Lemma where_sched c m0 l0 ops l : forall y, is_where c m0 l0 ops y -> is_where c m0 l0 ops (sched X dbg l y).
Proof. induction l as [|m l IH]; intros y H; [exact H|]. apply IH, where_step, H. Qed.
End O.
(** From a point between two calls of a thread to another such point, whatever the schedule,
    the thread has made the next calls in order, and the guarded sections it went through are
    exactly those of these calls, in order: each update of each call once. *)
Theorem C66_calls_in_order : forall X dbg l y n t t',
  nth_error (y_threads y) n = Some t -> t_phase t = Idle ->
  nth_error (y_threads (sched X dbg l y)) n = Some t' -> t_phase t' = Idle ->
  exists made accesses, calls X dbg (t_ctx t) made accesses (t_ctx t')
    /\ t_made t' = t_made t ++ made /\ t_todo t = map fst made ++ t_todo t'
    /\ of_thread n (y_log (sched X dbg l y)) = of_thread n (y_log y) ++ accesses.
Proof.
  intros X dbg l y n t t' Ht Hp Ht' Hp'.
  assert (H : is_where X dbg n (t_ctx t) (t_made t) (of_thread n (y_log y)) (t_todo t) y).
  { exists t. split; [exact Ht|]. exists [], []. rewrite !app_nil_r, Hp. repeat split. constructor. }
  apply (where_sched X dbg n _ _ _ _ l) in H as (t2 & Ht2 & made & l1 & H0 & H1 & H2 & H3).
  assert (t2 = t') as -> by congruence. rewrite Hp' in H3. exists made, l1. now repeat split.
Qed.

(* ----------------------------------------------------------- without interference *)
Lemma update_twice {A} n (x y : A) l : update_nth n (fun _ => y) (update_nth n (fun _ => x) l) = update_nth n (fun _ => y) l.
Proof. revert n. induction l as [|z l IH]; intros [|n]; cbn; try reflexivity. now rewrite IH. Qed.
Definition nobody_locks (y : sys) : Prop := forall i, locked i y = false.
Lemma nobody_update n t' l : (forall i, existsb (holds_lock i) l = false) -> (forall i, holds_lock i t' = false) ->
  forall i, existsb (holds_lock i) (update_nth n (fun _ => t') l) = false.
Proof.
  intros H1 H2 i. revert n. specialize (H1 i). induction l as [|x l IH]; intros [|n]; cbn in *; try reflexivity;
    apply orb_false_iff in H1 as [Hx Hl].
  - now rewrite H2, Hl.
  - now rewrite Hx, IH.
Qed.
Lemma run_alone X dbg n : forall p y t x c st, nth_error (y_threads y) n = Some t -> t_phase t = Running p ->
  nobody_locks y -> y_poisoned y = [] -> alone p (y_store y) = Ok ((x, c), st) ->
  exists k more, sched X dbg (repeat n k) y
  = mkSys st (update_nth n (fun _ => mkThread c (tl (t_todo t))
        (t_made t ++ match t_todo t with o :: _ => [(o, x)] | [] => [] end) Idle) (y_threads y)) [] (y_log y ++ more).
Proof.
  induction p as [[x0 c0]|r|i a k IH]; intros y t x c st En Ep Hn Hp Ha.
  - cbn in Ha. injection Ha as -> -> <-. exists 1, []. cbn. unfold tstep. rewrite En, Ep. unfold set_thread.
    now rewrite Hp, app_nil_r.
  - discriminate.
  - cbn in Ha. destruct (guarded a (nth i (y_store y) empty_dict)) as [[z d]|r] eqn:Eg; [|discriminate].
    set (t1 := set_phase (Running (k z)) t).
    set (y1 := mkSys (update_nth i (fun _ => d) (y_store y)) (update_nth n (fun _ => t1) (y_threads y)) [] (y_log y ++ [(n, i, a)])).
    assert (Hlen : n < length (y_threads y)) by (apply nth_error_Some; congruence).
    assert (En1 : forall t', nth_error (update_nth n (fun _ => t') (y_threads y)) n = Some t').
    { intros t'. now rewrite nth_error_update_nth, Nat.eqb_refl, En. }
    assert (Hy1 : tstep X dbg n (tstep X dbg n y) = y1).
    { unfold tstep at 2. rewrite En, Ep, (Hn i), Hp. cbn [existsb]. unfold tstep, set_thread. cbn [y_threads].
      rewrite En1. cbn [t_phase set_phase y_store]. rewrite Eg. cbn [y_threads y_poisoned y_log]. rewrite update_twice, Hp. reflexivity. }
    destruct (IH z y1 t1 x c st) as (m & more & E).
    + subst y1. cbn. apply En1.
    + reflexivity.
    + intros j. unfold locked. subst y1. cbn [y_threads]. apply nobody_update; [exact Hn|]. intros j'. reflexivity.
    + reflexivity.
    + exact Ha.
    + exists (2 + m), ([(n, i, a)] ++ more). change (sched X dbg (repeat n (2 + m)) y)
        with (sched X dbg (repeat n m) (tstep X dbg n (tstep X dbg n y))). rewrite Hy1, E.
      subst y1 t1. cbn [y_threads y_log t_todo t_made set_phase]. now rewrite update_twice, <- app_assoc.
Qed.
(** A call during which no other thread moves (and no other holds a lock) does exactly what it
    does in the model of single calls, on which the other theorems rest. *)
Theorem C66_uninterrupted : forall X dbg y n t o rest x w', nth_error (y_threads y) n = Some t ->
  t_phase t = Idle -> t_todo t = o :: rest -> (forall st, o <> OOther st) ->
  nobody_locks y -> y_poisoned y = [] ->
  exec X dbg o (mkW (y_store y) (t_ctx t)) = Ok (x, w') ->
  exists k more, sched X dbg (repeat n k) y
  = mkSys (w_store w') (update_nth n (fun _ => mkThread (w_ctx w') rest (t_made t ++ [(o, x)]) Idle) (y_threads y))
          [] (y_log y ++ more).
Proof.
  intros X dbg y n t o rest x w' En Ep Eo Ho Hn Hp He.
  pose proof (alone_exec X dbg o (mkW (y_store y) (t_ctx t)) Ho) as Ha. rewrite He in Ha. cbn [w_ctx w_store] in Ha.
  set (t1 := set_phase (Running (f_exec X dbg o (t_ctx t))) t).
  destruct (run_alone X dbg n (f_exec X dbg o (t_ctx t)) (set_thread n t1 y) t1 x (w_ctx w') (w_store w')) as (k & more & E).
  - cbn. now rewrite nth_error_update_nth, Nat.eqb_refl, En.
  - reflexivity.
  - intros j. unfold locked. cbn [set_thread y_threads]. apply nobody_update; [exact Hn|]. intros j'. reflexivity.
  - exact Hp.
  - exact Ha.
  - exists (S k), more. assert (E1 : tstep X dbg n y = set_thread n t1 y) by (unfold tstep; rewrite En, Ep, Eo; reflexivity).
    change (sched X dbg (repeat n (S k)) y) with (sched X dbg (repeat n k) (tstep X dbg n y)).
    rewrite E1, E. subst t1. cbn [set_thread y_threads y_log t_todo t_made set_phase]. rewrite Eo. cbn [tl].
    now rewrite update_twice.
Qed.
