(** C66 continued: mutual exclusion, and no waiting forever. *)
From Verif Require Import Str Keys Modes KanaBuilder FormChanger DictTypes Parser Lru
  Dictionary CState Context DefaultRule Demo Spec P_Inv Multi Fine P_FineAlone P_Fine T_Fine.

(* ---------------------------------------------------------- mutual exclusion *)
Definition in_section (t : thread) (i : nat) : Prop := exists a k, t_phase t = Holding i a k.
Definition exclusive (y : sys) : Prop := forall n m t u i,
  nth_error (y_threads y) n = Some t -> nth_error (y_threads y) m = Some u ->
  in_section t i -> in_section u i -> n = m.
Lemma unlocked i y : locked i y = false -> forall n t, nth_error (y_threads y) n = Some t -> ~ in_section t i.
Proof.
  intros H n t Ht (a & k & E). assert (Hl : locked i y = true).
  { apply existsb_exists. exists t. split; [eapply nth_error_In, Ht|]. unfold holds_lock. rewrite E. apply Nat.eqb_refl. }
  congruence.
Qed.
Lemma exclusive_set st po lg n t y : exclusive y ->
  (forall i, in_section t i -> forall m u, m <> n -> nth_error (y_threads y) m = Some u -> ~ in_section u i) ->
  exclusive (mkSys st (update_nth n (fun _ => t) (y_threads y)) po lg).
Proof.
  intros H Ht a b ta tb i Ha Hb Ia Ib. cbn in Ha, Hb. rewrite nth_error_update_nth in Ha, Hb.
  destruct (Nat.eqb_spec n a) as [E1|Na]; destruct (Nat.eqb_spec n b) as [E2|Nb]; [congruence| | |eapply H; eauto].
  - destruct (nth_error (y_threads y) a); [|discriminate]. cbn in Ha. injection Ha as <-.
    exfalso. eapply (Ht i Ia b); eauto.
  - destruct (nth_error (y_threads y) b); [|discriminate]. cbn in Hb. injection Hb as <-.
    exfalso. eapply (Ht i Ib a); eauto.
Qed.
Lemma exclusive_step X dbg n y : exclusive y -> exclusive (tstep X dbg n y).
Proof.
  intros H. unfold tstep. destruct (nth_error (y_threads y) n) as [t|] eqn:En; [|exact H].
  assert (Hq : forall t' st po lg, (forall i, ~ in_section t' i) ->
    exclusive (mkSys st (update_nth n (fun _ => t') (y_threads y)) po lg)).
  { intros t' st po lg Hn. apply exclusive_set; [exact H|]. intros i Hi. now apply Hn in Hi. }
  unfold set_thread. destruct (t_phase t) as [|[[x c]|r|i a k]|i a k|r] eqn:Ep.
  - destruct (t_todo t); [exact H|]. apply Hq. intros i (a & k & E). discriminate.
  - apply Hq. intros i (a & k & E). discriminate.
  - apply Hq. intros i (a & k & E). discriminate.
  - destruct (locked i y) eqn:El; [exact H|]. destruct (existsb _ _).
    + apply Hq. intros j (a0 & k0 & E). discriminate.
    + apply exclusive_set; [exact H|]. intros j (a0 & k0 & E) m u _ Hu. cbn in E. injection E as -> _ _.
      eapply unlocked; eauto.
  - destruct (guarded a _) as [[x d]|r]; apply Hq; intros j (a0 & k0 & E); discriminate.
  - exact H.
Qed.
(** No two threads are ever inside guarded sections of the same dictionary. *)
Theorem C66_mutual_exclusion : forall X dbg st ts l n m t u i,
  nth_error (y_threads (sched X dbg l (launch st ts))) n = Some t ->
  nth_error (y_threads (sched X dbg l (launch st ts))) m = Some u ->
  in_section t i -> in_section u i -> n = m.
Proof.
  intros X dbg st ts l. assert (H : exclusive (launch st ts)).
  { intros n m t u i Ht _ (a & k & E) _. cbn in Ht. apply nth_error_In, in_map_iff in Ht as (x & <- & _). discriminate. }
  revert H. generalize (launch st ts). induction l as [|n l IH]; intros y H; [exact H|]. apply (IH (tstep X dbg n y)), exclusive_step, H.
Qed.

(* ------------------------------------------------------------ nobody waits forever *)
(** A thread has made all its calls, or has panicked. *)
Definition finished (t : thread) : Prop :=
  match t_phase t with Idle => t_todo t = [] | Dead _ => True | _ => False end.
Definition finishedb (t : thread) : bool :=
  match t_phase t with Idle => is_nil (t_todo t) | Dead _ => true | _ => false end.
Lemma finishedb_spec t : finishedb t = true <-> finished t.
Proof. unfold finishedb, finished. destruct (t_phase t); split; try tauto; try discriminate; destruct (t_todo t); try discriminate; auto. Qed.
(** [f k] is the thread chosen by the operating system at step [k]; each of the [count] threads
    is chosen again and again. *)
Definition fair (count : nat) (f : nat -> nat) : Prop :=
  forall n, n < count -> forall k, exists k', k <= k' /\ f k' = n.
Definition first_steps (f : nat -> nat) (k : nat) : list nat := map f (seq 0 k).

(** The steps of a thread. *)
Inductive tnext : thread -> thread -> Prop :=
| n_start c o r m p : tnext (mkThread c (o :: r) m (Running p)) (mkThread c (o :: r) m Idle)
| n_end c c' td m m' z : tnext (mkThread c' (tl td) m' Idle) (mkThread c td m (Running (Done z)))
| n_dead c td m p r : p <> Idle -> (forall r, p <> Dead r) -> tnext (mkThread c td m (Dead r)) (mkThread c td m p)
| n_lock c td m i a k : tnext (mkThread c td m (Holding i a k)) (mkThread c td m (Running (Acc i a k)))
| n_unlock c td m i a k x : tnext (mkThread c td m (Running (k x))) (mkThread c td m (Holding i a k)).
Lemma acc_dead c td m r : Wf.Acc tnext (mkThread c td m (Dead r)).
Proof. constructor. intros t H. inversion H; subst. congruence. Qed.
Lemma acc_running td : (forall c m, Wf.Acc tnext (mkThread c (tl td) m Idle)) ->
  forall p c m, Wf.Acc tnext (mkThread c td m (Running p)).
Proof.
  intros Ht. induction p as [z|r|i a k IH]; intros c m; constructor; intros t H; inversion H; subst; try apply acc_dead.
  - apply Ht.
  - constructor. intros t' H'. inversion H'; subst; [apply acc_dead|]. apply IH.
Qed.
Lemma acc_idle td : forall c m, Wf.Acc tnext (mkThread c td m Idle).
Proof.
  induction td as [|o r IH]; intros c m; constructor; intros t H; inversion H; subst; try congruence.
  apply (acc_running (o :: r)). exact IH.
Qed.
Lemma acc_thread t : Wf.Acc tnext t.
Proof.
  destruct t as [c td m [|p|i a k|r]]; [apply acc_idle| | |apply acc_dead].
  - apply acc_running. intros. apply acc_idle.
  - constructor. intros t H. inversion H; subst; [apply acc_dead|]. apply acc_running. intros. apply acc_idle.
Qed.
(** One of several threads makes a step. *)
Inductive lnext : list thread -> list thread -> Prop :=
| l_here t t' l : tnext t' t -> lnext (t' :: l) (t :: l)
| l_there t l l' : lnext l' l -> lnext (t :: l') (t :: l).
Lemma acc_list l : Wf.Acc lnext l.
Proof.
  induction l as [|t l IH]; [constructor; intros l' H; inversion H|].
  revert t. induction IH as [l _ IHl]. intros t. induction (acc_thread t) as [t _ IHt].
  constructor. intros l' H. inversion H; subst; [now apply IHt|]. apply IHl. assumption.
Qed.
Lemma lnext_update n t t' l : nth_error l n = Some t -> tnext t' t -> lnext (update_nth n (fun _ => t') l) l.
Proof.
  revert n. induction l as [|x l IH]; intros [|n] Hn Ht; cbn in Hn; try discriminate.
  - injection Hn as ->. now constructor.
  - cbn. constructor. now apply IH.
Qed.
Lemma tstep_next X dbg n y : tstep X dbg n y = y \/ lnext (y_threads (tstep X dbg n y)) (y_threads y).
Proof.
  unfold tstep. destruct (nth_error (y_threads y) n) as [t|] eqn:En; [|now left].
  assert (H : forall t' st po lg, tnext t' t -> lnext (y_threads (mkSys st (update_nth n (fun _ => t') (y_threads y)) po lg)) (y_threads y)).
  { intros. cbn. eapply lnext_update; eauto. }
  unfold set_thread, set_phase. destruct t as [c td m p]. cbn [t_phase t_todo t_ctx t_made].
  destruct p as [|[[x c1]|r|i a k]|i a k|r].
  - destruct td; [now left|right; apply H; constructor].
  - right. apply H. constructor.
  - right. apply H. constructor; discriminate.
  - destruct (locked i y); [now left|]. right. destruct (existsb _ _); apply H; constructor; discriminate.
  - right. destruct (guarded a _) as [[x d]|r]; apply H; constructor; discriminate.
  - now left.
Qed.
Lemma step_length_threads X dbg n y : length (y_threads (tstep X dbg n y)) = length (y_threads y).
Proof.
  destruct (tstep_next X dbg n y) as [->|H]; [reflexivity|]. induction H; cbn; auto.
Qed.
(** Somebody can always go on. *)
Lemma somebody_moves X dbg y : (exists t, In t (y_threads y) /\ ~ finished t) ->
  exists n, n < length (y_threads y) /\ lnext (y_threads (tstep X dbg n y)) (y_threads y).
Proof.
  intros (t & Hin & Hf).
  destruct (existsb (fun t => match t_phase t with Holding _ _ _ => true | _ => false end) (y_threads y)) eqn:Eh.
  - apply existsb_exists in Eh as (h & Hh & Ep). apply In_nth_error in Hh as (n & Hn). exists n.
    split; [apply nth_error_Some; congruence|]. unfold tstep. rewrite Hn. destruct h as [c td m p]. cbn in Ep |- *.
    destruct p as [|p|i a k|r]; try discriminate.
    destruct (guarded a _) as [[x d]|r]; cbn; (eapply lnext_update; [exact Hn|]); constructor; discriminate.
  - assert (Hl : forall i, locked i y = false).
    { intros i. unfold locked. destruct (existsb (holds_lock i) (y_threads y)) eqn:E; [|reflexivity].
      apply existsb_exists in E as (h & Hh & E). assert (Hx : existsb (fun t => match t_phase t with Holding _ _ _ => true | _ => false end) (y_threads y) = true).
      { apply existsb_exists. exists h. split; [exact Hh|]. unfold holds_lock in E. destruct (t_phase h); auto; discriminate. }
      congruence. }
    apply In_nth_error in Hin as (n & Hn). exists n. split; [apply nth_error_Some; congruence|].
    unfold tstep. rewrite Hn. destruct t as [c td m p]. unfold finished in Hf. cbn in Hf |- *.
    destruct p as [|[[x c1]|r|i a k]|i a k|r]; [| | | | |tauto].
    + destruct td; [congruence|]. cbn. eapply lnext_update; [exact Hn|]. constructor.
    + cbn. eapply lnext_update; [exact Hn|]. constructor.
    + cbn. eapply lnext_update; [exact Hn|]. constructor; discriminate.
    + rewrite Hl. clear Eh. destruct (existsb _ _); cbn; (eapply lnext_update; [exact Hn|]); constructor; discriminate.
    + destruct (guarded a _) as [[x d]|r]; cbn; (eapply lnext_update; [exact Hn|]); constructor; discriminate.
Qed.
Lemma eventually_moves X dbg f n y : lnext (y_threads (tstep X dbg n y)) (y_threads y) ->
  forall d k, f (k + d) = n -> exists m, lnext (y_threads (sched X dbg (map f (seq k m)) y)) (y_threads y).
Proof.
  intros Hn. induction d as [|d IH]; intros k Hk.
  - exists 1. cbn. rewrite Nat.add_0_r in Hk. now rewrite Hk.
  - destruct (tstep_next X dbg (f k) y) as [E|E]; [|now exists 1].
    destruct (IH (S k)) as (m & Hm); [now rewrite <- Hk; f_equal; lia|]. exists (S m). cbn. now rewrite E.
Qed.
Lemma sched_length X dbg l : forall y, length (y_threads (sched X dbg l y)) = length (y_threads y).
Proof. induction l as [|n l IH]; intros y; [reflexivity|]. change (sched X dbg (n :: l) y) with (sched X dbg l (tstep X dbg n y)). rewrite IH. apply step_length_threads. Qed.
Lemma all_finish X dbg f count : fair count f -> forall ts, Wf.Acc lnext ts -> forall y k, y_threads y = ts -> length ts = count ->
  exists m, forall t, In t (y_threads (sched X dbg (map f (seq k m)) y)) -> finished t.
Proof.
  intros Hfair ts Ha. induction Ha as [ts _ IH]. intros y k Ey Hlen.
  destruct (forallb finishedb ts) eqn:Ef.
  - exists 0. cbn. intros t Ht. apply finishedb_spec. rewrite forallb_forall in Ef. apply Ef. now rewrite <- Ey.
  - destruct (somebody_moves X dbg y) as (n & Hn & Hm).
    { rewrite Ey. clear -Ef. induction ts as [|t ts IH]; [discriminate|]. cbn in Ef. destruct (finishedb t) eqn:Et.
      - destruct (IH Ef) as (u & Hu & Hf). exists u. split; [now right|exact Hf].
      - exists t. split; [now left|]. intros H. apply finishedb_spec in H. congruence. }
    destruct (Hfair n ltac:(rewrite <- Hlen, <- Ey; exact Hn) k) as (k' & Hk & Hf).
    destruct (eventually_moves X dbg f n y Hm (k' - k) k) as (m1 & H1); [now replace (k + (k' - k)) with k' by lia|].
    rewrite Ey in H1. destruct (IH _ H1 (sched X dbg (map f (seq k m1)) y) (k + m1) eq_refl) as (m2 & H2).
    + rewrite sched_length, Ey. exact Hlen.
    + exists (m1 + m2). intros t. rewrite seq_app, map_app, sched_app. apply H2.
Qed.
Lemma finished_stays X dbg l : forall y, (forall t, In t (y_threads y) -> finished t) -> sched X dbg l y = y.
Proof.
  induction l as [|n l IH]; intros y H; [reflexivity|]. cbn. assert (E : tstep X dbg n y = y).
  { unfold tstep. destruct (nth_error (y_threads y) n) as [t|] eqn:En; [|reflexivity].
    specialize (H t (nth_error_In _ _ En)). unfold finished in H. destruct (t_phase t); try tauto. now rewrite H. }
  rewrite E. now apply IH.
Qed.
(** However the operating system schedules the threads, as long as it does not abandon one,
    after finitely many steps all calls of all threads are over: no deadlock, no livelock, no
    starvation. *)
Theorem C66_no_waiting_forever : forall X dbg st ts f, fair (length ts) f ->
  exists k, forall k', k <= k' -> forall t,
    In t (y_threads (sched X dbg (first_steps f k') (launch st ts))) -> finished t.
Proof.
  intros X dbg st ts f Hf.
  destruct (all_finish X dbg f (length ts) Hf _ (acc_list _) (launch st ts) 0 eq_refl) as (k & Hk).
  - cbn. apply map_length.
  - exists k. intros k' Hle t. unfold first_steps. replace k' with (k + (k' - k)) by lia.
    rewrite seq_app, map_app, sched_app, (finished_stays X dbg _ _ Hk). apply Hk.
Qed.
