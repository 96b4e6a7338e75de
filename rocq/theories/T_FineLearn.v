(** C66 continued: what threads learn. *)
From Coq Require Import Permutation.
From Verif Require Import Str Keys Modes KanaBuilder FormChanger DictTypes Parser Lru
  Dictionary CState Context DefaultRule Demo Spec P_Monad P_Frames P_Inv P_Confirmed T_Entry Multi Fine P_FineAlone P_Fine T_Fine.
From Verif Require T_Frames.

(* ------------------------------------------------------- nothing is forgotten *)
(** The keys [K] never run the purge command under this rule. *)
Definition never_purges (K : keyev -> Prop) (cr : command_rule) : Prop :=
  forall k, K k -> ~ key_runs cr k IPurge.
(** Threads that type only such keys and switch only to such rules. *)
Definition calls_spare (K : keyev -> Prop) (o : op) : Prop :=
  match o with OKey k => K k | OSetRule r => never_purges K (r_command r) | _ => True end.
Definition sparing (K : keyev -> Prop) (ts : list (ctx * list op)) : Prop :=
  forall c ops, In (c, ops) ts -> never_purges K (x_cmd c) /\ Forall (calls_spare K) ops.
Definition keeps_texts (d d' : dict) : Prop :=
  forall ari m o t, In t (texts (listed d ari m o)) -> In t (texts (listed d' ari m o)).
Definition keeps_all (st st' : list dict) : Prop :=
  forall j d, nth_error st j = Some d -> exists d', nth_error st' j = Some d' /\ keeps_texts d d'.
Definition no_purge_flags : flags := mkFlags False True True True (fun _ => True).
Definition unpurging (i : nat) (a : access) : Prop :=
  polite i a /\ match a with APurge _ _ => False | _ => True end.
Lemma may_unpurging ids i a : may no_purge_flags ids i a -> unpurging i a.
Proof. intros H. split; [eapply may_polite, H|]. destruct H as [_ H]. destruct a; cbn in *; auto. Qed.
Definition Ic_spare (K : keyev -> Prop) (c : ctx) : Prop := x_stack c <> [] /\ never_purges K (x_cmd c).
Lemma spare_exec X dbg K o c : calls_spare K o -> Ic_spare K c ->
  pall not_empty_stack unpurging (fun r => Ic_spare K (snd r)) (f_exec X dbg o c).
Proof.
  intros Ho [Hne Hc].
  assert (H : op_allowed dbg no_purge_flags o (mkW [] c) -> changes_rule o = false ->
    pall not_empty_stack unpurging (fun r => Ic_spare K (snd r)) (f_exec X dbg o c)).
  { intros Ha Hr. eapply pall_weaken; [| |eapply pall_mono; [apply (f_exec_step X dbg no_purge_flags o c Ha Hne)|]];
      [auto|intros i a; apply may_unpurging|].
    intros [x c'] H. split; [eapply (step_nonempty dbg no_purge_flags o (mkW [] c) (mkW [] c')); [exact H|exact Hne]|]. cbn [snd].
    destruct H as [H|(_ & _ & H)].
    - destruct H as [(E & _) _ _]. cbn in E. now rewrite E.
    - destruct (H Hr) as [_ E]. cbn in E. now rewrite E. }
  destruct o; try (apply H; [exact I|reflexivity]).
  - apply H; [|reflexivity]. cbn in *. apply key_runs_allowed. intros x Hx.
    destruct x; cbn; auto. exact (Hc k Ho Hx).
  - cbn [f_exec]. unfold f_bind, f_reset_state_stack. destruct (rev (x_stack c)) eqn:Er; cbn.
    + apply (f_equal (@length _)) in Er. rewrite rev_length in Er. destruct (x_stack c); [congruence|discriminate].
    + split; [cbn; discriminate|exact Hc].
  - cbn. split; [exact Hne|exact Ho].
Qed.
Lemma select_keeps d c : keeps_texts d (select_candidate d c).
Proof.
  intros ari m o t Ht. destruct (d_kind d) as [e|e h|] eqn:Ek.
  - rewrite select_read_only; [exact Ht|]. unfold read_only. now rewrite Ek.
  - rewrite listed_select by (unfold user; now rewrite Ek). destruct (_ && _ && _); [|exact Ht].
    destruct (prioritize_front c (listed d ari m o)) as [(_ & ->)|(x & _ & _ & _ & Hp)]; [now right|].
    unfold texts in *. apply in_map_iff in Ht as (y & <- & Hy). apply in_map. eapply Permutation_in; eauto.
  - rewrite select_read_only; [exact Ht|]. unfold read_only. now rewrite Ek.
Qed.
Lemma after_keeps i a d : unpurging i a -> keeps_texts d (after a d).
Proof. intros [_ H]. destruct a; cbn; try tauto; try (intros ari m o t Ht; exact Ht). apply select_keeps. Qed.
Lemma keeps_all_refl st : keeps_all st st.
Proof. intros j d Hd. exists d. split; [exact Hd|intros ari m o t H; exact H]. Qed.
Lemma keeps_all_update st0 st i a x d : unpurging i a -> keeps_all st0 st ->
  guarded a (nth i st empty_dict) = Ok (x, d) -> keeps_all st0 (update_nth i (fun _ => d) st).
Proof.
  intros Ha H Hg j d0 Hd. destruct (H j d0 Hd) as (d1 & H1 & H2). rewrite nth_error_update_nth.
  destruct (Nat.eqb_spec i j) as [->|Hne]; [|now exists d1]. rewrite H1. cbn. exists d. split; [reflexivity|].
  apply guarded_after in Hg. rewrite (nth_error_nth _ _ _ H1) in Hg. subst d.
  intros ari m o t Ht. eapply after_keeps; [exact Ha|]. now apply H2.
Qed.
(** Unless somebody purges, a word some thread has taught a dictionary (or that was there from
    the start) stays in it, whatever the other threads confirm or register at the same time. *)
Theorem C66_nothing_forgotten : forall X dbg K st ts l1 l2 j d ari m o t,
  fresh_threads X ts -> sparing K ts ->
  nth_error (y_store (sched X dbg l1 (launch st ts))) j = Some d -> In t (texts (listed d ari m o)) ->
  exists d', nth_error (y_store (sched X dbg (l1 ++ l2) (launch st ts))) j = Some d'
          /\ In t (texts (listed d' ari m o)).
Proof.
  intros X dbg K st ts l1 l2 j d ari m o t Hf Hs Hd Ht. rewrite sched_app.
  assert (Hi : forall SP : list dict -> Prop,
    (forall i a x d st, unpurging i a -> SP st -> guarded a (nth i st empty_dict) = Ok (x, d) -> SP (update_nth i (fun _ => d) st)) ->
    forall l y, sinv (Ic_spare K) (calls_spare K) not_empty_stack unpurging SP y ->
    sinv (Ic_spare K) (calls_spare K) not_empty_stack unpurging SP (sched X dbg l y)).
  { intros SP HSP l. apply sched_inv; [|intros i a [H _]; now apply (polite_guarded i)|exact HSP].
    intros op c. apply spare_exec. }
  assert (H1 : sinv (Ic_spare K) (calls_spare K) not_empty_stack unpurging (fun _ => True) (sched X dbg l1 (launch st ts))).
  { apply Hi; [auto|]. apply launch_inv; [exact I|]. intros c ops Hin. destruct (Hs c ops Hin). split; [|assumption].
    split; [|assumption]. destruct (started_stack X _ (Hf c ops Hin)) as (i & md & E). cbn in E. rewrite E. discriminate. }
  set (y1 := sched X dbg l1 (launch st ts)) in *.
  assert (H2 : sinv (Ic_spare K) (calls_spare K) not_empty_stack unpurging (keeps_all (y_store y1)) (sched X dbg l2 y1)).
  { apply Hi; [intros i a x d0 st0; apply keeps_all_update|]. destruct H1 as (E1 & E2 & _). split; [exact E1|split; [exact E2|apply keeps_all_refl]]. }
  destruct H2 as (_ & _ & H2). destruct (H2 j d Hd) as (d' & E & H). exists d'. split; [exact E|]. now apply H.
Qed.

(* --------------------------------------------------------- what was confirmed is there *)
(** [c] is among the candidates the dictionary has for its reading. *)
Definition learnt (c : candidate) (d : dict) : Prop :=
  forall o, o = [] \/ c_strict c = Some o -> In (c_kouho c) (texts (listed d (c_okuri c) (c_midashi c) o)).
Section L.
Context (X : xkb) (dbg : bool) (Ic : ctx -> Prop) (ok : op -> Prop) (E : reason -> Prop)
  (V : nat -> access -> Prop) (SP : list dict -> Prop).
Definition log_ok (log : list (nat * nat * access)) : Prop := Forall (fun e => V (snd (fst e)) (snd e)) log.
Lemma tstep_log_ok n y : Forall (tinv Ic ok E V) (y_threads y) -> log_ok (y_log y) -> log_ok (y_log (tstep X dbg n y)).
Proof.
  intros Ht H. unfold tstep. destruct (nth_error (y_threads y) n) as [t|] eqn:En; [|exact H].
  rewrite Forall_forall in Ht. destruct (Ht t (nth_error_In _ _ En)) as (_ & _ & Hp).
  destruct (t_phase t) as [|[[x c]|r|i a k]|i a k|r]; try exact H.
  - destruct (t_todo t); exact H.
  - destruct (locked i y); [exact H|]. destruct (existsb _ _); exact H.
  - destruct (guarded a _) as [[x d]|r]; [|exact H]. cbn [y_log]. apply Forall_app. split; [exact H|].
    constructor; [apply Hp|constructor].
Qed.
End L.
Lemma trace_bind {A B} (p : prog A) (f : A -> prog B) l r : trace (pbind p f) l r ->
  exists a l1 l2, trace p l1 a /\ trace (f a) l2 r /\ l = l1 ++ l2.
Proof.
  revert l. induction p as [a|e|i a k IH]; cbn; intros l H.
  - exists a, [], l. repeat split; [constructor|exact H].
  - inversion H.
  - inversion H as [|? ? ? x l0 ? Hk]; subst. destruct (IH _ _ Hk) as (a' & l1 & l2 & H1 & H2 & ->).
    exists a', ((i, a) :: l1), l2. repeat split; [exact (tr_acc i a k x l1 a' H1)|exact H2].
Qed.
Lemma trace_done {A} (a : A) l r : trace (Done a) l r -> l = [] /\ r = a.
Proof. inversion 1. auto. Qed.
Lemma trace_each a ids l r : trace (f_each a ids) l r -> l = map (fun i => (i, a)) ids.
Proof.
  revert l. induction ids as [|i ids IH]; cbn; intros l H; inversion H; subst; [reflexivity|]. f_equal. now apply IH.
Qed.
Lemma calls_head X dbg c o x made l c2 : calls X dbg c ((o, x) :: made) l c2 ->
  exists l1 l2 c1, trace (f_exec X dbg o c) l1 (x, c1) /\ l = l1 ++ l2.
Proof.
  remember ((o, x) :: made) as mm eqn:Em. intros H. revert o x made Em.
  induction H as [c|c made0 l c1 o1 x1 l1 c2 H IH Ht]; intros o x made Em; [discriminate|].
  destruct made0 as [|[o0 x0] made0].
  - cbn in Em. injection Em as -> -> _. inversion H; subst.
    + exists l1, [], c2. split; [exact Ht|now rewrite app_nil_r].
    + destruct made0; discriminate.
  - cbn in Em. injection Em as -> -> _. destruct (IH o x made0 eq_refl) as (la & lb & c' & H1 & ->).
    exists la, (lb ++ l1), c'. split; [exact H1|now rewrite app_assoc].
Qed.
Lemma confirm_trace X dbg i c s r cd l x c2 : x_stack c = s :: r ->
  nth_error (cl_list (s_list s)) (N.to_nat i) = Some cd ->
  trace (f_exec X dbg (OConfirmAt i) c) l (x, c2) -> x = OutBool true /\ l = map (fun j => (j, ASelect cd)) (x_dicts c).
Proof.
  intros Hs Hn. cbn [f_exec].
  assert (Hi : (i < N.of_nat (length (cl_list (s_list s))))%N).
  { assert (H : nth_error (cl_list (s_list s)) (N.to_nat i) <> None) by congruence. apply nth_error_Some in H. lia. }
  apply N.ltb_lt in Hi. unfold f_bind, f_confirm_candidate_at, f_bind, f_cur, f_modcur. rewrite Hs. cbn [pbind].
  rewrite Hs. cbn [pbind]. unfold set_candidate_pointer, cl_set_pointer, cl_len. rewrite Hi. cbn [fst snd].
  unfold f_confirm_current, f_bind, f_cur, f_get. cbn [set_stk x_stack pbind s_list set_list x_dicts]. unfold cl_current.
  cbn [cl_list cl_cur]. rewrite Hn. unfold f_prog. intros H.
  apply trace_bind in H as ([b c1] & l1 & l2 & H1 & H2 & ->). apply trace_done in H2 as [-> H2].
  apply trace_bind in H1 as ([b1 c3] & l3 & l4 & H1 & H3 & ->). apply trace_done in H3 as [-> H3].
  apply trace_bind in H1 as ([b2 c4] & l5 & l6 & H1 & H4 & ->).
  apply trace_bind in H1 as (b3 & l7 & l8 & H1 & H5 & ->). apply trace_done in H5 as [-> H5].
  apply trace_each in H1. subst l7. rewrite !app_nil_r. injection H2 as -> _. injection H3 as -> _.
  unfold f_modcur in H4. destruct (x_stack c4); [inversion H4|]. apply trace_done in H4 as [-> _]. rewrite app_nil_r. auto.
Qed.
Lemma user_after a d : user (after a d) -> user d.
Proof.
  destruct a; cbn; auto; unfold user, select_candidate, purge_candidate; destruct (d_kind d) eqn:Ek; rewrite ?Ek; auto.
Qed.
Lemma user_replay l : forall d, user (replay l d) -> user d.
Proof.
  induction l as [|a l IH]; intros d H; [exact H|]. apply user_after with (a := a). now apply IH.
Qed.
Lemma learnt_select c d : user d -> learnt c (select_candidate d c).
Proof.
  intros Hu o Ho. destruct (C24_confirm d c Hu o Ho) as [H _]. apply hd_error_some_nil in H as H'.
  destruct (texts _); [congruence|]. left. now injection H.
Qed.
Lemma learnt_replay c l : Forall (fun a => unpurging 0 a) l -> forall d, learnt c d -> learnt c (replay l d).
Proof.
  induction 1 as [|a l Ha Hl IH]; intros d Hd; [exact Hd|]. apply IH. intros o Ho.
  eapply after_keeps; [exact Ha|]. now apply Hd.
Qed.
Lemma sparing_sched X dbg K st ts l : fresh_threads X ts -> sparing K ts ->
  sinv (Ic_spare K) (calls_spare K) not_empty_stack unpurging (fun _ => True) (sched X dbg l (launch st ts)).
Proof.
  intros Hf Hs. apply sched_inv; [intros o c; apply spare_exec|intros i a [H _]; now apply (polite_guarded i)|auto|].
  apply launch_inv; [exact I|]. intros c ops Hin. destruct (Hs c ops Hin). split; [|assumption].
  split; [|assumption]. destruct (started_stack X _ (Hf c ops Hin)) as (i & md & E). cbn in E. rewrite E. discriminate.
Qed.
Lemma sparing_log X dbg K l : forall y, 
  sinv (Ic_spare K) (calls_spare K) not_empty_stack unpurging (fun _ => True) y ->
  log_ok unpurging (y_log y) -> log_ok unpurging (y_log (sched X dbg l y)).
Proof.
  induction l as [|n l IH]; intros y Hi H; [exact H|]. apply (IH (tstep X dbg n y)).
  - apply tstep_inv; [intros o c; apply spare_exec|intros i a [H' _]; now apply (polite_guarded i)|auto|exact Hi].
  - eapply tstep_log_ok; [apply Hi|exact H].
Qed.
(** While a call confirming candidate [i] runs, other threads do what they like; once the call
    has returned, its candidate is in every user dictionary of the context, and (no purge) stays. *)
Theorem C66_learnt : forall X dbg K st ts l1 l2 n t t' i rest s fr c,
  fresh_threads X ts -> sparing K ts ->
  nth_error (y_threads (sched X dbg l1 (launch st ts))) n = Some t -> t_phase t = Idle ->
  t_todo t = OConfirmAt i :: rest -> x_stack (t_ctx t) = s :: fr ->
  nth_error (cl_list (s_list s)) (N.to_nat i) = Some c ->
  nth_error (y_threads (sched X dbg (l1 ++ l2) (launch st ts))) n = Some t' ->
  length (t_todo t') <= length rest ->
  nth_error (t_made t') (length (t_made t)) = Some (OConfirmAt i, OutBool true) /\
  forall j d, In j (x_dicts (t_ctx t)) ->
    nth_error (y_store (sched X dbg (l1 ++ l2) (launch st ts))) j = Some d -> user d -> learnt c d.
Proof.
  intros X dbg K st ts l1 l2 n t t' i rest s fr c Hf Hsp Ht Hp Htd Hs Hc Ht' Hlen.
  rewrite sched_app in *. set (y1 := sched X dbg l1 (launch st ts)) in *.
  pose proof (sparing_sched X dbg K st ts l1 Hf Hsp) as Hinv. fold y1 in Hinv.
  assert (Hlog : log_ok unpurging (y_log (sched X dbg l2 y1))).
  { apply (sparing_log X dbg K); [exact Hinv|]. subst y1. apply (sparing_log X dbg K); [|constructor].
    exact (sparing_sched X dbg K st ts [] Hf Hsp). }
  assert (H : is_where X dbg n (t_ctx t) (t_made t) (of_thread n (y_log y1)) (t_todo t) y1).
  { exists t. split; [exact Ht|]. exists [], []. rewrite !app_nil_r, Hp. repeat split. constructor. }
  apply (where_sched X dbg n _ _ _ _ l2) in H as (t2 & Ht2 & made & la & H0 & H1 & H2 & H3).
  assert (t2 = t') as -> by congruence. rewrite Htd in H2.
  destruct made as [|[o x] made]; [cbn in H2; rewrite <- H2 in Hlen; cbn in Hlen; lia|].
  cbn in H2. injection H2 as <- H2. destruct (calls_head _ _ _ _ _ _ _ _ H1) as (lb & lc & c1 & Htr & ->).
  destruct (confirm_trace X dbg i (t_ctx t) s fr c lb x c1 Hs Hc Htr) as [-> ->].
  split; [rewrite H0, nth_error_app2, Nat.sub_diag by lia; reflexivity|].
  intros j d Hj Hd Hu.
  assert (Hin : exists rest', of_thread n (y_log (sched X dbg l2 y1)) =
    of_thread n (y_log y1) ++ (map (fun j => (j, ASelect c)) (x_dicts (t_ctx t)) ++ rest')).
  { destruct (t_phase t').
    - exists lc. exact H3.
    - destruct H3 as (o & r & l3 & _ & _ & ->). exists (lc ++ l3). now rewrite <- app_assoc.
    - destruct H3 as (o & r & l3 & _ & _ & ->). exists (lc ++ l3). now rewrite <- app_assoc.
    - destruct H3 as (l3 & ->). exists (lc ++ l3). now rewrite <- app_assoc. }
  destruct Hin as (rest' & Hin).
  destruct (C66_no_lost_update X dbg l2 y1) as (more & El & Ed).
  rewrite El, of_thread_app in Hin. apply app_inv_head in Hin.
  assert (Hm : In (ASelect c) (on_dict j more)).
  { assert (Hi2 : In (j, ASelect c) (of_thread n more)).
    { rewrite Hin. apply in_app_iff. left. apply in_map_iff. now exists j. }
    unfold of_thread in Hi2. apply in_map_iff in Hi2 as ([[n0 j0] a0] & E & Hi2). apply filter_In in Hi2 as [Hi2 _].
    cbn in E. injection E as -> ->. unfold on_dict. apply in_map_iff. exists (n0, j, ASelect c). split; [reflexivity|].
    apply filter_In. split; [exact Hi2|]. cbn. apply Nat.eqb_refl. }
  assert (Hunp : Forall (fun a => unpurging 0 a) (on_dict j more)).
  { rewrite El in Hlog. apply Forall_app in Hlog as [_ Hlog]. apply Forall_forall. intros a Ha. unfold on_dict in Ha.
    apply in_map_iff in Ha as (e & <- & He). apply filter_In in He as [He _]. unfold log_ok in Hlog. rewrite Forall_forall in Hlog.
    destruct (Hlog e He) as [Q1 Q2]. split; [|exact Q2]. destruct (snd e); exact Q1. }
  rewrite Ed in Hd. destruct (nth_error (y_store y1) j) as [d1|]; [|discriminate]. cbn in Hd. injection Hd as <-.
  apply in_split in Hm as (a & b & Hab). rewrite Hab in *. unfold replay in *. rewrite fold_left_app in *. cbn [fold_left after] in *.
  apply (learnt_replay c b).
  - apply Forall_app in Hunp as [_ Hunp]. now inversion Hunp.
  - apply learnt_select. apply user_after with (a := ASelect c). exact (user_replay b _ Hu).
Qed.
