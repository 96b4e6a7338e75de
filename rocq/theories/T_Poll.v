(** C06: what is polled, and when, changes nothing but where the text is. *)
From Verif Require Import Str Keys Modes KanaBuilder FormChanger DictTypes Parser Lru
  Dictionary CState Context DefaultRule Demo Spec P_Monad P_Frames P_Inv P_Register P_Confirmed P_Step
  T_Predict T_Offered P_Poll.
From Verif Require T_Frames T_Keys.

(** ** Specification *)
(** The text handed over by the polls among the answers. *)
Definition polled (outs : list out) : str :=
  flat_map (fun o => match o with OutText (Some t) => t | _ => [] end) outs.
Definition is_poll (o : op) : bool := match o with OPoll => true | _ => false end.
(** The calls and the answers without the polls. *)
Definition without_polls (ops : list op) : list op := filter (fun o => negb (is_poll o)) ops.
Fixpoint other_answers (ops : list op) (outs : list out) : list out :=
  match ops, outs with
  | o :: r, x :: xs => if is_poll o then other_answers r xs else x :: other_answers r xs
  | _, _ => []
  end.
(** Calls after which text cannot be told to have been polled or not: everything but reset and
    commands with Purge (both drop confirmed text not yet polled), ClearKanaConvertedInputs, and
    Delete commands that find nothing to delete (without polling they would take a character of
    the confirmed text). *)
Definition spares_op (X : xkb) (dbg : bool) (o : op) (w : world) : Prop :=
  match o with
  | OReset => False
  | OKey k => forall l, runs w k l -> ~ In IPurge l /\ ~ In IClearKanaConvertedInputs l
      /\ (In IDelete l -> forall w', exec X dbg (OKey k) w <> Ok (OutBool false, w'))
  | _ => True
  end.
Fixpoint spares (X : xkb) (dbg : bool) (ops : list op) (w : world) : Prop :=
  match ops with
  | [] => True
  | o :: r => spares_op X dbg o w /\ forall x w', exec X dbg o w = Ok (x, w') -> spares X dbg r w'
  end.

(** ** Proofs *)
Lemma key_eq X dbg k w s r : x_stack (w_ctx w) = s :: r -> has_mod k M_RELEASE = false ->
  process_key_event X dbg k w =
  if skip_command (x_kb (w_ctx w)) k (s_imode s) (s_cmode s) (s_pre s) then input_key X dbg k (s_cmode s) (s_pre s) w
  else match get_instruction dbg (x_cmd (w_ctx w)) k (s_imode s) (s_cmode s) with
       | Panic e => Panic e
       | Ok (Some l) => process_instructions dbg l (s_cmode s) (s_imode s) w
       | Ok None => input_key X dbg k (s_cmode s) (s_pre s) w
       end.
Proof.
  intros Es Hr. unfold process_key_event. rewrite Hr. unfold process_key_event_inner, bind, cur, get, lift.
  rewrite Es. cbv zeta. destruct (skip_command _ _ _ _ _); [reflexivity|]. destruct (get_instruction _ _ _ _ _) as [[l|]|]; reflexivity.
Qed.
Lemma rel_heads p w1 w2 : Rel p w1 w2 -> exists s r c r', x_stack (w_ctx w1) = s :: r /\ x_stack (w_ctx w2) = set_conf c s :: r'
  /\ L s /\ x_kb (w_ctx w2) = x_kb (w_ctx w1) /\ x_cmd (w_ctx w2) = x_cmd (w_ctx w1).
Proof.
  intros H. destruct (rel_cases _ _ _ H) as [(t & E & HL & ->)|(s & inner & t & E & HL & _ & ->)].
  - exists t, [], (p ++ s_conf t), []. auto.
  - exists s, (inner ++ [t]), (s_conf s), (inner ++ [pre p t]). rewrite set_conf_same. auto.
Qed.
Lemma rel_key X dbg p k w1 w2 : Rel p w1 w2 -> spares_op X dbg (OKey k) w1 ->
  out2 p (exec X dbg (OKey k) w1) (exec X dbg (OKey k) w2).
Proof.
  intros H Hs. destruct (rel_heads p w1 w2 H) as (s & r & c & r' & E1 & E2 & HL & Ekb & Ecmd).
  cbn [exec]. apply rm_bind_at; [|intros a; apply rm_ret].
  destruct (has_mod k M_RELEASE) eqn:Er; [unfold process_key_event; rewrite Er; exact (conj eq_refl H)|].
  rewrite (key_eq X dbg k w1 s r E1 Er), (key_eq X dbg k w2 _ r' E2 Er). cbn [set_conf s_cmode s_imode s_pre]. rewrite Ekb, Ecmd.
  destruct (skip_command _ _ _ _ _) eqn:Esk; [now apply rm_input_key|].
  destruct (get_instruction dbg (x_cmd (w_ctx w1)) k (s_imode s) (s_cmode s)) as [[l|]|e] eqn:Eg;
      [|now apply rm_input_key|exact (eq_refl e)].
  assert (Hl : runs w1 k l).
  { split; [exact Er|]. exists s. unfold current, frames. rewrite E1. split; [reflexivity|].
    unfold get_instruction in Eg. unfold bound, completes.
    destruct (s_cmode s); try (split; [discriminate|]; split; [exact Esk|]; now injection Eg); destruct dbg; discriminate. }
  destruct (Hs l Hl) as (H1 & H2 & H3).
  destruct (rm_instrs p dbg (s_cmode s) (s_imode s) l (negb (is_nil l)) w1 w2) as [G|[G (w & Ew)]]; auto.
  - apply forallb_forall. intros x Hx. destruct x; try reflexivity; tauto.
  - exfalso. apply existsb_exists in G as (x & Hx & Hd). destruct x; try discriminate.
    apply (H3 Hx w). cbn [exec]. unfold bind. rewrite (key_eq X dbg k w1 s r E1 Er), Esk, Eg.
    unfold process_instructions. now rewrite Ew.
Qed.
Lemma rel_op X dbg p o w1 w2 : Rel p w1 w2 -> is_poll o = false -> spares_op X dbg o w1 ->
  out2 p (exec X dbg o w1) (exec X dbg o w2).
Proof.
  intros H Hp Hs. destruct o; try discriminate; try (now apply rel_key); try contradiction.
  - revert w1 w2 H Hs. intros w1 w2 H _. revert w1 w2 H. change (rm p (exec X dbg (OSetCompositionMode c)) (exec X dbg (OSetCompositionMode c))).
    cbn [exec]. apply rm_bind; [apply rm_set_cmode|intros; apply rm_ret].
  - clear Hs. revert w1 w2 H. change (rm p (exec X dbg (OSetInputMode i)) (exec X dbg (OSetInputMode i))).
    cbn [exec]. apply rm_bind; [apply rm_set_imode|intros; apply rm_ret].
  - clear Hs. revert w1 w2 H. change (rm p (exec X dbg (OSelectAt i)) (exec X dbg (OSelectAt i))).
    cbn [exec]. apply rm_bind; [apply rm_select_at|intros; apply rm_ret].
  - clear Hs. revert w1 w2 H. change (rm p (exec X dbg (OConfirmAt i)) (exec X dbg (OConfirmAt i))).
    cbn [exec]. apply rm_bind; [apply rm_confirm_at|intros; apply rm_ret].
  - destruct H as (inner & t & E & HL & ->). split; [reflexivity|]. exists inner, t. auto.
  - destruct H as (inner & t & E & HL & ->). split; [reflexivity|]. exists inner, t. auto.
  - destruct H as (inner & t & E & HL & ->). split; [reflexivity|]. exists inner, t. auto.
  - destruct H as (inner & t & E & HL & ->). split; [reflexivity|]. exists inner, t. auto.
  - destruct H as (inner & t & E & HL & ->). split; [reflexivity|]. exists inner, t. auto.
  - destruct H as (inner & t & E & HL & ->). split; [reflexivity|]. exists inner, t. auto.
Qed.
Lemma rel_poll X dbg p w1 w2 : Rel p w1 w2 -> exists t w1', exec X dbg OPoll w1 = Ok (OutText t, w1')
  /\ Rel (p ++ polled [OutText t]) w1' w2.
Proof.
  intros (inner & t & E & HL & ->).
  assert (Hp := T_Keys.C06_poll X dbg w1 inner t E).
  eexists _, _. split; [exact Hp|].
  exists inner, (set_conf [] t). split; [reflexivity|]. split.
  { cbn. rewrite E in HL. apply Forall_app in HL as [H1 H2]. apply Forall_app. split; [exact H1|]. inversion H2; subst. constructor; [assumption|constructor]. }
  unfold pre. cbn [set_conf s_conf]. rewrite app_nil_r.
  replace (polled [OutText (if is_nil (s_conf t) then None else Some (s_conf t))]) with (s_conf t); [reflexivity|].
  unfold polled. cbn [flat_map]. destruct (s_conf t); cbn; now rewrite ?app_nil_r.
Qed.
Lemma run_rel X dbg : forall ops p w1 w2 outs w1', Rel p w1 w2 -> spares X dbg ops w1 -> run X dbg ops w1 = Ok (outs, w1') ->
  exists w2', run X dbg (without_polls ops) w2 = Ok (other_answers ops outs, w2') /\ Rel (p ++ polled outs) w1' w2'.
Proof.
  induction ops as [|o ops IH]; intros p w1 w2 outs w1' H Hs Hr.
  - cbn in Hr. injection Hr as <- <-. exists w2. split; [reflexivity|]. cbn. now rewrite app_nil_r.
  - cbn [run] in Hr. unfold bind at 1 in Hr. destruct (exec X dbg o w1) as [[x v1]|] eqn:Eo; [|discriminate].
    unfold bind in Hr. destruct (run X dbg ops v1) as [[xs v]|] eqn:Ex; [|discriminate]. cbn in Hr. injection Hr as <- <-.
    destruct Hs as [Ho Hs]. specialize (Hs x v1 Eo). cbn [without_polls filter other_answers].
    destruct (is_poll o) eqn:Ep; cbn [negb].
    + destruct o; try discriminate. destruct (rel_poll X dbg p w1 w2 H) as (t & v1' & Et & Ht).
      rewrite Et in Eo. injection Eo as <- <-. destruct (IH _ _ _ _ _ Ht Hs Ex) as (w2' & R1 & R2).
      exists w2'. split; [exact R1|]. rewrite <- app_assoc in R2.
      change (polled (OutText t :: xs)) with (polled ([OutText t] ++ xs)). unfold polled in *. rewrite flat_map_app. exact R2.
    + pose proof (rel_op X dbg p o w1 w2 H Ep Ho) as G. rewrite Eo in G. unfold out2 in G.
      destruct (exec X dbg o w2) as [[y v2]|] eqn:E2; [|contradiction]. destruct G as [<- G].
      destruct (IH _ _ _ _ _ G Hs Ex) as (w2' & R1 & R2). exists w2'. split.
      * cbn [run]. unfold bind. rewrite E2. change (filter (fun o => negb (is_poll o)) ops) with (without_polls ops). rewrite R1. reflexivity.
      * assert (Hx : polled [x] = []).
        { clear -Eo Ep. destruct o; try discriminate; cbn [exec] in Eo; unfold bind, ret in Eo;
           repeat match type of Eo with context [match ?m with _ => _ end] => destruct m; try discriminate end; injection Eo as <- _; reflexivity. }
        change (polled (x :: xs)) with (polled ([x] ++ xs)). unfold polled in *. rewrite flat_map_app, Hx. exact R2.
Qed.

(** ** C06 *)
(** Leaving the polls out of a history changes no other answer and nothing in the context but the
    confirmed text, in which everything that was polled is still there, in order, before the rest. *)
Theorem C06_polls_in_order : forall X dbg ops w outs w1, started X w -> spares X dbg ops w ->
  run X dbg ops w = Ok (outs, w1) -> exists w2 inner s,
    run X dbg (without_polls ops) w = Ok (other_answers ops outs, w2)
    /\ frames w1 = inner ++ [s] /\ w2 = with_frames (inner ++ [set_conf (polled outs ++ s_conf s) s]) w1
    /\ confirmed_text w2 = polled outs ++ confirmed_text w1.
Proof.
  intros X dbg ops w outs w1 Hw Hs Hr.
  assert (H : Rel [] w w).
  { destruct (started_stack X w Hw) as (i & c & Es). exists [], (st_new i c). split; [exact Es|]. split.
    - rewrite Es. constructor; [apply L_new|constructor].
    - assert (Ep : pre [] (st_new i c) = st_new i c) by reflexivity. rewrite Ep. symmetry. apply (with_frames_same w _ Es). }
  destruct (run_rel X dbg ops [] w w outs w1 H Hs Hr) as (w2 & R1 & inner & t & E & HL & R2).
  exists w2, inner, t. split; [exact R1|]. split; [exact E|]. split; [exact R2|].
  unfold confirmed_text, outermost, frames. rewrite R2, E. cbn. now rewrite !rev_app_distr.
Qed.
(** Two schedules of polls for the same calls deliver the same text. *)
Theorem C06_schedules : forall X dbg ops ops' w outs outs' w1 w1', started X w ->
  without_polls ops = without_polls ops' -> spares X dbg ops w -> spares X dbg ops' w ->
  run X dbg ops w = Ok (outs, w1) -> run X dbg ops' w = Ok (outs', w1') ->
  other_answers ops outs = other_answers ops' outs'
  /\ polled outs ++ confirmed_text w1 = polled outs' ++ confirmed_text w1'.
Proof.
  intros X dbg ops ops' w outs outs' w1 w1' Hw He Hs Hs' Hr Hr'.
  destruct (C06_polls_in_order X dbg ops w outs w1 Hw Hs Hr) as (w2 & _ & _ & E1 & _ & _ & C1).
  destruct (C06_polls_in_order X dbg ops' w outs' w1' Hw Hs' Hr') as (w2' & _ & _ & E2 & _ & _ & C2).
  rewrite He, E2 in E1. injection E1 as E1 <-. split; [now symmetry|]. now rewrite <- C1, <- C2.
Qed.

(** The hypotheses as a computation, and a case: typing, converting and registering with polls in
    between, among them one while a word is being registered, and a BackSpace. *)
Definition spares_op_b (X : xkb) (dbg : bool) (o : op) (w : world) : bool :=
  match o with
  | OReset => false
  | OKey k => match runs_b w k with
              | None => true
              | Some l => forallb (fun x => negb (unsafe_poll x)) l
                  && (negb (existsb is_delete l) || match exec X dbg o w with Ok (OutBool b, _) => b | _ => true end)
              end
  | _ => true
  end.
Fixpoint spares_b (X : xkb) (dbg : bool) (ops : list op) (w : world) : bool :=
  match ops with
  | [] => true
  | o :: r => spares_op_b X dbg o w && match exec X dbg o w with Ok (_, w') => spares_b X dbg r w' | Panic _ => true end
  end.
Lemma runs_b_complete w k l : runs w k l -> runs_b w k = Some l.
Proof.
  intros (Hr & s & Es & Hc & Hk & Hb). unfold runs_b. rewrite Es, Hr, Hk. unfold bound in Hb. rewrite Hb.
  destruct (s_cmode s); try reflexivity. congruence.
Qed.
Lemma spares_b_spec X dbg : forall ops w, spares_b X dbg ops w = true -> spares X dbg ops w.
Proof.
  induction ops as [|o ops IH]; intros w H; [exact I|]. cbn [spares_b] in H. apply andb_true_iff in H as [Ho H]. split.
  - destruct o; cbn [spares_op_b] in Ho; try exact I; [|discriminate]. intros l Hl.
    rewrite (runs_b_complete _ _ _ Hl) in Ho. apply andb_true_iff in Ho as [H1 H2]. rewrite forallb_forall in H1.
    split; [intros Hx; discriminate (H1 _ Hx)|]. split; [intros Hx; discriminate (H1 _ Hx)|].
    intros Hd w' He. rewrite He in H2. apply orb_true_iff in H2 as [H2|H2]; [|discriminate].
    apply negb_true_iff in H2. rewrite <- not_true_iff_false in H2. apply H2. apply existsb_exists. exists IDelete. auto.
  - intros x w' He. rewrite He in H. auto.
Qed.
Lemma run_case_outs {A B} (r : res (A * world)) (f : A -> str) (g : world -> B) (v : str * B) :
  rmap (fun x => (f (fst x), g (snd x))) r = Ok v -> exists outs w, r = Ok (outs, w) /\ (f outs, g w) = v.
Proof. destruct r as [[a w]|]; cbn; [|discriminate]. intros [= <-]. eauto. Qed.
Definition polling_history : list op :=
  map OKey (dkeys (U "k a A i space k")) ++ [OPoll] ++ map OKey (dkeys (U "a BackSpace k i K a n j i space")) ++ [OPoll]
  ++ map OKey (dkeys (U "a Return")) ++ [OPoll].
Example C06_order_case : spares ascii_xkb true polling_history (demo [user_dict dic_small])
  /\ exists outs w, run ascii_xkb true polling_history (demo [user_dict dic_small]) = Ok (outs, w)
  /\ (polled outs, confirmed_text w) = (U "か愛きあ", U "").
Proof.
  split; [apply spares_b_spec; vm_compute; reflexivity|].
  apply run_case_outs. vm_compute. reflexivity.
Qed.
