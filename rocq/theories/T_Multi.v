(** C51: contexts sharing dictionaries. *)
From Verif Require Import Str Keys Modes KanaBuilder FormChanger DictTypes Dictionary CState Context
  DefaultRule Demo Spec P_Monad P_Inv P_Step T_Entry Multi.
From Verif Require T_Frames.

Lemma nth_update {A} i (f : A -> A) l j : nth_error (update_nth i f l) j =
  if Nat.eqb i j then option_map f (nth_error l j) else nth_error l j.
Proof.
  revert i j. induction l as [|x l IH]; intros [|i] [|j]; cbn; try reflexivity.
  - destruct (Nat.eqb i j); reflexivity.
  - apply IH.
Qed.
Lemma mrun_cons X dbg i o sched m t m2 : mrun X dbg ((i, o) :: sched) m = Ok (t, m2) ->
  exists x m1 t', mstep X dbg i o m = Ok (x, m1) /\ mrun X dbg sched m1 = Ok (t', m2) /\ t = (i, o, x) :: t'.
Proof.
  cbn [mrun]. destruct (mstep X dbg i o m) as [[x m1]|] eqn:E1; [|discriminate]. cbn [rbind].
  destruct (mrun X dbg sched m1) as [[t' m2']|] eqn:E2; [|discriminate]. cbn [rmap]. intros [= <- <-].
  exists x, m1, t'. auto.
Qed.
(** Steps of other contexts leave a context exactly as it was. *)
Theorem C51_untouched : forall X dbg sched m t m' j, mrun X dbg sched m = Ok (t, m') ->
  (forall i o, In (i, o) sched -> i <> j) -> nth_error (m_ctxs m') j = nth_error (m_ctxs m) j.
Proof.
  intros X dbg sched. induction sched as [|(i, o) sched IH]; intros m t m' j H Hne.
  - cbn in H. now injection H as <- <-.
  - apply mrun_cons in H as (x & m1 & t' & H1 & H2 & ->).
    rewrite (IH _ _ _ _ H2) by (intros i' o' Hin; apply (Hne i' o'); now right).
    unfold mstep in H1. destruct (nth_error (m_ctxs m) i) as [c|]; [|injection H1 as <- <-; reflexivity].
    destruct (exec X dbg o (mkW (m_store m) c)) as [[x' w]|]; [|discriminate]. injection H1 as <- <-. cbn [m_ctxs].
    rewrite nth_update. assert (i <> j) as Hij by (apply (Hne i o); now left).
    apply Nat.eqb_neq in Hij. now rewrite Hij.
Qed.
(** What context [j] did and saw, according to a trace. *)
Definition seen_by (j : nat) (t : list (nat * op * out)) : list (op * out) :=
  map (fun e => (snd (fst e), snd e)) (filter (fun e => Nat.eqb (fst (fst e)) j) t).
Definition is_other (o : op) : bool := match o with OOther _ => true | _ => false end.
(** A single-context history without what others did to the dictionaries. *)
Definition own (ops : list op) (outs : list out) : list (op * out) :=
  filter (fun p => negb (is_other (fst p))) (combine ops outs).
(** In every interleaving each context behaves like a context alone whose dictionaries are
    changed behind its back between its calls: every theorem about single-context histories
    (all of which allow that) holds for it. *)
Theorem C51_projection : forall X dbg sched m t m' j c, mrun X dbg sched m = Ok (t, m') ->
  (forall i o, In (i, o) sched -> is_other o = false) ->
  nth_error (m_ctxs m) j = Some c ->
  exists ops outs c', run X dbg ops (mkW (m_store m) c) = Ok (outs, mkW (m_store m') c')
    /\ nth_error (m_ctxs m') j = Some c' /\ own ops outs = seen_by j t.
Proof.
  intros X dbg sched. induction sched as [|(i, o) sched IH]; intros m t m' j c H Hno Hc.
  - cbn in H. injection H as <- <-. exists [], [], c. auto.
  - apply mrun_cons in H as (x & m1 & t' & H1 & H2 & ->).
    assert (Hno' : forall i o, In (i, o) sched -> is_other o = false) by (intros i' o' Hin; apply (Hno i' o'); now right).
    assert (Ho : is_other o = false) by (apply (Hno i o); now left).
    unfold mstep in H1. destruct (Nat.eqb_spec i j) as [->|Hij].
    + rewrite Hc in H1. destruct (exec X dbg o (mkW (m_store m) c)) as [[x' w]|] eqn:Ex; [|discriminate].
      injection H1 as <- <-.
      destruct (IH _ _ _ j (w_ctx w) H2 Hno') as (ops & outs & c' & E & E1 & E2).
      { cbn [m_ctxs]. now rewrite nth_update, Nat.eqb_refl, Hc. }
      cbn [m_store] in E. exists (o :: ops), (x' :: outs), c'. split; [|split; [exact E1|]].
      * rewrite (run_cons X dbg o ops _ _ _ Ex). destruct w as [st cx]. cbn [w_store w_ctx] in E. now rewrite E.
      * unfold own, seen_by in *. cbn [combine filter fst snd]. rewrite Ho, Nat.eqb_refl. cbn [negb map fst snd].
        now rewrite <- E2.
    + destruct (IH m1 t' m' j c H2 Hno') as (ops & outs & c' & E & E1 & E2).
      { destruct (nth_error (m_ctxs m) i) as [ci|]; [|injection H1 as <- <-; exact Hc].
        destruct (exec X dbg o (mkW (m_store m) ci)) as [[x' w]|]; [|discriminate]. injection H1 as <- <-. cbn [m_ctxs].
        rewrite nth_update. apply Nat.eqb_neq in Hij. rewrite Hij. exact Hc. }
      exists (OOther (m_store m1) :: ops), (OutUnit :: outs), c'. split; [|split; [exact E1|]].
      * rewrite (run_cons X dbg (OOther (m_store m1)) ops (mkW (m_store m) c) OutUnit (mkW (m_store m1) c) eq_refl), E. reflexivity.
      * unfold own, seen_by in *. cbn [combine filter fst snd is_other negb].
        apply Nat.eqb_neq in Hij. rewrite Hij. exact E2.
Qed.
(** So what holds in every reachable world holds for every context at every time. *)
Theorem C51_reachable : forall X dbg sched m t m' j c', mrun X dbg sched m = Ok (t, m') ->
  (forall i o, In (i, o) sched -> is_other o = false) ->
  (forall c, In c (m_ctxs m) -> started X (mkW (m_store m) c)) ->
  nth_error (m_ctxs m') j = Some c' -> reachable X dbg (mkW (m_store m') c').
Proof.
  intros X dbg sched m t m' j c' H Hno Hst Hc'.
  assert (Hlen : length (m_ctxs m') = length (m_ctxs m)).
  { clear Hno Hst Hc'. revert m t H. induction sched as [|(i, o) sched IH]; intros m t H.
    - cbn in H. now injection H as <- <-.
    - apply mrun_cons in H as (x & m1 & t' & H1 & H2 & ->). rewrite (IH _ _ H2).
      unfold mstep in H1. destruct (nth_error (m_ctxs m) i); [|injection H1 as <- <-; reflexivity].
      destruct (exec X dbg o _) as [[x' w]|]; [|discriminate]. injection H1 as <- <-. cbn [m_ctxs].
      generalize (fun _ : ctx => w_ctx w) as f. clear. revert i. induction (m_ctxs m) as [|a l IH]; intros [|i] f; cbn; auto. }
  destruct (nth_error (m_ctxs m) j) as [c|] eqn:Ec.
  - destruct (C51_projection X dbg sched m t m' j c H Hno Ec) as (ops & outs & c2 & E & E1 & _).
    assert (c2 = c') as -> by congruence.
    exists (mkW (m_store m) c), ops, outs. split; [|exact E]. apply Hst. eapply nth_error_In; eauto.
  - apply nth_error_None in Ec. rewrite <- Hlen in Ec. apply nth_error_None in Ec. congruence.
Qed.
(** A word confirmed by context [i] is first in every shared user dictionary, for every
    context that has that dictionary. *)
Theorem C51_confirmed : forall X dbg m i n s r c ci d did,
  nth_error (m_ctxs m) i = Some ci -> x_stack ci = s :: r -> s_cmode s = CompositionSelection ->
  nth_error (cl_list (s_list s)) (N.to_nat n) = Some c ->
  NoDup (x_dicts ci) -> In did (x_dicts ci) -> nth_error (m_store m) did = Some d -> user d ->
  exists m', mstep X dbg i (OConfirmAt n) m = Ok (OutBool true, m')
    /\ forall j cj k, j <> i -> nth_error (m_ctxs m') j = Some cj -> nth_error (x_dicts cj) k = Some did ->
       exists d', nth_error (ctx_dicts (mkW (m_store m') cj)) k = Some d' /\ confirmed_first d d' c.
Proof.
  intros X dbg m i n s r c ci d did Hi Hs Hm Hc Hnd Hin Hd Hu.
  destruct (C24_confirm_at X dbg n (mkW (m_store m) ci) s r c did d Hs Hm Hc Hnd Hin Hd Hu) as (w' & d' & E & Ed & Hf).
  unfold mstep. rewrite Hi, E. eexists. split; [reflexivity|]. cbn [m_ctxs m_store].
  intros j cj k Hji Hj Hk. exists d'. split; [|exact Hf]. unfold ctx_dicts. cbn [w_ctx w_store].
  apply (map_nth_error (fun i => nth i (w_store w') empty_dict)) in Hk. rewrite Hk. f_equal.
  now apply nth_error_nth.
Qed.
(** Two contexts over one user dictionary: the first selects the second candidate, the second
    converts the same reading. *)
Definition two : multi := mkMulti [user_dict dic_small] [demo_ctx [0]; demo_ctx [0]].
Definition by_ (i : nat) (s : str) : list (nat * op) := map (fun k => (i, OKey k)) (dkeys s).
Example C51_example :
  rmap (fun x => map (fun c => get_preedit ascii_xkb c) (m_ctxs (snd x)))
    (mrun ascii_xkb true (by_ 1 (U "A") ++ by_ 0 (U "A i space space Return") ++ by_ 1 (U "i space")) two)
  = Ok [U "哀"; U "▼哀"].
Proof. vm_compute. reflexivity. Qed.
