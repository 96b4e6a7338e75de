(** Properties C05 (a context never goes dead) and C15 (abort leads home). *)
From Verif Require Import Str Keys Modes KanaBuilder FormChanger DictTypes Parser Lru Dictionary
  CState Context DefaultRule Demo Spec P_Monad P_Frames P_Inv P_Keeps P_Register P_Step T_Romaji.
From Verif Require T_Frames.

(** * Specification of C15 *)
(** The key aborts in these modes: it is bound to Abort, possibly after clearing inputs, and is
    no plain character key. *)
Definition clearing (x : instr) : bool :=
  match x with IClearUnconvertedInputs | IClearKanaConvertedInputs | IClearUnconfirmedInputs => true | _ => false end.
Definition aborts (cr : command_rule) (g : keyev) (c : cmode) (i : imode) : Prop :=
  exists l, bound cr c i g (l ++ [IAbort]) /\ forallb clearing l = true.
Definition control_key (g : keyev) : Prop := has_mod g M_RELEASE = false /\ is_modifierless_input g = false.
(** The modes a frame is in, or may go back to. *)
Definition may_visit (s : cstate) (c : cmode) : Prop :=
  c <> Register /\ (c = s_cmode s \/ c = s_default s \/ In c (s_hist s)
                    \/ (c = PreComposition /\ In PreCompositionOkurigana (s_hist s))).
(** The shape of the frames in every history without reset and without setting Register mode by
    hand (see C03): the outer frames are registering, the inner ones were made by registering. *)
Definition nested (l : list cstate) : Prop :=
  exists s r, l = s :: r /\ Tr s /\ Forall Or r /\ Forall (fun s => s_default s = Direct) (removelast l).
(** How many presses may be needed. *)
Definition frame_presses (s : cstate) : nat :=
  2 * length (s_hist s) + (if cmode_eqb (s_cmode s) (s_default s) then 0 else 1).
Definition presses (l : list cstate) : nat := fold_right (fun s n => frame_presses s + n) (length l - 1) l.
(** Home: one frame, in its default mode. *)
Definition home (w : world) : Prop := exists s, frames w = [s] /\ s_cmode s = s_default s.

(** * One abort *)
Definition aborted (s : cstate) : cstate := clear_candidate_list (consolidate (clear_preconverted s)).
Definition abort_stack (l : list cstate) : list cstate :=
  match l with
  | [] => []
  | s :: r =>
      match s_cmode s, r with
      | Direct, s2 :: r2 => abort_to_previous_mode s2 :: r2
      | PreCompositionOkurigana, _ =>
          let s1 := abort_to_previous_mode (aborted s) in
          (if cmode_eqb (s_cmode s1) PreComposition then abort_to_previous_mode s1 else s1) :: r
      | _, _ => abort_to_previous_mode (aborted s) :: r
      end
  end.
Lemma abort_run w s r : frames w = s :: r -> abort w = Ok (tt, with_frames (abort_stack (s :: r)) w).
Proof.
  intros Hs. unfold frames in Hs. unfold abort, bind, modcur. rewrite Hs. unfold cur, set_stack. cbn [w_ctx x_stack].
  change (clear_candidate_list (consolidate (clear_preconverted s))) with (aborted s).
  assert (Ec : s_cmode (aborted s) = s_cmode s) by reflexivity. rewrite Ec. unfold abort_stack.
  destruct (s_cmode s) eqn:E; unfold ret, abort_register_mode, when; cbn [w_ctx x_stack cmode_eqb andb];
    try reflexivity.
  - destruct r; reflexivity.
  - destruct (cmode_eqb (s_cmode (abort_to_previous_mode (aborted s))) PreComposition); reflexivity.
Qed.
Lemma clears_run dbg l c i w s r b : frames w = s :: r -> forallb clearing l = true ->
  exists s', run_instrs dbg (l ++ [IAbort]) c i b w = run_instrs dbg [IAbort] c i b (with_frames (s' :: r) w)
    /\ s_cmode s' = s_cmode s /\ s_hist s' = s_hist s /\ s_default s' = s_default s /\ s_imode s' = s_imode s.
Proof.
  intros Hs Hl. revert w s Hs. induction l as [|x l IH]; intros w s Hs.
  - exists s. now rewrite (with_frames_same w _ Hs).
  - cbn [forallb] in Hl. apply andb_true_iff in Hl as (Hx & Hl).
    assert (G : forall f, (forall t, s_cmode (f t) = s_cmode t /\ s_hist (f t) = s_hist t /\ s_default (f t) = s_default t /\ s_imode (f t) = s_imode t) ->
      (forall w1, run_instr dbg x c i w1 = match modcur f w1 with Ok (_, w2) => Ok (inl tt, w2) | Panic e => Panic e end) ->
      exists s', run_instrs dbg ((x :: l) ++ [IAbort]) c i b w = run_instrs dbg [IAbort] c i b (with_frames (s' :: r) w)
        /\ s_cmode s' = s_cmode s /\ s_hist s' = s_hist s /\ s_default s' = s_default s /\ s_imode s' = s_imode s).
    { intros f Hf Hr. destruct (IH Hl (with_frames (f s :: r) w) (f s) eq_refl) as (s' & E & H1 & H2 & H3 & H4).
      destruct (Hf s) as (F1 & F2 & F3 & F4). exists s'. rewrite with_frames_twice in E. rewrite <- E. split; [|repeat split; congruence].
      cbn [app run_instrs]. unfold bind at 1. rewrite Hr. unfold modcur. unfold frames in Hs. rewrite Hs. reflexivity. }
    destruct x; try discriminate Hx.
    + apply (G clear_preconverted); [intros t; repeat split|reflexivity].
    + apply (G clear_kanas); [intros t; repeat split|reflexivity].
    + apply (G clear_unconfirmed); [intros t; repeat split|reflexivity].
Qed.
Definition same_modes (s s' : cstate) : Prop :=
  s_cmode s' = s_cmode s /\ s_hist s' = s_hist s /\ s_default s' = s_default s /\ s_imode s' = s_imode s.
Lemma abort_key X dbg g w s r : frames w = s :: r -> s_cmode s <> Register -> control_key g ->
  aborts (x_cmd (w_ctx w)) g (s_cmode s) (s_imode s) ->
  exists s', same_modes s s' /\ process_key_event X dbg g w = Ok (true, with_frames (abort_stack (s' :: r)) w).
Proof.
  intros Hs Hc (Hg1 & Hg2) (l & Hb & Hl).
  destruct (clears_run dbg l (s_cmode s) (s_imode s) w s r true Hs Hl) as (s' & E & M).
  exists s'. split; [exact M|]. unfold frames in Hs.
  rewrite (key_bound X dbg g w s r _ Hs Hg1 Hc Hg2 Hb). unfold process_instructions.
  assert (En : negb (is_nil (l ++ [IAbort])) = true) by (destruct l; reflexivity). rewrite En, E.
  cbn [run_instrs run_instr]. unfold bind. rewrite (abort_run (with_frames (s' :: r) w) s' r eq_refl). rewrite with_frames_twice. reflexivity.
Qed.

(** * The measure goes down *)
Lemma last_removelast {A} (l : list A) x : last_opt l = Some x -> l = removelast l ++ [x].
Proof.
  induction l as [|y l IH]; [discriminate|]. destruct l as [|z l].
  - cbn. now intros [= ->].
  - intros H. specialize (IH H). cbn [removelast app] in *. now rewrite <- IH.
Qed.
Lemma last_none {A} (l : list A) : last_opt l = None -> l = [].
Proof.
  induction l as [|x l IH]; [reflexivity|]. destruct l as [|y l]; cbn in *; [discriminate|]. intros H. specialize (IH H). discriminate.
Qed.
Lemma cmode_eqb_iff a b : cmode_eqb a b = true <-> a = b.
Proof. split; [apply cmode_eqb_eq|intros ->; destruct b; reflexivity]. Qed.
Lemma abort_prev s : Tr s \/ Or s ->
  let t := abort_to_previous_mode s in
  Tr t /\ s_default t = s_default s /\ s_imode t = s_imode s
  /\ (forall c, may_visit t c -> may_visit s c)
  /\ (frame_presses t < frame_presses s \/ (s_hist s = [] /\ s_cmode s = s_default s /\ frame_presses t = 0)).
Proof.
  intros Hs. assert (Hn : nr s) by (destruct Hs as [Hs|Hs]; apply Hs). cbn zeta. split; [now apply Tr_abort|].
  unfold abort_to_previous_mode. destruct (last_opt (s_hist s)) as [m|] eqn:E.
  - pose proof (last_removelast _ _ E) as Eh. pose proof (last_opt_in _ _ E) as Hin.
    assert (Hlen : length (s_hist s) = S (length (removelast (s_hist s)))) by (rewrite Eh at 1; rewrite app_length; cbn; lia).
    assert (Hm : m <> Register) by (intros ->; now apply (proj1 Hn)).
    assert (G : forall t m', s_cmode t = m' -> s_hist t = removelast (s_hist s) -> s_default t = s_default s -> s_imode t = s_imode s ->
      m' = m \/ (m' = PreComposition /\ m = PreCompositionOkurigana) ->
      s_default t = s_default s /\ s_imode t = s_imode s /\ (forall c, may_visit t c -> may_visit s c)
      /\ (frame_presses t < frame_presses s \/ (s_hist s = [] /\ s_cmode s = s_default s /\ frame_presses t = 0))).
    { intros t m' E1 E2 E3 E4 Hmm. split; [exact E3|split; [exact E4|split]].
      - intros c (Hc & Hv). split; [exact Hc|]. rewrite E1, E2, E3 in Hv.
        destruct Hv as [->|[->|[Hv|(-> & Hv)]]].
        + destruct Hmm as [->|(-> & ->)]; auto.
        + auto.
        + apply in_removelast in Hv. auto.
        + apply in_removelast in Hv. auto.
      - left. unfold frame_presses. rewrite E1, E2, E3, Hlen. destruct (cmode_eqb _ _), (cmode_eqb _ _); lia. }
    destruct m; first [exfalso; apply Hm; reflexivity
      |eapply G; [reflexivity|reflexivity|reflexivity|reflexivity|left; reflexivity]
      |eapply G; [reflexivity|reflexivity|reflexivity|reflexivity|right; split; reflexivity]].
  - apply last_none in E. split; [reflexivity|split; [reflexivity|split]].
    + intros c (Hc & Hv). cbn in Hv. rewrite E in Hv. split; [exact Hc|]. rewrite E. cbn. intuition.
    + unfold frame_presses. cbn. rewrite E. cbn.
      rewrite (proj2 (cmode_eqb_iff (s_default s) (s_default s)) eq_refl).
      destruct (cmode_eqb (s_cmode s) (s_default s)) eqn:Ec; [right|left; lia].
      apply cmode_eqb_iff in Ec. auto.
Qed.
Lemma same_modes_Tr s s' : same_modes s s' -> Tr s -> Tr s'.
Proof. intros (H1 & H2 & H3 & _). now apply Tr_eq. Qed.
Lemma same_modes_visit s s' c : same_modes s s' -> may_visit s' c -> may_visit s c.
Proof. unfold may_visit. intros (-> & -> & -> & _). auto. Qed.
Lemma same_modes_presses s s' : same_modes s s' -> frame_presses s' = frame_presses s.
Proof. unfold frame_presses. intros (-> & -> & -> & _). reflexivity. Qed.
Lemma presses_cons s r : presses (s :: r) = frame_presses s + fold_right (fun s n => frame_presses s + n) (length r) r.
Proof. unfold presses. cbn [fold_right length]. now rewrite Nat.sub_1_r. Qed.
Lemma fold_base l a : fold_right (fun s n => frame_presses s + n) a l = a + fold_right (fun s n => frame_presses s + n) 0 l.
Proof. induction l as [|x l IH]; cbn [fold_right]; [lia|]. rewrite IH. lia. Qed.
Lemma presses_eq s r : presses (s :: r) = frame_presses s + length r + fold_right (fun s n => frame_presses s + n) 0 r.
Proof. rewrite presses_cons, fold_base. lia. Qed.
(** The frames after one abort. *)
Lemma abort_stack_spec s r : Tr s -> Forall Or r -> Forall (fun s => s_default s = Direct) (removelast (s :: r)) ->
  nested (abort_stack (s :: r))
  /\ (presses (abort_stack (s :: r)) < presses (s :: r)
      \/ (r = [] /\ s_hist s = [] /\ s_cmode s = s_default s /\ presses (abort_stack (s :: r)) = 0))
  /\ (forall t, In t (abort_stack (s :: r)) -> exists t0, In t0 (s :: r) /\ s_imode t = s_imode t0 /\ (forall c, may_visit t c -> may_visit t0 c)).
Proof.
  intros Ht Ho Hd.
  assert (Ha : same_modes s (aborted s)) by (repeat split).
  pose proof (same_modes_Tr _ _ Ha Ht) as Hta.
  (* the current frame stays *)
  assert (Keep : forall t, Tr t -> s_default t = s_default s -> s_imode t = s_imode s ->
     (forall c, may_visit t c -> may_visit s c) ->
     (frame_presses t < frame_presses s \/ (r = [] /\ s_hist s = [] /\ s_cmode s = s_default s /\ frame_presses t = 0)) ->
     nested (t :: r) /\ (presses (t :: r) < presses (s :: r)
      \/ (r = [] /\ s_hist s = [] /\ s_cmode s = s_default s /\ presses (t :: r) = 0))
     /\ (forall t1, In t1 (t :: r) -> exists t0, In t0 (s :: r) /\ s_imode t1 = s_imode t0 /\ (forall c, may_visit t1 c -> may_visit t0 c))).
  { intros t H1 H2 H3 H4 H5. split; [|split].
    - exists t, r. repeat split; try apply H1; auto. destruct r as [|s2 r2]; [constructor|].
      cbn [removelast] in *. apply Forall_cons_iff in Hd as (Hd1 & Hd2). constructor; [congruence|exact Hd2].
    - rewrite !presses_eq. destruct H5 as [H5|(-> & H5)]; [left; lia|right]. cbn [length fold_right]. destruct H5 as (H5 & H6 & H7). repeat split; auto; lia.
    - intros t1 [<-|Hin]; [exists s; split; [now left|auto]|exists t1; split; [now right|auto]]. }
  assert (Norm : nested (abort_to_previous_mode (aborted s) :: r) /\ (presses (abort_to_previous_mode (aborted s) :: r) < presses (s :: r)
      \/ (r = [] /\ s_hist s = [] /\ s_cmode s = s_default s /\ presses (abort_to_previous_mode (aborted s) :: r) = 0))
     /\ (forall t1, In t1 (abort_to_previous_mode (aborted s) :: r) -> exists t0, In t0 (s :: r) /\ s_imode t1 = s_imode t0 /\ (forall c, may_visit t1 c -> may_visit t0 c))
     \/ (s_cmode s = Direct /\ r <> [])).
  { destruct (abort_prev (aborted s) (or_introl Hta)) as (P1 & P2 & P3 & P4 & P5).
    assert (Hv : forall c, may_visit (abort_to_previous_mode (aborted s)) c -> may_visit s c)
      by (intros c Hc; apply (same_modes_visit s (aborted s) c Ha), P4, Hc).
    destruct r as [|s2 r2].
    - left. apply Keep; auto. destruct P5 as [P5|P5]; [left; exact P5|right; split; [reflexivity|exact P5]].
    - cbn [removelast] in Hd. apply Forall_cons_iff in Hd as (Hd1 & _).
      destruct P5 as [P5|(_ & P5 & _)]; [left; apply Keep; auto|].
      right. split; [cbn in P5; congruence|discriminate]. }
  assert (Pop : forall s2 r2, r = s2 :: r2 -> s_cmode s = Direct ->
     nested (abort_to_previous_mode s2 :: r2) /\ presses (abort_to_previous_mode s2 :: r2) < presses (s :: r)
     /\ (forall t1, In t1 (abort_to_previous_mode s2 :: r2) -> exists t0, In t0 (s :: r) /\ s_imode t1 = s_imode t0 /\ (forall c, may_visit t1 c -> may_visit t0 c))).
  { intros s2 r2 -> _. apply Forall_cons_iff in Ho as (Ho1 & Ho2).
    destruct (abort_prev s2 (or_intror Ho1)) as (P1 & P2 & P3 & P4 & P5). split; [|split].
    - exists (abort_to_previous_mode s2), r2. repeat split; try apply P1; auto.
      cbn [removelast] in Hd. apply Forall_cons_iff in Hd as (_ & Hd).
      destruct r2 as [|s3 r3]; [constructor|]. cbn [removelast] in *. apply Forall_cons_iff in Hd as (Hd1 & Hd2).
      constructor; [congruence|exact Hd2].
    - rewrite !presses_eq. cbn [length fold_right]. destruct P5 as [P5|(_ & _ & P5)]; lia.
    - intros t1 [<-|Hin]; [exists s2; split; [right; now left|auto]|exists t1; split; [right; now right|auto]]. }
  unfold abort_stack. destruct (s_cmode s) eqn:Ec;
    try (destruct Norm as [Norm|(Hx & _)]; [exact Norm|discriminate Hx]).
  - destruct r as [|s2 r2]; [destruct Norm as [Norm|(_ & Hx)]; [exact Norm|congruence]|].
    destruct (Pop s2 r2 eq_refl eq_refl) as (Q1 & Q2 & Q3). auto.
  - destruct Norm as [Norm|(Hx & _)]; [|discriminate Hx].
    destruct (abort_prev (aborted s) (or_introl Hta)) as (P1 & P2 & P3 & P4 & P5).
    cbn zeta. set (s1 := abort_to_previous_mode (aborted s)) in *.
    destruct (cmode_eqb (s_cmode s1) PreComposition); [|exact Norm].
    destruct (abort_prev s1 (or_introl P1)) as (R1 & R2 & R3 & R4 & R5).
    apply Keep; auto.
    + rewrite R2, P2. reflexivity.
    + rewrite R3, P3. reflexivity.
    + intros c Hc. apply (same_modes_visit s (aborted s) c Ha), P4, R4, Hc.
    + assert (Hfs : frame_presses (aborted s) = frame_presses s) by reflexivity.
      assert (Hh : s_hist (aborted s) = s_hist s) by reflexivity.
      destruct P5 as [P5|(Q1 & Q2 & Q3)].
      * left. rewrite <- Hfs. destruct R5 as [R5|(_ & _ & R5)]; lia.
      * (* already in the default mode: the default is PreCompositionOkurigana *)
        right. cbn in Q1, Q2. assert (Nm' : r = []).
        { destruct r as [|s2 r2]; [reflexivity|]. cbn [removelast] in Hd. apply Forall_cons_iff in Hd as (Hd1 & _). congruence. }
        repeat split; auto; [congruence|].
        destruct R5 as [R5|R5]; [lia|apply R5].
Qed.

(** * C15 *)
Definition all_bound (cr : command_rule) (g : keyev) (l : list cstate) : Prop :=
  forall s c, In s l -> may_visit s c -> aborts cr g c (s_imode s).
Lemma abort_press X dbg g w : control_key g -> nested (frames w) -> all_bound (x_cmd (w_ctx w)) g (frames w) ->
  exists l, process_key_event X dbg g w = Ok (true, with_frames l w) /\ nested l
    /\ all_bound (x_cmd (w_ctx w)) g l /\ (presses l < presses (frames w) \/ presses l = 0).
Proof.
  intros Hg (s & r & Hs & Ht & Ho & Hd) Hb. rewrite Hs in Hb.
  assert (Hv : may_visit s (s_cmode s)) by (split; [apply Ht|now left]).
  destruct (abort_key X dbg g w s r Hs (proj1 Ht) Hg (Hb s _ (or_introl eq_refl) Hv)) as (s' & Hm & E).
  exists (abort_stack (s' :: r)). split; [exact E|].
  assert (Hd' : Forall (fun s => s_default s = Direct) (removelast (s' :: r))).
  { destruct r as [|s2 r2]; [constructor|]. rewrite Hs in Hd. cbn [removelast] in *. apply Forall_cons_iff in Hd as (H1 & H2).
    constructor; [|exact H2]. destruct Hm as (_ & _ & -> & _). exact H1. }
  destruct (abort_stack_spec s' r (same_modes_Tr _ _ Hm Ht) Ho Hd') as (A1 & A2 & A3).
  split; [exact A1|]. split.
  - intros t c Hin Hc. destruct (A3 t Hin) as (t0 & Hin0 & -> & Hv0). destruct Hin0 as [<-|Hin0].
    + rewrite (proj2 (proj2 (proj2 Hm))). apply Hb; [now left|]. apply (same_modes_visit s s' c Hm), Hv0, Hc.
    + apply Hb; [now right|]. now apply Hv0.
  - rewrite Hs. assert (Ep : presses (s' :: r) = presses (s :: r)) by (rewrite !presses_eq; now rewrite (same_modes_presses _ _ Hm)).
    rewrite <- Ep. destruct A2 as [A2|(_ & _ & _ & A2)]; auto.
Qed.
Lemma presses_home l : nested l -> presses l = 0 -> exists s, l = [s] /\ s_cmode s = s_default s /\ s_hist s = [].
Proof.
  intros (s & r & -> & _) H. rewrite presses_eq in H. destruct r; [|cbn in H; lia]. exists s.
  unfold frame_presses in H. destruct (cmode_eqb (s_cmode s) (s_default s)) eqn:E; [|cbn in H; lia].
  apply cmode_eqb_iff in E. destruct (s_hist s) eqn:Eh; [auto|cbn in H; lia].
Qed.
Lemma abort_presses X dbg g n : control_key g -> forall w, nested (frames w) -> all_bound (x_cmd (w_ctx w)) g (frames w) ->
  exists l, run X dbg (repeat (OKey g) n) w = Ok (repeat (OutBool true) n, with_frames l w)
    /\ nested l /\ presses l <= presses (frames w) - n.
Proof.
  intros Hg. induction n as [|n IH]; intros w Hn Hb.
  - exists (frames w). split; [|split; [exact Hn|lia]]. cbn. now rewrite (with_frames_same w _ eq_refl).
  - destruct (abort_press X dbg g w Hg Hn Hb) as (l1 & E1 & N1 & B1 & P1).
    destruct (IH (with_frames l1 w) N1 B1) as (l & E & Hl & Hp). exists l. split; [|split; [exact Hl|]].
    + cbn [repeat]. rewrite (run_cons X dbg _ _ _ _ _ (exec_key X dbg _ _ _ _ E1)), E. reflexivity.
    + change (frames (with_frames l1 w)) with l1 in Hp. lia.
Qed.
(** C15 (partial): if the key aborts in every mode the frames may be in or go back to, then
    after [presses] presses (and ever after) the context is home, every press is accepted, and
    the dictionaries are untouched. *)
Theorem C15_partial X dbg g w : control_key g -> nested (frames w) ->
  (forall s c, In s (frames w) -> may_visit s c -> aborts (x_cmd (w_ctx w)) g c (s_imode s)) ->
  forall n, presses (frames w) <= n ->
  exists w', run X dbg (repeat (OKey g) n) w = Ok (repeat (OutBool true) n, w')
    /\ home w' /\ w_store w' = w_store w.
Proof.
  intros Hg Hn Hb n Hle. destruct (abort_presses X dbg g n Hg w Hn Hb) as (l & E & Hl & Hp).
  exists (with_frames l w). split; [exact E|split; [|reflexivity]].
  destruct (presses_home l Hl ltac:(lia)) as (s & -> & H & _). exists s. split; [reflexivity|exact H].
Qed.

Lemma astep_default fl dbg b s s' : astep fl dbg b s s' -> s_default s' = s_default s.
Proof.
  intros H; destruct H; cbn; auto.
  - unfold abort_to_previous_mode. destruct (last_opt (s_hist s)) as [[]|]; reflexivity.
  - destruct c; reflexivity.
  - apply st_delete_default.
  - clear. induction n; cbn; auto. now rewrite st_delete_default.
  - unfold set_candidate_pointer. destruct (cl_set_pointer i (s_list s)); reflexivity.
  - unfold st_forward in H. destruct (cl_forward dbg (s_list s)); cbn in H; [|discriminate]. now injection H as <-.
Qed.
Definition inner_direct (l : list cstate) : Prop := Forall (fun s => s_default s = Direct) (removelast l).
Lemma inner_cons s r : inner_direct (s :: r) <-> (r = [] \/ (s_default s = Direct /\ inner_direct r)).
Proof.
  unfold inner_direct. destruct r as [|s2 r2]; cbn [removelast].
  - split; [now left|constructor].
  - rewrite Forall_cons_iff. split; [now right|]. intros [H|H]; [discriminate|exact H].
Qed.
Lemma inner_srel fl dbg b l l' : srel fl dbg b l l' -> inner_direct l -> inner_direct l'.
Proof.
  induction 1 as [|l1 l2 l3 _ IH Hst]; intros H; [exact H|]. specialize (IH H). destruct Hst.
  - apply astep_default in H0. rewrite inner_cons in *. rewrite H0. exact IH.
  - apply inner_cons. right. split; [reflexivity|]. rewrite inner_cons in *. exact IH.
  - rewrite inner_cons in IH. destruct IH as [IH|IH]; [discriminate|apply IH].
  - unfold inner_direct in *. rewrite removelast_last in *. exact IH.
Qed.
Lemma run_nested X dbg r kf am ds i c st ops outs w :
  rule_no_register (r_command r) -> c <> Register -> Forall op_no_register ops ->
  run X dbg ops (mkW st (ctx_new X r kf am ds i c)) = Ok (outs, w) -> nested (frames w).
Proof.
  intros Hr Hc Hops H.
  assert (Hi : inner_direct (x_stack (w_ctx w))).
  { eapply (run_inv X dbg (fun w => x_stack (w_ctx w) <> [] /\ inner_direct (x_stack (w_ctx w))) (fun _ => True));
      [tauto| | | |exact H].
    - intros o w1 w2 _ (H1 & H2) Hs. split; [eapply step_nonempty; eauto|].
      destruct Hs as [Hs|(-> & _)]; [|exact H2]. eapply inner_srel; [apply Hs|exact H2].
    - apply Forall_forall; auto.
    - split; [discriminate|constructor]. }
  pose proof (k_run X dbg ops Hops (mkW st (ctx_new X r kf am ds i c))) as Hk.
  unfold wp in Hk. rewrite H in Hk. destruct Hk as [_ Hk].
  { split; [exact Hr|]. exists (st_new i c), []. repeat split; auto. }
  destruct Hk as (s & l & E & Hs & Hl). exists s, l. repeat split; try apply Hs; auto.
Qed.
Lemma presses_bound X dbg w : reachable X dbg w -> presses (frames w) <= 419.
Proof.
  intros Hr. pose proof (reachable_length X dbg w Hr) as Hl. pose proof (reachable_hist X dbg w Hr) as Hh.
  unfold frames in *. destruct (x_stack (w_ctx w)) as [|s r]; [cbn in Hl; lia|].
  assert (G : forall l, Forall hist_ok l -> fold_right (fun s n => frame_presses s + n) 0 l <= 41 * length l).
  { induction 1 as [|x l Hx Hf IH]; cbn [fold_right length]; [lia|]. unfold frame_presses, hist_ok in *.
    destruct (cmode_eqb _ _); lia. }
  specialize (G _ Hh). cbn [fold_right length] in G, Hl. rewrite presses_eq. lia.
Qed.
(** For a rule that binds the key to Abort in every mode: from every world reached without
    reset and without setting Register mode by hand, 419 presses lead home. *)
Theorem C15_reachable_partial X dbg r kf am ds i c st ops outs w g :
  rule_no_register (r_command r) -> c <> Register ->
  Forall (fun o => op_no_register o /\ changes_rule o = false) ops ->
  run X dbg ops (mkW st (ctx_new X r kf am ds i c)) = Ok (outs, w) ->
  control_key g -> (forall c' i', c' <> Register -> aborts (r_command r) g c' i') ->
  forall n, 419 <= n ->
  exists w', run X dbg (repeat (OKey g) n) w = Ok (repeat (OutBool true) n, w') /\ home w'.
Proof.
  intros Hr Hc Hops H Hg Hb n Hle.
  assert (Hn : nested (frames w)).
  { eapply run_nested; [exact Hr|exact Hc| |exact H]. eapply Forall_impl; [|exact Hops]. cbv beta. intros o Ho; apply Ho. }
  assert (Hcr : x_cmd (w_ctx w) = r_command r).
  { eapply (run_inv X dbg (fun w => x_stack (w_ctx w) <> [] /\ x_cmd (w_ctx w) = r_command r) (fun o => changes_rule o = false));
      [| | | |exact H].
    - tauto.
    - intros o w1 w2 Ho [H1 H2] Hs. split; [eapply step_nonempty; eauto|].
      destruct Hs as [[(E & _) _ _]|(_ & _ & E)]; [|destruct (E Ho) as [_ E']]; congruence.
    - eapply Forall_impl; [|exact Hops]. cbv beta. intros o Ho; apply Ho.
    - split; [discriminate|reflexivity]. }
  destruct (C15_partial X dbg g w Hg Hn) with (n := n) as (w' & E & Hh & _).
  - intros s c' _ (Hv & _). rewrite Hcr. now apply Hb.
  - assert (Hre : reachable X dbg w).
    { exists (mkW st (ctx_new X r kf am ds i c)), ops, outs. split; [|exact H]. exists st, kf, am, ds, i, c. left. now exists r. }
    pose proof (presses_bound X dbg w Hre). lia.
  - exists w'. auto.
Qed.

(** * C05 *)
(** Every key is ignored: the context is dead. *)
Definition dead (X : xkb) (dbg : bool) (w : world) : Prop := forall k, process_key_event X dbg k w = Ok (false, w).
(** Modes in which nothing is bound and no character is entered. *)
Lemma dead_mode X dbg w s r : frames w = s :: r ->
  (s_cmode s = PreComposition \/ s_cmode s = PreCompositionOkurigana) ->
  (s_imode s = Ascii \/ s_imode s = Zenkaku) ->
  x_cmd (w_ctx w) (s_cmode s) (s_imode s) = [] -> dead X dbg w.
Proof.
  intros Hs Hc Hi Hcr k. unfold frames in Hs. unfold process_key_event. destruct (has_mod k M_RELEASE); [reflexivity|].
  unfold process_key_event_inner, bind, cur, get. rewrite Hs. cbn zeta.
  assert (Hrom : has_rom2kana_conversion (s_imode s) (s_cmode s) = false)
    by (destruct Hi as [-> | ->], Hc as [-> | ->]; reflexivity).
  unfold skip_command. rewrite Hrom. rewrite andb_false_r.
  assert (Hins : get_instruction dbg (x_cmd (w_ctx w)) k (s_imode s) (s_cmode s) = Ok None)
    by (unfold get_instruction; rewrite Hcr; destruct Hc as [-> | ->]; reflexivity).
  rewrite Hins. unfold lift. unfold input_key. destruct (is_modifierless_input k); cbn [negb]; [|reflexivity].
  unfold bind, cur, get. rewrite Hs.
  assert (Hsel : match s_cmode s with CompositionSelection | Completion => true | _ => false end = false)
    by (destruct Hc as [-> | ->]; reflexivity).
  rewrite Hsel. cbn [andb]. unfold ret. rewrite Hs, Hrom. cbn [andb].
  rewrite andb_true_r. destruct (is_ascii_inputtable k); [|reflexivity].
  unfold input_plain, bind, cur, get, ret. rewrite Hs. destruct Hc as [-> | ->]; reflexivity.
Qed.
(** C05 as stated is false, and so is C15: with the shipped rule, typing A i C-j l C-g leaves
    the context in a mode where every key, C-g included, is ignored for ever. *)
Theorem C05_refuted : exists w, reachable ascii_xkb false w /\ dead ascii_xkb false w.
Proof.
  destruct (run_case (typed false (U "A i C-j l C-g") (demo [user_dict []]))
     (fun w => option_map (fun s => (s_cmode s, s_imode s)) (current w)) (Some (PreComposition, Ascii)))
    as (outs & w & Hr & E); [vm_compute; reflexivity|].
  exists w. split; [eapply T_Frames.typed_reachable; exact Hr|].
  unfold current in E. destruct (x_stack (w_ctx w)) as [|s r] eqn:Es; [discriminate|]. cbn in E. injection E as E1 E2.
  apply (dead_mode ascii_xkb false w s r); [exact Es|now left|now left|].
  rewrite (T_Frames.typed_cmd _ _ _ _ _ Hr), E1, E2. reflexivity.
Qed.
Theorem C15_refuted : exists w, reachable ascii_xkb false w
  /\ aborts (r_command default_rule) (mkKey 103 M_CONTROL) Direct Ascii
  /\ forall n, exists outs, run ascii_xkb false (repeat (OKey (mkKey 103 M_CONTROL)) n) w = Ok (outs, w)
       /\ forall s r, frames w = s :: r -> s_cmode s = PreComposition /\ s_default s = Direct.
Proof.
  destruct (run_case (typed false (U "A i C-j l C-g") (demo [user_dict []]))
     (fun w => option_map (fun s => (s_cmode s, s_imode s, s_default s)) (current w)) (Some (PreComposition, Ascii, Direct)))
    as (outs & w & Hr & E); [vm_compute; reflexivity|].
  exists w. split; [eapply T_Frames.typed_reachable; exact Hr|].
  split; [exists []; split; vm_compute; reflexivity|].
  unfold current in E. destruct (x_stack (w_ctx w)) as [|s r] eqn:Es; [discriminate|]. cbn in E. injection E as E1 E2 E3.
  assert (Hd : dead ascii_xkb false w).
  { apply (dead_mode ascii_xkb false w s r); [exact Es|now left|now left|].
    rewrite (T_Frames.typed_cmd _ _ _ _ _ Hr), E1, E2. reflexivity. }
  induction n as [|n (os & IH & _)].
  - exists []. split; [reflexivity|]. intros s' r' Hs'. unfold frames in Hs'. rewrite Es in Hs'. injection Hs' as <- <-. auto.
  - exists (OutBool false :: os). split.
    + cbn [repeat]. rewrite (run_cons _ _ _ _ _ _ _ (exec_key _ _ _ _ _ _ (Hd _))), IH. reflexivity.
    + intros s' r' Hs'. unfold frames in Hs'. rewrite Es in Hs'. injection Hs' as <- <-. auto.
Qed.

(** Instructions that never fail and let the list go on. *)
Definition steady (x : instr) : bool :=
  match x with
  | IChangeCompositionMode _ | IChangeInputMode _ | IForceKanaConvert _ | IClearUnconvertedInputs
  | IClearKanaConvertedInputs | IClearUnconfirmedInputs | IAbort | IConfirmComposition | IConfirmAs _
  | IPurge | IPreviousCandidatePointer | IFinishKeyEvent => true
  | _ => false
  end.
Definition total {A} (m : M A) : Prop := forall w, x_stack (w_ctx w) <> [] ->
  exists a w', m w = Ok (a, w') /\ x_stack (w_ctx w') <> [].
Lemma total_ret {A} (a : A) : total (ret a).
Proof. intros w H. now exists a, w. Qed.
Lemma total_bind {A B} (m : M A) (f : A -> M B) : total m -> (forall a, total (f a)) -> total (bind m f).
Proof. intros Hm Hf w H. destruct (Hm w H) as (a & w1 & E & H1). unfold bind. rewrite E. now apply Hf. Qed.
Lemma total_cur : total cur.
Proof. intros w H. unfold cur. destruct (x_stack (w_ctx w)) eqn:E; [congruence|]. eexists _, w. split; [reflexivity|congruence]. Qed.
Lemma total_get : total get.
Proof. intros w H. now exists w, w. Qed.
Lemma total_modcur f : total (modcur f).
Proof. intros w H. unfold modcur. destruct (x_stack (w_ctx w)) eqn:E; [congruence|]. eexists _, _. split; [reflexivity|discriminate]. Qed.
Lemma total_for f : total (for_dicts f).
Proof. intros w H. eexists _, _. split; [reflexivity|exact H]. Qed.
Ltac tot := cbn beta zeta; repeat first
  [apply total_ret|apply total_modcur|apply total_for|apply total_cur|apply total_get
  |apply total_bind; [|intros ?]
  |match goal with |- total (match ?x with _ => _ end) => destruct x end
  |match goal with |- total (if ?x then _ else _) => destruct x end].
Lemma total_confirm : total confirm_current.
Proof. unfold confirm_current. tot. Qed.
Lemma total_output i c : total (output_converted_kana_if_any i c).
Proof. unfold output_converted_kana_if_any, set_carry_over. tot. Qed.
Lemma total_abort : total abort.
Proof.
  intros w H. destruct (x_stack (w_ctx w)) as [|s r] eqn:E; [congruence|].
  rewrite (abort_run w s r E). eexists _, _. split; [reflexivity|]. cbn.
  destruct (s_cmode s); try discriminate. destruct r; discriminate.
Qed.
Lemma steady_run dbg x c i : steady x = true -> forall w, x_stack (w_ctx w) <> [] ->
  exists w', run_instr dbg x c i w = Ok (inl tt, w') /\ x_stack (w_ctx w') <> [].
Proof.
  intros Hx w H.
  assert (G : forall m : M unit, total m -> exists w', (m ;; ret (inl tt : unit + bool)) w = Ok (inl tt, w') /\ x_stack (w_ctx w') <> []).
  { intros m Hm. destruct (Hm w H) as (a & w1 & E & H1). exists w1. split; [|exact H1]. unfold bind. rewrite E. reflexivity. }
  destruct x; try discriminate Hx; cbn [run_instr]; try (apply G; unfold set_composition_mode, set_input_mode, confirm_as, purge_current; tot; fail).
  all: first
    [apply G; apply total_bind; [apply total_output|intros; apply total_ret]
    |apply G, total_abort|apply G, total_confirm|exists w; split; [reflexivity|exact H]].
Qed.
Lemma steady_list dbg l c i : forallb steady l = true -> forall b w, x_stack (w_ctx w) <> [] ->
  exists w', run_instrs dbg l c i b w = Ok (b, w').
Proof.
  induction l as [|x l IH]; intros Hl b w H; [now exists w|]. cbn in Hl. apply andb_true_iff in Hl as (Hx & Hl).
  destruct (steady_run dbg x c i Hx w H) as (w1 & E & H1). destruct (IH Hl b w1 H1) as (w2 & E2).
  exists w2. cbn [run_instrs]. unfold bind. rewrite E. exact E2.
Qed.
(** In the given modes the rule binds the key to some steady instructions. *)
Definition answers (cr : command_rule) (g : keyev) (c : cmode) (i : imode) : Prop :=
  exists l, bound cr c i g l /\ l <> [] /\ forallb steady l = true.
Lemma answer_key X dbg g w s r : frames w = s :: r -> s_cmode s <> Register -> control_key g ->
  answers (x_cmd (w_ctx w)) g (s_cmode s) (s_imode s) -> exists w', process_key_event X dbg g w = Ok (true, w').
Proof.
  intros Hs Hc (Hg1 & Hg2) (l & Hb & Hn & Hl). unfold frames in Hs.
  rewrite (key_bound X dbg g w s r l Hs Hg1 Hc Hg2 Hb). unfold process_instructions.
  assert (negb (is_nil l) = true) as -> by (destruct l; [congruence|reflexivity]).
  apply steady_list; [exact Hl|congruence].
Qed.
(** C05 (partial), for rules that bind some control key in every mode: every world reached
    without reset and without setting Register mode by hand accepts it. *)
Theorem C05_partial X dbg r kf am ds i c st ops outs w g :
  rule_no_register (r_command r) -> c <> Register ->
  Forall (fun o => op_no_register o /\ changes_rule o = false) ops ->
  run X dbg ops (mkW st (ctx_new X r kf am ds i c)) = Ok (outs, w) ->
  control_key g -> (forall c' i', c' <> Register -> answers (r_command r) g c' i') ->
  exists w', process_key_event X dbg g w = Ok (true, w').
Proof.
  intros Hr Hc Hops H Hg Hb.
  assert (Hn : nested (frames w)).
  { eapply run_nested; [exact Hr|exact Hc| |exact H]. eapply Forall_impl; [|exact Hops]. cbv beta. intros o Ho; apply Ho. }
  assert (Hcr : x_cmd (w_ctx w) = r_command r).
  { eapply (run_inv X dbg (fun w => x_stack (w_ctx w) <> [] /\ x_cmd (w_ctx w) = r_command r) (fun o => changes_rule o = false));
      [| | | |exact H].
    - tauto.
    - intros o w1 w2 Ho [H1 H2] Hs. split; [eapply step_nonempty; eauto|].
      destruct Hs as [[(E & _) _ _]|(_ & _ & E)]; [|destruct (E Ho) as [_ E']]; congruence.
    - eapply Forall_impl; [|exact Hops]. cbv beta. intros o Ho; apply Ho.
    - split; [discriminate|reflexivity]. }
  destruct Hn as (s & l & Es & Ht & _). apply (answer_key X dbg g w s l Es (proj1 Ht) Hg).
  rewrite Hcr. apply Hb, Ht.
Qed.
(** C05 (partial), for the shipped rule: C-j is accepted in every state of the kana input
    modes, and in direct input of the other two; letters are accepted in abbreviation mode.
    Only the frames matter, however they were reached. *)
Theorem C05_default_partial ru X dbg w s r : ru = default_rule \/ ru = azik_rule -> x_cmd (w_ctx w) = r_command ru ->
  frames w = s :: r -> s_cmode s <> Register ->
  kana_mode (s_imode s) \/ s_cmode s = Direct ->
  exists w', process_key_event X dbg (mkKey 106 M_CONTROL) w = Ok (true, w').
Proof.
  intros Hru Hcr Hs Hc Hm. apply (answer_key X dbg _ w s r Hs Hc); [split; reflexivity|]. rewrite Hcr. clear Hcr.
  unfold answers, bound. destruct Hm as [Hi|Hd], Hru as [-> | ->].
  1-2: destruct Hi as [-> |[-> | ->]], (s_cmode s); try congruence; eexists; (split; [vm_compute; reflexivity|split; [discriminate|reflexivity]]).
  all: rewrite Hd; destruct (s_imode s); eexists; (split; [vm_compute; reflexivity|split; [discriminate|reflexivity]]).
Qed.
Theorem C05_abbreviation_partial ru X dbg w s r k ch : ru = default_rule \/ ru = azik_rule -> x_cmd (w_ctx w) = r_command ru ->
  frames w = s :: r -> s_cmode s = Abbreviation -> (33 <= ksym k <= 126)%N -> types X k ch ->
  exists w', process_key_event X dbg k w = Ok (true, w').
Proof.
  intros Hru Hcr Hs Hc Hrange Ht. pose proof Ht as (Hmods & Hr & Hch). unfold frames in Hs.
  assert (Hml : is_modifierless_input k = true) by now apply mods_modifierless.
  rewrite (key_unbound X dbg k w s r Hs (mods_no_release k Hmods)); [|congruence|].
  - unfold input_key. rewrite Hml. cbn [negb]. unfold bind, cur, get. rewrite Hs, Hc. cbn [andb]. unfold ret. rewrite Hs, Hc.
    cbn [has_rom2kana_conversion andb]. rewrite (types_ascii X k ch Ht). cbn [andb].
    unfold input_plain, bind, cur, get. rewrite Hs, Hc. unfold get_symbol_char. rewrite Hch.
    unfold modcur. rewrite Hs. eexists. reflexivity.
  - rewrite Hcr, Hc. intros k' l Hin ->.
    assert (B : forallb (fun e : keyev * list instr => let k := fst e in
       negb (N.leb 33 (ksym k) && N.leb (ksym k) 126) || negb (N.eqb (kmods k) 0 || N.eqb (kmods k) M_SHIFT))
       (r_command ru Abbreviation (s_imode s)) = true) by (destruct Hru as [-> | ->]; destruct (s_imode s); vm_compute; reflexivity).
    rewrite forallb_forall in B. specialize (B _ Hin). cbn [fst] in B.
    assert (E1 : ksym (command_key k) = ksym k) by (unfold command_key; destruct (is_upper _); reflexivity).
    rewrite E1 in B. rewrite (proj2 (N.leb_le _ _) (proj1 Hrange)), (proj2 (N.leb_le _ _) (proj2 Hrange)) in B. cbn in B.
    assert (E2 : kmods (command_key k) = M_NONE \/ kmods (command_key k) = M_SHIFT).
    { unfold command_key. destruct (is_upper k); [|exact Hmods]. destruct Hmods as [-> | ->]; cbn; auto. }
    destruct E2 as [E2|E2]; rewrite E2 in B; discriminate.
Qed.
(** The hypotheses of the two generic theorems are met by a rule binding C-g to Abort everywhere. *)
Definition abort_rule : rule := mkRule (r_conversion default_rule)
  (fun c i => (mkKey 103 M_CONTROL, [IClearUnconfirmedInputs; IAbort]) :: r_command default_rule c i).
Example C15_example : rule_no_register (r_command abort_rule) /\ control_key (mkKey 103 M_CONTROL)
  /\ (forall c i, c <> Register -> aborts (r_command abort_rule) (mkKey 103 M_CONTROL) c i)
  /\ (forall c i, c <> Register -> answers (r_command abort_rule) (mkKey 103 M_CONTROL) c i)
  /\ exists outs w, run ascii_xkb true (map OKey (dkeys (U "A i space K a space l slash C-j Q")))
       (mkW [user_dict []] (ctx_new ascii_xkb abort_rule default_kana_form default_ascii_map [0] Hiragana Direct)) = Ok (outs, w)
     /\ (length (frames w), presses (frames w)) = (3, 15).
Proof.
  split; [|split; [split; reflexivity|split; [|split]]].
  - intros c i k l [[= <- <-]|Hin]; [intros [H|[H|[]]]; discriminate|]. eapply T_Frames.default_rule_no_register; eauto.
  - intros c i _. exists [IClearUnconfirmedInputs]. split; reflexivity.
  - intros c i _. exists [IClearUnconfirmedInputs; IAbort]. split; [reflexivity|split; [discriminate|reflexivity]].
  - apply (run_case _ (fun w => (length (frames w), presses (frames w)))). vm_compute. reflexivity.
Qed.
