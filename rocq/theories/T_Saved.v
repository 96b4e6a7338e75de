(** C64: everything learnt is saved. *)
From Verif Require Import Str Keys Modes KanaBuilder FormChanger DictTypes Parser Lru LruPtr
  Dictionary CState Context DefaultRule Demo Spec P_Monad P_Frames P_Inv T_Lru T_Dedup T_Entry P_Dict T_Escape T_ExactEscape T_Line SaveFs T_Load T_Save.
From Verif Require T_Frames.

(** A user dictionary that save_dictionary would write. *)
Definition would_be_written (d : dict) : bool := match d_kind d with DUser _ b => b | _ => false end.
(** The user dictionary as the saving code sees it. *)
Definition saving_view (d : dict) : udict := mkU (dict_ents d) (would_be_written d).
(** The same dictionary read anew from the file. *)
Definition reopened (d : dict) (f : fs) : dict :=
  match open_dictionary f with Some u => mkDict (d_completable d) (DUser (u_ents u) (u_change u)) | None => d end.

Lemma upd_at (P : dict -> Prop) f ids : (forall d, P d -> P (f d)) ->
  forall st i, (exists d, nth_error st i = Some d /\ P d) -> exists d, nth_error (upd_dicts ids f st) i = Some d /\ P d.
Proof.
  intros H1. unfold upd_dicts. induction ids as [|x ids IH]; intros st i H; cbn; [exact H|]. apply IH.
  destruct H as (d & Hd & H). rewrite nth_error_update_nth, Hd. destruct (Nat.eqb x i); cbn; eauto.
Qed.
Lemma drel_at (P : dict -> Prop) ids st st' :
  (forall d c, P d -> P (select_candidate d c)) -> (forall d k c, P d -> P (purge_candidate d k c)) ->
  drel ids st st' -> forall i, (exists d, nth_error st i = Some d /\ P d) -> exists d, nth_error st' i = Some d /\ P d.
Proof.
  intros P1 P2. induction 1 as [|s1 s2 s3 _ IH Hs]; intros i H; [exact H|]. specialize (IH i H).
  destruct Hs; (apply upd_at; [|exact IH]); auto.
Qed.
Lemma run_at X dbg (P : dict -> Prop) ops w outs w' i d : reachable X dbg w ->
  (forall d c, P d -> P (select_candidate d c)) -> (forall d k c, P d -> P (purge_candidate d k c)) ->
  Forall (fun o => changes_store o = false) ops -> run X dbg ops w = Ok (outs, w') -> dict_at i w = Some d -> P d ->
  exists d', dict_at i w' = Some d' /\ P d'.
Proof.
  intros Hr P1 P2 Hops Hrun Hd HP. apply reachable_nonempty in Hr.
  assert (H : x_stack (w_ctx w') <> [] /\ exists d', dict_at i w' = Some d' /\ P d'); [|apply H].
  eapply (run_inv X dbg (fun w => x_stack (w_ctx w) <> [] /\ exists d', dict_at i w = Some d' /\ P d')
    (fun o => changes_store o = false)); [..|exact Hrun].
  - tauto.
  - intros o w1 w2 Ho [Hne H] Hst. split; [eapply step_nonempty; eauto|].
    destruct Hst as [Hst|(_ & Hst & _)].
    + eapply drel_at; [exact P1|exact P2|apply Hst|exact H].
    + unfold dict_at in *. now rewrite (Hst Ho).
  - exact Hops.
  - split; [exact Hr|]. eauto.
Qed.
(** Whatever is typed: a dictionary of the context is afterwards either exactly as it was or due to
    be written by the next save. *)
Theorem C64_marked : forall X dbg ops w outs w' i d, reachable X dbg w ->
  Forall (fun o => changes_store o = false) ops -> run X dbg ops w = Ok (outs, w') -> dict_at i w = Some d ->
  exists d', dict_at i w' = Some d' /\ (would_be_written d' = true \/ d' = d).
Proof.
  intros X dbg ops w outs w' i d Hr Hops Hrun Hd.
  eapply (run_at X dbg (fun d' => would_be_written d' = true \/ d' = d)); [exact Hr|..|exact Hops|exact Hrun|exact Hd|now right].
  - intros d1 c [H| ->]; unfold select_candidate, would_be_written.
    + revert H. unfold would_be_written. destruct (d_kind d1) eqn:E; cbn [d_kind]; intros H; rewrite ?E; auto; discriminate.
    + destruct (d_kind d) eqn:E; cbn [d_kind]; auto.
  - intros d1 k c [H| ->]; unfold purge_candidate, would_be_written.
    + revert H. unfold would_be_written. destruct (d_kind d1) eqn:E; cbn [d_kind]; intros H; rewrite ?E; auto; discriminate.
    + destruct (d_kind d) eqn:E; cbn [d_kind]; auto.
Qed.
Lemma sound_selected d c : sound_dents (dict_ents d) -> sound_dents (dict_ents (select_candidate d c)).
Proof.
  intros IH. unfold select_candidate. destruct (d_kind d) as [e|e h|] eqn:E; [exact IH| |exact IH].
  unfold dict_ents in IH. rewrite E in IH. destruct IH as (I1 & I2).
  unfold dict_ents. cbn [d_kind]. destruct (c_okuri c); split; cbn; auto using sound_select.
Qed.
Lemma sound_purged d k c : sound_dents (dict_ents d) -> sound_dents (dict_ents (purge_candidate d k c)).
Proof.
  intros IH. unfold purge_candidate. destruct (d_kind d) as [e|e h|] eqn:E; [exact IH| |exact IH].
  unfold dict_ents in IH. rewrite E in IH. destruct IH as (I1 & I2).
  unfold dict_ents. cbn [d_kind]. destruct (c_okuri c); split; cbn; auto using sound_purge.
Qed.
(** A session from beginning to end: a user dictionary is read from a file, anything is typed, the
    dictionary is saved.  Whatever the file can carry, a new session that reads it gets exactly the
    answers of the old one. *)
Theorem C64_session : forall X dbg enc c t bak ops w outs w' i d',
  reachable X dbg w -> dict_at i w = Some (mkDict c (DUser (load_text t) false)) ->
  Forall (fun o => changes_store o = false) ops -> run X dbg ops w = Ok (outs, w') -> dict_at i w' = Some d' ->
  keepable enc (dict_ents d') ->
  exists saved u f', save_working enc (saving_view d') (mkFs (Some t) bak) = (Some saved, (u, f'))
    /\ same_answers d' (reopened d' f').
Proof.
  intros X dbg enc c t bak ops w outs w' i d' Hr Hd Hops Hrun Hd' Hk.
  destruct (C64_marked X dbg ops w outs w' i _ Hr Hops Hrun Hd) as (d2 & E & H). rewrite Hd' in E. injection E as <-.
  unfold save_working, saving_view. cbn [u_change u_ents f_main]. destruct H as [H| ->].
  - rewrite H. eexists _, _, _. split; [reflexivity|]. unfold reopened, open_dictionary. cbn [f_main option_map u_ents u_change].
    assert (Hs : sound_dents (dict_ents d')).
    { destruct (run_at X dbg (fun d => sound_dents (dict_ents d)) ops w outs w' i (mkDict c (DUser (load_text t) false)) Hr) as (d2 & E & G);
        [intros; now apply sound_selected|intros; now apply sound_purged|exact Hops|exact Hrun|exact Hd|apply sound_load|].
      rewrite Hd' in E. injection E as <-. exact G. }
    destruct d' as [c' [e|e b|]]; cbn [would_be_written d_kind] in H; try discriminate. subst b. cbn [dict_ents d_kind d_completable] in *.
    rewrite (reload_exact enc e Hs Hk). now apply remade_answers.
  - cbn [would_be_written d_kind]. eexists _, _, _. split; [reflexivity|]. unfold reopened, open_dictionary. cbn. intros before after k. auto.
Qed.
(** Met by typing: the second candidate of か is confirmed; the dictionary is due to be written, and its
    contents can be kept. *)
Definition mosquito : str := U "か /蚊/香/" ++ [10%N].
Definition learnt : dents := mkDents [] [(U "か", mkEntry (U "か") false [([], [mkDC (U "香") None; mkDC (U "蚊") None])])].
Example C64_case : exists outs w', typed false (U "K a space space Return") (demo [mkDict true (DUser (load_text mosquito) false)]) = Ok (outs, w')
  /\ dict_at 0 w' = Some (mkDict true (DUser learnt true)) /\ keepable (fun _ => true) learnt.
Proof.
  destruct (run_case (typed false (U "K a space space Return") (demo [mkDict true (DUser (load_text mosquito) false)])) (fun w => dict_at 0 w)
    (Some (mkDict true (DUser learnt true)))) as (outs & w & E & F); [vm_compute; reflexivity|].
  exists outs, w. split; [exact E|]. split; [exact F|].
  assert (S2 : savable (mkEntry (U "か") false [([], [mkDC (U "香") None; mkDC (U "蚊") None])])).
  { split.
    - cbn [e_midashi]. split; [discriminate|]. repeat split; apply notin_b; vm_compute; reflexivity.
    - constructor; cbn [e_map].
      + cbn. repeat constructor.
      + discriminate.
      + intros o l [[= <- <-]|[]]. split; [discriminate|split; [|now left]].
        repeat (constructor; [split; [|exact I]; cbn [dc_kouho]; split; [discriminate|split; [apply escapable_carried, escapableb_spec; vm_compute; reflexivity|split; apply notin_b; vm_compute; reflexivity]]|]).
        constructor.
      + intros l d rest [= _ <-] H. congruence. }
  split; cbn [learnt d_ari d_nashi app].
  - intros k e [[= <- <-]|[]]. split; [exact S2|]. split; [|reflexivity].
    split; [apply notin_b; vm_compute; reflexivity|]. intros o l d H Hd. cbn [e_map] in H.
    destruct H as [[= <- <-]|[]]; cbn in Hd;
      repeat (destruct Hd as [<-|Hd]; [split; [apply notin_b; vm_compute; reflexivity|first [exact I|apply notin_b; vm_compute; reflexivity]]|]); destruct Hd.
  - intros k e [].
Qed.
