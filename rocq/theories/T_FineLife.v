(** C79: saving and reloading while other threads type. *)
From Coq Require Import Permutation.
From Verif Require Import Str Keys Modes KanaBuilder FormChanger DictTypes Parser Lru LruPtr Dictionary
  CState Context DefaultRule Demo Spec P_Inv T_Entry P_Dict SaveFs T_Load T_Save T_Saved P_Alike Life T_Life Fine P_FineAlone P_Fine T_Fine T_FineLive P_FineAlike FineLife.

(** * Specification *)
(** As in C75: a dictionary is only saved when the file can carry its contents (C35), and only read again
    when nothing in it is unsaved. *)
Definition careful_event (enc : nat -> str -> bool) (e : event) (y : sys) : Prop :=
  match e with
  | Move _ => True
  | SaveDict i => forall d, nth_error (y_store y) i = Some d -> unsaved d = true -> keepable (enc i) (dict_ents d)
  | ReloadDict i => forall d, nth_error (y_store y) i = Some d -> unsaved d = false
  end.
Inductive careful_history X dbg enc : busy -> list event -> busy -> Prop :=
| ch_nil b : careful_history X dbg enc b [] b
| ch_cons e b b1 l b2 : careful_event enc e (b_sys b) -> happens X dbg enc e b b1 ->
    careful_history X dbg enc b1 l b2 -> careful_history X dbg enc b (e :: l) b2.
(** The moves of the threads, without the saving and reloading. *)
Definition moves (l : list event) : list nat := flat_map (fun e => match e with Move n => [n] | _ => [] end) l.

(** * Proof *)
Lemma alike_answers d d' : alike d d' -> same_answers d d'.
Proof. intros H. apply same_answers_intro; [apply H| |]; intros k; [now apply alike_lookup|now apply alike_complete]. Qed.
Lemma alike_trans a b c : alike a b -> alike b c -> alike a c.
Proof.
  intros [H1 H2] [G1 G2]. split; [congruence|]. destruct (d_kind a), (d_kind b), (d_kind c); try contradiction; auto; eapply alike_dents_trans; eassumption.
Qed.
Lemma move_in_step X dbg n y fl : all_in_step (y_store y) fl -> all_in_step (y_store (tstep X dbg n y)) fl.
Proof.
  intros H. unfold tstep. destruct (nth_error (y_threads y) n) as [t|]; [|exact H].
  destruct (t_phase t) as [|[[x c]|r|i a k]|i a k|r]; try exact H.
  - destruct (t_todo t); exact H.
  - destruct (locked i y); [exact H|]. destruct (existsb _ _); exact H.
  - destruct (guarded a (nth i (y_store y) empty_dict)) as [[x d]|r] eqn:Eg; [|exact H]. cbn [y_store].
    apply guarded_after in Eg. subst d. unfold all_in_step in *. apply forall2_set_l; [exact H|]. intros f Hf.
    assert (Hd : exists d, nth_error (y_store y) i = Some d /\ in_step d f).
    { clear - H Hf. revert i Hf. induction H as [|d g ds fl H Hs IH]; intros [|i] Hf; cbn in *; try discriminate; eauto. injection Hf as <-. eauto. }
    destruct Hd as (d & Ed & Hin). rewrite (nth_error_nth _ _ _ Ed). destruct a; cbn [after]; auto using in_step_select, in_step_purge.
Qed.
Lemma alike_put (P : dict -> dict -> Prop) i d' ds ds2 d : Forall2 P ds ds2 -> nth_error ds i = Some d -> (forall d2, P d d2 -> P d' d2) ->
  Forall2 P (update_nth i (fun _ => d') ds) ds2.
Proof.
  intros A Hd Ha. apply forall2_set_l; [exact A|]. intros b Hb. apply Ha. destruct (forall2_nth _ _ _ A _ _ Hd) as (b' & E & Hb'). congruence.
Qed.
Lemma history_alike X dbg enc b l b' : careful_history X dbg enc b l b' -> forall y2,
  all_in_step (y_store (b_sys b)) (b_files b) -> alike_sys (b_sys b) y2 ->
  alike_sys (b_sys b') (sched X dbg (moves l) y2) /\ all_in_step (y_store (b_sys b')) (b_files b').
Proof.
  induction 1 as [b|e b b1 l b2 Hc Hh Hl IH]; intros y2 Hin Ha; [now split|].
  destruct Hh as [n y fl|i y fl d f d' f' Hlk Hd Hf Hs|i y fl d f d' Hlk Hd Hf Hs]; cbn [b_sys b_files careful_event moves flat_map app] in *;
    fold (moves l).
  - apply (IH (tstep X dbg n y2)); [now apply move_in_step|now apply alike_tstep].
  - destruct (forall2_nth _ _ _ Hin _ _ Hd) as (f2 & E & Hi). rewrite Hf in E. injection E as <-.
    destruct (saved_in_step _ _ _ _ _ Hs Hi (Hc d Hd)) as (Hi' & Hal & _). apply IH.
    + cbn. now apply forall2_set.
    + destruct Ha as [H1 H2 H3 H4]. constructor; cbn; auto. eapply alike_put; eauto.
  - destruct (forall2_nth _ _ _ Hin _ _ Hd) as (f2 & E & Hi). rewrite Hf in E. injection E as <-.
    destruct (reloaded_in_step _ _ _ Hs Hi (Hc d Hd)) as (Hi' & Hal). apply IH.
    + cbn. apply forall2_set_l; [exact Hin|]. intros b Hb. rewrite Hf in Hb. now injection Hb as <-.
    + destruct Ha as [H1 H2 H3 H4]. constructor; cbn; auto. eapply alike_put; eauto.
Qed.
Lemma alike_launch st ts : Forall2 alike st st -> alike_sys (launch st ts) (launch st ts).
Proof.
  intros H. constructor; cbn; auto. induction ts as [|[c o] ts IH]; cbn; constructor; auto. repeat split.
Qed.
Lemma history_launched X dbg enc st ts fl l y' fl' : open_all st fl st ->
  careful_history X dbg enc (mkB (launch st ts) fl) l (mkB y' fl') ->
  alike_sys y' (sched X dbg (moves l) (launch st ts)) /\ all_in_step (y_store y') fl'.
Proof.
  intros Ho H. destruct (just_opened _ _ Ho) as [G1 G2].
  exact (history_alike X dbg enc _ _ _ H (launch st ts) G1 (alike_launch st ts G2)).
Qed.
(** Threads over dictionaries read from their files, with careful saving and reloading going on at any
    moments: at every point every thread has made the same calls with the same answers, has the same
    context, and is waiting for or holding the same locks as with the same schedule and no saving or
    reloading; nobody has panicked who would not have otherwise. *)
Theorem C79_invisible : forall X dbg enc st ts fl l y' fl', open_all st fl st ->
  careful_history X dbg enc (mkB (launch st ts) fl) l (mkB y' fl') ->
  let y := sched X dbg (moves l) (launch st ts) in
  map t_made (y_threads y') = map t_made (y_threads y)
  /\ map t_ctx (y_threads y') = map t_ctx (y_threads y)
  /\ map t_todo (y_threads y') = map t_todo (y_threads y)
  /\ (forall i, locked i y' = locked i y) /\ y_poisoned y' = y_poisoned y
  /\ (forall n r, option_map t_phase (nth_error (y_threads y') n) = Some (Dead r) <-> option_map t_phase (nth_error (y_threads y) n) = Some (Dead r)).
Proof.
  intros X dbg enc st ts fl l y' fl' Ho H y. destruct (history_launched X dbg enc st ts fl l y' fl' Ho H) as [A _]. fold y in A.
  pose proof (fun i => alike_locked i _ _ A) as HL. destruct A as [_ A Hp _].
  assert (Hm : map t_made (y_threads y') = map t_made (y_threads y) /\ map t_ctx (y_threads y') = map t_ctx (y_threads y)
    /\ map t_todo (y_threads y') = map t_todo (y_threads y)).
  { clear - A. induction A as [|t t' a b (E1 & E2 & E3 & _) _ (I1 & I2 & I3)]; cbn; [auto|]. rewrite E1, E2, E3, I1, I2, I3. auto. }
  destruct Hm as (M1 & M2 & M3). repeat (split; [assumption|]). intros n r.
  pose proof (forall2_get _ _ _ A n) as G. destruct (nth_error (y_threads y') n) as [t|], (nth_error (y_threads y) n) as [t'|]; try contradiction; cbn; [|split; discriminate].
  destruct G as (_ & _ & _ & G). destruct (t_phase t), (t_phase t'); try contradiction; split; intros E; try discriminate; cbn in G; congruence.
Qed.
(** Nothing learnt is lost.  After a careful history: a dictionary with nothing unsaved can be opened from
    its file, and what is opened answers as everything the threads did to that dictionary, in the order in
    which it happened, makes of what it was at the start. *)
Theorem C79_kept : forall X dbg enc st ts fl l y' fl' i d, open_all st fl st ->
  careful_history X dbg enc (mkB (launch st ts) fl) l (mkB y' fl') ->
  nth_error (y_store y') i = Some d -> unsaved d = false ->
  exists f d0 d1, nth_error fl' i = Some f /\ nth_error st i = Some d0 /\ open_one d f d1
    /\ same_answers d1 (replay (on_dict i (y_log y')) d0).
Proof.
  intros X dbg enc st ts fl l y' fl' i d Ho H Hd Hu. destruct (history_launched X dbg enc st ts fl l y' fl' Ho H) as [A Hin].
  destruct (forall2_nth _ _ _ Hin _ _ Hd) as (f & Hf & [Hs Hi]).
  destruct (forall2_nth _ _ _ (as_store _ _ A) _ _ Hd) as (d2 & Hd2 & Ha).
  destruct (C66_no_lost_update X dbg (moves l) (launch st ts)) as (more & El & Er). cbn [launch y_log app] in El. rewrite Er in Hd2.
  rewrite (as_log _ _ A), El. cbn [launch y_store] in Hd2. destruct (nth_error st i) as [d0|]; [|discriminate]. cbn in Hd2. injection Hd2 as <-.
  assert (Hop : exists d1, open_one d f d1).
  { destruct d as [c [e|e b|]].
    - destruct (Hi ltac:(discriminate) Hu) as (t & Ht & _). eexists. apply oo_static, Ht.
    - destruct (Hi ltac:(discriminate) Hu) as (t & Ht & _). eexists. apply oo_user, Ht.
    - eexists. apply oo_empty. }
  destruct Hop as (d1 & Hop). exists f, d0, d1. split; [exact Hf|]. split; [reflexivity|]. split; [exact Hop|].
  apply alike_answers. exact (proj2 (opened_in_step _ _ _ Hop (conj Hs Hi) Hu) _ Ha).
Qed.
(** And a save can be made whenever nobody is in the dictionary, whatever the threads are doing: if no
    system call fails, nothing is unsaved after it. *)
Theorem C79_saved : forall X dbg enc y fl i d f, can_lock i y -> nth_error (y_store y) i = Some d ->
  nth_error fl i = Some f -> f_main f <> None ->
  exists y' fl' d', happens X dbg enc (SaveDict i) (mkB y fl) (mkB y' fl')
    /\ nth_error (y_store y') i = Some d' /\ unsaved d' = false
    /\ y_threads y' = y_threads y /\ y_log y' = y_log y.
Proof.
  intros X dbg enc y fl i d f Hl Hd Hf Hm.
  assert (S : exists d' f', save_one (enc i) d f d' f' /\ unsaved d' = false).
  { destruct d as [c [e|e b|]].
    - eexists _, _. split; [apply so_static|reflexivity].
    - pose proof (working_is_a_save (enc i) (mkU e b) f) as Hw. destruct f as [[old|] bak]; [|now contradiction Hm].
      destruct (save_working (enc i) (mkU e b) (mkFs (Some old) bak)) as [r [u f']] eqn:Ew. cbn [fst snd] in Hw.
      eexists _, _. split; [eapply so_user; exact Hw|]. unfold save_working in Ew. cbn [u_change f_main u_ents] in Ew.
      destruct b; injection Ew as _ <- <-; reflexivity.
    - eexists _, _. split; [apply so_empty|reflexivity]. }
  destruct S as (d' & f' & Hs & Hu). eexists _, _, d'. split; [eapply hp_save; eauto|]. cbn [with_dict y_store y_threads y_log].
  rewrite nth_error_update_nth, Nat.eqb_refl, Hd. auto.
Qed.
(** The lock can always be had soon: nobody leaves it poisoned, and if somebody is in the dictionary, one
    move of that thread takes it out. *)
Theorem C79_lock : forall X dbg enc st ts fl l y' fl' i, open_all st fl st -> fresh_threads X ts ->
  careful_history X dbg enc (mkB (launch st ts) fl) l (mkB y' fl') ->
  can_lock i y' \/ exists n, can_lock i (tstep X dbg n y').
Proof.
  intros X dbg enc st ts fl l y' fl' i Ho Hfr H. destruct (history_launched X dbg enc st ts fl l y' fl' Ho H) as [A _].
  assert (Hp : forall l, y_poisoned (sched X dbg l (launch st ts)) = []) by (intros l0; now apply C66_never_poisoned).
  assert (Ht : forall l y, alike_sys y (sched X dbg l (launch st ts)) -> locked i (sched X dbg l (launch st ts)) = false -> can_lock i y).
  { intros l0 y A0 E. split; [now rewrite (alike_locked i _ _ A0)|]. rewrite (as_poisoned _ _ A0), Hp. auto. }
  destruct (locked i (sched X dbg (moves l) (launch st ts))) eqn:El; [|left; now apply (Ht (moves l))].
  right. pose proof El as El'. unfold locked in El. apply existsb_exists in El as (t & Hin & Hh). apply In_nth_error in Hin as (n & En).
  exists n. apply (Ht (moves l ++ [n])); rewrite sched_app; [now apply alike_tstep|].
  change (locked i (tstep X dbg n (sched X dbg (moves l) (launch st ts))) = false).
  pose proof (C66_mutual_exclusion X dbg st ts (moves l)) as Hex. set (y := sched X dbg (moves l) (launch st ts)) in *. clearbody y.
  unfold holds_lock in Hh. destruct (t_phase t) as [| |j a k|] eqn:Ep; try discriminate. apply Nat.eqb_eq in Hh. subst j.
  destruct (locked i (tstep X dbg n y)) eqn:E; [|reflexivity]. exfalso. unfold locked in E. apply existsb_exists in E as (u & Hu & Hh).
  apply In_nth_error in Hu as (m & Em). assert (Hs : exists t', holds_lock i t' = false /\ y_threads (tstep X dbg n y) = update_nth n (fun _ => t') (y_threads y)).
  { unfold tstep. rewrite En, Ep. destruct (guarded a _) as [[x d]|r]; eexists; (split; [|reflexivity]); reflexivity. }
  destruct Hs as (t' & Ht' & Es). rewrite Es, nth_error_update_nth in Em. destruct (Nat.eqb_spec n m) as [->|Hne].
  - rewrite En in Em. cbn in Em. injection Em as <-. congruence.
  - apply Hne. apply (Hex n m t u i En Em); [now exists a, k|]. unfold holds_lock in Hh. destruct (t_phase u) as [| |j a' k'|] eqn:Eu; try discriminate.
    apply Nat.eqb_eq in Hh. subst j. now exists a', k'.
Qed.

(** * The care is needed *)
(** Every reload is of a dictionary saved just before, with no other saving or reloading in between: a
    program that always saves before it reloads. *)
Definition saved_first (l : list event) : Prop := forall before i after, l = before ++ ReloadDict i :: after ->
  exists b1 ms, before = b1 ++ SaveDict i :: map Move ms.
Inductive history X dbg enc : busy -> list event -> busy -> Prop :=
| hi_nil b : history X dbg enc b [] b
| hi_cons e b b1 l b2 : (forall i, e = SaveDict i -> careful_event enc e (b_sys b)) -> happens X dbg enc e b b1 -> history X dbg enc b1 l b2 -> history X dbg enc b (e :: l) b2.
Lemma history_app X dbg enc a l b : history X dbg enc a l b -> forall l' c, history X dbg enc b l' c -> history X dbg enc a (l ++ l') c.
Proof. induction 1; intros l' c H'; cbn; [exact H'|]. econstructor; eauto. Qed.
Lemma history_moves X dbg enc fl l : forall y, history X dbg enc (mkB y fl) (map Move l) (mkB (sched X dbg l y) fl).
Proof. induction l as [|n l IH]; intros y; cbn; [constructor|]. econstructor; [discriminate|constructor|apply IH]. Qed.
Definition learner : list (ctx * list op) := [(demo_ctx [0], map OKey (dkeys (U "K a space space Return K a space")))].

Lemma learner_fresh : fresh_threads ascii_xkb learner.
Proof.
  intros c ops Hin. assert (c = demo_ctx [0]) as -> by (destruct Hin as [H|[]]; exact (eq_sym (f_equal fst H))).
  exists [], default_kana_form, default_ascii_map, [0], Hiragana, Direct. left. now exists default_rule.
Qed.
Lemma careful_app X dbg enc a l b : careful_history X dbg enc a l b -> forall l' c, careful_history X dbg enc b l' c -> careful_history X dbg enc a (l ++ l') c.
Proof. induction 1; intros l' c H'; cbn; [exact H'|]. econstructor; eauto. Qed.
Lemma careful_moves X dbg enc fl l : forall y, careful_history X dbg enc (mkB y fl) (map Move l) (mkB (sched X dbg l y) fl).
Proof. induction l as [|n l IH]; intros y; cbn; [constructor|]. econstructor; [exact I|constructor|apply IH]. Qed.
Definition shows (y : sys) : list str := map (fun t => get_preedit ascii_xkb (t_ctx t)) (y_threads y).
Lemma shows_clash y y' a b : map (fun t => get_preedit ascii_xkb (t_ctx t)) (y_threads y) = map (fun t => get_preedit ascii_xkb (t_ctx t)) (y_threads y') ->
  shows y = a -> shows y' = b -> a = b.
Proof. unfold shows. congruence. Qed.
Lemma saved_first_one ms ms' : saved_first (SaveDict 0 :: map Move ms ++ ReloadDict 0 :: map Move ms').
Proof.
  intros before i after E. exists [], ms. cbn [app]. destruct before as [|e before]; [discriminate|]. cbn in E. injection E as <- E.
  assert (G : forall ms before, map Move ms ++ ReloadDict 0 :: map Move ms' = before ++ ReloadDict i :: after -> i = 0 /\ before = map Move ms).
  { clear. induction ms as [|m ms IH]; intros [|e before] E; cbn in E.
    - injection E as E _. now split.
    - injection E as _ E. exfalso. assert (Hin : In (ReloadDict i) (map Move ms')) by (rewrite E; apply in_elt).
      apply in_map_iff in Hin as (x & Hx & _). discriminate.
    - discriminate.
    - injection E as <- E. destruct (IH before E) as [-> ->]. now split. }
  destruct (G ms before E) as [-> ->]. reflexivity.
Qed.
Lemma forgetting X dbg enc st ts old ms ms' d0 y1 d1 :
  st = [mkDict true (DUser d0 false)] -> y1 = sched X dbg ms (launch st ts) ->
  (y_store y1, y_poisoned y1, locked 0 y1) = ([mkDict true (DUser d1 true)], [], false) ->
  exists y' fl', history X dbg enc (mkB (launch st ts) [mkFs (Some old) None])
     (SaveDict 0 :: map Move ms ++ ReloadDict 0 :: map Move ms') (mkB y' fl')
  /\ y' = sched X dbg ms' (with_dict 0 (mkDict true (DUser (load_text old) true)) y1).
Proof.
  intros -> E F. eexists _, _. split; [|reflexivity]. econstructor.
  - intros i [= <-] d Hd. cbn in Hd. injection Hd as <-. discriminate.
  - eapply hp_save; [split; [|cbn; auto]|reflexivity|reflexivity|].
    + unfold locked, launch. cbn [y_threads]. clear. induction ts as [|x ts IH]; [reflexivity|]. exact IH.
    + eapply so_user. apply sd_unchanged.
  - eapply history_app; [apply history_moves|]. econstructor; [discriminate| |apply history_moves].
    replace (with_dict 0 (mkDict true (DUser (u_ents (mkU d0 false)) (u_change (mkU d0 false)))) (launch [mkDict true (DUser d0 false)] ts))
      with (launch [mkDict true (DUser d0 false)] ts) by reflexivity. rewrite <- E.
    pose proof (f_equal (fun x => fst (fst x)) F) as F1. pose proof (f_equal (fun x => snd (fst x)) F) as F2. pose proof (f_equal snd F) as F3. cbn [fst snd] in *.
    change (mkDict true (DUser (load_text old) true)) with (with_contents old (mkDict true (DUser d1 true))).
    eapply hp_reload; [split; [exact F3|rewrite F2; auto]|rewrite F1; reflexivity|reflexivity|]. now apply ro_read.
Qed.
(** A program that saves and then reloads is not careful when other threads type: what they learn in
    between is forgotten. *)
Theorem C79_saving_first_is_not_enough : ~ (forall X dbg enc st ts fl l y' fl', open_all st fl st -> fresh_threads X ts ->
  history X dbg enc (mkB (launch st ts) fl) l (mkB y' fl') -> saved_first l ->
  map (fun t => get_preedit X (t_ctx t)) (y_threads y') = map (fun t => get_preedit X (t_ctx t)) (y_threads (sched X dbg (moves l) (launch st ts)))).
Proof.
  intros H.
  assert (E1 : (fun y => (y_store y, y_poisoned y, locked 0 y)) (sched ascii_xkb false (repeat 0 14) (launch [mosquitos] learner))
    = ([mkDict true (DUser learnt true)], [], false)) by (vm_compute; reflexivity).
  destruct (forgetting ascii_xkb false all_text [mosquitos] learner mosquito (repeat 0 14) (repeat 0 8) (load_text mosquito) _ learnt eq_refl eq_refl E1)
    as (y' & fl' & Hh & Ey).
  specialize (H ascii_xkb false all_text [mosquitos] learner [mkFs (Some mosquito) None] _ y' fl'
    ltac:(constructor; [apply oo_user; reflexivity|constructor]) learner_fresh Hh (saved_first_one _ _)).
  assert (E2 : moves (SaveDict 0 :: map Move (repeat 0 14) ++ ReloadDict 0 :: map Move (repeat 0 8)) = repeat 0 22) by reflexivity.
  rewrite E2, Ey in H. clear Hh Ey E1 E2.
  assert (F1 : shows (sched ascii_xkb false (repeat 0 22) (launch [mosquitos] learner)) = [U "香▼香"]) by (vm_compute; reflexivity).
  assert (F2 : shows (sched ascii_xkb false (repeat 0 8)
    (with_dict 0 (mkDict true (DUser (load_text mosquito) true)) (sched ascii_xkb false (repeat 0 14) (launch [mosquitos] learner)))) = [U "香▼蚊"]) by (vm_compute; reflexivity).
  pose proof (shows_clash _ _ _ _ H F2 F1) as G. clear - G. revert G. vm_compute. discriminate.
Qed.

(** * Met by a concrete history *)
(** While か is being typed again, the dictionary with the confirmed 香 is saved and reloaded; the next
    conversion offers 香 first. *)
Lemma with_dict_twice i d d' y : with_dict i d (with_dict i d' y) = with_dict i d y.
Proof. unfold with_dict. cbn [y_store y_threads y_poisoned y_log]. now rewrite update_twice. Qed.
Lemma learning X dbg enc st ts old ms ms' d0 y1 d1 :
  st = [mkDict true (DUser d0 false)] -> y1 = sched X dbg ms (launch st ts) ->
  (y_store y1, y_poisoned y1, locked 0 y1) = ([mkDict true (DUser d1 true)], [], false) -> keepable (enc 0) d1 ->
  exists y' fl', careful_history X dbg enc (mkB (launch st ts) [mkFs (Some old) None])
     (map Move ms ++ SaveDict 0 :: ReloadDict 0 :: map Move ms') (mkB y' fl')
  /\ y' = sched X dbg ms' (with_dict 0 (mkDict true (DUser (load_text (save_text (enc 0) d1)) false)) y1).
Proof.
  intros -> E F K. eexists _, _. split; [|reflexivity].
  pose proof (f_equal (fun x => fst (fst x)) F) as F1. pose proof (f_equal (fun x => snd (fst x)) F) as F2. pose proof (f_equal snd F) as F3. cbn [fst snd] in *.
  eapply careful_app; [apply careful_moves|]. rewrite <- E. econstructor.
  - cbn. intros d Hd _. rewrite F1 in Hd. injection Hd as <-. exact K.
  - eapply hp_save; [split; [exact F3|rewrite F2; auto]|rewrite F1; reflexivity|reflexivity|].
    eapply so_user. pose proof (working_is_a_save (enc 0) (mkU d1 true) (mkFs (Some old) None)) as Hw. cbn in Hw. exact Hw.
  - econstructor.
    + cbn. rewrite F1. cbn. intros d [= <-]. reflexivity.
    + eapply (hp_reload X dbg enc 0 _ _ _ _ (mkDict true (DUser (load_text (save_text (enc 0) d1)) false))).
      * split; [exact F3|cbn; rewrite F2; auto].
      * cbn. rewrite F1. reflexivity.
      * reflexivity.
      * change (mkDict true (DUser (load_text (save_text (enc 0) d1)) false)) with (with_contents (save_text (enc 0) d1) (mkDict true (DUser d1 false))).
        apply ro_read. reflexivity.
    + rewrite with_dict_twice. apply careful_moves.
Qed.
Example C79_case : exists l y' fl', open_all [mosquitos] [mkFs (Some mosquito) None] [mosquitos] /\ fresh_threads ascii_xkb learner
  /\ careful_history ascii_xkb false all_text (mkB (launch [mosquitos] learner) [mkFs (Some mosquito) None]) l (mkB y' fl')
  /\ In (SaveDict 0) l /\ In (ReloadDict 0) l /\ shows y' = [U "香▼香"].
Proof.
  assert (E1 : (fun y => (y_store y, y_poisoned y, locked 0 y)) (sched ascii_xkb false (repeat 0 17) (launch [mosquitos] learner))
    = ([mkDict true (DUser learnt true)], [], false)) by (vm_compute; reflexivity).
  destruct (learning ascii_xkb false all_text [mosquitos] learner mosquito (repeat 0 17) (repeat 0 5) (load_text mosquito) _ learnt eq_refl eq_refl E1 learnt_keepable)
    as (y' & fl' & Hh & Ey).
  eexists _, y', fl'. split; [constructor; [apply oo_user; reflexivity|constructor]|]. split; [exact learner_fresh|]. split; [exact Hh|].
  split; [apply in_elt|]. split; [apply in_or_app; right; right; now left|].
  rewrite Ey. clear. vm_compute. reflexivity.
Qed.
