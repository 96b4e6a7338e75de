(** C65: walking through the candidates of a conversion.  C20: which entry is looked up. *)
From Verif Require Import Str Keys Modes KanaBuilder FormChanger DictTypes Parser Lru
  Dictionary CState Context DefaultRule Demo Spec P_Monad P_Frames P_Inv P_Step T_Predict T_Dedup T_Offered.
From Verif Require T_Frames.

(** ** Vocabulary *)
(** A frame in which one of a list of candidates, number [j] from 0, is shown. *)
Definition choosing (s : cstate) (cs : list candidate) (j : nat) : Prop :=
  s_cmode s = CompositionSelection /\ cl_list (s_list s) = cs /\ cursor s = N.of_nat j
  /\ j < length cs /\ (N.of_nat (length cs) < 2 ^ 64)%N.
(** The same frame with another candidate shown. *)
Definition at_candidate (j : nat) (s : cstate) : cstate :=
  set_list (mkCL (cl_key (s_list s)) (N.of_nat j) (cl_list (s_list s))) s.
(** A frame in which a reading is typed and nothing is pending that would become kana. *)
Definition reading_mode (c : cmode) : Prop := c = PreComposition \/ c = PreCompositionOkurigana \/ c = Abbreviation.
Definition settled (w : world) (s : cstate) : Prop :=
  reading_mode (s_cmode s) /\ convert_greedy (x_kb (w_ctx w)) (s_pre s) = None.
(** What conversion must not touch. *)
Definition same_texts (s s' : cstate) : Prop :=
  s_imode s' = s_imode s /\ s_conf s' = s_conf s /\ s_comp s' = s_comp s /\ s_okuri s' = s_okuri s
  /\ s_raw s' = s_raw s /\ s_pre s' = s_pre s /\ s_use s' = s_use s /\ s_default s' = s_default s.
(** A frame waiting for a registration, and the frame opened for typing the word. *)
Definition registration_opened (w : world) (s : cstate) (rest : list cstate) (w' : world) : Prop :=
  exists s', w' = with_frames (st_new Hiragana Direct :: s' :: rest) w /\ s_cmode s' = Register /\ same_texts s s'.

(** ** Proofs *)
Section Convert.
Context (X : xkb) (dbg : bool).
Lemma runs_process k w l s r : runs w k l -> x_stack (w_ctx w) = s :: r ->
  process_key_event X dbg k w = process_instructions dbg l (s_cmode s) (s_imode s) w.
Proof.
  intros (Hr & s0 & Hs & Hm & Hc & Hb) Hf. unfold current in Hs. rewrite Hf in Hs. injection Hs as <-.
  unfold process_key_event. rewrite Hr. unfold process_key_event_inner, bind at 1, cur at 1. rewrite Hf.
  unfold bind at 1, get at 1. cbn zeta. unfold completes in Hc. rewrite Hc.
  rewrite (instruction_bound dbg _ _ _ _ _ Hm Hb). reflexivity.
Qed.
Lemma one_instruction i c m w w' : run_instr dbg i c m w = Ok (inl tt, w') -> process_instructions dbg [i] c m w = Ok (true, w').
Proof. intros H. unfold process_instructions. cbn [is_nil negb run_instrs]. unfold bind. rewrite H. reflexivity. Qed.
Lemma usize_one n : (N.of_nat n < 2 ^ 64)%N -> 0 < n -> usize_sub dbg (N.of_nat n) 1 = Ok (N.of_nat (n - 1)).
Proof.
  intros H1 H2. unfold usize_sub. destruct (N.leb_spec 1 (N.of_nat n)); [|lia]. f_equal. lia.
Qed.
Lemma set_stack_with l w : set_stack l w = with_frames l w. Proof. reflexivity. Qed.
Lemma choosing_next s cs j : choosing s cs j -> cl_has_next dbg (s_list s) = Ok (Nat.ltb (S j) (length cs)).
Proof.
  intros (Hm & Hl & Hc & Hj & Hn). unfold cl_has_next, cl_len. rewrite Hl, (usize_one _ Hn) by lia. cbn [rmap rbind].
  unfold cursor in Hc. rewrite Hc. f_equal. destruct (Nat.ltb_spec (S j) (length cs)); apply Bool.eq_true_iff_eq;
    rewrite negb_true_iff, N.eqb_neq; split; intros; try discriminate; lia.
Qed.
End Convert.

(** The conversion key in a reading: the candidates the dictionaries offer for the key are shown,
    from the first on; nothing else changes. *)
Theorem C65_start : forall X dbg k w s rest cs, frames w = s :: rest -> settled w s ->
  runs w k [ITryNextCandidate] -> get_all_candidates (ctx_dicts w) (get_composite_key s) = Ok cs -> cs <> [] ->
  exists s', process_key_event X dbg k w = Ok (true, with_frames (s' :: rest) w)
    /\ s_cmode s' = CompositionSelection /\ cl_list (s_list s') = cs /\ cursor s' = 0%N /\ same_texts s s'.
Proof.
  intros X dbg k w s r cs Hf (Hm & Hg) Hr Hcs Hne. unfold frames in Hf. rewrite (runs_process X dbg k w _ s r Hr Hf).
  assert (Ec : cmode_eqb (s_cmode s) CompositionSelection = false) by (destruct Hm as [ -> | [ -> | -> ] ]; reflexivity).
  eexists. split.
  - apply one_instruction. cbn [run_instr]. unfold try_next_candidate. rewrite Ec. cbn [negb].
    unfold bind at 1. unfold bind at 1.
    assert (Eo : output_converted_kana_if_any (s_imode s) (s_cmode s) w = Ok (false, w)).
    { unfold output_converted_kana_if_any, bind, cur, get. rewrite Hf. cbn iota. rewrite Hg. reflexivity. }
    rewrite Eo. unfold bind at 1. unfold update_candidate_list. unfold bind at 1, cur at 1. rewrite Hf. unfold bind at 1, get at 1. unfold bind at 1, lift at 1.
    rewrite Hcs. unfold modcur at 1. rewrite Hf. cbn iota. unfold bind at 1, cur at 1. cbn [x_stack w_ctx set_stack].
    assert (El : cl_is_empty (s_list (set_new_candidate_list cs s)) = false) by (unfold cl_is_empty; cbn; now destruct cs).
    rewrite El. rewrite andb_false_r. cbn [negb]. unfold set_composition_mode, modcur. cbn [x_stack w_ctx set_stack]. reflexivity.
  - unfold same_texts, cursor. repeat split; reflexivity.
Qed.
(** No candidate: a registration is opened for the reading (up to ten nested frames). *)
Theorem C65_none : forall X dbg k w s rest, frames w = s :: rest -> settled w s ->
  runs w k [ITryNextCandidate] -> get_all_candidates (ctx_dicts w) (get_composite_key s) = Ok [] -> s_comp s <> [] ->
  exists w', process_key_event X dbg k w = Ok (true, w')
    /\ (length (frames w) < 10 -> registration_opened w s rest w')
    /\ (10 <= length (frames w) -> exists s', w' = with_frames (s' :: rest) w /\ s_cmode s' = s_cmode s /\ same_texts s s').
Proof.
  intros X dbg k w s r Hf (Hm & Hg) Hr Hcs Hne. unfold frames in Hf. rewrite (runs_process X dbg k w _ s r Hr Hf).
  assert (Ec : cmode_eqb (s_cmode s) CompositionSelection = false) by (destruct Hm as [ -> | [ -> | -> ] ]; reflexivity).
  eexists. split.
  - apply one_instruction. cbn [run_instr]. unfold try_next_candidate. rewrite Ec. cbn [negb].
    unfold bind at 1. unfold bind at 1.
    assert (Eo : output_converted_kana_if_any (s_imode s) (s_cmode s) w = Ok (false, w)).
    { unfold output_converted_kana_if_any, bind, cur, get. rewrite Hf. cbn iota. rewrite Hg. reflexivity. }
    rewrite Eo. unfold bind at 1. unfold update_candidate_list. unfold bind at 1, cur at 1. rewrite Hf. unfold bind at 1, get at 1. unfold bind at 1, lift at 1.
    rewrite Hcs. unfold modcur at 1. rewrite Hf. cbn iota. unfold bind at 1, cur at 1. cbn [x_stack w_ctx set_stack].
    assert (E1 : is_nil (s_comp (set_new_candidate_list [] s)) = false) by (cbn; now destruct (s_comp s)).
    assert (El : cl_is_empty (s_list (set_new_candidate_list [] s)) = true) by reflexivity.
    rewrite E1, El. cbn [negb andb]. unfold enter_register_mode. cbn [x_stack w_ctx set_stack].
    instantiate (1 := if Nat.ltb (S (length r)) 10
      then with_frames (st_new Hiragana Direct :: change_from_old_mode Register (s_cmode s) (set_new_candidate_list [] s) :: r) w
      else with_frames (set_new_candidate_list [] s :: r) w).
    cbn [length]. change REGISTER_MODE_STACK_MAX with 10. destruct (Nat.ltb (S (length r)) 10); reflexivity.
  - unfold frames. rewrite Hf. cbn [length]. destruct (Nat.ltb_spec (S (length r)) 10); (split; [intros Hl; try lia|intros Hl; try lia]).
    + eexists. split; [reflexivity|]. unfold same_texts. repeat split; reflexivity.
    + eexists. split; [reflexivity|]. unfold same_texts. repeat split; reflexivity.
Qed.
(** The conversion key while choosing: the next candidate, and after the last one a registration. *)
Theorem C65_next : forall X dbg k w s rest cs j, frames w = s :: rest -> choosing s cs j -> runs w k [ITryNextCandidate] ->
  S j < length cs -> process_key_event X dbg k w = Ok (true, with_frames (at_candidate (S j) s :: rest) w).
Proof.
  intros X dbg k w s r cs j Hf Hc Hr Hl. unfold frames in Hf. rewrite (runs_process X dbg k w _ s r Hr Hf).
  apply one_instruction. cbn [run_instr]. unfold try_next_candidate. pose proof Hc as (Hm & Hcl & Hcu & Hj & Hn). rewrite Hm. cbn [negb cmode_eqb].
  unfold bind at 1. unfold bind at 1. unfold cur at 1. rewrite Hf. cbn iota. unfold bind at 1, lift at 1. rewrite (choosing_next dbg s cs j Hc).
  destruct (Nat.ltb_spec (S j) (length cs)); [|lia]. cbn [negb]. unfold bind at 1. unfold lift at 1. unfold st_forward, cl_forward, cl_len.
  rewrite Hcl, (usize_one dbg _ Hn) by lia. cbn [rbind rmap]. unfold cursor in Hcu. rewrite Hcu.
  destruct (N.ltb_spec (N.of_nat j) (N.of_nat (length cs - 1))); [|lia]. unfold usize_add.
  destruct (N.ltb_spec (N.of_nat j + 1) usize_mod) as [_|H']; [|exfalso; revert H'; change usize_mod with (2 ^ 64)%N; lia].
  cbn [rmap rbind]. unfold modcur. rewrite Hf. unfold at_candidate. rewrite Hcl.
  replace (N.of_nat j + 1)%N with (N.of_nat (S j)) by lia. reflexivity.
Qed.
Theorem C65_last : forall X dbg k w s rest cs j, frames w = s :: rest -> choosing s cs j -> runs w k [ITryNextCandidate] ->
  S j = length cs -> exists w', process_key_event X dbg k w = Ok (true, w')
    /\ (length (frames w) < 10 -> registration_opened w s rest w') /\ (10 <= length (frames w) -> w' = w).
Proof.
  intros X dbg k w s r cs j Hf Hc Hr Hl. unfold frames in *. rewrite (runs_process X dbg k w _ s r Hr Hf).
  eexists. split.
  - apply one_instruction. cbn [run_instr]. unfold try_next_candidate. pose proof Hc as (Hm & Hcl & Hcu & Hj & Hn). rewrite Hm. cbn [negb cmode_eqb].
    unfold bind at 1. unfold bind at 1. unfold cur at 1. rewrite Hf. cbn iota. unfold bind at 1, lift at 1. rewrite (choosing_next dbg s cs j Hc).
    destruct (Nat.ltb_spec (S j) (length cs)); [lia|]. cbn [negb]. unfold enter_register_mode. rewrite Hf.
    instantiate (1 := if Nat.ltb (S (length r)) 10
      then with_frames (st_new Hiragana Direct :: change_from_old_mode Register CompositionSelection s :: r) w else w).
    cbn [length]. change REGISTER_MODE_STACK_MAX with 10. destruct (Nat.ltb (S (length r)) 10); reflexivity.
  - rewrite Hf. cbn [length]. destruct (Nat.ltb_spec (S (length r)) 10); (split; [intros Hl'; try lia|intros Hl'; try lia]); [|reflexivity].
    eexists. split; [reflexivity|]. unfold same_texts. repeat split; reflexivity.
Qed.
(** The key for the previous candidate; before the first one the reading is back. *)
Theorem C65_previous : forall X dbg k w s rest cs j, frames w = s :: rest -> choosing s cs (S j) -> runs w k [ITryPreviousCandidate] ->
  process_key_event X dbg k w = Ok (true, with_frames (at_candidate j s :: rest) w).
Proof.
  intros X dbg k w s r cs j Hf (Hm & Hcl & Hcu & Hj & Hn) Hr. unfold frames in Hf. rewrite (runs_process X dbg k w _ s r Hr Hf).
  apply one_instruction. cbn [run_instr]. unfold bind at 1. unfold bind at 1. unfold cur at 1. rewrite Hf. cbn iota. rewrite Hm. cbn [negb cmode_eqb].
  unfold cl_has_previous. unfold cursor in Hcu. rewrite Hcu. destruct (N.eqb_spec (N.of_nat (S j)) 0); [lia|]. cbn [negb].
  unfold modcur. rewrite Hf. unfold st_backward, cl_backward. rewrite Hcu. destruct (N.ltb_spec 0 (N.of_nat (S j))); [|lia].
  unfold at_candidate. replace (N.of_nat (S j) - 1)%N with (N.of_nat j) by lia. reflexivity.
Qed.
Theorem C65_back : forall X dbg k w s rest cs, frames w = s :: rest -> choosing s cs 0 -> runs w k [ITryPreviousCandidate] ->
  exists s', process_key_event X dbg k w = Ok (true, with_frames (s' :: rest) w)
    /\ s_cmode s' = PreComposition /\ s_comp s' = s_comp s ++ s_okuri s /\ s_okuri s' = [] /\ cl_list (s_list s') = []
    /\ s_conf s' = s_conf s /\ s_imode s' = s_imode s.
Proof.
  intros X dbg k w s r cs Hf (Hm & Hcl & Hcu & Hj & Hn) Hr. unfold frames in Hf. rewrite (runs_process X dbg k w _ s r Hr Hf).
  eexists. split.
  - apply one_instruction. cbn [run_instr]. unfold bind at 1. unfold bind at 1. unfold cur at 1. rewrite Hf. cbn iota. rewrite Hm. cbn [negb cmode_eqb].
    unfold cl_has_previous. unfold cursor in Hcu. rewrite Hcu. cbn [N.of_nat N.eqb negb]. unfold bind at 1. unfold modcur at 1. rewrite Hf. cbn iota.
    unfold set_composition_mode, modcur. cbn [x_stack w_ctx set_stack]. reflexivity.
  - repeat split; reflexivity.
Qed.
(** Pressing the conversion key [n] times moves [n] candidates on. *)
Lemma runs_at k w s r cs j n l : frames w = s :: r -> choosing s cs j -> runs w k l -> runs (with_frames (at_candidate n s :: r) w) k l.
Proof.
  intros Hf Hc (Hr & s0 & Hs & Hm & Hcp & Hb). split; [exact Hr|]. unfold current in Hs. unfold frames in Hf. rewrite Hf in Hs. injection Hs as <-.
  exists (at_candidate n s). split; [reflexivity|]. split; [exact Hm|]. split; [exact Hcp|exact Hb].
Qed.
Lemma choosing_at s cs j n : choosing s cs j -> n < length cs -> choosing (at_candidate n s) cs n.
Proof.
  intros (Hm & Hcl & Hcu & Hj & Hn) H. split; [exact Hm|]. split; [exact Hcl|]. split; [reflexivity|]. split; [exact H|exact Hn].
Qed.
Theorem C65_walk : forall X dbg k n w s rest cs j, frames w = s :: rest -> choosing s cs j -> runs w k [ITryNextCandidate] ->
  j + n < length cs ->
  run X dbg (repeat (OKey k) n) w = Ok (repeat (OutBool true) n, with_frames (at_candidate (j + n) s :: rest) w).
Proof.
  intros X dbg k n. induction n as [|n IH]; intros w s r cs j Hf Hc Hr Hl.
  - cbn [repeat run]. rewrite Nat.add_0_r. unfold ret. do 2 f_equal. pose proof Hc as (Hm & Hcl & Hcu & _). unfold cursor in Hcu.
    unfold at_candidate. rewrite <- Hcu. assert (Es : set_list (mkCL (cl_key (s_list s)) (cl_cur (s_list s)) (cl_list (s_list s))) s = s) by (destruct s as [? ? ? ? ? ? ? ? [? ? ?]]; reflexivity).
    rewrite Es. symmetry. exact (with_frames_same w _ Hf).
  - cbn [repeat run]. unfold bind at 1. rewrite (exec_key X dbg k w true _ (C65_next X dbg k w s r cs j Hf Hc Hr ltac:(lia))).
    unfold bind at 1. rewrite (IH (with_frames (at_candidate (S j) s :: r) w) (at_candidate (S j) s) r cs (S j) eq_refl).
    + unfold ret. do 2 f_equal. rewrite with_frames_twice. do 2 f_equal. unfold at_candidate. cbn [s_list set_list cl_key cl_list].
      replace (j + S n) with (S j + n) by lia. reflexivity.
    + apply (choosing_at s cs j); [exact Hc|lia].
    + exact (runs_at k w s r cs j (S j) _ Hf Hc Hr).
    + lia.
Qed.
(** What is shown while choosing. *)
Theorem C65_shown : forall X kf s cs j c, choosing s cs j -> nth_error cs j = Some c ->
  preedit_string X kf (s_imode s) s = s_conf s ++ U "▼" ++ c_output c ++ adjust_kana_string kf (s_imode s) (s_okuri s).
Proof.
  intros X kf s cs j c (Hm & Hcl & Hcu & Hj & Hn) Hc. unfold preedit_string, preedit_detail. rewrite Hm.
  unfold cl_current. unfold cursor in Hcu. rewrite Hcu, Nat2N.id, Hcl, Hc. cbn [render].
  destruct (s_okuri s) as [|o os] eqn:Eo; cbn [is_nil odef]; [|reflexivity].
  do 3 f_equal. unfold adjust_kana_string. destruct (s_imode s); reflexivity.
Qed.
(** Confirming outputs exactly what is shown after the mark, ends the conversion, and tells every
    dictionary. *)
Theorem C65_confirm : forall X dbg k w s rest cs j c, frames w = s :: rest -> choosing s cs j -> nth_error cs j = Some c ->
  runs w k [IConfirmComposition] ->
  exists s', process_key_event X dbg k w = Ok (true,
      with_frames (s' :: rest) (set_store (upd_dicts (x_dicts (w_ctx w)) (fun d => select_candidate d c) (w_store w)) w))
    /\ s_conf s' = s_conf s ++ c_output c ++ adjust_kana_string (x_kf (w_ctx w)) (s_imode s) (s_okuri s)
    /\ s_cmode s' = s_default s /\ s_imode s' = s_imode s /\ s_comp s' = [] /\ s_okuri s' = [] /\ s_pre s' = []
    /\ cl_list (s_list s') = [].
Proof.
  intros X dbg k w s r cs j c Hf (Hm & Hcl & Hcu & Hj & Hn) Hc Hr. unfold frames in Hf. rewrite (runs_process X dbg k w _ s r Hr Hf).
  eexists. split.
  - apply one_instruction. cbn [run_instr]. unfold bind at 1. unfold confirm_current. unfold bind at 1. unfold cur at 1. rewrite Hf. cbn iota.
    unfold bind at 1. unfold get at 1. unfold cursor in Hcu. unfold cl_current. rewrite Hcu, Nat2N.id, Hcl, Hc.
    unfold bind at 1. unfold for_dicts at 1. unfold modcur. cbn [set_store w_ctx]. rewrite Hf. reflexivity.
  - unfold push_string. rewrite Hm. repeat split; try reflexivity.
Qed.
(** Met by typing: after A i space the first of three candidates for あい is shown; the space bar and
    x are the keys of the theorems. *)
Definition choosing_b (w : world) (n j : nat) : bool :=
  match frames w with
  | s :: _ => cmode_eqb (s_cmode s) CompositionSelection && Nat.eqb (length (cl_list (s_list s))) n && N.eqb (cl_cur (s_list s)) (N.of_nat j)
              && Nat.ltb j n && N.ltb (N.of_nat n) (2 ^ 64)
  | [] => false
  end.
Lemma choosing_b_spec w n j : choosing_b w n j = true -> exists s r, frames w = s :: r /\ choosing s (cl_list (s_list s)) j /\ length (cl_list (s_list s)) = n.
Proof.
  unfold choosing_b. destruct (frames w) as [|s r]; [discriminate|]. intros H. repeat apply andb_prop in H as [H ?].
  exists s, r. split; [reflexivity|]. apply cmode_eqb_eq in H. apply Nat.eqb_eq in H3 as <-. apply N.eqb_eq in H2. apply Nat.ltb_lt in H1. apply N.ltb_lt in H0.
  split; [|reflexivity]. split; [exact H|]. auto.
Qed.
Definition space_key := mkKey 32 M_NONE.
Definition x_key := mkKey 120 M_NONE.
Definition return_key := mkKey 65293 M_NONE.
Example C65_case : exists outs w s r, typed false (U "A i space") (demo [user_dict dic_small]) = Ok (outs, w)
  /\ frames w = s :: r /\ choosing s (cl_list (s_list s)) 0 /\ length (cl_list (s_list s)) = 3
  /\ runs w space_key [ITryNextCandidate] /\ runs w x_key [ITryPreviousCandidate] /\ runs w return_key [IConfirmComposition].
Proof.
  destruct (run_case (typed false (U "A i space") (demo [user_dict dic_small]))
    (fun w => (choosing_b w 3 0, runs_b w space_key, runs_b w x_key, runs_b w return_key))
    (true, Some [ITryNextCandidate], Some [ITryPreviousCandidate], Some [IConfirmComposition])) as (o & w & E & F); [vm_compute; reflexivity|].
  injection F as F1 F2 F3 F4. apply choosing_b_spec in F1 as (s & r & Hf & Hc & Hl). exists o, w, s, r.
  split; [exact E|]. split; [exact Hf|]. split; [exact Hc|]. split; [exact Hl|].
  split; [now apply runs_b_spec|]. split; [now apply runs_b_spec|now apply runs_b_spec].
Qed.
(** Before the space bar: a settled reading with candidates; かみ has none. *)
Definition settled_b (w : world) : option nat :=
  match frames w with
  | s :: _ => match s_cmode s, convert_greedy (x_kb (w_ctx w)) (s_pre s), get_all_candidates (ctx_dicts w) (get_composite_key s) with
              | PreComposition, None, Ok cs => if is_nil (s_comp s) then None else Some (length cs)
              | _, _, _ => None
              end
  | [] => None
  end.
Lemma settled_b_spec w n : settled_b w = Some n -> exists s r cs, frames w = s :: r /\ settled w s /\ s_comp s <> []
  /\ get_all_candidates (ctx_dicts w) (get_composite_key s) = Ok cs /\ length cs = n.
Proof.
  unfold settled_b, settled. destruct (frames w) as [|s r]; [discriminate|]. destruct (s_cmode s) eqn:Em; try discriminate.
  destruct (convert_greedy _ _) eqn:Eg; [discriminate|]. destruct (get_all_candidates _ _) as [cs|] eqn:Ea; [|discriminate].
  destruct (s_comp s) eqn:Ec; [discriminate|]. intros [= <-]. exists s, r, cs. split; [reflexivity|]. split; [split; [now left|exact Eg]|].
  split; [rewrite Ec; discriminate|]. auto.
Qed.
Example C65_start_case : (exists outs w s r cs, typed false (U "A i") (demo [user_dict dic_small]) = Ok (outs, w)
    /\ frames w = s :: r /\ settled w s /\ get_all_candidates (ctx_dicts w) (get_composite_key s) = Ok cs /\ length cs = 3
    /\ runs w space_key [ITryNextCandidate])
  /\ (exists outs w s r cs, typed false (U "K a m i") (demo [user_dict dic_small]) = Ok (outs, w)
    /\ frames w = s :: r /\ settled w s /\ s_comp s <> [] /\ get_all_candidates (ctx_dicts w) (get_composite_key s) = Ok cs /\ length cs = 0
    /\ runs w space_key [ITryNextCandidate]).
Proof.
  split.
  - destruct (run_case (typed false (U "A i") (demo [user_dict dic_small])) (fun w => (settled_b w, runs_b w space_key))
      (Some 3, Some [ITryNextCandidate])) as (o & w & E & F); [vm_compute; reflexivity|].
    injection F as F1 F2. apply settled_b_spec in F1 as (s & r & cs & H1 & H2 & H3 & H4 & H5). exists o, w, s, r, cs. apply runs_b_spec in F2. auto 10.
  - destruct (run_case (typed false (U "K a m i") (demo [user_dict dic_small])) (fun w => (settled_b w, runs_b w space_key))
      (Some 0, Some [ITryNextCandidate])) as (o & w & E & F); [vm_compute; reflexivity|].
    injection F as F1 F2. apply settled_b_spec in F1 as (s & r & cs & H1 & H2 & H3 & H4 & H5). exists o, w, s, r, cs. apply runs_b_spec in F2. auto 10.
Qed.

(* ------------------------------------------------------------------ C20 *)
(** The letter an okurigana is filed under: of its row of the syllabary. *)
Definition okuri_rows : list (str * N) :=
  [(U "あ", 97); (U "い", 105); (U "う", 117); (U "え", 101); (U "お", 111);
   (U "かきくけこ", 107); (U "がぎぐげご", 103); (U "さしすせそ", 115); (U "ざじずぜぞ", 122);
   (U "たちつてとっ", 116); (U "だぢづでど", 100); (U "なにぬねのん", 110); (U "はひふへほ", 104);
   (U "ばびぶべぼ", 98); (U "ぱぴぷぺぽ", 112); (U "まみむめも", 109); (U "やゆよ", 121);
   (U "らりるれろ", 114); (U "わを", 119); (U "ゐゑぁぃぅぇぉゃゅょゎ", 120)]%N.
Definition okuri_letter (kana letter : N) : Prop := exists row, In (row, letter) okuri_rows /\ In kana row.
(** The headword of a reading with okurigana. *)
Definition headword (reading : str) (okuri : option str) (h : str) : Prop :=
  match okuri with
  | None => h = reading
  | Some (c :: _) => (exists l, okuri_letter c l /\ h = reading ++ [l]) \/ ((forall l, ~ okuri_letter c l) /\ h = reading)
  | Some [] => False
  end.
Lemma okuri_letters c : match kana_to_okuri_prefix c with Some l => okuri_letter c l | None => forall l, ~ okuri_letter c l end.
Proof.
  assert (T : forallb (fun e : N * N => existsb (fun row => N.eqb (snd row) (snd e) && existsb (N.eqb (fst e)) (fst row)) okuri_rows) kana_rom_map = true)
    by (vm_compute; reflexivity).
  assert (T' : forallb (fun row : str * N => forallb (fun k => match assoc_N k kana_rom_map with Some _ => true | None => false end) (fst row)) okuri_rows = true)
    by (vm_compute; reflexivity).
  unfold kana_to_okuri_prefix. destruct (assoc_N c kana_rom_map) as [l|] eqn:E.
  - assert (Hin : In (c, l) kana_rom_map).
    { revert E. generalize kana_rom_map. intros m. induction m as [|[k v] m IH]; cbn; [discriminate|].
      destruct (N.eqb_spec c k) as [->|]; [intros [= ->]; now left|auto]. }
    rewrite forallb_forall in T. apply T in Hin. apply existsb_exists in Hin as ([row l'] & Hr & Hb). cbn [fst snd] in Hb.
    apply andb_prop in Hb as (H1 & H2). apply N.eqb_eq in H1 as ->. apply existsb_exists in H2 as (c' & Hc & He). apply N.eqb_eq in He as <-.
    exists row. auto.
  - intros l (row & Hr & Hc). rewrite forallb_forall in T'. apply T' in Hr. cbn [fst] in Hr. rewrite forallb_forall in Hr. apply Hr in Hc. rewrite E in Hc. discriminate.
Qed.
(** Which entry a dictionary is asked for: the one whose headword is the reading, with the letter of
    the okurigana's row appended, in the section for okurigana or without. *)
Theorem C20_entry : forall d reading okuri h, headword reading okuri h -> d_kind d <> DEmpty ->
  lookup d (mkCK reading okuri) = Ok (lpeek h (match okuri with Some _ => d_ari (dict_ents d) | None => d_nashi (dict_ents d) end)).
Proof.
  intros d reading okuri h Hh Hd. unfold lookup, get_dict_key, has_okuri. cbn [ck_to ck_okuri].
  destruct okuri as [[|c o]|]; cbn [headword] in Hh.
  - destruct Hh.
  - pose proof (okuri_letters c) as L. destruct Hh as [(l & Hl & ->)|(Hn & ->)].
    + destruct (kana_to_okuri_prefix c) as [l'|] eqn:E; [|exfalso; exact (L l Hl)].
      assert (l' = l) as ->.
      { assert (U1 : forall a b, okuri_letter c a -> okuri_letter c b -> a = b); [|eauto].
        assert (N0 : forallb (fun r1 : str * N => forallb (fun r2 : str * N => N.eqb (snd r1) (snd r2) || negb (existsb (fun k => existsb (N.eqb k) (fst r2)) (fst r1))) okuri_rows) okuri_rows = true)
          by (vm_compute; reflexivity).
        intros a b (r1 & H1 & K1) (r2 & H2 & K2). rewrite forallb_forall in N0. specialize (N0 _ H1). rewrite forallb_forall in N0. specialize (N0 _ H2). cbn [fst snd] in N0.
        apply orb_prop in N0 as [N0|N0]; [now apply N.eqb_eq|]. exfalso. apply negb_true_iff in N0.
        assert (existsb (fun k => existsb (N.eqb k) r2) r1 = true); [|congruence].
        apply existsb_exists. exists c. split; [exact K1|]. apply existsb_exists. exists c. split; [exact K2|apply N.eqb_refl]. }
      destruct (d_kind d); try congruence; reflexivity.
    + destruct (kana_to_okuri_prefix c) as [l|]; [exfalso; exact (Hn l L)|]. destruct (d_kind d); try congruence; reflexivity.
  - rewrite Hh. destruct (d_kind d); try congruence; reflexivity.
Qed.
(** か with the okurigana く is filed under かk. *)
Example C20_entry_case : headword (U "か") (Some (U "く")) (U "かk") /\ headword (U "あい") None (U "あい").
Proof.
  split; [|reflexivity]. left. exists 107%N. split; [|reflexivity]. exists (U "かきくけこ"). split; vm_compute; auto 10.
Qed.
