(** C66: concrete threads meeting the hypotheses.  Two threads convert the same reading at the
    same time and confirm different candidates. *)
From Verif Require Import Str Keys Modes KanaBuilder FormChanger DictTypes Parser Lru
  Dictionary CState Context DefaultRule Demo Spec T_Entry Multi Fine T_Fine T_FineLearn T_FineLive.
From Verif Require T_Frames T_Offered.
Definition two : list (ctx * list op) :=
  [(demo_ctx [0], map OKey (dkeys (U "A i space")) ++ [OConfirmAt 1]);
   (demo_ctx [0], map OKey (dkeys (U "A i space")) ++ [OConfirmAt 2])].
Lemma two_fresh : fresh_threads ascii_xkb two.
Proof.
  intros c ops Hin. assert (c = demo_ctx [0]) as -> by (destruct Hin as [H|[H|[]]]; injection H as <- _; reflexivity).
  exists [], default_kana_form, default_ascii_map, [0], Hiragana, Direct. left. now exists default_rule.
Qed.
Lemma two_sparing : sparing (fun k => ksym k <> 88%N) two.
Proof.
  assert (Hk : forallb (fun k => negb (N.eqb (ksym k) 88)) (dkeys (U "A i space")) = true) by (vm_compute; reflexivity).
  assert (H : forall i, Forall (calls_spare (fun k => ksym k <> 88%N)) (map OKey (dkeys (U "A i space")) ++ [OConfirmAt i])).
  { intros i. apply Forall_app. split; [|repeat constructor]. apply Forall_forall. intros o Ho.
    apply in_map_iff in Ho as (k & <- & Hin). rewrite forallb_forall in Hk. specialize (Hk k Hin). cbn.
    now apply negb_true_iff, N.eqb_neq in Hk. }
  intros c ops Hin. destruct Hin as [E|[E|[]]]; injection E as <- <-; (split; [exact T_Offered.default_quiet|apply H]).
Qed.
(** Thread 1 is inside a guarded section of the dictionary while thread 0 starts to confirm;
    thread 0 has to wait; later both have confirmed and both words are in front. *)
Definition until_confirm : list nat := repeat 0 8 ++ repeat 1 10.
Definition the_rest : list nat := repeat 0 5 ++ repeat 1 9 ++ repeat 0 9.
Definition phase_kind (t : thread) : nat :=
  match t_phase t with Idle => 0 | Running (Done _) => 1 | Running (Crash _) => 2 | Running (Acc _ _ _) => 3
  | Holding _ _ _ => 4 | Dead _ => 5 end.
Example C66_case :
  let y1 := sched ascii_xkb true until_confirm (launch [user_dict dic_small] two) in
  let y2 := sched ascii_xkb true the_rest y1 in
  (map phase_kind (y_threads y1), map t_todo (y_threads y1)) = ([0; 4], [[OConfirmAt 1]; [OConfirmAt 2]])
  /\ map (fun t => map (fun s => (s_cmode s, option_map c_kouho (nth_error (cl_list (s_list s)) 1))) (x_stack (t_ctx t))) (y_threads y1)
     = [[(CompositionSelection, Some (U "哀"))]; [(CompositionSelection, Some (U "哀"))]]
  /\ map phase_kind (y_threads (sched ascii_xkb true (repeat 0 5) y1)) = [3; 4]
  /\ (map phase_kind (y_threads y2), map (fun t => length (t_todo t)) (y_threads y2)) = ([0; 0], [0; 0])
  /\ map (fun t => map s_conf (x_stack (t_ctx t))) (y_threads y2) = [[U "哀"]; [U "相"]]
  /\ map (fun d => texts (listed d false (U "あい") [])) (y_store y2) = [[U "哀"; U "相"; U "愛"]].
Proof. vm_compute. repeat split. Qed.
(** C66_learnt applies to it. *)
Definition second (s : cstate) : option candidate := nth_error (cl_list (s_list s)) 1.
Example C66_learnt_case : exists t s c d,
  nth_error (y_threads (sched ascii_xkb true until_confirm (launch [user_dict dic_small] two))) 0 = Some t
  /\ x_stack (t_ctx t) = [s] /\ nth_error (cl_list (s_list s)) 1 = Some c /\ c_kouho c = U "哀"
  /\ nth_error (y_store (sched ascii_xkb true (until_confirm ++ the_rest) (launch [user_dict dic_small] two))) 0 = Some d
  /\ user d /\ learnt c d.
Proof.
  set (y1 := sched ascii_xkb true until_confirm (launch [user_dict dic_small] two)).
  set (y2 := sched ascii_xkb true (until_confirm ++ the_rest) (launch [user_dict dic_small] two)).
  destruct (nth_error (y_threads y1) 0) as [t|] eqn:E1; [|exfalso; revert E1; vm_compute; discriminate].
  destruct (nth_error (y_threads y2) 0) as [t'|] eqn:E2; [|exfalso; revert E2; vm_compute; discriminate].
  destruct (nth_error (y_store y2) 0) as [d|] eqn:E3; [|exfalso; revert E3; vm_compute; discriminate].
  assert (H1 : option_map (fun t => (phase_kind t, t_todo t, x_dicts (t_ctx t), length (x_stack (t_ctx t)))) (nth_error (y_threads y1) 0)
    = Some (0, [OConfirmAt 1], [0], 1)) by (vm_compute; reflexivity).
  assert (H1' : option_map (fun t => map (fun s => option_map c_kouho (second s)) (x_stack (t_ctx t))) (nth_error (y_threads y1) 0)
    = Some [Some (U "哀")]) by (vm_compute; reflexivity).
  assert (H2 : option_map (fun t => length (t_todo t)) (nth_error (y_threads y2) 0) = Some 0) by (vm_compute; reflexivity).
  assert (H3 : option_map (fun d => match d_kind d with DUser _ _ => true | _ => false end) (nth_error (y_store y2) 0) = Some true) by (vm_compute; reflexivity).
  rewrite E1 in H1, H1'. rewrite E2 in H2. rewrite E3 in H3. unfold option_map in H1, H2, H3. cbn [option_map] in H1'.
  injection H1 as Hp Ht Hd Hl. injection H2 as H2. injection H3 as H3. injection H1' as H1'.
  destruct (x_stack (t_ctx t)) as [|s [|]] eqn:Es; [discriminate Hl| |discriminate Hl].
  cbn [map] in H1'. injection H1' as H1'. destruct (second s) as [c|] eqn:Ec; cbn [option_map] in H1'; [|discriminate H1'].
  injection H1' as H1'.
  assert (Hu : user d) by (unfold user; destruct (d_kind d); [discriminate H3|exact I|discriminate H3]).
  exists t, s, c, d. repeat (split; [first [exact Es|exact Ec|exact H1'|exact Hu|reflexivity]|]).
  pose proof (C66_learnt ascii_xkb true (fun k => ksym k <> 88%N) [user_dict dic_small] two until_confirm the_rest 0 t t' 1%N [] s [] c
    two_fresh two_sparing E1) as H.
  destruct H as [_ H]; [|exact Ht|exact Es|exact Ec|exact E2|cbn; lia|].
  - unfold phase_kind in Hp. destruct (t_phase t) as [|[]| |]; try discriminate Hp; reflexivity.
  - apply (H 0 d); [rewrite Hd; now left|exact E3|exact Hu].
Qed.
(** A fair schedule: the threads in turn. *)
Example C66_fair_case : fair 2 (fun k => Nat.modulo k 2).
Proof.
  intros n Hn k. exists (2 * k + n). split; [lia|]. rewrite Nat.mul_comm, Nat.add_comm, Nat.mod_add by lia.
  now apply Nat.mod_small.
Qed.
