(** The API at the granularity of Fine.v over dictionaries that are alike (P_Alike.v): access by access the
    same programs, up to the marks of the entries they are given. *)
From Coq Require Import Permutation.
From Verif Require Import Str Keys Modes KanaBuilder FormChanger DictTypes Parser Lru Dictionary
  CState Context LruPtr T_Lru P_Dict T_Save P_Alike Fine.
Local Open Scope f_scope.

Definition ans_alike (x x' : answer) : Prop :=
  match x, x' with
  | AnsEntry o, AnsEntry o' => option_map bare o = option_map bare o'
  | AnsEntries l, AnsEntries l' => map bare l = map bare l'
  | AnsDone, AnsDone => True
  | _, _ => False
  end.
Lemma guarded_alike a d d' : alike d d' ->
  match guarded a d, guarded a d' with
  | Ok (x, e), Ok (x', e') => ans_alike x x' /\ alike e e'
  | Panic r, Panic r' => r = r'
  | _, _ => False
  end.
Proof.
  intros H. destruct a as [k|k|c|k c]; cbn [guarded].
  - pose proof (alike_ents (has_okuri k) _ _ H) as A. unfold lookup. pose proof H as [_ H'].
    destruct (d_kind d), (d_kind d'); try contradiction; cbn [rmap rbind]; try (split; [reflexivity|exact H]);
      (destruct (get_dict_key k) as [key|]; cbn [rmap rbind]; [split; [apply (alike_peek key _ _ A)|exact H]|reflexivity]).
  - pose proof H as [Hc _]. rewrite <- Hc. destruct (d_completable d); [|cbn; now split].
    pose proof (alike_sorted _ _ (alike_ents (has_okuri k) _ _ H)) as A. unfold complete.
    revert A. generalize (liter_sorted (if has_okuri k then d_ari (dict_ents d) else d_nashi (dict_ents d))),
      (liter_sorted (if has_okuri k then d_ari (dict_ents d') else d_nashi (dict_ents d'))). intros l l' A.
    destruct l as [|x l], l' as [|x' l']; try discriminate; [cbn; now split|].
    destruct (get_dict_key k) as [key|]; cbn [rmap rbind]; [|reflexivity]. split; [|exact H].
    assert (G : forall m : lmap entry, map bare (map snd m) = map snd (bare_map m)).
    { intros m. unfold bare_map. rewrite !map_map. reflexivity. }
    cbn [ans_alike]. rewrite !G, !bare_while. now rewrite A.
  - split; [exact I|now apply alike_select].
  - split; [exact I|now apply alike_purge].
Qed.

(** Two programs that make the same accesses and, given answers alike, end alike. *)
Inductive pa {A} : prog A -> prog A -> Prop :=
| pa_done a : pa (Done a) (Done a)
| pa_crash r : pa (Crash r) (Crash r)
| pa_acc i a k k' : (forall x x', ans_alike x x' -> pa (k x) (k' x')) -> pa (Acc i a k) (Acc i a k').
Lemma pa_bind {A B} (p p' : prog A) (f f' : A -> prog B) : pa p p' -> (forall a, pa (f a) (f' a)) -> pa (pbind p f) (pbind p' f').
Proof. intros H Hf. induction H as [a|r|i a k k' H IH]; cbn [pbind]; [apply Hf|constructor|constructor; auto]. Qed.
Lemma pa_map {A B} (f : A -> B) p p' : pa p p' -> pa (pmap f p) (pmap f p').
Proof. intros H. apply pa_bind; [exact H|]. intros a. constructor. Qed.
Lemma pa_res {A} (r : res A) : pa (of_res r) (of_res r).
Proof. destruct r; constructor. Qed.
Lemma bare_cands k o o' : option_map bare o = option_map bare o' -> dict_candidates k o = dict_candidates k o'.
Proof.
  destruct o as [e|], o' as [e'|]; try discriminate; [|reflexivity]. cbn. intros [= _ E].
  unfold dict_candidates, entry_candidates. now rewrite E.
Qed.
Lemma pa_in_order ids k : pa (f_in_order ids k) (f_in_order ids k).
Proof.
  induction ids as [|i ids IH]; cbn [f_in_order f_lookup pbind]; [constructor|]. constructor. intros x x' H.
  assert (G : forall o o', option_map bare o = option_map bare o' ->
    pa (pmap (fun l => dict_candidates k o ++ l) (f_in_order ids k)) (pmap (fun l => dict_candidates k o' ++ l) (f_in_order ids k))).
  { intros o o' E. rewrite (bare_cands k _ _ E). now apply pa_map. }
  destruct x, x'; try contradiction; cbn [pbind]; apply G; auto.
Qed.
Lemma pa_pseq {A B} (f : A -> prog B) l : (forall a, pa (f a) (f a)) -> pa (pseq f l) (pseq f l).
Proof. intros H. induction l as [|x l IH]; cbn [pseq]; [constructor|]. apply pa_bind; [apply H|]. intros y. now apply pa_map. Qed.
Lemma pa_exact ids k : pa (f_exact ids k) (f_exact ids k).
Proof. apply pa_bind; [apply pa_in_order|]. intros l. apply pa_res. Qed.
Lemma pa_template ids t n : pa (f_template_texts ids t n) (f_template_texts ids t n).
Proof. unfold f_template_texts. destruct (N.eqb t 52); [apply pa_map, pa_exact|apply pa_res]. Qed.
Lemma pa_templates ids ts : forall ns cur, pa (f_replace_templates ids ts ns cur) (f_replace_templates ids ts ns cur).
Proof.
  induction ts as [|t ts IH]; intros ns cur; cbn [f_replace_templates]; [constructor|]. destruct ns as [|n ns]; [constructor|].
  destruct cur; [constructor|]. apply pa_bind; [apply pa_template|]. intros reps. apply IH.
Qed.
Lemma pa_all ids k : pa (f_all_candidates ids k) (f_all_candidates ids k).
Proof.
  unfold f_all_candidates. apply pa_bind; [apply pa_exact|]. intros ex. destruct (to_numeric_key k) as [k' ns].
  destruct (ckey_eqb k' k); [constructor|]. apply pa_bind; [apply pa_exact|]. intros cs. apply pa_map, pa_pseq.
  intros c. apply pa_map, pa_templates.
Qed.
Lemma bare_completions k l l' : map bare l = map bare l' ->
  flat_map (completions_of k) l = flat_map (completions_of k) l'.
Proof.
  revert l'. induction l as [|e l IH]; intros [|e' l']; try discriminate; [reflexivity|]. intros [= E1 E2 E]. cbn [flat_map].
  rewrite (IH l' E). f_equal. unfold completions_of, entry_candidates. now rewrite E1, E2.
Qed.
Lemma pa_complete_in_order ids k : pa (f_complete_in_order ids k) (f_complete_in_order ids k).
Proof.
  induction ids as [|i ids IH]; cbn [f_complete_in_order f_complete pbind]; [constructor|]. constructor. intros x x' H.
  assert (G : forall o o', map bare o = map bare o' ->
    pa (pmap (fun l => flat_map (completions_of k) o ++ l) (f_complete_in_order ids k)) (pmap (fun l => flat_map (completions_of k) o' ++ l) (f_complete_in_order ids k))).
  { intros o o' E. rewrite (bare_completions k _ _ E). now apply pa_map. }
  destruct x, x'; try contradiction; cbn [pbind]; apply G; auto.
Qed.
Lemma pa_all_complete ids k : pa (f_all_complete ids k) (f_all_complete ids k).
Proof. apply pa_map, pa_complete_in_order. Qed.
Lemma pa_each a ids : pa (f_each a ids) (f_each a ids).
Proof. induction ids as [|i ids IH]; cbn [f_each]; constructor. auto. Qed.
Lemma pa_registered ids s c : pa (f_registered_candidates ids s c) (f_registered_candidates ids s c).
Proof.
  unfold f_registered_candidates. destruct (_ && _); [|constructor]. destruct (to_numeric_key _). apply pa_map, pa_templates.
Qed.

Definition own {A} (m : F A) : Prop := forall c, pa (m c) (m c).
Lemma own_ret {A} (a : A) : own (f_ret a). Proof. intros c. constructor. Qed.
Lemma own_bind {A B} (m : F A) (f : A -> F B) : own m -> (forall a, own (f a)) -> own (f_bind m f).
Proof. intros H Hf c. apply pa_bind; [apply H|]. intros [a c']. apply Hf. Qed.
Lemma own_lift {A} (r : res A) : own (f_lift r). Proof. intros c. destruct r; constructor. Qed.
Lemma own_get : own f_get. Proof. intros c. constructor. Qed.
Lemma own_cur : own f_cur. Proof. intros c. unfold f_cur. destruct (x_stack c); constructor. Qed.
Lemma own_modcur f : own (f_modcur f). Proof. intros c. unfold f_modcur. destruct (x_stack c); constructor. Qed.
Lemma own_prog {A} (p : prog A) : pa p p -> own (f_prog p).
Proof. intros H c. apply pa_bind; [exact H|]. intros a. constructor. Qed.
Create HintDb own.
Global Hint Resolve own_ret own_lift own_get own_cur own_modcur : own.
Global Hint Resolve pa_all pa_all_complete pa_each pa_registered : own.
Ltac own1 :=
  first
  [ solve [auto 2 with own]
  | match goal with
    | |- own (f_bind _ _) => apply own_bind; [|intros ?]
    | |- own (f_prog _) => apply own_prog; solve [auto with own]
    | |- own (match ?x with _ => _ end) => destruct x
    | |- own (if ?x then _ else _) => destruct x
    end ].
Ltac go := cbn beta zeta; repeat (own1; cbn beta zeta).

Section W.
Context (X : xkb) (dbg : bool).
Lemma own_poll : own f_poll_output.
Proof. intros c. unfold f_poll_output. destruct (rev (x_stack c)); [constructor|]. destruct (is_nil _); constructor. Qed.
Lemma own_append t : own (f_append_converted t).
Proof. intros c. apply own_modcur. Qed.
Lemma own_carry u : own (f_set_carry_over u). Proof. unfold f_set_carry_over. go. Qed.
Lemma own_candidates : own f_update_candidate_list. Proof. unfold f_update_candidate_list. go. Qed.
Lemma own_completions : own f_update_completion_list. Proof. unfold f_update_completion_list. go. Qed.
Lemma own_purge : own f_purge_current. Proof. unfold f_purge_current. go. Qed.
Lemma own_confirm : own f_confirm_current. Proof. unfold f_confirm_current. go. Qed.
Lemma own_confirm_as i : own (f_confirm_as i). Proof. unfold f_confirm_as. go. Qed.
Lemma own_cmode c : own (f_set_composition_mode c). Proof. unfold f_set_composition_mode. go. Qed.
Lemma own_enter c : own (f_enter_register_mode c).
Proof. intros x. unfold f_enter_register_mode. destruct (Nat.ltb _ _); [|constructor]. destruct (x_stack x); constructor. Qed.
Lemma own_reset : own f_reset_state_stack.
Proof. intros x. unfold f_reset_state_stack. destruct (rev _); constructor. Qed.
Lemma own_abort_register : own f_abort_register_mode.
Proof. intros x. unfold f_abort_register_mode. destruct (x_stack x) as [|a [|b l]]; constructor. Qed.
Hint Resolve own_poll own_append own_carry own_candidates own_completions own_purge own_confirm own_confirm_as
  own_cmode own_enter own_reset own_abort_register : own.
Lemma own_exit t : own (f_exit_register_mode t).
Proof.
  intros x. unfold f_exit_register_mode. destruct (x_stack x) as [|a [|b l]]; [constructor|constructor|].
  match goal with |- pa (?m ?c) _ => assert (H : own m); [|apply H] end. go.
Qed.
Lemma own_imode i : own (f_set_input_mode i). Proof. unfold f_set_input_mode. go. Qed.
Hint Resolve own_exit own_imode : own.
Lemma own_output i c : own (f_output_converted_kana_if_any i c). Proof. unfold f_output_converted_kana_if_any. go. Qed.
Lemma own_capital k c b : own (f_transition_by_capital k c b). Proof. unfold f_transition_by_capital. go. Qed.
Hint Resolve own_output own_capital : own.
Lemma own_next c i : own (f_try_next_candidate dbg c i). Proof. unfold f_try_next_candidate. go. Qed.
Lemma own_next_completion c i : own (f_try_next_completion dbg c i). Proof. unfold f_try_next_completion. go. Qed.
Hint Resolve own_next own_next_completion : own.
Lemma own_auto : own (f_auto_start_henkan dbg). Proof. unfold f_auto_start_henkan. go. Qed.
Hint Resolve own_auto : own.
Lemma own_converted a b c d : own (f_input_converted_kana dbg a b c d). Proof. unfold f_input_converted_kana. go. Qed.
Lemma own_continuous k : own (f_input_as_continuous_kana k). Proof. unfold f_input_as_continuous_kana. go. Qed.
Lemma own_abort : own f_abort. Proof. unfold f_abort, f_when. go. Qed.
Hint Resolve own_converted own_continuous own_abort : own.
Lemma own_instr ins c i : own (f_run_instr dbg ins c i). Proof. unfold f_run_instr. go. Qed.
Hint Resolve own_instr : own.
Lemma own_instrs l c i : forall b, own (f_run_instrs dbg l c i b).
Proof. induction l as [|x l IH]; intros b; cbn [f_run_instrs]; go. Qed.
Lemma own_instructions l c i : own (f_process_instructions dbg l c i). Proof. apply own_instrs. Qed.
Lemma own_finish : own (f_finish_kana_input dbg). Proof. unfold f_finish_kana_input. go. Qed.
Hint Resolve own_instructions own_finish : own.
Lemma own_periods a b c : own (f_input_periods dbg a b c). Proof. unfold f_input_periods. go. Qed.
Lemma own_direct a b c d : own (f_input_direct_char dbg a b c d). Proof. unfold f_input_direct_char. go. Qed.
Hint Resolve own_periods own_direct : own.
Lemma own_unconverted a b c d : own (f_input_unconverted dbg a b c d). Proof. unfold f_input_unconverted. go. Qed.
Hint Resolve own_unconverted : own.
Lemma own_kana k u : own (f_input_kana X dbg k u). Proof. unfold f_input_kana. go. Qed.
Lemma own_plain k : own (f_input_plain X k). Proof. unfold f_input_plain. go. Qed.
Hint Resolve own_kana own_plain : own.
Lemma own_key k c u : own (f_input_key X dbg k c u). Proof. unfold f_input_key. go. Qed.
Hint Resolve own_key : own.
Lemma own_process k : own (f_process_key_event X dbg k).
Proof. unfold f_process_key_event, f_process_key_event_inner. go. Qed.
Lemma own_select_at i : own (f_select_candidate_at i). Proof. unfold f_select_candidate_at. go. Qed.
Lemma own_confirm_at i : own (f_confirm_candidate_at i). Proof. unfold f_confirm_candidate_at. go. Qed.
Hint Resolve own_process own_select_at own_confirm_at : own.
Lemma own_exec o : own (f_exec X dbg o).
Proof. unfold f_exec. destruct o; go; intros c; constructor. Qed.
End W.

(** Systems alike: the same threads at the same points, with the same locks, over dictionaries alike. *)
Definition alike_phase (p p' : phase) : Prop :=
  match p, p' with
  | Idle, Idle => True
  | Running q, Running q' => pa q q'
  | Holding i a k, Holding i' a' k' => i = i' /\ a = a' /\ forall x x', ans_alike x x' -> pa (k x) (k' x')
  | Dead r, Dead r' => r = r'
  | _, _ => False
  end.
Definition alike_thread (t t' : thread) : Prop :=
  t_ctx t = t_ctx t' /\ t_todo t = t_todo t' /\ t_made t = t_made t' /\ alike_phase (t_phase t) (t_phase t').
Record alike_sys (y y' : sys) : Prop := {
  as_store : Forall2 alike (y_store y) (y_store y');
  as_threads : Forall2 alike_thread (y_threads y) (y_threads y');
  as_poisoned : y_poisoned y = y_poisoned y';
  as_log : y_log y = y_log y' }.
Lemma alike_holds i t t' : alike_thread t t' -> holds_lock i t = holds_lock i t'.
Proof.
  intros (_ & _ & _ & H). unfold holds_lock. destruct (t_phase t), (t_phase t'); try contradiction; try reflexivity.
  destruct H as (-> & _). reflexivity.
Qed.
Lemma alike_locked i y y' : alike_sys y y' -> locked i y = locked i y'.
Proof.
  intros [_ H _ _]. unfold locked. induction H as [|t t' l l' Ht Hl IH]; cbn; [reflexivity|]. now rewrite IH, (alike_holds i _ _ Ht).
Qed.
Lemma forall2_put {A B} (P : A -> B -> Prop) l l' : Forall2 P l l' -> forall i a b, P a b -> Forall2 P (update_nth i (fun _ => a) l) (update_nth i (fun _ => b) l').
Proof. induction 1 as [|a b l l' H H' IH]; intros [|i] x y E; cbn; constructor; auto. Qed.
Lemma forall2_get {A B} (P : A -> B -> Prop) l l' : Forall2 P l l' -> forall i,
  match nth_error l i, nth_error l' i with Some a, Some b => P a b | None, None => True | _, _ => False end.
Proof. induction 1 as [|a b l l' H H' IH]; intros [|i]; cbn; auto. apply IH. Qed.
Lemma alike_tstep X dbg n y y' : alike_sys y y' -> alike_sys (tstep X dbg n y) (tstep X dbg n y').
Proof.
  intros H. pose proof (fun i => alike_locked i _ _ H) as HL. pose proof H as [Hs Ht Hp Hl]. unfold tstep.
  pose proof (forall2_get _ _ _ Ht n) as G.
  destruct (nth_error (y_threads y) n) as [t|], (nth_error (y_threads y') n) as [t'|]; try contradiction; [|exact H].
  destruct G as (G1 & G2 & G3 & G4).
  assert (Hset : forall t1 t1', alike_thread t1 t1' -> alike_sys (set_thread n t1 y) (set_thread n t1' y')).
  { intros t1 t1' H1. constructor; cbn; auto. now apply forall2_put. }
  assert (Hph : forall p p', alike_phase p p' -> alike_thread (set_phase p t) (set_phase p' t')).
  { intros p p' H1. repeat split; auto. }
  destruct (t_phase t) as [|q|i a k|r], (t_phase t') as [|q'|i' a' k'|r']; try contradiction; [| | |exact H].
  - rewrite <- G2. destruct (t_todo t) as [|o l]; [exact H|]. apply Hset, Hph. cbn. rewrite <- G1. apply own_exec.
  - cbn in G4. destruct G4 as [[x c]|r|i a k k' G4].
    + apply Hset. rewrite <- G2, <- G3. repeat split.
    + apply Hset, Hph. reflexivity.
    + rewrite <- HL. destruct (locked i y); [exact H|]. rewrite <- Hp. destruct (existsb _ _); apply Hset, Hph; [reflexivity|].
      cbn. auto.
  - cbn in G4. destruct G4 as (<- & <- & G4). pose proof (guarded_alike a _ _ (alike_nth i _ _ Hs)) as Hg.
    destruct (guarded a (nth i (y_store y) empty_dict)) as [[x d]|r], (guarded a (nth i (y_store y') empty_dict)) as [[x' d']|r']; try contradiction.
    + destruct Hg as [Hx Hd]. constructor; cbn; [now apply forall2_put| |exact Hp|now rewrite Hl].
      apply forall2_put; [exact Ht|]. apply Hph. cbn. auto.
    + subst r'. constructor; cbn; [exact Hs| |now rewrite Hp|exact Hl]. apply forall2_put; [exact Ht|]. apply Hph. reflexivity.
Qed.
