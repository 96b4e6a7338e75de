(** A program of Fine.v run without interference does what Context.v says. *)
From Verif Require Import Str Keys Modes KanaBuilder FormChanger DictTypes Parser Lru
  Dictionary CState Context Fine.

Lemma update_nth_nth {A} i (d : A) l : update_nth i (fun _ => nth i l d) l = l.
Proof. revert i; induction l as [|x l IH]; intros [|i]; cbn; try reflexivity. now rewrite IH. Qed.
Lemma update_nth_const {A} i (f : A -> A) d l :
  update_nth i (fun _ => f (nth i l d)) l = update_nth i f l.
Proof. revert i; induction l as [|x l IH]; intros [|i]; cbn; try reflexivity. now rewrite IH. Qed.

(** Queries: nothing is changed and the answer is the one of Dictionary.v. *)
Definition asks {A} (p : prog A) (g : list dict -> res A) : Prop :=
  forall st, alone p st = rmap (fun a => (a, st)) (g st).
Lemma alone_bind {A B} (p : prog A) (f : A -> prog B) st :
  alone (pbind p f) st = match alone p st with Ok (a, st') => alone (f a) st' | Panic r => Panic r end.
Proof.
  revert st. induction p as [a|r|i a k IH]; intros st; cbn; [reflexivity|reflexivity|].
  destruct (guarded _ _) as [[x d]|]; [apply IH|reflexivity].
Qed.
Lemma asks_done {A} (a : A) : asks (Done a) (fun _ => Ok a).
Proof. intros st. reflexivity. Qed.
Lemma asks_res {A} (r : res A) : asks (of_res r) (fun _ => r).
Proof. intros st. destruct r; reflexivity. Qed.
Lemma asks_bind {A B} (p : prog A) g (f : A -> prog B) h :
  asks p g -> (forall a, asks (f a) (h a)) ->
  asks (pbind p f) (fun st => rbind (g st) (fun a => h a st)).
Proof.
  intros Hp Hf st. rewrite alone_bind, Hp. destruct (g st) as [a|]; cbn; [apply Hf|reflexivity].
Qed.
Lemma asks_map {A B} (p : prog A) g (f : A -> B) :
  asks p g -> asks (pmap f p) (fun st => rmap f (g st)).
Proof. intros Hp st. unfold pmap. rewrite alone_bind, Hp. destruct (g st); reflexivity. Qed.
Lemma asks_ext {A} (p : prog A) g g' : asks p g -> (forall st, g st = g' st) -> asks p g'.
Proof. intros H He st. rewrite H, He. reflexivity. Qed.
Definition at_ (i : nat) (st : list dict) : dict := nth i st empty_dict.
Lemma asks_lookup i k : asks (f_lookup i k) (fun st => lookup (at_ i st) k).
Proof.
  intros st. unfold f_lookup, at_. cbn [alone guarded]. destruct (lookup _ k); cbn; [|reflexivity].
  now rewrite update_nth_nth.
Qed.
Lemma asks_complete i k : asks (f_complete i k)
  (fun st => if d_completable (at_ i st) then complete (at_ i st) k else Ok []).
Proof.
  intros st. unfold f_complete, at_. cbn [alone guarded]. match goal with |- context [rmap _ ?r] => destruct r end; cbn; [|reflexivity].
  now rewrite update_nth_nth.
Qed.
Lemma asks_in_order ids k : asks (f_in_order ids k) (fun st => candidates_in_order (map (fun i => at_ i st) ids) k).
Proof.
  induction ids as [|i r IH]; cbn [f_in_order map candidates_in_order]; [apply asks_done|].
  refine (asks_bind _ _ _ (fun oe st => rmap (fun l => dict_candidates k oe ++ l) (candidates_in_order (map (fun i => at_ i st) r) k)) (asks_lookup i k) _).
  intros oe. apply asks_map, IH.
Qed.
Lemma asks_pseq {A B} (f : A -> prog B) (g : A -> list dict -> res B) l :
  (forall a, asks (f a) (g a)) -> asks (pseq f l) (fun st => res_map (fun a => g a st) l).
Proof.
  intros H. induction l as [|x r IH]; cbn [pseq res_map]; [apply asks_done|].
  refine (asks_bind _ _ _ (fun y st => rmap (cons y) (res_map (fun a => g a st) r)) (H x) _).
  intros y. apply asks_map, IH.
Qed.
Lemma asks_exact ids k : asks (f_exact ids k) (fun st => exact_candidates (map (fun i => at_ i st) ids) k).
Proof.
  unfold f_exact, exact_candidates.
  refine (asks_bind _ _ _ (fun l st => res_map (candidate_of_dcand k) (dedup_candidates dcand_cmp dc_kouho l)) (asks_in_order ids k) _).
  intros l. apply asks_res.
Qed.
Lemma asks_template ids t n : asks (f_template_texts ids t n) (fun st => template_texts (map (fun i => at_ i st) ids) t n).
Proof.
  unfold f_template_texts. destruct (N.eqb_spec t 52) as [->|Ht].
  - change (fun st => template_texts (map (fun i => at_ i st) ids) 52 n)
      with (fun st => rmap (map c_kouho) (exact_candidates (map (fun i => at_ i st) ids) (mkCK n None))).
    apply asks_map, asks_exact.
  - eapply asks_ext; [apply asks_res|]. intros st. unfold template_texts.
    apply N.eqb_neq in Ht. rewrite Ht. reflexivity.
Qed.
Lemma asks_templates ids ts : forall ns cur,
  asks (f_replace_templates ids ts ns cur) (fun st => replace_templates (map (fun i => at_ i st) ids) ts ns cur).
Proof.
  induction ts as [|t ts IH]; intros [|n ns] cur; cbn [f_replace_templates replace_templates]; try apply asks_done.
  destruct cur as [|x cur]; [apply asks_done|].
  refine (asks_bind _ _ _ (fun reps st => replace_templates (map (fun i => at_ i st) ids) ts ns (flat_map (fun text => map (fun r => replacen1 [35%N; t] r text) reps) (x :: cur))) (asks_template ids t n) _).
  intros reps. apply IH.
Qed.
Lemma asks_string ids kouho ns :
  asks (f_replace_numeric_string ids kouho ns) (fun st => replace_numeric_string (map (fun i => at_ i st) ids) kouho ns).
Proof. apply asks_templates. Qed.
Lemma asks_all ids k : asks (f_all_candidates ids k) (fun st => get_all_candidates (map (fun i => at_ i st) ids) k).
Proof.
  unfold f_all_candidates, get_all_candidates. destruct (to_numeric_key k) as [k' ns].
  refine (asks_bind _ _ _ (fun exact st => if ckey_eqb k' k then Ok exact
    else rbind (exact_candidates (map (fun i => at_ i st) ids) k') (fun cs =>
         rmap (fun ll => exact ++ concat ll) (res_map (replace_numeric_match (map (fun i => at_ i st) ids) ns) cs))) (asks_exact ids k) _).
  intros exact. destruct (ckey_eqb k' k); [apply asks_done|].
  refine (asks_bind _ _ _ (fun cs st =>
         rmap (fun ll => exact ++ concat ll) (res_map (replace_numeric_match (map (fun i => at_ i st) ids) ns) cs)) (asks_exact ids k') _).
  intros cs. apply asks_map.
  apply (asks_pseq _ (fun c st => replace_numeric_match (map (fun i => at_ i st) ids) ns c)).
  intros c. unfold f_replace_numeric_match, replace_numeric_match. apply asks_map, asks_string.
Qed.
Lemma asks_complete_order ids k : asks (f_complete_in_order ids k) (fun st => complete_in_order (map (fun i => at_ i st) ids) k).
Proof.
  induction ids as [|i r IH]; cbn [f_complete_in_order map complete_in_order]; [apply asks_done|].
  refine (asks_bind _ _ _ (fun es st => rmap (fun l => flat_map (fun e => match entry_candidates (ck_okuri k) e with Some cs => map (fun c => mkCC (e_midashi e) (ck_okuri k) (dc_kouho c) (dc_annot c)) cs | None => [] end) es ++ l) (complete_in_order (map (fun i => at_ i st) r) k)) (asks_complete i k) _).
  intros es. apply asks_map, IH.
Qed.
Lemma asks_all_complete ids k : asks (f_all_complete ids k) (fun st => get_all_complete (map (fun i => at_ i st) ids) k).
Proof. apply asks_map, asks_complete_order. Qed.
Lemma asks_registered ids s t :
  asks (f_registered_candidates ids s t) (fun st => registered_candidates (map (fun i => at_ i st) ids) s t).
Proof.
  unfold f_registered_candidates, registered_candidates. cbn zeta.
  destruct (negb _ && _); [|apply asks_done]. destruct (to_numeric_key _) as [dk ns].
  apply asks_map, asks_string.
Qed.
(** Updates: every dictionary of the context in turn. *)
Lemma alone_each a f ids : (forall d, guarded a d = Ok (AnsDone, f d)) ->
  forall st, alone (f_each a ids) st = Ok (tt, upd_dicts ids f st).
Proof.
  intros Ha. unfold upd_dicts. induction ids as [|i r IH]; intros st; cbn [f_each alone fold_left]; [reflexivity|].
  rewrite Ha, IH. now rewrite (update_nth_const i f empty_dict).
Qed.

(** Methods. *)
Definition sim {A} (f : F A) (m : M A) : Prop := forall w,
  alone (f (w_ctx w)) (w_store w)
  = match m w with Ok (a, w') => Ok ((a, w_ctx w'), w_store w') | Panic e => Panic e end.
Lemma sim_ret {A} (a : A) : sim (f_ret a) (ret a).
Proof. intros w. reflexivity. Qed.
Lemma sim_bind {A B} (f : F A) m (g : A -> F B) h :
  sim f m -> (forall a, sim (g a) (h a)) -> sim (f_bind f g) (bind m h).
Proof.
  intros H1 H2 w. unfold f_bind, bind. rewrite alone_bind, H1.
  destruct (m w) as [[a w']|e]; [apply H2|reflexivity].
Qed.
Lemma sim_get_then {B} (g : ctx -> F B) h :
  (forall w, sim (g (w_ctx w)) (h w)) -> sim (f_bind f_get g) (bind get h).
Proof. intros H w. unfold f_bind, bind, f_get, get. cbn [pbind]. apply H. Qed.
Lemma sim_lift {A} (r : res A) : sim (f_lift r) (lift r).
Proof. intros w. unfold f_lift, lift. destruct r; reflexivity. Qed.
Lemma sim_cur : sim f_cur cur.
Proof. intros w. unfold f_cur, cur. destruct (x_stack (w_ctx w)); reflexivity. Qed.
Lemma sim_modcur f : sim (f_modcur f) (modcur f).
Proof. intros w. unfold f_modcur, modcur. destruct (x_stack (w_ctx w)); reflexivity. Qed.
Lemma sim_when b f m : sim f m -> sim (f_when b f) (when b m).
Proof. intros H. unfold f_when, when. destruct b; [exact H|apply sim_ret]. Qed.
Create HintDb sim.
Ltac sim1 :=
  first
  [ apply sim_ret | apply sim_lift | apply sim_cur | apply sim_modcur | assumption
  | solve [auto 2 with sim]
  | match goal with
    | |- sim (f_bind f_get _) (bind get _) => apply sim_get_then; intros ?
    | |- sim (f_bind _ _) (bind _ _) => apply sim_bind; [|intros ?]
    | |- sim (f_when _ _) (when _ _) => apply sim_when
    | |- sim (match ?x with _ => _ end) (match ?x with _ => _ end) => destruct x
    | |- sim (if ?x then _ else _) (if ?x then _ else _) => destruct x
    end ].
Ltac sims := cbn beta zeta; repeat (sim1; cbn beta zeta).

Section S.
Context (X : xkb) (dbg : bool).
Lemma s_poll : sim f_poll_output poll_output.
Proof. intros w. unfold f_poll_output, poll_output. destruct (rev (x_stack (w_ctx w))) as [|t l]; [reflexivity|]. destruct (is_nil _); reflexivity. Qed.
Lemma s_append t : sim (f_append_converted t) (append_converted t).
Proof. intros w. unfold f_append_converted, append_converted. apply sim_modcur. Qed.
Lemma s_carry u : sim (f_set_carry_over u) (set_carry_over u).
Proof. unfold f_set_carry_over, set_carry_over. sims. Qed.
Lemma sim_ask {A} (p : prog A) g w0 : asks p g -> forall B (k : A -> F B) h,
  (forall a, sim (k a) (h a)) -> w_store w0 = w_store w0 -> 
  forall w, w_store w = w_store w0 -> 
  alone (f_bind (f_prog p) k (w_ctx w)) (w_store w)
  = match bind (lift (g (w_store w0))) h w with Ok (a, w') => Ok ((a, w_ctx w'), w_store w') | Panic e => Panic e end.
Proof.
  intros Hp B k h Hk _ w Hw. unfold f_bind, f_prog, bind, lift. rewrite !alone_bind, Hp, Hw.
  destruct (g (w_store w0)) as [a|e]; cbn; [|reflexivity]. rewrite <- Hw. apply Hk.
Qed.
Lemma s_update_candidates : sim f_update_candidate_list update_candidate_list.
Proof.
  unfold f_update_candidate_list, update_candidate_list. apply sim_bind; [apply sim_cur|intros s].
  intros w. unfold f_bind at 1, f_get. cbn [pbind]. unfold bind at 1, get.
  apply (sim_ask _ _ w (asks_all (x_dicts (w_ctx w)) (get_composite_key s))); auto. intros. apply sim_modcur.
Qed.
Lemma s_update_completion : sim f_update_completion_list update_completion_list.
Proof.
  unfold f_update_completion_list, update_completion_list. apply sim_bind; [apply sim_cur|intros s].
  intros w. unfold f_bind at 1, f_get. cbn [pbind]. unfold bind at 1, get.
  apply (sim_ask _ _ w (asks_all_complete (x_dicts (w_ctx w)) (get_composite_key s))); auto. intros. apply sim_modcur.
Qed.
Lemma sim_each a f w : (forall d, guarded a d = Ok (AnsDone, f d)) ->
  alone (f_prog (f_each a (x_dicts (w_ctx w))) (w_ctx w)) (w_store w)
  = match for_dicts f w with Ok (x, w') => Ok ((x, w_ctx w'), w_store w') | Panic e => Panic e end.
Proof. intros H. unfold f_prog, for_dicts. rewrite alone_bind, (alone_each a f _ H). reflexivity. Qed.
Lemma s_purge : sim f_purge_current purge_current.
Proof.
  unfold f_purge_current, purge_current. apply sim_bind; [apply sim_cur|intros s].
  intros w. unfold f_bind at 1, f_get. cbn [pbind].
  destruct (cl_current (s_list s)) as [c|]; [|apply (sim_bind (f_ret tt) (ret tt)); [apply sim_ret|intros; apply sim_modcur]].
  unfold f_bind, bind. rewrite alone_bind, (sim_each _ (fun d => purge_candidate d (cl_key (s_list s)) c)) by reflexivity.
  cbn [for_dicts]. apply sim_modcur.
Qed.
Lemma s_confirm : sim f_confirm_current confirm_current.
Proof.
  unfold f_confirm_current, confirm_current. apply sim_bind; [apply sim_cur|intros s].
  intros w. unfold f_bind at 1, f_get. cbn [pbind]. unfold bind at 1, get.
  destruct (cl_current (s_list s)) as [c|]; [|reflexivity].
  unfold f_bind, bind. rewrite alone_bind, (sim_each _ (fun d => select_candidate d c)) by reflexivity.
  cbn [for_dicts]. apply sim_modcur.
Qed.
Lemma s_confirm_as i : sim (f_confirm_as i) (confirm_as i).
Proof. unfold f_confirm_as, confirm_as. sims. Qed.
Lemma s_cmode c : sim (f_set_composition_mode c) (set_composition_mode c).
Proof. unfold f_set_composition_mode, set_composition_mode. sims. Qed.
Lemma s_imode c : sim (f_set_input_mode c) (set_input_mode c).
Proof. unfold f_set_input_mode, set_input_mode. sims. Qed.
Lemma s_enter c : sim (f_enter_register_mode c) (enter_register_mode c).
Proof. intros w. unfold f_enter_register_mode, enter_register_mode. destruct (Nat.ltb _ _); [|reflexivity]. destruct (x_stack (w_ctx w)); reflexivity. Qed.
Lemma s_reset : sim f_reset_state_stack reset_state_stack.
Proof. intros w. unfold f_reset_state_stack, reset_state_stack. destruct (rev (x_stack (w_ctx w))); reflexivity. Qed.
Lemma s_abort_register : sim f_abort_register_mode abort_register_mode.
Proof. intros w. unfold f_abort_register_mode, abort_register_mode. destruct (x_stack (w_ctx w)) as [|s [|s' r]]; reflexivity. Qed.
Lemma s_exit t : sim (f_exit_register_mode t) (exit_register_mode t).
Proof.
  intros w. unfold f_exit_register_mode, exit_register_mode.
  destruct (x_stack (w_ctx w)) as [|s [|s' r]] eqn:Es; [reflexivity|reflexivity|].
  match goal with |- alone (?f ?c) _ = match ?m ?w1 with _ => _ end => cut (sim f m); [intros H; exact (H w1)|] end.
  destruct (is_nil t); [sims|]. apply sim_bind; [apply sim_modcur|intros _]. apply sim_bind; [apply sim_cur|intros s0].
  intros w1. unfold f_bind at 1, f_get. cbn [pbind]. unfold bind at 1, get.
  apply (sim_ask _ _ w1 (asks_registered (x_dicts (w_ctx w1)) s0 t)); auto.
  intros cs. pose proof s_confirm. sims.
Qed.
Hint Resolve s_poll s_append s_carry s_update_candidates s_update_completion s_purge s_confirm s_confirm_as
  s_cmode s_imode s_enter s_reset s_abort_register s_exit : sim.
Lemma s_output i c : sim (f_output_converted_kana_if_any i c) (output_converted_kana_if_any i c).
Proof. unfold f_output_converted_kana_if_any, output_converted_kana_if_any. sims. Qed.
Lemma s_capital k c d : sim (f_transition_by_capital k c d) (transition_by_capital k c d).
Proof. unfold f_transition_by_capital, transition_by_capital. sims. Qed.
Hint Resolve s_output s_capital : sim.
Lemma s_next c i : sim (f_try_next_candidate dbg c i) (try_next_candidate dbg c i).
Proof. unfold f_try_next_candidate, try_next_candidate. sims. Qed.
Lemma s_next_completion c i : sim (f_try_next_completion dbg c i) (try_next_completion dbg c i).
Proof. unfold f_try_next_completion, try_next_completion. sims. Qed.
Hint Resolve s_next s_next_completion : sim.
Lemma s_auto : sim (f_auto_start_henkan dbg) (auto_start_henkan dbg).
Proof. unfold f_auto_start_henkan, auto_start_henkan. sims. Qed.
Hint Resolve s_auto : sim.
Lemma s_converted a b c d : sim (f_input_converted_kana dbg a b c d) (input_converted_kana dbg a b c d).
Proof. unfold f_input_converted_kana, input_converted_kana. sims. Qed.
Lemma s_continuous k : sim (f_input_as_continuous_kana k) (input_as_continuous_kana k).
Proof. unfold f_input_as_continuous_kana, input_as_continuous_kana. sims. Qed.
Lemma s_abort : sim f_abort abort.
Proof. unfold f_abort, abort. sims. Qed.
Hint Resolve s_converted s_continuous s_abort : sim.
Lemma s_instr i c m : sim (f_run_instr dbg i c m) (run_instr dbg i c m).
Proof. unfold f_run_instr, run_instr. sims. Qed.
Lemma s_instrs l c m : forall b, sim (f_run_instrs dbg l c m b) (run_instrs dbg l c m b).
Proof. induction l as [|i l IH]; intros b; cbn [f_run_instrs run_instrs]; [sims|]. pose proof (s_instr i c m). sims. Qed.
Lemma s_instructions l c m : sim (f_process_instructions dbg l c m) (process_instructions dbg l c m).
Proof. apply s_instrs. Qed.
Hint Resolve s_instructions : sim.
Lemma s_finish : sim (f_finish_kana_input dbg) (finish_kana_input dbg).
Proof. unfold f_finish_kana_input, finish_kana_input. sims. Qed.
Hint Resolve s_finish : sim.
Lemma s_periods i c t : sim (f_input_periods dbg i c t) (input_periods dbg i c t).
Proof. unfold f_input_periods, input_periods. sims. Qed.
Lemma s_direct_char k c i m : sim (f_input_direct_char dbg k c i m) (input_direct_char dbg k c i m).
Proof. unfold f_input_direct_char, input_direct_char. sims. Qed.
Hint Resolve s_periods s_direct_char : sim.
Lemma s_unconverted k u c m : sim (f_input_unconverted dbg k u c m) (input_unconverted dbg k u c m).
Proof. unfold f_input_unconverted, input_unconverted. sims. Qed.
Hint Resolve s_unconverted : sim.
Lemma s_kana k u : sim (f_input_kana X dbg k u) (input_kana X dbg k u).
Proof. unfold f_input_kana, input_kana. sims. Qed.
Lemma s_plain k : sim (f_input_plain X k) (input_plain X k).
Proof. unfold f_input_plain, input_plain. sims. Qed.
Hint Resolve s_kana s_plain : sim.
Lemma s_input_key k c u : sim (f_input_key X dbg k c u) (input_key X dbg k c u).
Proof. unfold f_input_key, input_key. sims. Qed.
Hint Resolve s_input_key : sim.
Lemma s_inner k : sim (f_process_key_event_inner X dbg k) (process_key_event_inner X dbg k).
Proof. unfold f_process_key_event_inner, process_key_event_inner. sims. Qed.
Hint Resolve s_inner : sim.
Lemma s_key k : sim (f_process_key_event X dbg k) (process_key_event X dbg k).
Proof. unfold f_process_key_event, process_key_event. sims. Qed.
Lemma s_select_at i : sim (f_select_candidate_at i) (select_candidate_at i).
Proof. unfold f_select_candidate_at, select_candidate_at. sims. Qed.
Lemma s_confirm_at i : sim (f_confirm_candidate_at i) (confirm_candidate_at i).
Proof. unfold f_confirm_candidate_at, confirm_candidate_at. sims. Qed.
Hint Resolve s_key s_select_at s_confirm_at : sim.
(** Without interference a call is the call of Context.v. *)
Theorem alone_exec o w : (forall st, o <> OOther st) ->
  alone (f_exec X dbg o (w_ctx w)) (w_store w)
  = match exec X dbg o w with Ok (x, w') => Ok ((x, w_ctx w'), w_store w') | Panic e => Panic e end.
Proof.
  intros Ho. revert w. match goal with |- forall w, alone (?f _) _ = match ?m w with _ => _ end => change (sim f m) end.
  destruct o; unfold f_exec, exec; sims; try (intros w; reflexivity).
  now destruct (Ho st).
Qed.
End S.
