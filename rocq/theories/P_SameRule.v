(** Two rules that convert the same keys to the same kana: the whole API behaves the same under them. *)
From Coq Require Import Permutation.
From Verif Require Import Str Keys Modes KanaBuilder FormChanger DictTypes Parser Lru Dictionary
  CState Context P_Kana.

(** The same answer from every place of the tree. *)
Definition kb_same (b b' : kb) : Prop := forall k,
  tget b k = tget b' k /\ convert_non_partial b k = convert_non_partial b' k /\ (has_node b k <-> has_node b' k).
Definition cmd_same (c c' : command_rule) : Prop := forall m i k, assoc_key k (c m i) = assoc_key k (c' m i).
Definition ctx_same (c c' : ctx) : Prop :=
  x_stack c = x_stack c' /\ cmd_same (x_cmd c) (x_cmd c') /\ kb_same (x_kb c) (x_kb c') /\ x_kf c = x_kf c'
  /\ x_am c = x_am c' /\ x_dicts c = x_dicts c' /\ x_cfg c = x_cfg c'.
Definition same_w (w w' : world) : Prop := w_store w = w_store w' /\ ctx_same (w_ctx w) (w_ctx w').
Definition rel {A} (a b : res (A * world)) : Prop :=
  match a, b with
  | Ok (x, w), Ok (y, w') => x = y /\ same_w w w'
  | Panic e, Panic e' => e = e'
  | _, _ => False
  end.
Definition sim {A} (m m' : M A) : Prop := forall w w', same_w w w' -> rel (m w) (m' w').

Section Kb.
Context (b b' : kb) (H : kb_same b b').
Lemma ks_greedy k : convert_greedy b k = convert_greedy b' k. Proof. apply (H k). Qed.
Lemma ks_np k : convert_non_partial b k = convert_non_partial b' k. Proof. apply (H k). Qed.
Lemma ks_node k : match get_node b k with Some _ => true | None => false end = match get_node b' k with Some _ => true | None => false end.
Proof.
  destruct (H k) as (_ & _ & G). unfold has_node in G. destruct (get_node b k), (get_node b' k); try reflexivity.
  - destruct G as [G _]. exfalso. apply G; [discriminate|reflexivity].
  - destruct G as [_ G]. exfalso. apply G; [discriminate|reflexivity].
Qed.
Lemma ks_cc k u : can_continue b k u = can_continue b' k u. Proof. apply ks_node. Qed.
Lemma ks_ccl k u : can_continue_lower b k u = can_continue_lower b' k u. Proof. apply ks_node. Qed.
Lemma ks_next k u : next_unprocessed_state b k u = next_unprocessed_state b' k u.
Proof. unfold next_unprocessed_state. now rewrite !ks_cc, ks_ccl. Qed.
Lemma ks_wbp k i c u : will_be_processed b k i c u = will_be_processed b' k i c u.
Proof. unfold will_be_processed. now rewrite ?ks_cc, ?ks_ccl, ?ks_np. Qed.
Lemma ks_skip k i c u : skip_command b k i c u = skip_command b' k i c u.
Proof. unfold skip_command. now rewrite !ks_np. Qed.
End Kb.
Lemma cs_get dbg c c' : cmd_same c c' -> forall k i m, get_instruction dbg c k i m = get_instruction dbg c' k i m.
Proof. intros H k i m. unfold get_instruction. now rewrite (H m i). Qed.
Lemma same_set_stack l w w' : same_w w w' -> same_w (set_stack l w) (set_stack l w').
Proof. intros (Es & E1 & E2 & E3 & E4 & E5 & E6 & E7). split; [exact Es|]. unfold ctx_same; cbn; tauto. Qed.
Lemma same_stack w w' : same_w w w' -> x_stack (w_ctx w) = x_stack (w_ctx w'). Proof. intros H. apply H. Qed.
Lemma same_kf w w' : same_w w w' -> x_kf (w_ctx w) = x_kf (w_ctx w'). Proof. intros H. apply H. Qed.
Lemma same_am w w' : same_w w w' -> x_am (w_ctx w) = x_am (w_ctx w'). Proof. intros H. apply H. Qed.
Lemma same_cfg w w' : same_w w w' -> x_cfg (w_ctx w) = x_cfg (w_ctx w'). Proof. intros H. apply H. Qed.
Lemma same_kb w w' : same_w w w' -> kb_same (x_kb (w_ctx w)) (x_kb (w_ctx w')). Proof. intros H. apply H. Qed.
Lemma same_cmd w w' : same_w w w' -> cmd_same (x_cmd (w_ctx w)) (x_cmd (w_ctx w')). Proof. intros H. apply H. Qed.
Lemma same_dicts w w' : same_w w w' -> ctx_dicts w = ctx_dicts w'.
Proof. intros (E & _ & _ & _ & _ & _ & H & _). unfold ctx_dicts. now rewrite E, H. Qed.
Ltac sw H := rewrite ?(same_stack _ _ H), ?(same_kf _ _ H), ?(same_am _ _ H), ?(same_cfg _ _ H), ?(same_dicts _ _ H),
  ?(ks_greedy _ _ (same_kb _ _ H)), ?(ks_np _ _ (same_kb _ _ H)), ?(ks_cc _ _ (same_kb _ _ H)), ?(ks_ccl _ _ (same_kb _ _ H)),
  ?(ks_next _ _ (same_kb _ _ H)), ?(ks_wbp _ _ (same_kb _ _ H)), ?(ks_skip _ _ (same_kb _ _ H)), ?(cs_get _ _ _ (same_cmd _ _ H)).

Lemma sim_ret {A} (a : A) : sim (ret a) (ret a). Proof. intros w w' H. now split. Qed.
Lemma sim_lift {A} (r : res A) : sim (lift r) (lift r). Proof. intros w w' H. unfold lift. destruct r; cbn; auto. Qed.
Lemma sim_bind {A B} (m m' : M A) (f f' : A -> M B) : sim m m' -> (forall a, sim (f a) (f' a)) -> sim (bind m f) (bind m' f').
Proof.
  intros Hm Hf w w' H. specialize (Hm w w' H). unfold bind. destruct (m w) as [[a w1]|e], (m' w') as [[a' w1']|e']; cbn in Hm; try contradiction.
  - destruct Hm as [<- Hw]. now apply Hf.
  - exact Hm.
Qed.
Lemma sim_get {B} (f f' : world -> M B) : (forall w w', same_w w w' -> sim (f w) (f' w')) -> sim (bind get f) (bind get f').
Proof. intros Hf w w' H. unfold bind, get. now apply Hf. Qed.
Lemma sim_cur : sim cur cur.
Proof. intros w w' H. unfold cur. rewrite (same_stack _ _ H). destruct (x_stack (w_ctx w')); cbn; [reflexivity|]. split; [reflexivity|exact H]. Qed.
Lemma sim_modcur f : sim (modcur f) (modcur f).
Proof. intros w w' H. pose proof (same_stack _ _ H) as E. unfold modcur. rewrite E. destruct (x_stack (w_ctx w')); cbn; [reflexivity|]. split; [reflexivity|now apply same_set_stack]. Qed.
Lemma sim_for_dicts f : sim (for_dicts f) (for_dicts f).
Proof.
  intros w w' H. pose proof H as (E & E1 & E2 & E3 & E4 & E5 & E6 & E7). unfold for_dicts. rewrite E, E6. cbn. split; [reflexivity|].
  split; cbn; [reflexivity|]. exact (proj2 H).
Qed.

(** ** Rules with the same rows *)
Definition distinct (X : xkb) (r : rule) : Prop := NoDup (map (keyseq X) (r_conversion r)).
Lemma some_ext {A} (a b : option A) : (forall x, a = Some x <-> b = Some x) -> a = b.
Proof. intros H. destruct a as [x|]; [symmetry; now apply H|]. destruct b as [x|]; [|reflexivity]. now apply H. Qed.
Lemma same_rows X r r' : distinct X r -> distinct X r' -> (forall e, In e (r_conversion r) <-> In e (r_conversion r')) -> kb_same (kb_new X r) (kb_new X r').
Proof.
  intros Hd Hd' He k. repeat split.
  - apply some_ext. intros v. rewrite !kb_tget by assumption. split; intros (e & H & G); exists e; (split; [now apply He|exact G]).
  - apply some_ext. intros v. rewrite !kb_non_partial by assumption.
    split; intros [(e & H & G) F]; (split; [exists e; split; [now apply He|exact G]|]); intros e' rest H'; apply (F e' rest); now apply He.
  - rewrite !kb_has_node. intros [H|(e & rest & H & G)]; [now left|right; exists e, rest; split; [now apply He|exact G]].
  - rewrite !kb_has_node. intros [H|(e & rest & H & G)]; [now left|right; exists e, rest; split; [now apply He|exact G]].
Qed.
Lemma perm_distinct X r r' : Permutation (r_conversion r) (r_conversion r') -> distinct X r -> distinct X r'.
Proof. unfold distinct. intros P H. apply (Permutation_NoDup (Permutation_map _ P) H). Qed.

Section Sim.
Variable X : xkb.
Variable dbg : bool.
Hint Resolve sim_ret sim_lift sim_cur sim_modcur : sim.
Ltac go := repeat (cbv zeta; first
  [ solve [auto with sim nocore]
  | match goal with |- sim (bind get _) _ => apply sim_get; let w := fresh "w" in let w' := fresh "w" in let H := fresh "Hw" in intros w w' H; cbv zeta; sw H end
  | match goal with |- sim (bind _ _) _ => apply sim_bind; [|intros ?] end
  | match goal with |- sim (if ?b then _ else _) _ => destruct b end
  | match goal with |- sim (match ?x with _ => _ end) _ => destruct x end ]).
Lemma sim_poll : sim poll_output poll_output.
Proof.
  intros w w' H. pose proof (same_stack _ _ H) as E. unfold poll_output. rewrite E. destruct (rev _) as [|top inner]; cbn; [reflexivity|].
  destruct (is_nil (s_conf top)); cbn; [now split|]. split; [reflexivity|]. now apply same_set_stack.
Qed.
Lemma sim_append t : sim (append_converted t) (append_converted t).
Proof. intros w w' H. unfold append_converted. sw H. now apply sim_modcur. Qed.
Lemma sim_carry u : sim (set_carry_over u) (set_carry_over u). Proof. unfold set_carry_over. go. Qed.
Lemma sim_candidates : sim update_candidate_list update_candidate_list.
Proof. unfold update_candidate_list. go.  Qed.
Lemma sim_completions : sim update_completion_list update_completion_list.
Proof. unfold update_completion_list. go.  Qed.
Hint Resolve sim_poll sim_append sim_carry sim_candidates sim_completions : sim.
Lemma sim_purge_current : sim purge_current purge_current.
Proof. unfold purge_current. go. apply sim_for_dicts. Qed.
Lemma sim_confirm_current : sim confirm_current confirm_current.
Proof. unfold confirm_current. go. apply sim_for_dicts. Qed.
Lemma sim_confirm_as i : sim (confirm_as i) (confirm_as i). Proof. unfold confirm_as. go. Qed.
Lemma sim_set_composition c : sim (set_composition_mode c) (set_composition_mode c). Proof. unfold set_composition_mode. go. Qed.
Lemma sim_enter c : sim (enter_register_mode c) (enter_register_mode c).
Proof.
  intros w w' H. pose proof (same_stack _ _ H) as E. unfold enter_register_mode. rewrite E. destruct (Nat.ltb _ _); cbn; [|now split].
  destruct (x_stack (w_ctx w')); cbn; [reflexivity|]. split; [reflexivity|]. now apply same_set_stack.
Qed.
Lemma sim_reset : sim reset_state_stack reset_state_stack.
Proof. intros w w' H. pose proof (same_stack _ _ H) as E. unfold reset_state_stack. rewrite E. destruct (rev _); cbn; [reflexivity|]. split; [reflexivity|]. now apply same_set_stack. Qed.
Lemma sim_abort_register : sim abort_register_mode abort_register_mode.
Proof.
  intros w w' H. pose proof (same_stack _ _ H) as E. unfold abort_register_mode. rewrite E. destruct (x_stack (w_ctx w')) as [|a [|b l]]; cbn; try (split; [reflexivity|exact H]).
  split; [reflexivity|]. now apply same_set_stack.
Qed.
Hint Resolve sim_purge_current sim_confirm_current sim_confirm_as sim_set_composition sim_enter sim_reset sim_abort_register : sim.
Lemma sim_exit t : sim (exit_register_mode t) (exit_register_mode t).
Proof.
  intros w w' H. pose proof (same_stack _ _ H) as E. unfold exit_register_mode. rewrite E. destruct (x_stack (w_ctx w')) as [|a [|b l]]; cbn [tl]; try (split; [reflexivity|exact H]).
  match goal with |- rel (?m _) _ => assert (Hm : sim m m); [|apply Hm, same_set_stack, H] end.
  unfold registered_candidates. go.
Qed.
Lemma sim_set_input i : sim (set_input_mode i) (set_input_mode i). Proof. unfold set_input_mode. go. Qed.
Lemma sim_output i c : sim (output_converted_kana_if_any i c) (output_converted_kana_if_any i c).
Proof. unfold output_converted_kana_if_any. go. Qed.
Lemma sim_capital k c b : sim (transition_by_capital k c b) (transition_by_capital k c b). Proof. unfold transition_by_capital. go. Qed.
Hint Resolve sim_exit sim_set_input sim_output sim_capital : sim.
Lemma sim_next c i : sim (try_next_candidate dbg c i) (try_next_candidate dbg c i). Proof. unfold try_next_candidate. go. Qed.
Lemma sim_next_completion c i : sim (try_next_completion dbg c i) (try_next_completion dbg c i). Proof. unfold try_next_completion. go. Qed.
Hint Resolve sim_next sim_next_completion : sim.
Lemma sim_auto : sim (auto_start_henkan dbg) (auto_start_henkan dbg). Proof. unfold auto_start_henkan. go. Qed.
Hint Resolve sim_auto : sim.
Lemma sim_converted a b c d : sim (input_converted_kana dbg a b c d) (input_converted_kana dbg a b c d). Proof. unfold input_converted_kana. go. Qed.
Lemma sim_continuous k : sim (input_as_continuous_kana k) (input_as_continuous_kana k). Proof. unfold input_as_continuous_kana. go. Qed.
Lemma sim_abort : sim abort abort. Proof. unfold abort, when. go. Qed.
Hint Resolve sim_converted sim_continuous sim_abort : sim.
Lemma sim_instr ins c i : sim (run_instr dbg ins c i) (run_instr dbg ins c i).
Proof. unfold run_instr. destruct ins; go. Qed.
Hint Resolve sim_instr : sim.
Lemma sim_instrs l c i : forall b, sim (run_instrs dbg l c i b) (run_instrs dbg l c i b).
Proof. induction l as [|x l IH]; intros b; cbn [run_instrs]; go. Qed.
Lemma sim_process l c i : sim (process_instructions dbg l c i) (process_instructions dbg l c i). Proof. apply sim_instrs. Qed.
Lemma sim_finish : sim (finish_kana_input dbg) (finish_kana_input dbg). Proof. unfold finish_kana_input. go. Qed.
Hint Resolve sim_process sim_finish : sim.
Lemma sim_periods a b c : sim (input_periods dbg a b c) (input_periods dbg a b c). Proof. unfold input_periods. go. Qed.
Lemma sim_direct a b c d : sim (input_direct_char dbg a b c d) (input_direct_char dbg a b c d). Proof. unfold input_direct_char. go. Qed.
Hint Resolve sim_periods sim_direct : sim.
Lemma sim_unconverted a b c d : sim (input_unconverted dbg a b c d) (input_unconverted dbg a b c d). Proof. unfold input_unconverted. go. Qed.
Hint Resolve sim_unconverted : sim.
Lemma sim_kana k u : sim (input_kana X dbg k u) (input_kana X dbg k u). Proof. unfold input_kana. go. Qed.
Lemma sim_plain k : sim (input_plain X k) (input_plain X k). Proof. unfold input_plain. go. Qed.
Hint Resolve sim_kana sim_plain : sim.
Lemma sim_key k c u : sim (input_key X dbg k c u) (input_key X dbg k c u). Proof. unfold input_key. go. Qed.
Hint Resolve sim_key : sim.
Lemma sim_process_key k : sim (process_key_event X dbg k) (process_key_event X dbg k).
Proof. unfold process_key_event, process_key_event_inner. go. Qed.
Lemma sim_select_at i : sim (select_candidate_at i) (select_candidate_at i). Proof. unfold select_candidate_at. go. Qed.
Lemma sim_confirm_at i : sim (confirm_candidate_at i) (confirm_candidate_at i). Proof. unfold confirm_candidate_at. go. Qed.
Hint Resolve sim_process_key sim_select_at sim_confirm_at : sim.
(** the same call, up to the order of the rows of a rule it installs *)
Definition op_same (o o' : op) : Prop :=
  match o, o' with
  | OSetRule r, OSetRule r' => cmd_same (r_command r) (r_command r') /\ kb_same (kb_new X r) (kb_new X r')
  | OSetRule _, _ | _, OSetRule _ => False
  | _, _ => o = o'
  end.
Theorem sim_exec o o' : op_same o o' -> sim (exec X dbg o) (exec X dbg o').
Proof.
  intros Ho. destruct o, o'; cbn in Ho; try discriminate Ho; try contradiction; try (injection Ho as ->); cbn [exec]; try solve [go];
    intros w w' (Es & E1 & E2 & E3 & E4 & E5 & E6 & E7); cbn; (split; [reflexivity|]); (split; [cbn; (exact Es || reflexivity)|]); unfold ctx_same; cbn;
    rewrite ?E7; tauto.
Qed.
Theorem sim_run ops ops' : Forall2 op_same ops ops' -> sim (run X dbg ops) (run X dbg ops').
Proof.
  induction 1 as [|o o' ops ops' Ho Hops IH]; cbn [run]; [apply sim_ret|].
  apply sim_bind; [now apply sim_exec|]. intros a. apply sim_bind; [exact IH|]. intros l. apply sim_ret.
Qed.
End Sim.
