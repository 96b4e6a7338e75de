(** What a context does depends on its dictionaries only through what they hold, in order: not on which objects they
    are, and not on the empty ones among them. *)
From Verif Require Import Str Keys Modes KanaBuilder FormChanger DictTypes Parser Lru Dictionary
  CState Context P_Dict T_Save P_Alike T_Entry.

(** The dictionaries of a context that are not made by skk_empty_dict_new. *)
Definition kept (d : dict) : bool := match d_kind d with DEmpty => false | _ => true end.
Definition contents (w : world) : list dict := filter kept (ctx_dicts w).
Definition ctx_like (c c' : ctx) : Prop :=
  x_stack c = x_stack c' /\ x_cmd c = x_cmd c' /\ x_kb c = x_kb c' /\ x_kf c = x_kf c'
  /\ x_am c = x_am c' /\ x_cfg c = x_cfg c'.
Definition same_w (w w' : world) : Prop :=
  (NoDup (x_dicts (w_ctx w)) /\ NoDup (x_dicts (w_ctx w')) /\ Forall2 alike (contents w) (contents w')) /\ ctx_like (w_ctx w) (w_ctx w').
Definition rel {A} (a b : res (A * world)) : Prop :=
  match a, b with
  | Ok (x, w), Ok (y, w') => x = y /\ same_w w w'
  | Panic e, Panic e' => e = e'
  | _, _ => False
  end.
Definition sim {A} (m m' : M A) : Prop := forall w w', same_w w w' -> rel (m w) (m' w').

(** ** The empty dictionary answers nothing and learns nothing. *)
Lemma kept_in_order ds k : candidates_in_order (filter kept ds) k = candidates_in_order ds k.
Proof.
  induction ds as [|d ds IH]; [reflexivity|]. cbn [filter candidates_in_order]. destruct (kept d) eqn:E.
  - cbn [candidates_in_order]. now rewrite IH.
  - rewrite IH. unfold kept in E. unfold lookup. destruct (d_kind d); try discriminate. cbn [rbind dict_candidates].
    destruct (candidates_in_order ds k); reflexivity.
Qed.
Lemma kept_exact ds k : exact_candidates (filter kept ds) k = exact_candidates ds k.
Proof. unfold exact_candidates. now rewrite kept_in_order. Qed.
Lemma kept_all ds k : get_all_candidates (filter kept ds) k = get_all_candidates ds k.
Proof. apply all_candidates_ext. intros k'. apply kept_exact. Qed.
Lemma kept_completions ds k : get_all_complete (filter kept ds) k = get_all_complete ds k.
Proof.
  unfold get_all_complete. assert (E : complete_in_order (filter kept ds) k = complete_in_order ds k); [|now rewrite E].
  induction ds as [|d ds IH]; [reflexivity|]. cbn [filter complete_in_order]. destruct (kept d) eqn:E.
  - cbn [complete_in_order]. now rewrite IH.
  - rewrite IH. unfold kept in E. assert (C : complete d k = Ok []).
    { unfold complete, dict_ents. destruct (d_kind d); try discriminate. destruct (has_okuri k); reflexivity. }
    rewrite C. destruct (d_completable d); cbn [rbind flat_map app]; destruct (complete_in_order ds k); reflexivity.
Qed.
Lemma kept_replace ds t ns : replace_numeric_string (filter kept ds) t ns = replace_numeric_string ds t ns.
Proof.
  unfold replace_numeric_string. assert (Ht : forall x n, template_texts (filter kept ds) x n = template_texts ds x n) by (intros; unfold template_texts; now rewrite kept_exact).
  generalize (templates t) as ts. generalize [t] as cur. intros cur ts. revert ns cur.
  induction ts as [|x ts IH]; intros [|n ns] cur; cbn; try reflexivity.
  destruct cur; [reflexivity|]. rewrite Ht. destruct (template_texts ds x n); cbn; [apply IH|reflexivity].
Qed.
Lemma same_all w w' k : same_w w w' -> get_all_candidates (ctx_dicts w) k = get_all_candidates (ctx_dicts w') k.
Proof. intros ((_ & _ & H) & _). rewrite <- (kept_all (ctx_dicts w)), <- (kept_all (ctx_dicts w')). now apply alike_all. Qed.
Lemma same_completions w w' k : same_w w w' -> get_all_complete (ctx_dicts w) k = get_all_complete (ctx_dicts w') k.
Proof. intros ((_ & _ & H) & _). rewrite <- (kept_completions (ctx_dicts w)), <- (kept_completions (ctx_dicts w')). now apply alike_completions. Qed.
Lemma same_replace w w' t ns : same_w w w' -> replace_numeric_string (ctx_dicts w) t ns = replace_numeric_string (ctx_dicts w') t ns.
Proof. intros ((_ & _ & H) & _). rewrite <- (kept_replace (ctx_dicts w)), <- (kept_replace (ctx_dicts w')). now apply alike_replace. Qed.
(** ** Updates go to every dictionary of the context once. *)
Lemma upd_contents f ids st : f empty_dict = empty_dict -> NoDup ids ->
  map (fun i => nth i (upd_dicts ids f st) empty_dict) ids = map f (map (fun i => nth i st empty_dict) ids).
Proof.
  intros Hf Hn. rewrite map_map. apply map_ext_in. intros i Hi. pose proof (upd_dicts_nth f ids Hn st i) as E.
  assert (B : existsb (Nat.eqb i) ids = true) by (apply existsb_exists; exists i; split; [exact Hi|apply Nat.eqb_refl]). rewrite B in E.
  destruct (nth_error st i) as [d|] eqn:D; cbn [option_map] in E.
  - rewrite (nth_error_nth _ _ empty_dict E), (nth_error_nth _ _ empty_dict D). reflexivity.
  - apply nth_error_None in E, D. rewrite !nth_overflow by assumption. now symmetry.
Qed.
Lemma filter_mapped (f : dict -> dict) l : (forall d, kept (f d) = kept d) -> filter kept (map f l) = map f (filter kept l).
Proof. intros H. induction l as [|d l IH]; [reflexivity|]. cbn [map filter]. rewrite H. destruct (kept d); cbn [map]; now rewrite IH. Qed.
Definition fits (f : dict -> dict) : Prop :=
  f empty_dict = empty_dict /\ (forall d, kept (f d) = kept d) /\ (forall d d', alike d d' -> alike (f d) (f d')).
Lemma fits_select c : fits (fun d => select_candidate d c).
Proof.
  split; [reflexivity|]. split; [|intros; now apply alike_select]. intros d. unfold kept, select_candidate. destruct (d_kind d) eqn:E; rewrite ?E; reflexivity.
Qed.
Lemma fits_purge k c : fits (fun d => purge_candidate d k c).
Proof.
  split; [reflexivity|]. split; [|intros; now apply alike_purge]. intros d. unfold kept, purge_candidate. destruct (d_kind d) eqn:E; rewrite ?E; reflexivity.
Qed.
Lemma same_for f w w' : fits f -> same_w w w' ->
  same_w (set_store (upd_dicts (x_dicts (w_ctx w)) f (w_store w)) w) (set_store (upd_dicts (x_dicts (w_ctx w')) f (w_store w')) w').
Proof.
  intros (F1 & F2 & F3) ((N & N' & H) & E). split; [|exact E]. cbn [set_store w_ctx]. split; [exact N|split; [exact N'|]].
  unfold contents, ctx_dicts in *. cbn [set_store w_ctx w_store]. rewrite !(upd_contents f) by assumption. rewrite !filter_mapped by exact F2.
  revert H. generalize (filter kept (map (fun i => nth i (w_store w) empty_dict) (x_dicts (w_ctx w)))), (filter kept (map (fun i => nth i (w_store w') empty_dict) (x_dicts (w_ctx w')))).
  intros l l' H. induction H; cbn; constructor; auto.
Qed.

Lemma same_set_stack l w w' : same_w w w' -> same_w (set_stack l w) (set_stack l w').
Proof. intros (Es & E1 & E2 & E3 & E4 & E5 & E6). split; [exact Es|]. unfold ctx_like; cbn; tauto. Qed.
Lemma same_stack w w' : same_w w w' -> x_stack (w_ctx w) = x_stack (w_ctx w'). Proof. intros H. apply H. Qed.
Lemma same_kf w w' : same_w w w' -> x_kf (w_ctx w) = x_kf (w_ctx w'). Proof. intros H. apply H. Qed.
Lemma same_am w w' : same_w w w' -> x_am (w_ctx w) = x_am (w_ctx w'). Proof. intros H. apply H. Qed.
Lemma same_kb w w' : same_w w w' -> x_kb (w_ctx w) = x_kb (w_ctx w'). Proof. intros H. apply H. Qed.
Lemma same_cmd w w' : same_w w w' -> x_cmd (w_ctx w) = x_cmd (w_ctx w'). Proof. intros H. apply H. Qed.
Lemma same_cfg w w' : same_w w w' -> x_cfg (w_ctx w) = x_cfg (w_ctx w'). Proof. intros H. apply H. Qed.
Ltac sw H := rewrite ?(same_stack _ _ H), ?(same_kf _ _ H), ?(same_am _ _ H),
  ?(same_kb _ _ H), ?(same_cmd _ _ H), ?(same_cfg _ _ H), ?(fun k => same_all _ _ k H), ?(fun k => same_completions _ _ k H), ?(fun t ns => same_replace _ _ t ns H).

Lemma sim_ret {A} (a : A) : sim (ret a) (ret a). Proof. intros w w' H. now split. Qed.
Lemma sim_lift {A} (r : res A) : sim (lift r) (lift r). Proof. intros w w' H. unfold lift. destruct r; cbn; auto. Qed.
Lemma sim_bind {A B} (m m' : M A) (f f' : A -> M B) : sim m m' -> (forall a, sim (f a) (f' a)) -> sim (bind m f) (bind m' f').
Proof.
  intros Hm Hf w w' H. specialize (Hm w w' H). unfold bind. destruct (m w) as [[a w1]|e], (m' w') as [[a' w1']|e']; cbn in Hm; try contradiction.
  - destruct Hm as [<- Hw]. now apply Hf.
  - exact Hm.
Qed.
Lemma sim_get {B} (f f' : world -> M B) : (forall w w', same_w w w' -> sim (f w) (f' w')) -> sim (bind get f) (bind get f').
Proof. intros Hf w w' H. unfold bind, get. now apply Hf. Qed.
Lemma sim_cur : sim cur cur.
Proof. intros w w' H. unfold cur. rewrite (same_stack _ _ H). destruct (x_stack (w_ctx w')); cbn; [reflexivity|]. split; [reflexivity|exact H]. Qed.
Lemma sim_modcur f : sim (modcur f) (modcur f).
Proof. intros w w' H. pose proof (same_stack _ _ H) as E. unfold modcur. rewrite E. destruct (x_stack (w_ctx w')); cbn; [reflexivity|]. split; [reflexivity|now apply same_set_stack]. Qed.
Lemma sim_for_dicts f : fits f -> sim (for_dicts f) (for_dicts f).
Proof. intros Hf w w' H. unfold for_dicts. cbn. split; [reflexivity|]. now apply same_for. Qed.

Section Sim.
Variable X : xkb.
Variable dbg : bool.
Hint Resolve sim_ret sim_lift sim_cur sim_modcur : sim.
Ltac go := repeat (cbv zeta; first
  [ solve [auto with sim nocore]
  | match goal with |- sim (bind get _) _ => apply sim_get; let w := fresh "w" in let w' := fresh "w" in let H := fresh "Hw" in intros w w' H; cbv zeta; sw H end
  | match goal with |- sim (bind _ _) _ => apply sim_bind; [|intros ?] end
  | match goal with |- sim (if ?b then _ else _) _ => destruct b end
  | match goal with |- sim (match ?x with _ => _ end) _ => destruct x end ]).
Lemma sim_poll : sim poll_output poll_output.
Proof.
  intros w w' H. pose proof (same_stack _ _ H) as E. unfold poll_output. rewrite E. destruct (rev _) as [|top inner]; cbn; [reflexivity|].
  destruct (is_nil (s_conf top)); cbn; [now split|]. split; [reflexivity|]. now apply same_set_stack.
Qed.
Lemma sim_append t : sim (append_converted t) (append_converted t).
Proof. intros w w' H. unfold append_converted. sw H. now apply sim_modcur. Qed.
Lemma sim_carry u : sim (set_carry_over u) (set_carry_over u). Proof. unfold set_carry_over. go. Qed.
Lemma sim_candidates : sim update_candidate_list update_candidate_list.
Proof. unfold update_candidate_list. go.  Qed.
Lemma sim_completions : sim update_completion_list update_completion_list.
Proof. unfold update_completion_list. go.  Qed.
Hint Resolve sim_poll sim_append sim_carry sim_candidates sim_completions : sim.
Lemma sim_purge_current : sim purge_current purge_current.
Proof. unfold purge_current. go. apply sim_for_dicts, fits_purge. Qed.
Lemma sim_confirm_current : sim confirm_current confirm_current.
Proof. unfold confirm_current. go. apply sim_for_dicts, fits_select. Qed.
Lemma sim_confirm_as i : sim (confirm_as i) (confirm_as i). Proof. unfold confirm_as. go. Qed.
Lemma sim_set_composition c : sim (set_composition_mode c) (set_composition_mode c). Proof. unfold set_composition_mode. go. Qed.
Lemma sim_enter c : sim (enter_register_mode c) (enter_register_mode c).
Proof.
  intros w w' H. pose proof (same_stack _ _ H) as E. unfold enter_register_mode. rewrite E. destruct (Nat.ltb _ _); cbn; [|now split].
  destruct (x_stack (w_ctx w')); cbn; [reflexivity|]. split; [reflexivity|]. now apply same_set_stack.
Qed.
Lemma sim_reset : sim reset_state_stack reset_state_stack.
Proof. intros w w' H. pose proof (same_stack _ _ H) as E. unfold reset_state_stack. rewrite E. destruct (rev _); cbn; [reflexivity|]. split; [reflexivity|]. now apply same_set_stack. Qed.
Lemma sim_abort_register : sim abort_register_mode abort_register_mode.
Proof.
  intros w w' H. pose proof (same_stack _ _ H) as E. unfold abort_register_mode. rewrite E. destruct (x_stack (w_ctx w')) as [|a [|b l]]; cbn; try (split; [reflexivity|exact H]).
  split; [reflexivity|]. now apply same_set_stack.
Qed.
Hint Resolve sim_purge_current sim_confirm_current sim_confirm_as sim_set_composition sim_enter sim_reset sim_abort_register : sim.
Lemma sim_exit t : sim (exit_register_mode t) (exit_register_mode t).
Proof.
  intros w w' H. pose proof (same_stack _ _ H) as E. unfold exit_register_mode. rewrite E. destruct (x_stack (w_ctx w')) as [|a [|b l]]; cbn [tl]; try (split; [reflexivity|exact H]).
  match goal with |- rel (?m _) _ => assert (Hm : sim m m); [|apply Hm, same_set_stack, H] end.
  go. unfold registered_candidates. destruct (negb _ && _).
  - destruct (to_numeric_key _) as [dk ns]. rewrite (same_replace _ _ _ _ Hw). go.
  - go.
Qed.
Lemma sim_set_input i : sim (set_input_mode i) (set_input_mode i). Proof. unfold set_input_mode. go. Qed.
Lemma sim_output i c : sim (output_converted_kana_if_any i c) (output_converted_kana_if_any i c).
Proof. unfold output_converted_kana_if_any. go. Qed.
Lemma sim_capital k c b : sim (transition_by_capital k c b) (transition_by_capital k c b). Proof. unfold transition_by_capital. go. Qed.
Hint Resolve sim_exit sim_set_input sim_output sim_capital : sim.
Lemma sim_next c i : sim (try_next_candidate dbg c i) (try_next_candidate dbg c i). Proof. unfold try_next_candidate. go. Qed.
Lemma sim_next_completion c i : sim (try_next_completion dbg c i) (try_next_completion dbg c i). Proof. unfold try_next_completion. go. Qed.
Hint Resolve sim_next sim_next_completion : sim.
Lemma sim_auto : sim (auto_start_henkan dbg) (auto_start_henkan dbg). Proof. unfold auto_start_henkan. go. Qed.
Hint Resolve sim_auto : sim.
Lemma sim_converted a b c d : sim (input_converted_kana dbg a b c d) (input_converted_kana dbg a b c d). Proof. unfold input_converted_kana. go. Qed.
Lemma sim_continuous k : sim (input_as_continuous_kana k) (input_as_continuous_kana k). Proof. unfold input_as_continuous_kana. go. Qed.
Lemma sim_abort : sim abort abort. Proof. unfold abort, when. go. Qed.
Hint Resolve sim_converted sim_continuous sim_abort : sim.
Lemma sim_instr ins c i : sim (run_instr dbg ins c i) (run_instr dbg ins c i).
Proof. unfold run_instr. destruct ins; go. Qed.
Hint Resolve sim_instr : sim.
Lemma sim_instrs l c i : forall b, sim (run_instrs dbg l c i b) (run_instrs dbg l c i b).
Proof. induction l as [|x l IH]; intros b; cbn [run_instrs]; go. Qed.
Lemma sim_process l c i : sim (process_instructions dbg l c i) (process_instructions dbg l c i). Proof. apply sim_instrs. Qed.
Lemma sim_finish : sim (finish_kana_input dbg) (finish_kana_input dbg). Proof. unfold finish_kana_input. go. Qed.
Hint Resolve sim_process sim_finish : sim.
Lemma sim_periods a b c : sim (input_periods dbg a b c) (input_periods dbg a b c). Proof. unfold input_periods. go. Qed.
Lemma sim_direct a b c d : sim (input_direct_char dbg a b c d) (input_direct_char dbg a b c d). Proof. unfold input_direct_char. go. Qed.
Hint Resolve sim_periods sim_direct : sim.
Lemma sim_unconverted a b c d : sim (input_unconverted dbg a b c d) (input_unconverted dbg a b c d). Proof. unfold input_unconverted. go. Qed.
Hint Resolve sim_unconverted : sim.
Lemma sim_kana k u : sim (input_kana X dbg k u) (input_kana X dbg k u). Proof. unfold input_kana. go. Qed.
Lemma sim_plain k : sim (input_plain X k) (input_plain X k). Proof. unfold input_plain. go. Qed.
Hint Resolve sim_kana sim_plain : sim.
Lemma sim_key k c u : sim (input_key X dbg k c u) (input_key X dbg k c u). Proof. unfold input_key. go. Qed.
Hint Resolve sim_key : sim.
Lemma sim_process_key k : sim (process_key_event X dbg k) (process_key_event X dbg k).
Proof. unfold process_key_event, process_key_event_inner. go. Qed.
Lemma sim_select_at i : sim (select_candidate_at i) (select_candidate_at i). Proof. unfold select_candidate_at. go. Qed.
Lemma sim_confirm_at i : sim (confirm_candidate_at i) (confirm_candidate_at i). Proof. unfold confirm_candidate_at. go. Qed.
Hint Resolve sim_process_key sim_select_at sim_confirm_at : sim.
(** Every call but those that replace the dictionaries. *)
Theorem sim_exec o : (forall st, o <> OOther st) -> (forall l, o <> OSetDictionaries l) -> sim (exec X dbg o) (exec X dbg o).
Proof.
  intros Ho Hd. destruct o; cbn [exec]; try (exfalso; now apply (Ho st)); try (exfalso; now apply (Hd ds)); try solve [go];
    intros w w' (Es & E1 & E2 & E3 & E4 & E5 & E6); cbn; (split; [reflexivity|]); (split; [exact Es|]); unfold ctx_like; cbn; rewrite ?E6; tauto.
Qed.
Theorem sim_run ops : Forall (fun o => (forall st, o <> OOther st) /\ forall l, o <> OSetDictionaries l) ops -> sim (run X dbg ops) (run X dbg ops).
Proof.
  induction 1 as [|o ops [Ho Hd] Hops IH]; cbn [run]; [apply sim_ret|].
  apply sim_bind; [now apply sim_exec|]. intros a. apply sim_bind; [exact IH|]. intros l. apply sim_ret.
Qed.
End Sim.
