(** Dictionaries that differ only in recency, in the marks of their entries and in has_change: the whole
    API behaves the same over them, for ever. *)
From Coq Require Import Permutation Sorting.Sorted.
From Verif Require Import Str Keys Modes KanaBuilder FormChanger DictTypes Parser Lru Dictionary
  CState Context LruPtr T_Lru P_Dict T_Save.

(** An entry without its mark. *)
Definition bare (e : entry) : entry := mkEntry (e_midashi e) false (e_map e).
Definition bare_map (m : lmap entry) : lmap entry := map (fun kv => (fst kv, bare (snd kv))) m.
Definition alike_map (m m' : lmap entry) : Prop :=
  NoDup (map fst m) /\ NoDup (map fst m') /\ Permutation (bare_map m) (bare_map m').
Definition alike_dents (e e' : dents) : Prop := alike_map (d_ari e) (d_ari e') /\ alike_map (d_nashi e) (d_nashi e').
Definition alike (d d' : dict) : Prop :=
  d_completable d = d_completable d' /\
  match d_kind d, d_kind d' with
  | DStatic e, DStatic e' | DUser e _, DUser e' _ => alike_dents e e'
  | DEmpty, DEmpty => True
  | _, _ => False
  end.

Lemma bare_fst m : map fst (bare_map m) = map fst m.
Proof. unfold bare_map. rewrite map_map. reflexivity. Qed.
Lemma bare_peek k m : lpeek k (bare_map m) = option_map bare (lpeek k m).
Proof. unfold lpeek. induction m as [|[k' e] m IH]; cbn; [reflexivity|]. destruct (str_eqb k k'); [reflexivity|exact IH]. Qed.
Lemma bare_remove k m : lremove k (bare_map m) = bare_map (lremove k m).
Proof. unfold lremove, bare_map. induction m as [|[k' e] m IH]; [reflexivity|]. cbn [map filter fst snd]. destruct (negb (str_eqb k k')); cbn [map fst snd]; [f_equal|]; exact IH. Qed.
Lemma bare_insert x m : linsert_sorted (fst x, bare (snd x)) (bare_map m) = bare_map (linsert_sorted x m).
Proof. unfold bare_map. induction m as [|y m IH]; [reflexivity|]. cbn [map linsert_sorted fst snd]. destruct (str_ltb (fst y) (fst x)); cbn [map]; [f_equal; exact IH|reflexivity]. Qed.
Lemma bare_sorted m : liter_sorted (bare_map m) = bare_map (liter_sorted m).
Proof. unfold liter_sorted. induction m as [|x m IH]; cbn [bare_map map fold_right]; [reflexivity|]. fold (bare_map m). rewrite IH. apply bare_insert. Qed.
Lemma perm_peek {V} k (m m' : lmap V) : NoDup (map fst m) -> NoDup (map fst m') -> Permutation m m' -> lpeek k m = lpeek k m'.
Proof.
  intros H H' P. destruct (lpeek k m) as [v|] eqn:E.
  - symmetry. apply in_lpeek; [exact H'|]. apply (Permutation_in _ P). now apply lpeek_in.
  - destruct (lpeek k m') as [v|] eqn:E'; [|reflexivity]. apply lpeek_in in E'. apply (Permutation_in _ (Permutation_sym P)) in E'.
    apply in_lpeek in E'; [congruence|exact H].
Qed.
Lemma perm_remove {V} k (m m' : lmap V) : Permutation m m' -> Permutation (lremove k m) (lremove k m').
Proof.
  unfold lremove. induction 1 as [|[a x] l l' P IH|[a x] [b y] l|l l' l'' P1 IH1 P2 IH2]; cbn.
  - constructor.
  - destruct (negb (str_eqb k a)); [now constructor|exact IH].
  - destruct (negb (str_eqb k a)), (negb (str_eqb k b)); try reflexivity. constructor.
  - now transitivity (filter (fun '(k', _) => negb (str_eqb k k')) l').
Qed.
Lemma alike_peek k m m' : alike_map m m' -> option_map bare (lpeek k m) = option_map bare (lpeek k m').
Proof. intros (H & H' & P). rewrite <- !bare_peek. apply perm_peek; rewrite ?bare_fst; assumption. Qed.
Lemma alike_push k e e' m m' : alike_map m m' -> bare e = bare e' -> alike_map (lpush k e m) (lpush k e' m').
Proof.
  intros (H & H' & P) E. split; [now apply lpush_nodup|]. split; [now apply lpush_nodup|].
  unfold lpush. cbn. rewrite E. constructor. fold (bare_map (lremove k m)) (bare_map (lremove k m')). rewrite <- !bare_remove. now apply perm_remove.
Qed.
Lemma alike_update k f m m' : (forall e e', bare e = bare e' -> bare (f e) = bare (f e')) -> alike_map m m' -> alike_map (lupdate k f m) (lupdate k f m').
Proof.
  intros Hf A. pose proof (alike_peek k _ _ A) as E. unfold lupdate.
  destruct (lpeek k m) as [e|], (lpeek k m') as [e'|]; try discriminate; [|exact A].
  cbn in E. change (alike_map (lpush k (f e) m) (lpush k (f e') m')). apply alike_push; [exact A|]. apply Hf. congruence.
Qed.
Lemma alike_sorted m m' : alike_map m m' -> bare_map (liter_sorted m) = bare_map (liter_sorted m').
Proof.
  intros (H & H' & P). rewrite <- !bare_sorted. apply pairs_unique.
  - apply liter_sorted_sorted. now rewrite bare_fst.
  - apply liter_sorted_sorted. now rewrite bare_fst.
  - now rewrite !liter_sorted_perm.
Qed.
Lemma bare_eq e e' : bare e = bare e' -> e_midashi e = e_midashi e' /\ e_map e = e_map e'.
Proof. unfold bare. intros [= E1 E2]. auto. Qed.
Lemma bare_prioritize c e e' : bare e = bare e' -> bare (prioritize_candidate c e) = bare (prioritize_candidate c e').
Proof. intros H. apply bare_eq in H as [E1 E2]. unfold bare, prioritize_candidate. cbn [e_midashi e_map]. now rewrite E1, E2. Qed.
Lemma bare_removed k c e e' : bare e = bare e' -> bare (remove_matching_candidate k c e) = bare (remove_matching_candidate k c e').
Proof. intros H. apply bare_eq in H as [E1 E2]. unfold bare, remove_matching_candidate. cbn [e_midashi e_map]. now rewrite E1, E2. Qed.
Lemma alike_select_map c m m' : alike_map m m' -> alike_map (select_in_map c m) (select_in_map c m').
Proof.
  intros A. pose proof (alike_peek (c_midashi c) _ _ A) as E. unfold select_in_map.
  destruct (lpeek (c_midashi c) m), (lpeek (c_midashi c) m'); try discriminate.
  - apply alike_update; [apply bare_prioritize|exact A].
  - now apply alike_push.
Qed.
Lemma alike_select c d d' : alike d d' -> alike (select_candidate d c) (select_candidate d' c).
Proof.
  intros [H1 H2]. destruct d as [b [e|e x|]], d' as [b' [e'|e' x'|]]; cbn in *; try contradiction; split; cbn; auto.
  destruct H2 as [Ha Hn]. destruct (c_okuri c); split; cbn; auto using alike_select_map.
Qed.
Lemma alike_purge k c d d' : alike d d' -> alike (purge_candidate d k c) (purge_candidate d' k c).
Proof.
  intros [H1 H2]. destruct d as [b [e|e x|]], d' as [b' [e'|e' x'|]]; cbn in *; try contradiction; split; cbn; auto.
  destruct H2 as [Ha Hn]. unfold purge_in_map. destruct (c_okuri c); split; cbn; auto using alike_update, bare_removed.
Qed.
Lemma alike_ents ari d d' : alike d d' -> alike_map (if ari : bool then d_ari (dict_ents d) else d_nashi (dict_ents d)) (if ari then d_ari (dict_ents d') else d_nashi (dict_ents d')).
Proof.
  intros [_ H]. unfold dict_ents. destruct d as [b [e|e x|]], d' as [b' [e'|e' x'|]]; cbn in *; try contradiction; destruct ari; try apply H;
    (split; [constructor|split; constructor]).
Qed.
Lemma alike_lookup k d d' : alike d d' -> rmap (dict_candidates k) (lookup d k) = rmap (dict_candidates k) (lookup d' k).
Proof.
  intros H. pose proof (alike_ents (has_okuri k) _ _ H) as A. unfold lookup. destruct H as [_ H].
  assert (G : forall key, dict_candidates k (lpeek key (if has_okuri k then d_ari (dict_ents d) else d_nashi (dict_ents d)))
    = dict_candidates k (lpeek key (if has_okuri k then d_ari (dict_ents d') else d_nashi (dict_ents d')))).
  { intros key. pose proof (alike_peek key _ _ A) as E.
    destruct (lpeek key (if has_okuri k then d_ari (dict_ents d) else d_nashi (dict_ents d))) as [e|],
      (lpeek key (if has_okuri k then d_ari (dict_ents d') else d_nashi (dict_ents d'))) as [e'|]; try discriminate; [|reflexivity].
    cbn in E. assert (Eb : bare e = bare e') by congruence. apply bare_eq in Eb as [_ Eb]. unfold dict_candidates, entry_candidates. now rewrite Eb. }
  destruct (d_kind d), (d_kind d'); try contradiction; try reflexivity;
    (destruct (get_dict_key k) as [key|]; cbn [rmap rbind]; [now rewrite G|reflexivity]).
Qed.
Lemma bare_while key m : bare_map (take_while (fun kv => is_prefixb key (fst kv)) (skip_while (fun kv => negb (is_prefixb key (fst kv))) m))
  = take_while (fun kv => is_prefixb key (fst kv)) (skip_while (fun kv => negb (is_prefixb key (fst kv))) (bare_map m)).
Proof. unfold bare_map. rewrite skip_while_map, take_while_map. reflexivity. Qed.
Lemma completions_bare k (l : lmap entry) : flat_map (completions_of k) (map snd l) = flat_map (completions_of k) (map snd (bare_map l)).
Proof. induction l as [|x l IH]; cbn; [reflexivity|]. now rewrite IH. Qed.
Lemma alike_complete k d d' : alike d d' -> rmap (flat_map (completions_of k)) (complete d k) = rmap (flat_map (completions_of k)) (complete d' k).
Proof.
  intros H. pose proof (alike_sorted _ _ (alike_ents (has_okuri k) _ _ H)) as A. unfold complete.
  revert A. generalize (liter_sorted (if has_okuri k then d_ari (dict_ents d) else d_nashi (dict_ents d))),
    (liter_sorted (if has_okuri k then d_ari (dict_ents d') else d_nashi (dict_ents d'))). intros l l' A.
  destruct l as [|x l], l' as [|x' l']; try discriminate; [reflexivity|].
  destruct (get_dict_key k) as [key|]; cbn [rmap rbind]; [|reflexivity]. f_equal.
  rewrite !(completions_bare k (take_while _ _)), !bare_while. now rewrite A.
Qed.
Lemma alike_all ds ds' k : Forall2 alike ds ds' -> get_all_candidates ds k = get_all_candidates ds' k.
Proof.
  intros H. apply all_candidates_ext. intros k'. unfold exact_candidates.
  assert (E : candidates_in_order ds k' = candidates_in_order ds' k'); [|now rewrite E].
  induction H as [|d d' ds ds' Hd Hds IH]; cbn [candidates_in_order]; [reflexivity|].
  pose proof (alike_lookup k' _ _ Hd) as E. rewrite IH.
  destruct (lookup d k'), (lookup d' k'); cbn in *; try discriminate; [injection E as ->|injection E as ->]; reflexivity.
Qed.
Lemma alike_completions ds ds' k : Forall2 alike ds ds' -> get_all_complete ds k = get_all_complete ds' k.
Proof.
  intros H. unfold get_all_complete.
  assert (E : complete_in_order ds k = complete_in_order ds' k); [|now rewrite E].
  induction H as [|d d' ds ds' Hd Hds IH]; cbn [complete_in_order]; [reflexivity|].
  pose proof (alike_complete k _ _ Hd) as E. destruct Hd as [Hc _]. rewrite IH, <- Hc. destruct (d_completable d); [|reflexivity].
  destruct (complete d k), (complete d' k); cbn in *; try discriminate; [|now injection E as ->].
  injection E as E. fold (completions_of k). now rewrite E.
Qed.
Lemma alike_replace ds ds' : Forall2 alike ds ds' -> forall t ns, replace_numeric_string ds t ns = replace_numeric_string ds' t ns.
Proof.
  intros H t ns. unfold replace_numeric_string.
  assert (He : forall k, exact_candidates ds k = exact_candidates ds' k).
  { intros k'. unfold exact_candidates. assert (E : candidates_in_order ds k' = candidates_in_order ds' k'); [|now rewrite E].
    induction H as [|d d' ds ds' Hd Hds IH]; cbn [candidates_in_order]; [reflexivity|].
    pose proof (alike_lookup k' _ _ Hd) as E. rewrite IH.
    destruct (lookup d k'), (lookup d' k'); cbn in *; try discriminate; [injection E as ->|injection E as ->]; reflexivity. }
  assert (Ht : forall x n, template_texts ds x n = template_texts ds' x n) by (intros; unfold template_texts; now rewrite He).
  generalize (templates t) as ts. generalize [t] as cur. intros cur ts. revert ns cur.
  induction ts as [|x ts IH]; intros [|n ns] cur; cbn; try reflexivity.
  destruct cur; [reflexivity|]. rewrite Ht. destruct (template_texts ds' x n); cbn; [apply IH|reflexivity].
Qed.

(** ** Worlds *)
Definition alike_w (w w' : world) : Prop := w_ctx w = w_ctx w' /\ Forall2 alike (w_store w) (w_store w').
Definition rel {A} (a b : res (A * world)) : Prop :=
  match a, b with
  | Ok (x, w), Ok (y, w') => x = y /\ alike_w w w'
  | Panic e, Panic e' => e = e'
  | _, _ => False
  end.
Definition sim {A} (m m' : M A) : Prop := forall w w', alike_w w w' -> rel (m w) (m' w').

Lemma alike_empty : alike empty_dict empty_dict. Proof. split; cbn; auto. Qed.
Lemma alike_nth i : forall st st', Forall2 alike st st' -> alike (nth i st empty_dict) (nth i st' empty_dict).
Proof. induction i as [|i IH]; intros st st' H; destruct H; cbn; auto using alike_empty. Qed.
Lemma alike_ctx_dicts w w' : alike_w w w' -> Forall2 alike (ctx_dicts w) (ctx_dicts w').
Proof.
  intros [E H]. unfold ctx_dicts. rewrite E. induction (x_dicts (w_ctx w')) as [|i l IH]; cbn; constructor; [now apply alike_nth|exact IH].
Qed.
Lemma alike_update_nth (f : dict -> dict) : (forall d d', alike d d' -> alike (f d) (f d')) -> forall i st st', Forall2 alike st st' ->
  Forall2 alike (update_nth i f st) (update_nth i f st').
Proof. intros Hf. induction i as [|i IH]; intros st st' H; destruct H; cbn; constructor; auto. Qed.
Lemma alike_upd (f : dict -> dict) : (forall d d', alike d d' -> alike (f d) (f d')) -> forall ids st st', Forall2 alike st st' ->
  Forall2 alike (upd_dicts ids f st) (upd_dicts ids f st').
Proof. intros Hf. unfold upd_dicts. induction ids as [|i ids IH]; intros st st' H; cbn; [exact H|]. apply IH. now apply alike_update_nth. Qed.

Lemma sim_ret {A} (a : A) : sim (ret a) (ret a). Proof. intros w w' H. now split. Qed.
Lemma sim_lift {A} (r : res A) : sim (lift r) (lift r). Proof. intros w w' H. unfold lift. destruct r; cbn; auto. Qed.
Lemma sim_bind {A B} (m m' : M A) (f f' : A -> M B) : sim m m' -> (forall a, sim (f a) (f' a)) -> sim (bind m f) (bind m' f').
Proof.
  intros Hm Hf w w' H. specialize (Hm w w' H). unfold bind. destruct (m w) as [[a w1]|e], (m' w') as [[a' w1']|e']; cbn in Hm; try contradiction.
  - destruct Hm as [<- Hw]. now apply Hf.
  - exact Hm.
Qed.
Lemma sim_get {B} (f f' : world -> M B) : (forall w w', alike_w w w' -> sim (f w) (f' w')) -> sim (bind get f) (bind get f').
Proof. intros Hf w w' H. unfold bind, get. now apply Hf. Qed.
Lemma sim_stack {A} (g : list cstate -> res (A * list cstate)) :
  sim (fun w => match g (x_stack (w_ctx w)) with Ok (a, l) => Ok (a, set_stack l w) | Panic e => Panic e end)
      (fun w => match g (x_stack (w_ctx w)) with Ok (a, l) => Ok (a, set_stack l w) | Panic e => Panic e end).
Proof. intros w w' [E H]. rewrite E. destruct (g _) as [[a l]|e]; cbn; [|reflexivity]. split; [reflexivity|]. split; cbn; [now rewrite E|exact H]. Qed.
Lemma sim_cur : sim cur cur.
Proof. intros w w' [E H]. unfold cur. rewrite E. destruct (x_stack (w_ctx w')); cbn; [reflexivity|]. split; [reflexivity|now split]. Qed.
Lemma alike_set_stack l w w' : alike_w w w' -> alike_w (set_stack l w) (set_stack l w').
Proof. intros [E H]. split; cbn; [now rewrite E|exact H]. Qed.
Lemma sim_modcur f : sim (modcur f) (modcur f).
Proof. intros w w' H. pose proof H as [E _]. unfold modcur. rewrite E. destruct (x_stack (w_ctx w')); cbn; [reflexivity|]. split; [reflexivity|now apply alike_set_stack]. Qed.
Lemma sim_for_dicts f : (forall d d', alike d d' -> alike (f d) (f d')) -> sim (for_dicts f) (for_dicts f).
Proof. intros Hf w w' [E H]. unfold for_dicts. rewrite E. cbn. split; [reflexivity|]. split; [exact E|]. now apply alike_upd. Qed.

Section Sim.
Variable X : xkb.
Variable dbg : bool.
Hint Resolve sim_ret sim_lift sim_cur sim_modcur : sim.
Ltac dw := match goal with H : alike_w ?w ?w' |- _ =>
  let E := fresh "E" in pose proof (proj1 H) as E;
  try rewrite E in *; clear E end.
Ltac go := repeat (cbv zeta; first
  [ solve [auto with sim nocore]
  | match goal with |- sim (bind get _) _ => apply sim_get; let w := fresh "w" in let w' := fresh "w" in let H := fresh "Hw" in intros w w' H; rewrite ?(proj1 H) end
  | match goal with |- sim (bind _ _) _ => apply sim_bind; [|intros ?] end
  | match goal with |- sim (if ?b then _ else _) _ => destruct b end
  | match goal with |- sim (match ?x with _ => _ end) _ => destruct x end ]).
Lemma sim_poll : sim poll_output poll_output.
Proof.
  intros w w' H. pose proof H as [E _]. unfold poll_output. rewrite E. destruct (rev _) as [|top inner]; cbn; [reflexivity|].
  destruct (is_nil (s_conf top)); cbn; [now split|]. split; [reflexivity|]. now apply alike_set_stack.
Qed.
Lemma sim_append t : sim (append_converted t) (append_converted t).
Proof. intros w w' H. unfold append_converted. rewrite (proj1 H). now apply sim_modcur. Qed.
Lemma sim_carry u : sim (set_carry_over u) (set_carry_over u). Proof. unfold set_carry_over. go. Qed.
Lemma sim_candidates : sim update_candidate_list update_candidate_list.
Proof. unfold update_candidate_list. go. rewrite (alike_all _ _ _ (alike_ctx_dicts _ _ Hw)). go. Qed.
Lemma sim_completions : sim update_completion_list update_completion_list.
Proof. unfold update_completion_list. go. rewrite (alike_completions _ _ _ (alike_ctx_dicts _ _ Hw)). go. Qed.
Hint Resolve sim_poll sim_append sim_carry sim_candidates sim_completions : sim.
Lemma sim_purge_current : sim purge_current purge_current.
Proof. unfold purge_current. go. apply sim_for_dicts. intros. now apply alike_purge. Qed.
Lemma sim_confirm_current : sim confirm_current confirm_current.
Proof. unfold confirm_current. go. apply sim_for_dicts. intros. now apply alike_select. Qed.
Lemma sim_confirm_as i : sim (confirm_as i) (confirm_as i). Proof. unfold confirm_as. go. Qed.
Lemma sim_set_composition c : sim (set_composition_mode c) (set_composition_mode c). Proof. unfold set_composition_mode. go. Qed.
Lemma sim_enter c : sim (enter_register_mode c) (enter_register_mode c).
Proof.
  intros w w' H. pose proof H as [E _]. unfold enter_register_mode. rewrite E. destruct (Nat.ltb _ _); cbn; [|now split].
  destruct (x_stack (w_ctx w')); cbn; [reflexivity|]. split; [reflexivity|]. now apply alike_set_stack.
Qed.
Lemma sim_reset : sim reset_state_stack reset_state_stack.
Proof. intros w w' H. pose proof H as [E _]. unfold reset_state_stack. rewrite E. destruct (rev _); cbn; [reflexivity|]. split; [reflexivity|]. now apply alike_set_stack. Qed.
Lemma sim_abort_register : sim abort_register_mode abort_register_mode.
Proof.
  intros w w' H. pose proof H as [E _]. unfold abort_register_mode. rewrite E. destruct (x_stack (w_ctx w')) as [|a [|b l]]; cbn; try (split; [reflexivity|exact H]).
  split; [reflexivity|]. now apply alike_set_stack.
Qed.
Hint Resolve sim_purge_current sim_confirm_current sim_confirm_as sim_set_composition sim_enter sim_reset sim_abort_register : sim.
Lemma sim_exit t : sim (exit_register_mode t) (exit_register_mode t).
Proof.
  intros w w' H. pose proof H as [E _]. unfold exit_register_mode. rewrite E. destruct (x_stack (w_ctx w')) as [|a [|b l]]; cbn [tl]; try (split; [reflexivity|exact H]).
  match goal with |- rel (?m _) _ => assert (Hm : sim m m); [|apply Hm, alike_set_stack, H] end.
  go. unfold registered_candidates. destruct (negb _ && _).
  - destruct (to_numeric_key _) as [dk ns]. rewrite (alike_replace _ _ (alike_ctx_dicts _ _ Hw)). go.
  - go.
Qed.
Lemma sim_set_input i : sim (set_input_mode i) (set_input_mode i). Proof. unfold set_input_mode. go. Qed.
Lemma sim_output i c : sim (output_converted_kana_if_any i c) (output_converted_kana_if_any i c).
Proof. unfold output_converted_kana_if_any. go. Qed.
Lemma sim_capital k c b : sim (transition_by_capital k c b) (transition_by_capital k c b). Proof. unfold transition_by_capital. go. Qed.
Hint Resolve sim_exit sim_set_input sim_output sim_capital : sim.
Lemma sim_next c i : sim (try_next_candidate dbg c i) (try_next_candidate dbg c i). Proof. unfold try_next_candidate. go. Qed.
Lemma sim_next_completion c i : sim (try_next_completion dbg c i) (try_next_completion dbg c i). Proof. unfold try_next_completion. go. Qed.
Hint Resolve sim_next sim_next_completion : sim.
Lemma sim_auto : sim (auto_start_henkan dbg) (auto_start_henkan dbg). Proof. unfold auto_start_henkan. go. Qed.
Hint Resolve sim_auto : sim.
Lemma sim_converted a b c d : sim (input_converted_kana dbg a b c d) (input_converted_kana dbg a b c d). Proof. unfold input_converted_kana. go. Qed.
Lemma sim_continuous k : sim (input_as_continuous_kana k) (input_as_continuous_kana k). Proof. unfold input_as_continuous_kana. go. Qed.
Lemma sim_abort : sim abort abort. Proof. unfold abort, when. go. Qed.
Hint Resolve sim_converted sim_continuous sim_abort : sim.
Lemma sim_instr ins c i : sim (run_instr dbg ins c i) (run_instr dbg ins c i).
Proof. unfold run_instr. destruct ins; go. Qed.
Hint Resolve sim_instr : sim.
Lemma sim_instrs l c i : forall b, sim (run_instrs dbg l c i b) (run_instrs dbg l c i b).
Proof. induction l as [|x l IH]; intros b; cbn [run_instrs]; go. Qed.
Lemma sim_process l c i : sim (process_instructions dbg l c i) (process_instructions dbg l c i). Proof. apply sim_instrs. Qed.
Lemma sim_finish : sim (finish_kana_input dbg) (finish_kana_input dbg). Proof. unfold finish_kana_input. go. Qed.
Hint Resolve sim_process sim_finish : sim.
Lemma sim_periods a b c : sim (input_periods dbg a b c) (input_periods dbg a b c). Proof. unfold input_periods. go. Qed.
Lemma sim_direct a b c d : sim (input_direct_char dbg a b c d) (input_direct_char dbg a b c d). Proof. unfold input_direct_char. go. Qed.
Hint Resolve sim_periods sim_direct : sim.
Lemma sim_unconverted a b c d : sim (input_unconverted dbg a b c d) (input_unconverted dbg a b c d). Proof. unfold input_unconverted. go. Qed.
Hint Resolve sim_unconverted : sim.
Lemma sim_kana k u : sim (input_kana X dbg k u) (input_kana X dbg k u). Proof. unfold input_kana. go. Qed.
Lemma sim_plain k : sim (input_plain X k) (input_plain X k). Proof. unfold input_plain. go. Qed.
Hint Resolve sim_kana sim_plain : sim.
Lemma sim_key k c u : sim (input_key X dbg k c u) (input_key X dbg k c u). Proof. unfold input_key. go. Qed.
Hint Resolve sim_key : sim.
Lemma sim_process_key k : sim (process_key_event X dbg k) (process_key_event X dbg k).
Proof. unfold process_key_event, process_key_event_inner. go. Qed.
Lemma sim_select_at i : sim (select_candidate_at i) (select_candidate_at i). Proof. unfold select_candidate_at. go. Qed.
Lemma sim_confirm_at i : sim (confirm_candidate_at i) (confirm_candidate_at i). Proof. unfold confirm_candidate_at. go. Qed.
Hint Resolve sim_process_key sim_select_at sim_confirm_at : sim.
Theorem sim_exec o : (forall st, o <> OOther st) -> sim (exec X dbg o) (exec X dbg o).
Proof.
  intros Ho. destruct o; cbn [exec]; try (exfalso; now apply (Ho st)); try solve [go];
    (intros w w' [E H]; cbn; split; [reflexivity|split; cbn; [now rewrite E|exact H]]).
Qed.
End Sim.
