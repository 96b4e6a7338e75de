(** C26: a registered word is offered the next time. *)
From Verif Require Import Str Keys Modes KanaBuilder FormChanger DictTypes Parser Lru
  Dictionary CState Context DefaultRule Demo Spec P_Monad P_Frames P_Inv P_Keeps P_Register P_Step
  P_Cands T_Keys T_Dedup T_Entry T_Predict.
From Verif Require T_Frames.

(* ------------------------------------------------------------ vocabulary *)
(** User dictionary number [j] lists the text, under a headword without okurigana. *)
Definition keeps_word (j : nat) (headword t : str) (st : list dict) : Prop :=
  exists d, nth_error st j = Some d /\ user d /\ In t (texts (listed d false headword [])).
(** The history after the registration: other owners of the dictionary (other contexts, reloads)
    keep the word, and the keys pressed run no purging command. *)
Definition quiet_rule (K : keyev -> Prop) (cr : command_rule) : Prop := forall k, K k -> ~ key_runs cr k IPurge.
Definition quiet_op (K : keyev -> Prop) (j : nat) (headword t : str) (o : op) : Prop :=
  match o with
  | OKey k => K k
  | OSetRule r => quiet_rule K (r_command r)
  | OOther st => keeps_word j headword t st
  | _ => True
  end.
(** A frame is waiting for a word, which has been typed: the key (reading and okurigana) that was
    looked up, the okurigana shown. *)
Definition registering (w : world) (key : ckey) (okuri word : str) : Prop :=
  exists top s rest, frames w = top :: s :: rest /\ s_cmode top <> Register /\ s_conf top = word
    /\ cl_key (s_list s) = key /\ s_okuri s = okuri.
(** The key finishes the registration / starts the conversion. *)
Definition runs (w : world) (k : keyev) (l : list instr) : Prop :=
  has_mod k M_RELEASE = false /\
  exists s, current w = Some s /\ s_cmode s <> Register /\ completes w s k = false
    /\ bound (x_cmd (w_ctx w)) (s_cmode s) (s_imode s) k l.
(** About to convert the reading: nothing pending that would become kana first. *)
Definition about_to_convert (w : world) (reading : str) : Prop :=
  exists s, current w = Some s /\ s_cmode s <> CompositionSelection
    /\ get_composite_key s = mkCK reading None /\ convert_greedy (x_kb (w_ctx w)) (s_pre s) = None.
(** The candidate list is shown and has the text. *)
Definition shows_word (w : world) (t : str) : Prop :=
  exists s c, current w = Some s /\ s_cmode s = CompositionSelection
    /\ In c (cl_list (s_list s)) /\ c_output c = t.

(* ------------------------------------------------------------ proofs *)
Lemma user_select d c : user d -> user (select_candidate d c).
Proof. unfold user, select_candidate. destruct (d_kind d) eqn:E; try rewrite E; cbn; tauto. Qed.
Lemma in_prioritize c l t : In t (texts l) -> In t (texts (prioritize_list c l)).
Proof.
  intros H. destruct (prioritize_front c l) as [(_ & ->)|(x & _ & _ & _ & Hp)]; [now right|].
  unfold texts in *. eapply Permutation.Permutation_in; [|exact H]. now apply Permutation.Permutation_map.
Qed.
Lemma in_select d c ari m o t : user d -> In t (texts (listed d ari m o)) -> In t (texts (listed (select_candidate d c) ari m o)).
Proof. intros Hu H. rewrite listed_select by exact Hu. destruct (_ && concerns _ _); [now apply in_prioritize|exact H]. Qed.
Lemma keeps_select j h t ids st c : keeps_word j h t st -> keeps_word j h t (upd_dicts ids (fun d => select_candidate d c) st).
Proof.
  unfold upd_dicts. revert st. induction ids as [|i ids IH]; intros st H; [exact H|]. cbn. apply IH.
  destruct H as (d & Hd & Hu & Hin). unfold keeps_word. rewrite nth_error_update_nth, Hd.
  destruct (Nat.eqb i j); [|exists d; auto]. exists (select_candidate d c). split; [reflexivity|]. auto using user_select, in_select.
Qed.
Lemma select_lists d c o : user d -> o = [] -> In (c_kouho c) (texts (listed (select_candidate d c) (c_okuri c) (c_midashi c) o)).
Proof.
  intros Hu ->. destruct (C24_confirm d c Hu [] (or_introl eq_refl)) as [H _].
  destruct (texts (listed (select_candidate d c) (c_okuri c) (c_midashi c) [])); [discriminate|]. injection H as ->. now left.
Qed.
Lemma select_keeps j ids st d c : In j ids -> nth_error st j = Some d -> user d -> c_okuri c = false ->
  keeps_word j (c_midashi c) (c_kouho c) (upd_dicts ids (fun d => select_candidate d c) st).
Proof.
  unfold upd_dicts. revert st d. induction ids as [|i ids IH]; intros st d Hj Hd Hu Hc; [destruct Hj|]. cbn.
  destruct (Nat.eq_dec i j) as [->|Hn].
  - apply (keeps_select j (c_midashi c) (c_kouho c) ids). exists (select_candidate d c).
    rewrite nth_error_update_nth, Nat.eqb_refl, Hd. split; [reflexivity|]. split; [now apply user_select|].
    rewrite <- Hc. now apply select_lists.
  - destruct Hj as [Hj|Hj]; [congruence|]. apply (IH _ d Hj); auto. rewrite nth_error_update_nth.
    now destruct (Nat.eqb_spec i j).
Qed.
Lemma in_ctx_dicts w j d : In j (x_dicts (w_ctx w)) -> nth_error (w_store w) j = Some d -> In d (ctx_dicts w).
Proof.
  intros Hj Hd. unfold ctx_dicts. apply in_map_iff. exists j. split; [|exact Hj]. now apply nth_error_nth.
Qed.
Lemma kept_holds w j h t : In j (x_dicts (w_ctx w)) -> keeps_word j h t (w_store w) -> holds (ctx_dicts w) (mkCK h None) t.
Proof.
  intros Hj (d & Hd & Hu & Hin). unfold listed in Hin.
  destruct (lpeek h (section false d)) as [e|] eqn:E; [|destruct Hin].
  exists d, e. split; [eapply in_ctx_dicts; eauto|]. split.
  - rewrite lookup_section; [|intros Ek; unfold user in Hu; rewrite Ek in Hu; exact Hu]. cbn. now rewrite <- E.
  - right. destruct (bget [] (e_map e)) as [l|] eqn:El; [|destruct Hin]. eauto.
Qed.
Lemma get_all_exact ds k cs : get_all_candidates ds k = Ok cs -> exists ex more, exact_candidates ds k = Ok ex /\ cs = ex ++ more.
Proof.
  intros H. destruct (exact_candidates ds k) as [ex|] eqn:E.
  - destruct (C21_offered ds k ex E) as (_ & _ & (more & Hm) & _). exists ex, (more cs). split; [reflexivity|]. now apply Hm.
  - unfold get_all_candidates in H. rewrite E in H. discriminate.
Qed.
Lemma exact_word ds k ex t : exact_candidates ds k = Ok ex -> holds ds k t -> exists c, In c ex /\ c_kouho c = t /\ c_output c = t.
Proof.
  intros E H. destruct (C21_offered ds k ex E) as (_ & Hin & _ & Hf). apply Hin in H. apply in_map_iff in H as (c & Hk & Hc).
  exists c. split; [exact Hc|]. split; [exact Hk|]. rewrite Forall_forall in Hf. now rewrite (Hf c Hc).
Qed.
Lemma offers_kept w j h t cs : In j (x_dicts (w_ctx w)) -> keeps_word j h t (w_store w) ->
  get_all_candidates (ctx_dicts w) (mkCK h None) = Ok cs -> exists c, In c cs /\ c_output c = t.
Proof.
  intros Hj Hk Hcs. destruct (get_all_exact _ _ _ Hcs) as (ex & more & Hex & ->).
  destruct (exact_word _ _ _ t Hex (kept_holds w j h t Hj Hk)) as (c & Hc & _ & Ho). exists c. split; [apply in_or_app; auto|exact Ho].
Qed.
Lemma res_map_in {A B} (f : A -> res B) l : forall r x, res_map f l = Ok r -> In x l -> exists y, f x = Ok y /\ In y r.
Proof.
  induction l as [|a l IH]; intros r x; cbn; [tauto|]. destruct (f a) as [y|] eqn:E; cbn; [|discriminate].
  destruct (res_map f l) as [ys|]; cbn; [|discriminate]. intros [= <-] [<-|H]; [exists y; split; [exact E|now left]|].
  destruct (IH ys x eq_refl H) as (z & Hz & Hin). exists z. split; [exact Hz|now right].
Qed.
Lemma offers_number w j reading h ns t os cs o : In j (x_dicts (w_ctx w)) -> keeps_word j h t (w_store w) ->
  to_numeric_key (mkCK reading None) = (mkCK h None, ns) -> h <> reading ->
  replace_numeric_string (ctx_dicts w) t ns = Ok os -> In o os ->
  get_all_candidates (ctx_dicts w) (mkCK reading None) = Ok cs -> exists c, In c cs /\ c_output c = o.
Proof.
  intros Hj Hk Hn Hne Hos Ho. unfold get_all_candidates. rewrite Hn.
  destruct (exact_candidates (ctx_dicts w) (mkCK reading None)) as [ex|]; cbn [rbind]; [|discriminate].
  destruct (ckey_eqb (mkCK h None) (mkCK reading None)) eqn:Ek.
  { exfalso. apply Hne. unfold ckey_eqb in Ek. cbn in Ek. apply andb_prop in Ek as [Ek _]. now apply str_eqb_eq in Ek. }
  destruct (exact_candidates (ctx_dicts w) (mkCK h None)) as [ex2|] eqn:E2; cbn [rbind]; [|discriminate].
  destruct (exact_word _ _ _ t E2 (kept_holds w j h t Hj Hk)) as (c & Hc & Hkc & _).
  destruct (res_map (replace_numeric_match (ctx_dicts w) ns) ex2) as [ll|] eqn:El; cbn [rmap]; [|discriminate]. intros [= <-].
  destruct (res_map_in _ _ _ c El Hc) as (y & Hy & Hin). unfold replace_numeric_match in Hy. rewrite Hkc, Hos in Hy. cbn in Hy. injection Hy as <-.
  exists (with_output c o). split; [|reflexivity]. apply in_or_app. right. apply in_concat. eexists. split; [exact Hin|]. now apply in_map.
Qed.
(** the key that finishes the registration *)
Lemma finish_registration X dbg k l w key okuri word b w1 :
  registering w key okuri word -> word <> [] -> runs w k (IConfirmDirect :: l) ->
  process_key_event X dbg k w = Ok (b, w1) ->
  b = true /\ x_cmd (w_ctx w1) = x_cmd (w_ctx w)
  /\ x_dicts (w_ctx w1) = x_dicts (w_ctx w)
  /\ exists s' r cs, registered_candidates (ctx_dicts w) s' word = Ok cs
       /\ cl_key (s_list s') = key /\ s_okuri s' = okuri
       /\ match cs with
          | [] => True
          | c :: _ => w_store w1 = upd_dicts (x_dicts (w_ctx w)) (fun d => select_candidate d c) (w_store w)
          end /\ r = tt.
Proof.
  intros (top & s & rest & Hf & Hm & Hc & Hk & Ho) Hw (Hr & s0 & Hs & Hm0 & Hcp & Hb). unfold frames in Hf.
  assert (s0 = top) as -> by (unfold current in Hs; rewrite Hf in Hs; now injection Hs).
  unfold process_key_event. rewrite Hr. unfold process_key_event_inner, bind at 1, cur at 1. rewrite Hf. unfold bind at 1, get at 1. cbn zeta.
  unfold completes in Hcp. rewrite Hcp. rewrite (instruction_bound dbg _ _ _ _ _ Hm0 Hb). unfold bind at 1, lift at 1.
  unfold process_instructions. cbn [is_nil negb run_instrs run_instr]. unfold bind at 1. unfold bind at 1. unfold get at 1.
  rewrite Hf. cbn [length]. change (Nat.ltb 1 (S (S (length rest)))) with true. cbn iota.
  unfold bind at 1, cur at 1. rewrite Hf. cbn iota. rewrite Hc.
  unfold exit_register_mode. unfold bind at 1. rewrite Hf. cbn [tl].
  assert (En : is_nil word = false) by now destruct word. rewrite En.
  unfold bind at 1. unfold modcur at 1. cbn [x_stack w_ctx set_stack]. unfold bind at 1, cur at 1. cbn [x_stack w_ctx set_stack].
  unfold bind at 1, get at 1. unfold bind at 1, lift at 1.
  match goal with |- context [registered_candidates ?ds ?u word] => change ds with (ctx_dicts w); set (s' := u) end.
  destruct (registered_candidates (ctx_dicts w) s' word) as [cs|] eqn:Ecs; [|discriminate].
  unfold bind at 1. unfold modcur at 1. cbn [x_stack w_ctx set_stack].
  unfold confirm_current. unfold bind at 1, cur at 1. cbn [x_stack w_ctx set_stack]. unfold bind at 1, get at 1.
  destruct cs as [|c cs].
  - match goal with |- context [cl_current ?z] => destruct (cl_current z) end;
      [unfold bind at 1, for_dicts at 1; cbn [x_stack w_ctx set_store]; unfold modcur; cbn [x_stack w_ctx set_stack set_store]|];
      intros [= <- <-]; (split; [reflexivity|]); (split; [reflexivity|]); (split; [reflexivity|]); exists s', tt, []; rewrite Ecs; auto.
  - assert (Ec : cl_current (s_list (add_new_candidates (c :: cs) s')) = Some c).
    { unfold cl_current, add_new_candidates, cl_add. cbn [s_list set_cokuri set_list cl_list cl_cur].
      rewrite app_length. replace (N.to_nat _) with (length (cl_list (s_list s')) + 0) by lia. rewrite nth_error_app2, Nat.add_0_r, Nat.sub_diag by lia. reflexivity. }
    rewrite Ec. unfold bind at 1, for_dicts at 1. unfold modcur. cbn [x_stack w_ctx set_stack set_store].
    intros [= <- <-]. split; [reflexivity|]. split; [reflexivity|]. split; [reflexivity|]. exists s', tt, (c :: cs). rewrite Ecs. auto 10.
Qed.
(** the key that starts the conversion *)
Lemma start_conversion X dbg k w reading b w1 : runs w k [ITryNextCandidate] -> about_to_convert w reading ->
  process_key_event X dbg k w = Ok (b, w1) ->
  exists cs, get_all_candidates (ctx_dicts w) (mkCK reading None) = Ok cs
    /\ (cs <> [] -> b = true /\ exists s, current w1 = Some s /\ s_cmode s = CompositionSelection /\ cl_list (s_list s) = cs).
Proof.
  intros (Hr & s0 & Hs & Hm0 & Hcp & Hb) (s & Hs' & Hm & Hk & Hg). rewrite Hs in Hs'. injection Hs' as ->.
  assert (Hf : exists r, x_stack (w_ctx w) = s :: r).
  { unfold current in Hs. destruct (x_stack (w_ctx w)) as [|z r]; [discriminate|]. injection Hs as ->. eauto. }
  destruct Hf as [r Hf].
  unfold process_key_event. rewrite Hr. unfold process_key_event_inner, bind at 1, cur at 1. rewrite Hf. unfold bind at 1, get at 1. cbn zeta.
  unfold completes in Hcp. rewrite Hcp. rewrite (instruction_bound dbg _ _ _ _ _ Hm0 Hb). unfold bind at 1, lift at 1.
  unfold process_instructions. cbn [is_nil negb run_instrs run_instr].
  assert (Ec : cmode_eqb (s_cmode s) CompositionSelection = false) by (destruct (cmode_eqb (s_cmode s) CompositionSelection) eqn:E; [apply cmode_eqb_eq in E; congruence|reflexivity]).
  unfold try_next_candidate. rewrite Ec. cbn [negb].
  unfold bind at 1. unfold bind at 1. unfold bind at 1.
  assert (Eo : output_converted_kana_if_any (s_imode s) (s_cmode s) w = Ok (false, w)).
  { unfold output_converted_kana_if_any, bind, cur, get. rewrite Hf. cbn iota. rewrite Hg. reflexivity. }
  rewrite Eo. unfold bind at 1. unfold update_candidate_list. unfold bind at 1, cur at 1. rewrite Hf. unfold bind at 1, get at 1. unfold bind at 1, lift at 1.
  rewrite Hk. destruct (get_all_candidates (ctx_dicts w) (mkCK reading None)) as [cs|]; [|discriminate]. intros H. exists cs. split; [reflexivity|]. intros Hcs.
  revert H. unfold modcur at 1. rewrite Hf. cbn iota. unfold bind at 1, cur at 1. cbn [x_stack w_ctx set_stack].
  assert (El : cl_is_empty (s_list (set_new_candidate_list cs s)) = false) by (unfold cl_is_empty; cbn; now destruct cs).
  rewrite El. rewrite andb_false_r. cbn [negb]. unfold set_composition_mode, modcur. cbn [x_stack w_ctx set_stack].
  intros [= <- <-]. split; [reflexivity|]. eexists. split; [reflexivity|]. split; reflexivity.
Qed.
Lemma quiet_run X dbg K j h t ops w outs w' : quiet_rule K (x_cmd (w_ctx w)) -> Forall (quiet_op K j h t) ops ->
  keeps_word j h t (w_store w) -> run X dbg ops w = Ok (outs, w') -> keeps_word j h t (w_store w').
Proof.
  intros Hq Ho Hk Hr.
  assert (H : IC (keeps_word j h t) (fun _ => True) false K w').
  { eapply (run_IC (keeps_word j h t) (fun _ => True) false K) with (ops := ops) (w := w); [..|exact Hr].
    - intros ids st c H _. now apply keeps_select.
    - discriminate.
    - intros. now apply Forall_forall.
    - intros. now apply Forall_forall.
    - intros. now apply Forall_forall.
    - eapply Forall_impl; [|exact Ho]. intros [] H; cbn in *; auto. right. exact H.
    - split; [exact Hk|]. split; [|right; exact Hq]. apply Forall_forall. intros s _. now apply Forall_forall. }
  apply H.
Qed.

(** a registration without okurigana and without number templates *)
Lemma plain_registered ds s word : s_okuri s = [] ->
  numeric_entry_count word = 0 \/ numeric_entry_count word <> numeric_string_count (ck_to (cl_key (s_list s))) ->
  registered_candidates ds s word = Ok [mkCand (ck_to (cl_key (s_list s))) (ck_okuri (cl_key (s_list s))) false word None word].
Proof.
  intros Ho Hn. unfold registered_candidates. rewrite Ho. cbn [is_nil negb].
  assert (negb (Nat.eqb (numeric_entry_count word) 0) && Nat.eqb (numeric_entry_count word) (numeric_string_count (ck_to (cl_key (s_list s)))) = false) as ->; [|reflexivity].
  destruct Hn as [-> | Hn]; [reflexivity|]. apply Nat.eqb_neq in Hn. rewrite Hn. apply andb_false_r.
Qed.
Lemma store_lookup ids f st k : (forall d, lookup (f d) k = lookup d k) -> lookup (f empty_dict) k = lookup empty_dict k ->
  forall i, lookup (nth i (upd_dicts ids f st) empty_dict) k = lookup (nth i st empty_dict) k.
Proof.
  intros Hf He. unfold upd_dicts. revert st. induction ids as [|a ids IH]; intros st i; [reflexivity|]. cbn. rewrite IH.
  clear IH. revert a i. induction st as [|d st IH]; intros [|a] [|i]; cbn; auto.
Qed.
Lemma exact_ext (ds ds' : list dict) k : Forall2 (fun d d' => lookup d k = lookup d' k) ds ds' -> exact_candidates ds k = exact_candidates ds' k.
Proof.
  intros H. unfold exact_candidates. assert (candidates_in_order ds k = candidates_in_order ds' k) as ->; [|reflexivity].
  induction H as [|d d' ds ds' Hd _ IH]; [reflexivity|]. cbn [candidates_in_order]. now rewrite Hd, IH.
Qed.

(* ------------------------------------------------------------ theorems *)
(** Readings without okurigana.  After the registration of [word] and any later history that does
    not purge, converting the same reading offers the word. *)
Theorem C26_partial : forall X dbg K j d k l w reading word b w1 ops outs w2 k2 b2 w3,
  registering w (mkCK reading None) [] word -> word <> [] ->
  (numeric_entry_count word = 0 \/ numeric_entry_count word <> numeric_string_count reading) ->
  dict_at j w = Some d -> user d -> In j (x_dicts (w_ctx w)) ->
  runs w k (IConfirmDirect :: l) -> process_key_event X dbg k w = Ok (b, w1) ->
  quiet_rule K (x_cmd (w_ctx w)) -> Forall (quiet_op K j reading word) ops ->
  run X dbg ops w1 = Ok (outs, w2) -> In j (x_dicts (w_ctx w2)) ->
  about_to_convert w2 reading -> runs w2 k2 [ITryNextCandidate] ->
  process_key_event X dbg k2 w2 = Ok (b2, w3) ->
  b2 = true /\ shows_word w3 word.
Proof.
  intros X dbg K j d k l w reading word b w1 ops outs w2 k2 b2 w3 Hreg Hw Hn Hd Hu Hj Hk Hp Hq Hops Hrun Hj2 Hc Hk2 Hp2.
  destruct (finish_registration X dbg k l w _ _ word b w1 Hreg Hw Hk Hp) as (_ & Hcmd & _ & s' & r & cs & Hcs & Hkey & Hok & Hst & _).
  rewrite (plain_registered _ s' word Hok) in Hcs by (rewrite Hkey; exact Hn). injection Hcs as <-. rewrite Hkey in Hst. cbn [ck_to ck_okuri] in Hst.
  assert (Hkeep : keeps_word j reading word (w_store w1)).
  { rewrite Hst. exact (select_keeps j _ _ d (mkCand reading None false word None word) Hj Hd Hu eq_refl). }
  assert (Hkeep2 : keeps_word j reading word (w_store w2)) by (rewrite <- Hcmd in Hq; eapply quiet_run; eauto).
  destruct (start_conversion X dbg k2 w2 reading b2 w3 Hk2 Hc Hp2) as (cs & Hcs & Hshow).
  destruct (offers_kept w2 j reading word cs Hj2 Hkeep2 Hcs) as (c & Hin & Ho).
  destruct Hshow as (Hb & s & Hs & Hm & Hl); [intros ->; destruct Hin|]. split; [exact Hb|]. exists s, c. rewrite Hl. auto.
Qed.
(** Number templates: a word with as many templates as the reading has numbers is registered for
    every reading of that shape, and offered with the new numbers filled in. *)
Theorem C26_number_partial : forall X dbg K j d k l w reading headword ns word b w1 ops outs w2 reading2 ns2 os k2 b2 w3,
  registering w (mkCK reading None) [] word -> word <> [] ->
  numeric_entry_count word <> 0 -> numeric_entry_count word = numeric_string_count reading ->
  to_numeric_key (mkCK reading None) = (mkCK headword None, ns) ->
  replace_numeric_string (ctx_dicts w) word ns <> Ok [] ->
  dict_at j w = Some d -> user d -> In j (x_dicts (w_ctx w)) ->
  runs w k (IConfirmDirect :: l) -> process_key_event X dbg k w = Ok (b, w1) ->
  quiet_rule K (x_cmd (w_ctx w)) -> Forall (quiet_op K j headword word) ops ->
  run X dbg ops w1 = Ok (outs, w2) -> In j (x_dicts (w_ctx w2)) ->
  to_numeric_key (mkCK reading2 None) = (mkCK headword None, ns2) -> headword <> reading2 ->
  replace_numeric_string (ctx_dicts w2) word ns2 = Ok os ->
  about_to_convert w2 reading2 -> runs w2 k2 [ITryNextCandidate] ->
  process_key_event X dbg k2 w2 = Ok (b2, w3) ->
  forall o, In o os -> b2 = true /\ shows_word w3 o.
Proof.
  intros X dbg K j d k l w reading headword ns word b w1 ops outs w2 reading2 ns2 os k2 b2 w3
    Hreg Hw Hn0 Hn Hnum Hne Hd Hu Hj Hk Hp Hq Hops Hrun Hj2 Hnum2 Hne2 Hos Hc Hk2 Hp2 o Ho.
  destruct (finish_registration X dbg k l w _ _ word b w1 Hreg Hw Hk Hp) as (_ & Hcmd & _ & s' & r & cs & Hcs & Hkey & Hok & Hst & _).
  unfold registered_candidates in Hcs. rewrite Hkey, Hok, Hn, Nat.eqb_refl, Hnum in Hcs. cbn [ck_to is_nil negb] in Hcs. rewrite <- Hn in Hcs.
  apply Nat.eqb_neq in Hn0. rewrite Hn0 in Hcs. cbn [negb andb] in Hcs.
  destruct (replace_numeric_string (ctx_dicts w) word ns) as [[|o0 os0]|]; cbn [rmap map] in Hcs; [congruence| |discriminate].
  injection Hcs as <-. cbn [ck_to ck_okuri] in Hst.
  assert (Hkeep : keeps_word j headword word (w_store w1)).
  { rewrite Hst. exact (select_keeps j _ _ d (mkCand headword None false word None o0) Hj Hd Hu eq_refl). }
  assert (Hkeep2 : keeps_word j headword word (w_store w2)) by (rewrite <- Hcmd in Hq; eapply quiet_run; eauto).
  destruct (start_conversion X dbg k2 w2 reading2 b2 w3 Hk2 Hc Hp2) as (cs & Hcs & Hshow).
  destruct (offers_number w2 j reading2 headword ns2 word os cs o Hj2 Hkeep2 Hnum2 Hne2 Hos Ho Hcs) as (c & Hin & Hco).
  destruct Hshow as (Hb & s & Hs & Hm & Hl); [intros ->; destruct Hin|]. split; [exact Hb|]. exists s, c. rewrite Hl. auto.
Qed.
(** Readings with okurigana: registering changes nothing at all in what the same reading and
    okurigana are offered, because the word is stored under the headword without its letter. *)
Theorem C26_okuri_lost : forall X dbg k l w reading ch okuri p word b w1,
  registering w (mkCK reading (Some (ch :: okuri))) (ch :: okuri) word -> word <> [] ->
  kana_to_okuri_prefix ch = Some p ->
  (numeric_entry_count word = 0 \/ numeric_entry_count word <> numeric_string_count reading) ->
  runs w k (IConfirmDirect :: l) -> process_key_event X dbg k w = Ok (b, w1) ->
  exact_candidates (ctx_dicts w1) (mkCK reading (Some (ch :: okuri)))
  = exact_candidates (ctx_dicts w) (mkCK reading (Some (ch :: okuri))).
Proof.
  intros X dbg k l w reading ch okuri p word b w1 Hreg Hw Hpre Hn Hk Hp.
  destruct (finish_registration X dbg k l w _ _ word b w1 Hreg Hw Hk Hp) as (_ & _ & Hids & s' & r & cs & Hcs & Hkey & Hok & Hst & _).
  unfold registered_candidates in Hcs. rewrite Hkey, Hok in Hcs. cbn [is_nil negb ck_to ck_okuri] in Hcs.
  assert (E : negb (Nat.eqb (numeric_entry_count word) 0) && Nat.eqb (numeric_entry_count word) (numeric_string_count reading) = false).
  { destruct Hn as [-> | Hn]; [reflexivity|]. apply Nat.eqb_neq in Hn. rewrite Hn. apply andb_false_r. }
  rewrite E in Hcs. injection Hcs as <-.
  apply exact_ext. unfold ctx_dicts. rewrite Hids, Hst. generalize (x_dicts (w_ctx w)) at 2 3. intros ids.
  assert (G : forall d, lookup (select_candidate d (mkCand reading (Some (ch :: okuri)) true word None word)) (mkCK reading (Some (ch :: okuri)))
                    = lookup d (mkCK reading (Some (ch :: okuri)))).
  { intros d. apply (proj1 (proj2 (C29_confirm d _))). right. unfold get_dict_key. cbn [ck_okuri ck_to c_midashi]. rewrite Hpre. intros [= H].
    apply (f_equal (@length _)) in H. rewrite app_length in H. cbn in H. lia. }
  induction ids as [|i ids IH]; [constructor|]. cbn [map]. constructor; [|exact IH]. apply store_lookup; auto.
Qed.
(** The default rule purges with X only. *)
Lemma default_quiet : quiet_rule (fun k => ksym k <> 88%N) (r_command default_rule).
Proof.
  assert (D : forallb (fun c => forallb (fun i => forallb (fun e => negb (existsb (fun x => match x with IPurge => true | _ => false end) (snd e)) || N.eqb (ksym (fst e)) 88)
     (r_command default_rule c i)) [Hiragana; Katakana; HankakuKatakana; Zenkaku; Ascii])
     [Direct; PreComposition; PreCompositionOkurigana; CompositionSelection; Abbreviation; Register; Completion] = true) by (vm_compute; reflexivity).
  revert D. generalize (r_command default_rule). intros cr D k Hk (c & i & k' & l & Hin & He & Hx).
  rewrite forallb_forall in D. assert (Hc : In c [Direct; PreComposition; PreCompositionOkurigana; CompositionSelection; Abbreviation; Register; Completion]) by (destruct c; cbn; tauto).
  specialize (D c Hc). rewrite forallb_forall in D. assert (Hi : In i [Hiragana; Katakana; HankakuKatakana; Zenkaku; Ascii]) by (destruct i; cbn; tauto).
  specialize (D i Hi). rewrite forallb_forall in D. specialize (D (k', l) Hin). cbn [fst snd] in D.
  apply orb_true_iff in D as [D|D].
  - apply negb_true_iff in D. rewrite <- not_true_iff_false in D. apply D. apply existsb_exists. exists IPurge. auto.
  - apply key_eqb_eq in He. apply N.eqb_eq in D. rewrite <- He in D. apply Hk. rewrite <- D. unfold command_key. destruct (is_upper k); reflexivity.
Qed.
Definition runs_b (w : world) (k : keyev) : option (list instr) :=
  match current w with
  | Some s => if has_mod k M_RELEASE || cmode_eqb (s_cmode s) Register || completes w s k then None
              else assoc_key (command_key k) (x_cmd (w_ctx w) (s_cmode s) (s_imode s))
  | None => None
  end.
Lemma runs_b_spec w k l : runs_b w k = Some l -> runs w k l.
Proof.
  unfold runs_b, runs. destruct (current w) as [s|]; [|discriminate].
  destruct (has_mod k M_RELEASE); [discriminate|]. destruct (cmode_eqb (s_cmode s) Register) eqn:E; [discriminate|].
  destruct (completes w s k) eqn:Ec; [discriminate|]. cbn. intros H. split; [reflexivity|]. exists s. split; [reflexivity|].
  split; [intros Hr; rewrite Hr in E; discriminate|]. split; [exact Ec|exact H].
Qed.
Definition registering_b (w : world) (key : ckey) (okuri word : str) : bool :=
  match frames w with
  | top :: s :: _ => negb (cmode_eqb (s_cmode top) Register) && str_eqb (s_conf top) word && ckey_eqb (cl_key (s_list s)) key && str_eqb (s_okuri s) okuri
  | _ => false
  end.
Lemma ckey_eqb_eq a b : ckey_eqb a b = true -> a = b.
Proof.
  unfold ckey_eqb. destruct a as [a oa], b as [b ob]. cbn [ck_to ck_okuri]. intros H. apply andb_prop in H as [H1 H2].
  apply str_eqb_eq in H1 as ->. f_equal. destruct oa as [oa|], ob as [ob|]; cbn in H2; try discriminate; [|reflexivity].
  apply str_eqb_eq in H2 as ->. reflexivity.
Qed.
Lemma registering_b_spec w key okuri word : registering_b w key okuri word = true -> registering w key okuri word.
Proof.
  unfold registering_b, registering. destruct (frames w) as [|top [|s rest]]; try discriminate. intros H.
  apply andb_prop in H as [H H4]. apply andb_prop in H as [H H3]. apply andb_prop in H as [H1 H2].
  exists top, s, rest. split; [reflexivity|]. split; [intros Hr; rewrite Hr in H1; discriminate|].
  apply str_eqb_eq in H2, H4. apply ckey_eqb_eq in H3. auto.
Qed.
Definition converting_b (w : world) (reading : str) : bool :=
  match current w with
  | Some s => negb (cmode_eqb (s_cmode s) CompositionSelection) && ckey_eqb (get_composite_key s) (mkCK reading None)
              && match convert_greedy (x_kb (w_ctx w)) (s_pre s) with None => true | _ => false end
  | None => false
  end.
Lemma converting_b_spec w reading : converting_b w reading = true -> about_to_convert w reading.
Proof.
  unfold converting_b, about_to_convert. destruct (current w) as [s|]; [|discriminate]. intros H.
  apply andb_prop in H as [H H3]. apply andb_prop in H as [H1 H2]. exists s. split; [reflexivity|].
  split; [intros Hr; rewrite Hr in H1; discriminate|]. apply ckey_eqb_eq in H2. split; [exact H2|].
  destruct (convert_greedy (x_kb (w_ctx w)) (s_pre s)); [discriminate|reflexivity].
Qed.
(** Met by typing: the unknown reading かき, the word か, and かき again. *)
Example C26_case : exists o1 w o2 w1 b o3 w2 s2,
  typed false (U "K a k i space k a") (demo [user_dict dic_small]) = Ok (o1, w)
  /\ registering w (mkCK (U "かき") None) [] (U "か")
  /\ runs w (mkKey 65293 M_NONE) [IConfirmDirect]
  /\ process_key_event ascii_xkb false (mkKey 65293 M_NONE) w = Ok (b, w1)
  /\ typed false (U "K a k i") w1 = Ok (o2, w2) /\ current w2 = Some s2
  /\ about_to_convert w2 (U "かき") /\ runs w2 (mkKey 32 M_NONE) [ITryNextCandidate]
  /\ o3 = match process_key_event ascii_xkb false (mkKey 32 M_NONE) w2 with
          | Ok (_, w3) => option_map (fun s => map c_output (cl_list (s_list s))) (current w3) | _ => None end
  /\ o3 = Some [U "か"].
Proof.
  destruct (run_case (typed false (U "K a k i space k a") (demo [user_dict dic_small]))
    (fun w => (registering_b w (mkCK (U "かき") None) [] (U "か"), runs_b w (mkKey 65293 M_NONE),
       match process_key_event ascii_xkb false (mkKey 65293 M_NONE) w with
       | Ok (b, w1) => match typed false (U "K a k i") w1 with
            | Ok (_, w2) => Some (match current w2 with Some _ => true | None => false end, converting_b w2 (U "かき"), runs_b w2 (mkKey 32 M_NONE),
                 match process_key_event ascii_xkb false (mkKey 32 M_NONE) w2 with
                 | Ok (_, w3) => option_map (fun s => map c_output (cl_list (s_list s))) (current w3) | _ => None end)
            | Panic _ => None end
       | Panic _ => None end))
    (true, Some [IConfirmDirect], Some (true, true, Some [ITryNextCandidate], Some [U "か"]))) as (o1 & w & E & F); [vm_compute; reflexivity|].
  injection F as F1 F2 F3.
  destruct (process_key_event ascii_xkb false (mkKey 65293 M_NONE) w) as [[b w1]|] eqn:E1; [|discriminate].
  destruct (typed false (U "K a k i") w1) as [[o2 w2]|] eqn:E2; [|discriminate].
  injection F3 as F3 F4 F5 F6. destruct (current w2) as [s2|] eqn:Ec; [|discriminate].
  exists o1, w, o2, w1, b. eexists. exists w2, s2.
  split; [exact E|]. split; [now apply registering_b_spec|]. split; [now apply runs_b_spec|]. split; [exact E1|]. split; [exact E2|].
  split; [exact Ec|]. split; [now apply converting_b_spec|]. split; [now apply runs_b_spec|]. split; [reflexivity|exact F6].
Qed.
(** The full claim is false: とく with okurigana く, registered as かく and confirmed, is not offered the
    next time; the user is asked to register it again. *)
Theorem C26_refuted : exists o1 w b w1 o2 w2 s1,
  typed false (U "T o K u k a") (demo [user_dict dic_small]) = Ok (o1, w)
  /\ registering w (mkCK (U "と") (Some (U "く"))) (U "く") (U "か")
  /\ process_key_event ascii_xkb false (mkKey 65293 M_NONE) w = Ok (b, w1)
  /\ frames w1 = [s1] /\ s_conf s1 = U "かく"
  /\ typed false (U "T o K u") w1 = Ok (o2, w2)
  /\ length (frames w2) = 2 /\ option_map s_cmode (outermost w2) = Some Register.
Proof.
  destruct (run_case (typed false (U "T o K u k a") (demo [user_dict dic_small]))
    (fun w => (registering_b w (mkCK (U "と") (Some (U "く"))) (U "く") (U "か"),
       match process_key_event ascii_xkb false (mkKey 65293 M_NONE) w with
       | Ok (b, w1) => Some (map s_conf (frames w1), match typed false (U "T o K u") w1 with
            | Ok (_, w2) => Some (length (frames w2), option_map s_cmode (outermost w2))
            | Panic _ => None end)
       | Panic _ => None end))
    (true, Some ([U "かく"], Some (2, Some Register)))) as (o1 & w & E & F); [vm_compute; reflexivity|].
  injection F as F1 F2.
  destruct (process_key_event ascii_xkb false (mkKey 65293 M_NONE) w) as [[b w1]|] eqn:E1; [|discriminate].
  destruct (typed false (U "T o K u") w1) as [[o2 w2]|] eqn:E2; [|discriminate]. injection F2 as F2 F3 F4.
  revert F2. generalize (U "かく"). intros word F2.
  destruct (frames w1) as [|s1 [|? ?]] eqn:Ef; cbn [map] in F2; [discriminate| |discriminate]. injection F2 as F2.
  exists o1, w, b, w1, o2, w2, s1. split; [exact E|]. split; [now apply registering_b_spec|]. auto 10.
Qed.
