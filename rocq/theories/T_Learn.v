(** C83: a dictionary learns and forgets only what the user chose, registered or purged. *)
From Verif Require Import Str Keys Modes KanaBuilder FormChanger DictTypes Parser Lru
  Dictionary CState Context DefaultRule Demo Spec P_Monad P_Frames P_Inv P_Step
  T_Num T_Dedup T_Entry T_ExactDict T_Shipped T_Saved T_Remembered P_Learn.
From Coq Require Import Permutation.
From Verif Require P_Register T_Encoding T_Handles.

(* ------------------------------------------------------------ vocabulary *)
(** The candidate is on display: candidates or completions are shown, with the cursor on it. *)
Definition on_display (w : world) (c : candidate) : Prop :=
  exists s rest, frames w = s :: rest /\ (s_cmode s = CompositionSelection \/ s_cmode s = Completion)
    /\ nth_error (cl_list (s_list s)) (N.to_nat (cursor s)) = Some c.
(** The candidate is number [n] of the current list. *)
Definition numbered (w : world) (n : N) (c : candidate) : Prop :=
  exists s rest, frames w = s :: rest /\ nth_error (cl_list (s_list s)) (N.to_nat n) = Some c.
(** The candidate is the text confirmed in an open registration, for the reading asked for (or for
    the same reading with # for its numbers). *)
Definition entered (w : world) (c : candidate) : Prop :=
  exists s outer rest, frames w = s :: outer :: rest /\ s_cmode s = Direct /\ s_conf s <> []
    /\ c_kouho c = s_conf s /\ c_annot c = None /\ c_okuri c = negb (is_nil (s_okuri outer))
    /\ (mkCK (c_midashi c) (c_strict c) = cl_key (s_list outer)
        \/ mkCK (c_midashi c) (c_strict c) = fst (to_numeric_key (cl_key (s_list outer)))).
(** The key is bound, where the user is, to a command that begins with the instruction. *)
Definition commands (w : world) (k : keyev) (x : instr) : Prop :=
  exists s rest l, frames w = s :: rest /\ bound (x_cmd (w_ctx w)) (s_cmode s) (s_imode s) k (x :: l).
(** The key is bound to nothing there, and no modifier but SHIFT is held: the user types on. *)
Definition types_on (w : world) (k : keyev) : Prop :=
  exists s rest, frames w = s :: rest /\ unbound (x_cmd (w_ctx w)) (s_cmode s) (s_imode s) k /\ is_modifierless_input k = true.
(** What a call asks to be learnt or forgotten. *)
Definition asks (w : world) (o : op) (l : lesson) : Prop :=
  match o, l with
  | OKey k, Chosen c => has_mod k M_RELEASE = false
      /\ (on_display w c /\ (commands w k IConfirmComposition \/ types_on w k) \/ entered w c /\ commands w k IConfirmDirect)
  | OConfirmAt n, Chosen c => numbered w n c
  | OKey k, Purged key c => has_mod k M_RELEASE = false /\ on_display w c /\ commands w k IPurge
      /\ exists s rest, frames w = s :: rest /\ key = cl_key (s_list s)
  | _, _ => False
  end.
(** A rule that binds confirming and purging only where candidates are shown, registering only to Direct
    mode, and each as the first instruction of a command. *)
Definition teaches_first (cr : command_rule) : Prop :=
  forall c i k l, In (k, l) (cr c i) ->
    (forall x, In x (tl l) -> teaching x = false)
    /\ match l with
       | IConfirmComposition :: _ | IPurge :: _ => c = CompositionSelection \/ c = Completion
       | IConfirmDirect :: _ => c = Direct
       | _ => True
       end.
(** The rules in force during a history. *)
Definition rules_teach_first (w : world) (ops : list op) : Prop :=
  teaches_first (x_cmd (w_ctx w)) /\ forall r, In (OSetRule r) ops -> teaches_first (r_command r).

(* ------------------------------------------------------------ one call *)
Lemma registered_entry ds r t cs c : registered_candidates ds r t = Ok cs -> hd_error cs = Some c ->
  c_kouho c = t /\ c_annot c = None /\ c_okuri c = negb (is_nil (s_okuri r))
  /\ (mkCK (c_midashi c) (c_strict c) = cl_key (s_list r)
      \/ mkCK (c_midashi c) (c_strict c) = fst (to_numeric_key (cl_key (s_list r)))).
Proof.
  unfold registered_candidates. destruct (negb _ && _).
  - destruct (to_numeric_key (cl_key (s_list r))) as [dk ns] eqn:E. cbn [fst].
    destruct (replace_numeric_string ds t ns) as [os|]; [|discriminate]. cbn [rmap rbind]. intros H Hc.
    assert (E2 : cs = map (fun o => mkCand (ck_to dk) (ck_okuri dk) (negb (is_nil (s_okuri r))) t None o) os) by congruence.
    subst cs. destruct os as [|o os]; [discriminate|]. cbn in Hc. injection Hc as <-. cbn. repeat split. right. now destruct dk.
  - intros H Hc. injection H as <-. cbn in Hc. injection Hc as <-. cbn. repeat split. left. now destruct (cl_key (s_list r)).
Qed.
Section Step.
Context (X : xkb) (dbg : bool).
Definition taught (l : lesson) (w w' : world) : Prop :=
  w_store w' = upd_dicts (x_dicts (w_ctx w)) (fun d => teach d l) (w_store w).
Lemma instrs_lesson k l w b w' s rest : x_stack (w_ctx w) = s :: rest -> has_mod k M_RELEASE = false ->
  bound (x_cmd (w_ctx w)) (s_cmode s) (s_imode s) k l ->
  (forall x, In x (tl l) -> teaching x = false) ->
  match l with
  | IConfirmComposition :: _ | IPurge :: _ => s_cmode s = CompositionSelection \/ s_cmode s = Completion
  | IConfirmDirect :: _ => s_cmode s = Direct
  | _ => True
  end ->
  process_instructions dbg l (s_cmode s) (s_imode s) w = Ok (b, w') ->
  w_store w' = w_store w \/ exists ls, asks w (OKey k) ls /\ taught ls w w'.
Proof.
  intros Hs Hrel Hbd Ht Hh H. unfold process_instructions in H. destruct l as [|x l]; [left; exact (quiet_ret _ _ _ _ H)|].
  cbn [tl] in Ht. destruct (teaching x) eqn:Ex.
  2: { left. refine (quiet_instrs dbg (x :: l) _ _ _ _ _ _ _ H). intros y [<-|Hy]; auto. }
  cbn [run_instrs] in H. unfold bind at 1 in H.
  destruct (run_instr dbg x (s_cmode s) (s_imode s) w) as [[o w1]|] eqn:E1; [|discriminate].
  assert (K : w_store w' = w_store w1).
  { destruct o as [u|b1]; [exact (quiet_instrs dbg l _ _ Ht _ _ _ _ H)|exact (quiet_ret _ _ _ _ H)]. }
  unfold taught. rewrite K. clear H K.
  destruct x; try discriminate; cbn [run_instr] in E1.
  - unfold bind in E1. destruct (confirm_current w) as [[u w2]|] eqn:E2; [|discriminate]. unfold ret in E1. injection E1 as _ <-.
    apply confirm_store in E2 as (s' & r' & Es & E2). rewrite Hs in Es. injection Es as <- <-.
    destruct (cl_current (s_list s)) as [c|] eqn:Ec; [|now left]. right. exists (Chosen c). split; [|exact E2].
    split; [exact Hrel|]. left. split; [exists s, rest; auto|]. left. exists s, rest, l. auto.
  - unfold bind at 1, get at 1 in E1. destruct (Nat.ltb _ _) eqn:El; [|left; exact (quiet_ret _ _ _ _ E1)].
    unfold bind at 1, cur at 1 in E1. rewrite Hs in E1. unfold bind at 1 in E1.
    destruct (exit_register_mode (s_conf s) w) as [[u w2]|] eqn:E2; [|discriminate]. unfold ret in E1. injection E1 as _ <-.
    apply exit_store in E2 as [E2|(s' & r & rest' & ds & cs & c & Es & Hn & Hc & Hd & E2)]; [now left|].
    rewrite Hs in Es. injection Es as <- ->. right. exists (Chosen c). split; [|exact E2].
    split; [exact Hrel|]. right. split; [|exists s, (r :: rest'), l; auto]. exists s, r, rest'. destruct (registered_entry _ _ _ _ _ Hc Hd) as (R1 & R2 & R3 & R4). cbn [s_okuri s_list set_cmode] in R3, R4. auto 10.
  - unfold bind in E1. destruct (purge_current w) as [[u w2]|] eqn:E2; [|discriminate]. unfold ret in E1. injection E1 as _ <-.
    apply purge_store in E2 as (s' & r' & Es & E2). rewrite Hs in Es. injection Es as <- <-.
    destruct (cl_current (s_list s)) as [c|] eqn:Ec; [|now left]. right. exists (Purged (cl_key (s_list s)) c). split; [|exact E2].
    split; [exact Hrel|]. split; [exists s, rest; auto|]. split; [exists s, rest, l; auto|]. exists s, rest. auto.
Qed.
Lemma input_lesson k u w b w' s rest : x_stack (w_ctx w) = s :: rest -> has_mod k M_RELEASE = false ->
  (s_cmode s = CompositionSelection \/ s_cmode s = Completion -> unbound (x_cmd (w_ctx w)) (s_cmode s) (s_imode s) k) ->
  input_key X dbg k (s_cmode s) u w = Ok (b, w') ->
  w_store w' = w_store w \/ exists ls, asks w (OKey k) ls /\ taught ls w w'.
Proof.
  intros Hs Hrel Hub H. unfold input_key in H. destruct (negb _) eqn:Eml; [left; exact (quiet_ret _ _ _ _ H)|].
  unfold bind at 1, cur at 1 in H. rewrite Hs in H. unfold bind at 1, get at 1 in H.
  unfold bind at 1 in H.
  match type of H with match ?m w with _ => _ end = _ => destruct (m w) as [[x w1]|] eqn:E1 end; [|discriminate].
  assert (K : w_store w' = w_store w1).
  { revert H. generalize w1. intros w2 H.
    refine (_ : w_store w' = w_store w2). revert H.
    match goal with |- ?m w2 = _ -> _ => intros H; refine ((_ : quiet m) _ _ _ H) end.
    apply quiet_bind; [apply quiet_cur|]. intros s1. apply quiet_if; [apply quiet_kana|]. apply quiet_if; [apply quiet_plain|apply quiet_ret]. }
  unfold taught. rewrite K. clear H K.
  destruct (_ && _) eqn:Eb in E1; [|left; exact (quiet_ret _ _ _ _ E1)].
  apply confirm_store in E1 as (s' & r' & Es & E2). rewrite Hs in Es. injection Es as <- <-.
  destruct (cl_current (s_list s)) as [c|] eqn:Ec; [|now left]. right. exists (Chosen c). split; [|exact E2].
  apply andb_prop in Eb as [Eb _].
  assert (Em : s_cmode s = CompositionSelection \/ s_cmode s = Completion) by (destruct (s_cmode s); try discriminate; auto).
  split; [exact Hrel|]. left. split; [exists s, rest; auto|]. right. exists s, rest. apply negb_false_iff in Eml. auto.
Qed.
Lemma assoc_unbound cr c i k : assoc_key (command_key k) (cr c i) = None -> unbound cr c i k.
Proof.
  unfold unbound. induction (cr c i) as [|[k0 v] l IH]; cbn [assoc_key]; intros H k' l' Hin; [destruct Hin|].
  destruct (key_eqb (command_key k) k0) eqn:E; [discriminate|]. destruct Hin as [Hin|Hin]; [|eapply IH; eauto].
  injection Hin as <- <-. intros ->. assert (key_eqb (command_key k) (command_key k) = true) by now apply key_eqb_eq. congruence.
Qed.
Lemma key_lesson k w b w' : teaches_first (x_cmd (w_ctx w)) -> process_key_event X dbg k w = Ok (b, w') ->
  w_store w' = w_store w \/ exists ls, asks w (OKey k) ls /\ taught ls w w'.
Proof.
  intros Ht H. unfold process_key_event in H. destruct (has_mod k M_RELEASE) eqn:Erel; [left; exact (quiet_ret _ _ _ _ H)|].
  unfold process_key_event_inner in H. unfold bind at 1, cur at 1 in H.
  destruct (x_stack (w_ctx w)) as [|s rest] eqn:Hs; [discriminate|]. unfold bind at 1, get at 1 in H. cbv zeta in H.
  destruct (skip_command _ _ _ _ _) eqn:Esk.
  { eapply input_lesson; eauto. intros Hm. exfalso. unfold skip_command in Esk.
    assert (Er : has_rom2kana_conversion (s_imode s) (s_cmode s) = false) by (destruct Hm as [ -> | -> ]; reflexivity).
    rewrite Er in Esk. cbn [andb] in Esk. rewrite andb_false_r in Esk. discriminate. }
  unfold bind at 1, lift at 1 in H. destruct (get_instruction dbg (x_cmd (w_ctx w)) k (s_imode s) (s_cmode s)) as [[l|]|] eqn:Eg; [| |discriminate].
  2: { eapply input_lesson; eauto. intros Hm. apply assoc_unbound. unfold get_instruction in Eg. destruct Hm as [Em|Em]; rewrite Em in *; congruence. }
  assert (Hbd : bound (x_cmd (w_ctx w)) (s_cmode s) (s_imode s) k l).
  { unfold get_instruction in Eg. unfold bound. destruct (s_cmode s) eqn:Em; try (destruct dbg; discriminate); congruence. }
  assert (Hl : exists k', In (k', l) (x_cmd (w_ctx w) (s_cmode s) (s_imode s))).
  { unfold get_instruction in Eg. destruct (s_cmode s) eqn:Em; try (destruct dbg; discriminate);
      (apply (P_Register.assoc_key_in (command_key k)); congruence). }
  destruct Hl as (k' & Hl). destruct (Ht _ _ _ _ Hl) as (H1 & H2). eapply instrs_lesson; eauto.
Qed.
Lemma exec_lesson o w out w' : teaches_first (x_cmd (w_ctx w)) -> changes_store o = false -> exec X dbg o w = Ok (out, w') ->
  w_store w' = w_store w \/ exists ls, asks w o ls /\ taught ls w w'.
Proof.
  intros Ht Ho H. destruct o; cbn [exec] in H; try discriminate;
    try (left; injection H as _ <-; reflexivity).
  - unfold bind in H. destruct (process_key_event X dbg k w) as [[b w1]|] eqn:E; [|discriminate]. unfold ret in H. injection H as _ <-.
    eapply key_lesson; eauto.
  - left. unfold bind in H. destruct (poll_output w) as [[b w1]|] eqn:E; [|discriminate]. unfold ret in H. injection H as _ <-. eapply quiet_poll; eauto.
  - left. unfold bind in H. destruct (reset_state_stack w) as [[b w1]|] eqn:E; [|discriminate]. unfold ret in H. injection H as _ <-. eapply quiet_reset; eauto.
  - left. unfold bind in H. destruct (set_composition_mode c w) as [[b w1]|] eqn:E; [|discriminate]. unfold ret in H. injection H as _ <-. eapply quiet_modcur; eauto.
  - left. unfold bind in H. destruct (set_input_mode i w) as [[b w1]|] eqn:E; [|discriminate]. unfold ret in H. injection H as _ <-. eapply quiet_modcur; eauto.
  - left. unfold bind in H. destruct (select_candidate_at i w) as [[b w1]|] eqn:E; [|discriminate]. unfold ret in H. injection H as _ <-. eapply quiet_select_at; eauto.
  - unfold bind at 1 in H. destruct (confirm_candidate_at i w) as [[b w1]|] eqn:E; [|discriminate]. unfold ret in H. injection H as _ <-.
    unfold confirm_candidate_at in E. unfold bind at 1, cur at 1 in E. destruct (x_stack (w_ctx w)) as [|s rest] eqn:Hs; [discriminate|].
    unfold bind at 1, modcur at 1 in E. rewrite Hs in E. destruct (fst (set_candidate_pointer i s)) eqn:Ep.
    2: { left. unfold ret in E. injection E as _ <-. reflexivity. }
    unfold bind at 1 in E. match type of E with match confirm_current ?v with _ => _ end = _ => destruct (confirm_current v) as [[x w2]|] eqn:E2 end; [|discriminate].
    unfold ret in E. injection E as _ <-. apply confirm_store in E2 as (s' & r' & Es & E2). cbn [set_stack w_ctx x_stack x_dicts w_store] in Es, E2.
    injection Es as <- <-.
    assert (Ec : cl_current (s_list (snd (set_candidate_pointer i s))) = nth_error (cl_list (s_list s)) (N.to_nat i)).
    { revert Ep. unfold set_candidate_pointer, cl_set_pointer. destruct (N.ltb _ _); cbn; [reflexivity|discriminate]. }
    rewrite Ec in E2. destruct (nth_error _ _) as [c|] eqn:En; [|now left]. right. exists (Chosen c). split; [|exact E2].
    exists s, rest. auto.
Qed.
End Step.
(** One call of the API teaches the dictionaries of the context nothing, or one thing: the choice of a
    candidate on display or of the numbered one, the text entered in a registration, or the purge of a candidate
    on display. *)
Theorem C83_call : forall X dbg w o answer w', teaches_first (x_cmd (w_ctx w)) -> changes_store o = false ->
  exec X dbg o w = Ok (answer, w') -> NoDup (x_dicts (w_ctx w)) ->
  (forall j, dict_at j w' = dict_at j w)
  \/ exists l, asks w o l /\ forall j, dict_at j w' = if existsb (Nat.eqb j) (x_dicts (w_ctx w)) then option_map (fun d => teach d l) (dict_at j w) else dict_at j w.
Proof.
  intros X dbg w o answer w' Ht Ho H Hnd. destruct (exec_lesson X dbg o w answer w' Ht Ho H) as [E|(l & Hl & E)].
  - left. intros j. unfold dict_at. now rewrite E.
  - right. exists l. split; [exact Hl|]. intros j. unfold dict_at. rewrite E. now apply upd_dicts_nth.
Qed.

(* ------------------------------------------------------------ histories *)
Lemma in_prioritize c l t : In t (texts (prioritize_list c l)) <-> t = c_kouho c \/ In t (texts l).
Proof.
  destruct (prioritize_front c l) as [(_ & ->)|(x & Hx & E & _ & Hp)].
  - cbn. intuition congruence.
  - unfold texts. rewrite !in_map_iff. split.
    + intros (y & E1 & Hy). right. exists y. split; [exact E1|]. now apply (Permutation_in _ (Permutation_sym Hp)).
    + intros [->|(y & E1 & Hy)]; [exists x|exists y]; (split; [assumption|]); now apply (Permutation_in _ Hp).
Qed.
Lemma in_removed k l t : In t (texts (remove_list k l)) -> In t (texts l).
Proof.
  unfold remove_list. pose proof (position_spec (fun d => str_eqb (dc_kouho d) k) l) as H.
  destruct (position _ l) as [i|]; [|auto]. destruct H as (a & x & b & -> & <- & _). rewrite remove_nth_app.
  unfold texts. rewrite !map_app, !in_app_iff. cbn. tauto.
Qed.
Lemma kept_removed k l t : t <> k -> In t (texts l) -> In t (texts (remove_list k l)).
Proof.
  intros Hn. unfold remove_list. pose proof (position_spec (fun d => str_eqb (dc_kouho d) k) l) as H.
  destruct (position _ l) as [i|]; [|auto]. destruct H as (a & x & b & -> & <- & Hx & _). rewrite remove_nth_app.
  apply str_eqb_eq in Hx. unfold texts. rewrite !map_app, !in_app_iff. cbn. intros [H|[H|H]]; auto. congruence.
Qed.
(** Purging, whatever the key: the list stays, or loses the text once or twice. *)
Lemma purge_cases d k c ari m o :
  listed (purge_candidate d k c) ari m o = listed d ari m o
  \/ (c_okuri c = ari /\ c_midashi c = m /\ (o = [] \/ ck_okuri k = Some o)
      /\ (listed (purge_candidate d k c) ari m o = remove_list (c_kouho c) (listed d ari m o)
          \/ listed (purge_candidate d k c) ari m o = remove_list (c_kouho c) (remove_list (c_kouho c) (listed d ari m o)))).
Proof.
  unfold listed, section, purge_candidate, dict_ents. destruct (d_kind d) as [|e h|] eqn:Ek; try (left; now rewrite ?Ek).
  cbn [d_kind]. fold (lst o).
  assert (G : forall mp : lmap entry,
     let before := match lpeek m mp with Some e0 => lst o (e_map e0) | None => [] end in
     let after := match lpeek m (purge_in_map k c mp) with Some e0 => lst o (e_map e0) | None => [] end in
     after = before \/ (c_midashi c = m /\ (o = [] \/ ck_okuri k = Some o)
       /\ (after = remove_list (c_kouho c) before \/ after = remove_list (c_kouho c) (remove_list (c_kouho c) before)))).
  { intros mp. cbv zeta. unfold purge_in_map. rewrite lpeek_update.
    destruct (str_eqb_spec m (c_midashi c)) as [->|]; [|now left].
    destruct (lpeek (c_midashi c) mp) as [e0|]; cbn [option_map]; [|now left].
    unfold remove_matching_candidate. cbn [e_map]. rewrite lst_remove_for.
    destruct (ck_okuri k) as [s|] eqn:Eo.
    - destruct (str_eqb_spec o []) as [->|En].
      + right. repeat split; [now left|]. rewrite lst_remove_for. destruct (str_eqb_spec [] s) as [<-|]; auto.
      + rewrite lst_remove_for. destruct (str_eqb_spec o s) as [->|]; [|now left]. right. auto.
    - destruct (str_eqb_spec o []) as [->|En]; [|now left]. right. auto. }
  destruct ari, (c_okuri c); cbn [d_ari d_nashi]; try (now left);
    [destruct (G (d_ari e)) as [H|H]|destruct (G (d_nashi e)) as [H|H]]; tauto.
Qed.
Lemma select_kept d c ari m o t : In t (texts (listed d ari m o)) -> In t (texts (listed (select_candidate d c) ari m o)).
Proof.
  destruct (d_kind d) as [|e h|] eqn:Ek; [unfold select_candidate; now rewrite Ek| |unfold select_candidate; now rewrite Ek].
  assert (Hu : user d) by (unfold user; now rewrite Ek). rewrite listed_select by exact Hu.
  destruct (_ && _); [|auto]. intros H. apply in_prioritize. now right.
Qed.
Lemma select_gained d c ari m o t : In t (texts (listed (select_candidate d c) ari m o)) ->
  In t (texts (listed d ari m o)) \/ (c_okuri c = ari /\ c_midashi c = m /\ c_kouho c = t /\ (o = [] \/ c_strict c = Some o)).
Proof.
  destruct (d_kind d) as [|e h|] eqn:Ek; [unfold select_candidate; rewrite Ek; auto| |unfold select_candidate; rewrite Ek; auto].
  assert (Hu : user d) by (unfold user; now rewrite Ek). rewrite listed_select by exact Hu.
  destruct (_ && _) eqn:E; [|auto]. apply andb_prop in E as [E Ec]. apply andb_prop in E as [E1 E2].
  apply Bool.eqb_prop in E1. apply str_eqb_eq in E2. apply concerns_iff in Ec.
  intros H. apply in_prioritize in H as [->|H]; [right|now left]. auto.
Qed.
Lemma purge_not_gained d k c ari m o t : In t (texts (listed (purge_candidate d k c) ari m o)) -> In t (texts (listed d ari m o)).
Proof.
  destruct (purge_cases d k c ari m o) as [->|(_ & _ & _ & [->| ->])]; [auto|apply in_removed|].
  intros H. now apply in_removed, in_removed in H.
Qed.
Lemma purge_lost d k c ari m o t : In t (texts (listed d ari m o)) ->
  In t (texts (listed (purge_candidate d k c) ari m o)) \/ (c_okuri c = ari /\ c_midashi c = m /\ c_kouho c = t /\ (o = [] \/ ck_okuri k = Some o)).
Proof.
  intros H. destruct (str_eqb_spec (c_kouho c) t) as [E|E].
  - destruct (purge_cases d k c ari m o) as [->|(H1 & H2 & H3 & _)]; auto.
  - left. destruct (purge_cases d k c ari m o) as [->|(_ & _ & _ & [->| ->])]; auto using kept_removed.
Qed.

Lemma upd_dicts_out f ids : forall st i, ~ In i ids -> nth_error (upd_dicts ids f st) i = nth_error st i.
Proof.
  unfold upd_dicts. induction ids as [|x ids IH]; intros st i Hn; [reflexivity|]. cbn [fold_left]. rewrite IH by (intros H; apply Hn; now right).
  rewrite nth_error_update_nth. destruct (Nat.eqb_spec x i) as [->|]; [exfalso; apply Hn; now left|]. reflexivity.
Qed.
(** What changes a dictionary during a history is a lesson asked for by one of its calls. *)
Section History.
Context (X : xkb) (dbg : bool) (P : dict -> Prop) (relevant : lesson -> Prop).
Context (Hrel : forall l, (forall d, P d -> P (teach d l)) \/ relevant l).
Lemma run_lesson i : forall ops w outs w', x_stack (w_ctx w) <> [] -> rules_teach_first w ops ->
  Forall (fun o => changes_store o = false) ops -> run X dbg ops w = Ok (outs, w') ->
  (exists d, dict_at i w = Some d /\ P d) ->
  (exists d, dict_at i w' = Some d /\ P d)
  \/ exists before o after outs1 w1 l, ops = before ++ o :: after /\ run X dbg before w = Ok (outs1, w1)
      /\ asks w1 o l /\ relevant l /\ In i (x_dicts (w_ctx w1)).
Proof.
  induction ops as [|o ops IH]; intros w outs w' Hne [Ht Hr] Hops Hrun Hd.
  - left. unfold run in Hrun. injection Hrun as _ <-. exact Hd.
  - inversion Hops as [|? ? Ho Hops']; subst.
    cbn [run] in Hrun. unfold bind in Hrun. destruct (exec X dbg o w) as [[a w1]|] eqn:E; [|discriminate].
    destruct (run X dbg ops w1) as [[b w2]|] eqn:E2; [|discriminate]. unfold ret in Hrun. injection Hrun as _ <-.
    pose proof (exec_step X dbg o w Hne) as Hst. unfold wp in Hst. rewrite E in Hst.
    assert (Hne1 : x_stack (w_ctx w1) <> []) by (eapply step_nonempty; eauto).
    assert (Ht1 : rules_teach_first w1 ops).
    { split; [|intros r Hin; apply Hr; now right].
      destruct (changes_rule o) eqn:Ec.
      - destruct o as [| | | | | | | | | |r| |]; try discriminate. cbn [exec] in E. injection E as _ <-. cbn [w_ctx x_cmd]. apply Hr. now left.
      - destruct Hst as [Hst|(_ & _ & Hst)].
        + destruct Hst as [(Ecmd & _) _ _]. now rewrite Ecmd.
        + destruct (Hst Ec) as (_ & Ecmd). now rewrite Ecmd. }
    assert (D : (exists d, dict_at i w1 = Some d /\ P d) \/ exists l, asks w o l /\ relevant l /\ In i (x_dicts (w_ctx w))).
    { destruct (exec_lesson X dbg o w a w1 Ht Ho E) as [Es|(l & Hl & Es)].
      - left. unfold dict_at in *. now rewrite Es.
      - destruct (in_dec Nat.eq_dec i (x_dicts (w_ctx w))) as [Hi|Hi].
        + destruct (Hrel l) as [Hp|Hl']; [|right; eauto]. left. unfold dict_at, taught in *. rewrite Es. now apply upd_at.
        + left. unfold dict_at, taught in *. rewrite Es. rewrite upd_dicts_out by exact Hi. exact Hd. }
    destruct D as [D|(l & Hl & Hrl & Hi)].
    + destruct (IH w1 b w2 Hne1 Ht1 Hops' E2 D) as [G|(bf & o1 & af & os & v & l & -> & R1 & R2)]; [now left|right].
      exists (o :: bf), o1, af, (a :: os), v, l. split; [reflexivity|]. split; [|exact R2]. cbn [run]. unfold bind. now rewrite E, R1.
    + right. exists [], o, ops, [], w, l. repeat split; auto.
Qed.
End History.

(** During the history [ops] from [w] there is a call, made in the state [w1], asking for a lesson of
    which [relevant] holds, of a context using dictionary [i]. *)
Definition asked_for (X : xkb) (dbg : bool) (ops : list op) (w : world) (i : nat) (relevant : lesson -> Prop) : Prop :=
  exists before o after outs1 w1 l, ops = before ++ o :: after /\ run X dbg before w = Ok (outs1, w1)
    /\ asks w1 o l /\ relevant l /\ In i (x_dicts (w_ctx w1)).
(** The lesson is to choose, or to purge, the text for the headword and the okurigana. *)
Definition choose (ari : bool) (m o t : str) (l : lesson) : Prop :=
  match l with Chosen c => c_okuri c = ari /\ c_midashi c = m /\ c_kouho c = t /\ (o = [] \/ c_strict c = Some o) | Purged _ _ => False end.
Definition purge (ari : bool) (m o t : str) (l : lesson) : Prop :=
  match l with Purged k c => c_okuri c = ari /\ c_midashi c = m /\ c_kouho c = t /\ (o = [] \/ ck_okuri k = Some o) | Chosen _ => False end.
Lemma choose_dec ari m o t l : choose ari m o t l \/ ~ choose ari m o t l.
Proof.
  destruct l as [c|k c]; cbn; [|tauto]. destruct (Bool.bool_dec (c_okuri c) ari), (str_eqb_spec (c_midashi c) m), (str_eqb_spec (c_kouho c) t); try tauto.
  rewrite <- concerns_iff. destruct (concerns (c_strict c) o); [tauto|]. right. intros (_ & _ & _ & H). discriminate.
Qed.
Lemma purge_dec ari m o t l : purge ari m o t l \/ ~ purge ari m o t l.
Proof.
  destruct l as [c|k c]; cbn; [tauto|]. destruct (Bool.bool_dec (c_okuri c) ari), (str_eqb_spec (c_midashi c) m), (str_eqb_spec (c_kouho c) t); try tauto.
  rewrite <- concerns_iff. destruct (concerns (ck_okuri k) o); [tauto|]. right. intros (_ & _ & _ & H). discriminate.
Qed.
Lemma listed_gained d l ari m o t : In t (texts (listed (teach d l) ari m o)) -> In t (texts (listed d ari m o)) \/ choose ari m o t l.
Proof. destruct l as [c|k c]; cbn [teach choose]; [apply select_gained|]. intros H. left. eapply purge_not_gained; eauto. Qed.
Lemma listed_lost d l ari m o t : In t (texts (listed d ari m o)) -> In t (texts (listed (teach d l) ari m o)) \/ purge ari m o t l.
Proof. destruct l as [c|k c]; cbn [teach purge]; [|apply purge_lost]. intros H. left. now apply select_kept. Qed.

(** Whatever is typed: a text which a dictionary has come to list for a headword was chosen or registered for
    it in some call of the history. *)
Theorem C83_gained : forall X dbg ops w outs w' i d d' ari m o t, x_stack (w_ctx w) <> [] -> rules_teach_first w ops ->
  Forall (fun o => changes_store o = false) ops -> run X dbg ops w = Ok (outs, w') ->
  dict_at i w = Some d -> dict_at i w' = Some d' ->
  In t (texts (listed d' ari m o)) -> ~ In t (texts (listed d ari m o)) ->
  asked_for X dbg ops w i (choose ari m o t).
Proof.
  intros X dbg ops w outs w' i d d' ari m o t Hne Hr Hops Hrun Hd Hd' Hin Hno.
  destruct (run_lesson X dbg (fun d => ~ In t (texts (listed d ari m o))) (choose ari m o t)) with (i := i) (ops := ops) (w := w) (outs := outs) (w' := w')
    as [(d2 & E & G)|G]; auto.
  - intros l. destruct (choose_dec ari m o t l) as [H|H]; [now right|left]. intros d1 H1 H2.
    apply listed_gained in H2. tauto.
  - eauto.
  - exfalso. apply G. congruence.
Qed.
(** A text which a dictionary has ceased to list for a headword was purged for it in some call of the
    history. *)
Theorem C83_lost : forall X dbg ops w outs w' i d d' ari m o t, x_stack (w_ctx w) <> [] -> rules_teach_first w ops ->
  Forall (fun o => changes_store o = false) ops -> run X dbg ops w = Ok (outs, w') ->
  dict_at i w = Some d -> dict_at i w' = Some d' ->
  In t (texts (listed d ari m o)) -> ~ In t (texts (listed d' ari m o)) ->
  asked_for X dbg ops w i (purge ari m o t).
Proof.
  intros X dbg ops w outs w' i d d' ari m o t Hne Hr Hops Hrun Hd Hd' Hin Hno.
  destruct (run_lesson X dbg (fun d => In t (texts (listed d ari m o))) (purge ari m o t)) with (i := i) (ops := ops) (w := w) (outs := outs) (w' := w')
    as [(d2 & E & G)|G]; auto.
  - intros l. destruct (purge_dec ari m o t l) as [H|H]; [now right|left]. intros d1 H1.
    destruct (listed_lost d1 l ari m o t H1); tauto.
  - eauto.
  - exfalso. apply Hno. congruence.
Qed.

(* ------------------------------------------------------------ what conversion offers *)
Lemma holds_listed d key m t : get_dict_key key = Ok m ->
  holds [d] key t <-> exists o, (o = [] \/ ck_okuri key = Some o) /\ In t (texts (listed d (has_okuri key) m o)).
Proof.
  intros Hm.
  assert (L : forall e, lookup d key = Ok (Some e) <-> lpeek m (section (has_okuri key) d) = Some e).
  { intros e. unfold lookup, section, dict_ents. rewrite Hm. cbn [rmap rbind]. destruct (d_kind d) as [en|en h|].
    - split; [intros H; now injection H|now intros ->].
    - split; [intros H; now injection H|now intros ->].
    - destruct (has_okuri key); cbn; split; discriminate. }
  unfold holds, listed. split.
  - intros (d0 & e & [<-|[]] & H & Hi). apply L in H. rewrite H.
    destruct Hi as [(o & l & H1 & H2 & H3)|(l & H2 & H3)]; [exists o|exists []]; rewrite H2; auto.
  - intros (o & Ho & Hi). destruct (lpeek m (section (has_okuri key) d)) as [e|] eqn:E; [|destruct Hi].
    exists d, e. split; [now left|]. split; [now apply L|].
    destruct (bget o (e_map e)) as [l|] eqn:El; [|destruct Hi]. destruct Ho as [->|Ho]; [right|left]; eauto 6.
Qed.
Lemma dicts_kept X dbg : forall ops w outs w', x_stack (w_ctx w) <> [] -> Forall T_Handles.context_call ops ->
  run X dbg ops w = Ok (outs, w') -> x_dicts (w_ctx w') = x_dicts (w_ctx w) /\ length (w_store w') = length (w_store w).
Proof.
  induction ops as [|o ops IH]; intros w outs w' Hne Hn Hrun.
  - unfold run in Hrun. injection Hrun as _ <-. auto.
  - inversion Hn as [|? ? Ho Hops]; subst.
    cbn [run] in Hrun. unfold bind in Hrun. destruct (exec X dbg o w) as [[a w1]|] eqn:E; [|discriminate].
    destruct (run X dbg ops w1) as [[b w2]|] eqn:E2; [|discriminate]. unfold ret in Hrun. injection Hrun as _ <-.
    destruct (T_Handles.exec_dicts X dbg o w a w1 Ho Hne E) as (H1 & H2 & H3).
    destruct (IH w1 b w2 H2 Hops E2) as (H4 & H5). split; congruence.
Qed.
(** The lesson is to choose, or to purge, the text for the reading. *)
Definition choose_for (key : ckey) (t : str) (l : lesson) : Prop :=
  match l with Chosen c => c_kouho c = t /\ c_okuri c = has_okuri key /\ get_dict_key key = Ok (c_midashi c) | Purged _ _ => False end.
Definition purge_for (key : ckey) (t : str) (l : lesson) : Prop :=
  match l with Purged _ c => c_kouho c = t /\ c_okuri c = has_okuri key /\ get_dict_key key = Ok (c_midashi c) | Chosen _ => False end.
Lemma asked_mono X dbg ops w i (R R' : lesson -> Prop) : (forall l, R l -> R' l) -> asked_for X dbg ops w i R -> asked_for X dbg ops w i R'.
Proof. intros H (b & o & a & os & w1 & l & H1 & H2 & H3 & H4 & H5). exists b, o, a, os, w1, l. auto 10. Qed.
Lemma holds_at w key t : holds (ctx_dicts w) key t <->
  exists i d, In i (x_dicts (w_ctx w)) /\ dict_at i w = Some d /\ holds [d] key t.
Proof.
  split.
  - intros (d & e & Hd & H1 & H2). unfold ctx_dicts in Hd. apply in_map_iff in Hd as (i & E & Hi).
    exists i, d. split; [exact Hi|]. split; [|exists d, e; split; [now left|auto]].
    unfold dict_at. destruct (nth_error (w_store w) i) as [d2|] eqn:En.
    + apply nth_error_nth with (d := empty_dict) in En. congruence.
    + rewrite nth_overflow in E by (now apply nth_error_None). subst d. discriminate.
  - intros (i & d & Hi & Hd & (d0 & e & [<-|[]] & H1 & H2)). exists d, e. split; [|auto].
    unfold ctx_dicts. apply in_map_iff. exists i. split; [|exact Hi]. now apply nth_error_nth.
Qed.
Lemma holds_key d key t : holds [d] key t -> exists m, get_dict_key key = Ok m.
Proof.
  intros (d0 & e & _ & H & _). unfold lookup in H. destruct (d_kind d0); try discriminate; (destruct (get_dict_key key) as [m|]; [eauto|discriminate]).
Qed.
Lemma ops_context ops : Forall T_Handles.context_call ops -> Forall (fun o => changes_store o = false) ops.
Proof. intros H. eapply Forall_impl; [|exact H]. intros o Ho. destruct o; try reflexivity. destruct Ho. Qed.
(** Whatever is typed: what conversion offers for a reading afterwards but not before was chosen or
    registered for it; what was offered before and is no longer was purged for it. *)
Theorem C83_offered : forall X dbg ops w outs w' key cs cs' t, x_stack (w_ctx w) <> [] -> rules_teach_first w ops ->
  Forall T_Handles.context_call ops -> run X dbg ops w = Ok (outs, w') ->
  exact_candidates (ctx_dicts w) key = Ok cs -> exact_candidates (ctx_dicts w') key = Ok cs' ->
  (In t (map c_kouho cs') -> ~ In t (map c_kouho cs) -> exists i, asked_for X dbg ops w i (choose_for key t))
  /\ (In t (map c_kouho cs) -> ~ In t (map c_kouho cs') -> exists i, asked_for X dbg ops w i (purge_for key t)).
Proof.
  intros X dbg ops w outs w' key cs cs' t Hne Hr Hops Hrun Hcs Hcs'.
  destruct (C21_offered _ _ _ Hcs) as (_ & Hi & _). destruct (C21_offered _ _ _ Hcs') as (_ & Hi' & _).
  rewrite (Hi t), (Hi' t), !holds_at. clear Hi Hi' Hcs Hcs'.
  destruct (dicts_kept X dbg ops w outs w' Hne Hops Hrun) as (Hd & Hlen). rewrite Hd. split.
  - intros (i & d' & Hin & Hd' & H) Hno. destruct (holds_key _ _ _ H) as (m & Hm). exists i.
    assert (D : exists d, dict_at i w = Some d).
    { unfold dict_at in *. destruct (nth_error (w_store w) i) as [d|] eqn:E; [eauto|]. apply nth_error_None in E.
      assert (E2 : nth_error (w_store w') i <> None) by congruence. apply nth_error_Some in E2. lia. }
    destruct D as (d & D). apply (holds_listed d' key m t Hm) in H as (o & Ho & H).
    apply asked_mono with (R := choose (has_okuri key) m o t).
    { intros [c|k c]; cbn; [|auto]. intros (H1 & H2 & H3 & _). rewrite Hm, H2. auto. }
    refine (C83_gained X dbg ops w outs w' i d d' _ m o t Hne Hr (ops_context _ Hops) Hrun D Hd' H _).
    intros Hx. apply Hno. exists i, d. split; [exact Hin|]. split; [exact D|]. apply (holds_listed d key m t Hm). eauto.
  - intros (i & d & Hin & D & H) Hno. destruct (holds_key _ _ _ H) as (m & Hm). exists i.
    assert (D' : exists d', dict_at i w' = Some d').
    { unfold dict_at in *. destruct (nth_error (w_store w') i) as [d'|] eqn:E; [eauto|]. apply nth_error_None in E.
      assert (E2 : nth_error (w_store w) i <> None) by congruence. apply nth_error_Some in E2. lia. }
    destruct D' as (d' & Hd'). apply (holds_listed d key m t Hm) in H as (o & Ho & H).
    apply asked_mono with (R := purge (has_okuri key) m o t).
    { intros [c|k c]; cbn; [auto|]. intros (H1 & H2 & H3 & _). rewrite Hm, H2. auto. }
    refine (C83_lost X dbg ops w outs w' i d d' _ m o t Hne Hr (ops_context _ Hops) Hrun D Hd' H _).
    intros Hx. apply Hno. exists i, d'. split; [exact Hin|]. split; [exact Hd'|]. apply (holds_listed d' key m t Hm). eauto.
Qed.

(* ------------------------------------------------------------ the shipped rules *)
Definition teaches_first_b (c : cmode) (l : list instr) : bool :=
  forallb (fun x => negb (teaching x)) (tl l)
  && match l with
     | IConfirmComposition :: _ | IPurge :: _ => match c with CompositionSelection | Completion => true | _ => false end
     | IConfirmDirect :: _ => match c with Direct => true | _ => false end
     | _ => true
     end.
Lemma teaches_first_spec cr : every_command teaches_first_b cr = true -> teaches_first cr.
Proof.
  intros H c i k l Hin. pose proof (every_command_spec _ _ H c i k l Hin) as G. unfold teaches_first_b in G.
  apply andb_prop in G as [G1 G2]. split.
  - intros x Hx. rewrite forallb_forall in G1. specialize (G1 x Hx). now destruct (teaching x).
  - destruct l as [|x l]; [exact I|]. destruct x; try exact I; destruct c; try discriminate; auto.
Qed.
(** Both shipped rules are of this kind. *)
Theorem C83_shipped : Forall (fun r => teaches_first (r_command r)) [default_rule; azik_rule].
Proof. apply Forall_cons; [|apply Forall_cons; [|apply Forall_nil]]; apply teaches_first_spec; vm_compute; reflexivity. Qed.

(* ------------------------------------------------------------ cases *)
Lemma typed_is_run dbg s w : typed dbg s w = run ascii_xkb dbg (map OKey (dkeys s)) w.
Proof. reflexivity. Qed.
Lemma keys_context l : Forall T_Handles.context_call (map OKey l).
Proof. apply Forall_map, Forall_forall. intros k _. exact I. Qed.
Lemma demo_rules ds l : rules_teach_first (demo ds) (map OKey l).
Proof.
  split; [|intros r H; apply in_map_iff in H as (k & E & _); discriminate].
  unfold demo, demo_ctx, ctx_new. cbn [w_ctx x_cmd]. exact (Forall_inv C83_shipped).
Qed.
Lemma demo_stack ds : x_stack (w_ctx (demo ds)) <> [].
Proof. discriminate. Qed.
Definition empty_user : dict := mkDict true (DUser (load_text []) false).
Definition mosquito_user : dict := mkDict true (DUser (load_text mosquito) false).
Definition registered_a : dict :=
  mkDict true (DUser (mkDents [] [(U "か", mkEntry (U "か") false [([], [mkDC (U "あ") None])])]) true).
Definition purged_mosquito : dict :=
  mkDict true (DUser (mkDents [] [(U "か", mkEntry (U "か") false [([], [mkDC (U "香") None])])]) true).
Lemma in_b t l : existsb (str_eqb t) l = true <-> In t l.
Proof.
  rewrite existsb_exists. split; [intros (x & H & E); apply str_eqb_eq in E; now subst|].
  intros H. exists t. split; [exact H|]. now apply str_eqb_eq.
Qed.
Lemma gained_case keys d d' m t w outs : typed false keys (demo [d]) = Ok (outs, w) -> dict_at 0 w = Some d' ->
  existsb (str_eqb t) (texts (listed d' false m [])) = true -> existsb (str_eqb t) (texts (listed d false m [])) = false ->
  asked_for ascii_xkb false (map OKey (dkeys keys)) (demo [d]) 0 (choose false m [] t).
Proof.
  intros E D' H1 H2. refine (C83_gained ascii_xkb false _ (demo [d]) outs w 0 d d' false m [] t (demo_stack _) (demo_rules _ _) (ops_context _ (keys_context _)) E eq_refl D' _ _).
  - now apply in_b.
  - rewrite <- in_b, H2. discriminate.
Qed.
Lemma lost_case keys d d' m t w outs : typed false keys (demo [d]) = Ok (outs, w) -> dict_at 0 w = Some d' ->
  existsb (str_eqb t) (texts (listed d false m [])) = true -> existsb (str_eqb t) (texts (listed d' false m [])) = false ->
  asked_for ascii_xkb false (map OKey (dkeys keys)) (demo [d]) 0 (purge false m [] t).
Proof.
  intros E D' H1 H2. refine (C83_lost ascii_xkb false _ (demo [d]) outs w 0 d d' false m [] t (demo_stack _) (demo_rules _ _) (ops_context _ (keys_context _)) E eq_refl D' _ _).
  - now apply in_b.
  - rewrite <- in_b, H2. discriminate.
Qed.
(** A word registered for a reading no dictionary has: some key of the history asked for it. *)
Example C83_case_registered : exists outs w', typed false (U "K a space a Return") (demo [empty_user]) = Ok (outs, w')
  /\ dict_at 0 w' = Some registered_a
  /\ asked_for ascii_xkb false (map OKey (dkeys (U "K a space a Return"))) (demo [empty_user]) 0 (choose false (U "か") [] (U "あ")).
Proof.
  destruct (run_case (typed false (U "K a space a Return") (demo [empty_user])) (fun w => dict_at 0 w) (Some registered_a))
    as (outs & w & E & F); [vm_compute; reflexivity|].
  exists outs, w. split; [exact E|]. split; [exact F|].
  apply (gained_case _ empty_user registered_a _ _ w outs E F); vm_compute; reflexivity.
Qed.
(** A candidate purged. *)
Example C83_case_purged : exists outs w', typed false (U "K a space X") (demo [mosquito_user]) = Ok (outs, w')
  /\ dict_at 0 w' = Some purged_mosquito
  /\ asked_for ascii_xkb false (map OKey (dkeys (U "K a space X"))) (demo [mosquito_user]) 0 (purge false (U "か") [] (U "蚊")).
Proof.
  destruct (run_case (typed false (U "K a space X") (demo [mosquito_user])) (fun w => dict_at 0 w) (Some purged_mosquito))
    as (outs & w & E & F); [vm_compute; reflexivity|].
  exists outs, w. split; [exact E|]. split; [exact F|].
  apply (lost_case _ mosquito_user purged_mosquito _ _ w outs E F); vm_compute; reflexivity.
Qed.
(** Nothing is learnt by typing, walking through the candidates and giving up. *)
Example C83_case_nothing : exists outs w', typed false (U "K a space space x Escape C-g a i") (demo [mosquito_user]) = Ok (outs, w')
  /\ dict_at 0 w' = Some mosquito_user.
Proof.
  destruct (run_case (typed false (U "K a space space x Escape C-g a i") (demo [mosquito_user])) (fun w => dict_at 0 w) (Some mosquito_user))
    as (outs & w & E & F); [vm_compute; reflexivity|]. exists outs, w. auto.
Qed.
(** Why the kind of rule matters: under a rule binding Return, while candidates are shown, to moving on and
    confirming, a candidate is learnt which was not on display. *)
Definition hasty_rule : rule :=
  mkRule (r_conversion default_rule) (fun c i => match c with CompositionSelection => map (fun k => (k, [ITryNextCandidate; IConfirmComposition])) (dkeys (U "Return")) | _ => r_command default_rule c i end).
Example C83_why : exists outs1 w1 outs2 w2,
  typed false (U "K a space") (demo [mosquito_user]) = Ok (outs1, w1)
  /\ (forall c, on_display w1 c -> c_kouho c = U "蚊")
  /\ run ascii_xkb false (map OKey (dkeys (U "K a space")) ++ OSetRule hasty_rule :: map OKey (dkeys (U "Return"))) (demo [mosquito_user]) = Ok (outs2, w2)
  /\ dict_at 0 w2 = Some (mkDict true (DUser learnt true)).
Proof.
  destruct (run_case (typed false (U "K a space") (demo [mosquito_user]))
    (fun w => match frames w with s :: _ => option_map c_kouho (nth_error (cl_list (s_list s)) (N.to_nat (cursor s))) | [] => None end)
    (Some (U "蚊"))) as (outs1 & w1 & E1 & F1); [vm_compute; reflexivity|].
  destruct (run_case (run ascii_xkb false (map OKey (dkeys (U "K a space")) ++ OSetRule hasty_rule :: map OKey (dkeys (U "Return"))) (demo [mosquito_user]))
    (fun w => dict_at 0 w) (Some (mkDict true (DUser learnt true)))) as (outs2 & w2 & E2 & F2); [vm_compute; reflexivity|].
  exists outs1, w1, outs2, w2. split; [exact E1|]. split; [|auto].
  intros c (s & rest & Hf & _ & Hc). rewrite Hf, Hc in F1. cbn [option_map] in F1. now apply T_Encoding.some_inj in F1.
Qed.
