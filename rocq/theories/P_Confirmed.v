(** C07: confirmed text is not lost. *)
From Verif Require Import Str Keys Modes KanaBuilder FormChanger DictTypes Parser Lru
  Dictionary CState Context Spec P_Monad P_Frames P_Inv P_Register.

(** The hidden copy of the reading is no longer than the shown one. *)
Definition L (s : cstate) : Prop := length (s_raw s) <= length (s_comp s).
Lemma pop_length (l : str) : length (str_pop l) = length l - 1.
Proof.
  unfold str_pop. destruct l as [|x l]; [reflexivity|].
  assert (H : x :: l <> []) by discriminate. pose proof (app_removelast_last x H) as E.
  apply (f_equal (@length _)) in E. rewrite app_length in E. cbn in E |- *. lia.
Qed.
Lemma L_delete s : L s -> L (snd (st_delete s)).
Proof.
  unfold L, st_delete. intros H. destruct (s_cmode s); cbn; auto;
    destruct (negb (is_nil (s_pre s))); cbn; auto;
    repeat match goal with |- context [if ?x then _ else _] => destruct x end; cbn; rewrite ?pop_length; lia.
Qed.
Lemma L_iter n s : L s -> L (Nat.iter n (fun s => snd (st_delete s)) s).
Proof. intros H; induction n; cbn; auto. apply L_delete; auto. Qed.
Lemma L_astep fl d b s s' : (fl_ck fl -> False) -> astep fl d b s s' -> L s -> L s'.
Proof.
  unfold L. intros Hck H Hs; destruct H; cbn; auto; try tauto; try (rewrite !app_length; lia).
  - unfold abort_to_previous_mode. destruct (last_opt (s_hist s)) as [[]|]; cbn; auto.
    rewrite !app_length; lia.
  - destruct c; cbn; auto; rewrite !app_length; lia.
  - apply L_delete; auto.
  - apply L_iter; auto.
  - unfold set_candidate_pointer. destruct (cl_set_pointer i (s_list s)); cbn; auto.
  - unfold st_forward in H. destruct (cl_forward d (s_list s)); cbn in H; [|discriminate].
    injection H as <-. cbn; auto.
Qed.

(** deletions during auto-start stay inside the reading *)
Lemma auto_delete n : forall s, s_cmode s = PreComposition -> n <= length (s_comp s) ->
  let s' := Nat.iter n (fun s => snd (st_delete s)) s in
  s_cmode s' = PreComposition /\ s_conf s' = s_conf s /\ length (s_comp s) - n <= length (s_comp s').
Proof.
  induction n as [|n IH]; intros s Hc Hn; [cbn; repeat split; auto; lia|].
  destruct (IH s Hc ltac:(lia)) as (H1 & H2 & H3).
  change (Nat.iter (S n) (fun s => snd (st_delete s)) s) with (snd (st_delete (Nat.iter n (fun s => snd (st_delete s)) s))).
  set (t := Nat.iter n (fun s => snd (st_delete s)) s) in *. cbv zeta in *.
  unfold st_delete. rewrite H1. destruct (negb (is_nil (s_pre t))); cbn; [repeat split; auto; lia|].
  assert (Hne : is_nil (s_comp t) = false) by (destruct (s_comp t); [cbn in H3; lia|reflexivity]).
  rewrite Hne. cbn. repeat split; auto. rewrite pop_length. lia.
Qed.

Definition no_loss : flags := mkFlags False False False False (fun _ => True).
Definition prefix (a b : str) : Prop := exists r, b = a ++ r.
Lemma prefix_refl a : prefix a a. Proof. exists []. now rewrite app_nil_r. Qed.
Lemma prefix_trans a b c : prefix a b -> prefix b c -> prefix a c.
Proof. intros [r ->] [r' ->]. exists (r ++ r'). now rewrite app_assoc. Qed.
Lemma prefix_app a r : prefix a (a ++ r). Proof. exists r; reflexivity. Qed.
Lemma conf_astep d b s s' : L s -> astep no_loss d b s s' -> prefix (s_conf s) (s_conf s').
Proof.
  intros HL H; destruct H; cbn; auto using prefix_refl; try (cbn in *; tauto).
  - unfold abort_to_previous_mode. destruct (last_opt (s_hist s)) as [[]|]; cbn; apply prefix_refl.
  - destruct c; cbn; auto using prefix_refl, prefix_app.
  - unfold L in HL. destruct (auto_delete n s) as (_ & -> & _); [assumption|lia|apply prefix_refl].
  - unfold set_candidate_pointer. destruct (cl_set_pointer i (s_list s)); cbn; apply prefix_refl.
  - unfold st_forward in H. destruct (cl_forward d (s_list s)); cbn in H; [|discriminate].
    injection H as <-. cbn; apply prefix_refl.
Qed.
Definition last_conf (l : list cstate) : str := match rev l with s :: _ => s_conf s | [] => [] end.
Lemma last_conf_cons s s' r : last_conf (s :: s' :: r) = last_conf (s' :: r).
Proof. unfold last_conf. cbn. destruct (rev r); reflexivity. Qed.
Lemma srel_conf d b l l' : srel no_loss d b l l' -> Forall L l ->
  Forall L l' /\ prefix (last_conf l) (last_conf l').
Proof.
  induction 1 as [|l1 l2 l3 H1 IH H2]; intros Hl; [split; auto using prefix_refl|].
  destruct (IH Hl) as [HL2 Hp2]. split.
  - eapply sstep_forall; [| | |exact H2|exact HL2].
    + intros s s' Hs. eapply L_astep; [|exact Hs]. cbn; auto.
    + cbv; auto.
    + auto.
  - eapply prefix_trans; [exact Hp2|]. clear IH H1 Hp2 Hl.
    destruct H2 as [s s' r Ha|s r prev Hlen|s s' r|l s Hf].
    + destruct r as [|s1 r]; [|rewrite !last_conf_cons; apply prefix_refl].
      cbn. inversion HL2; subst. eapply conf_astep; eauto.
    + rewrite last_conf_cons. destruct r as [|s1 r]; [apply prefix_refl|].
      rewrite !last_conf_cons. apply prefix_refl.
    + rewrite last_conf_cons. apply prefix_refl.
    + destruct Hf.
Qed.
Lemma confirmed_last w : confirmed_text w = last_conf (x_stack (w_ctx w)).
Proof. unfold confirmed_text, outermost, last_conf. destruct (rev _); reflexivity. Qed.

Section Main.
Context (X : xkb) (dbg : bool).
Definition bad_clear (x : instr) : bool := match x with IClearKanaConvertedInputs => true | _ => false end.
Definition bad_loss (x : instr) : bool :=
  match x with IClearKanaConvertedInputs | IPurge | IDelete => true | _ => false end.
Definition op_rule_avoids (bad : instr -> bool) (o : op) : Prop :=
  match o with OSetRule r => rule_avoids bad (r_command r) | _ => True end.
Definition ck_flags : flags := mkFlags True True False True (fun _ => True).
Lemma avoids_allowed fl bad cr k : (forall x, bad x = false -> instr_allowed fl x) ->
  rule_avoids bad cr -> key_allowed fl dbg cr k.
Proof.
  intros Hb Hr i c l Hl. apply Forall_forall. intros x Hx.
  apply get_instruction_in in Hl as [k' Hl]. apply Hb. eapply Hr; eauto.
Qed.
Lemma ck_allowed x : bad_clear x = false -> instr_allowed ck_flags x.
Proof. destruct x; cbn; auto; discriminate. Qed.
(** frames keep L under rules without ClearKanaConvertedInputs *)
Lemma run_L ops w outs w' : rule_avoids bad_clear (x_cmd (w_ctx w)) ->
  Forall (op_rule_avoids bad_clear) ops ->
  x_stack (w_ctx w) <> [] -> Forall L (x_stack (w_ctx w)) ->
  run X dbg ops w = Ok (outs, w') ->
  rule_avoids bad_clear (x_cmd (w_ctx w')) /\ x_stack (w_ctx w') <> [] /\ Forall L (x_stack (w_ctx w')).
Proof.
  intros Hc Hops Hne HL Hr.
  eapply (run_inv_fl X dbg ck_flags (fun w => rule_avoids bad_clear (x_cmd (w_ctx w)) /\ x_stack (w_ctx w) <> [] /\ Forall L (x_stack (w_ctx w)))
      (op_rule_avoids bad_clear)); [| | |exact Hops| |exact Hr]; auto.
  - tauto.
  - intros o w1 _ (H1 & _). destruct o; cbn; auto. eapply avoids_allowed; [apply ck_allowed|exact H1].
  - intros o w1 w2 out Ho (H1 & H2 & H3) He Hst. split; [|split].
    + destruct Hst as [[(H & Hcmd & _) _ _]|(_ & _ & H)]; [first [rewrite H|rewrite Hcmd]; exact H1|].
      destruct (changes_rule o) eqn:Ec; [|destruct (H eq_refl) as [_ Hc2]; rewrite Hc2; exact H1].
      destruct o; try discriminate. cbn in He. injection He as <- <-. cbn. exact Ho.
    + eapply step_nonempty; eauto.
    + destruct Hst as [Hst|(-> & _)]; [|exact H3]. destruct Hst as [_ Hs _].
      eapply srel_forall; [| | |exact Hs|exact H3].
      * intros s s' Hs'. eapply L_astep; [|exact Hs']. cbn; auto.
      * cbv; auto.
      * auto.
Qed.
Lemma assoc_key_in' {A} k (l : list (keyev * A)) v : assoc_key k l = Some v ->
  exists k', In (k', v) l /\ key_eqb k k' = true.
Proof.
  induction l as [|[k' v'] l IH]; cbn; [discriminate|]. destruct (key_eqb k k') eqn:E.
  - intros [= ->]. eauto.
  - intros H. destruct (IH H) as (k2 & H2 & H3). eauto.
Qed.
Lemma key_runs_allowed fl cr k : (forall x, key_runs cr k x -> instr_allowed fl x) -> key_allowed fl dbg cr k.
Proof.
  intros H i c l Hl. apply Forall_forall. intros x Hx. apply H.
  unfold get_instruction in Hl.
  assert (Ha : assoc_key (command_key k) (cr c i) = Some l)
    by (destruct c; try (injection Hl as Hl; exact Hl); destruct dbg; discriminate).
  apply assoc_key_in' in Ha as (k' & H1 & H2). exists c, i, k', l. auto.
Qed.
Lemma key_keeps_confirmed k w w' b : x_stack (w_ctx w) <> [] -> Forall L (x_stack (w_ctx w)) ->
  (forall x, key_runs (x_cmd (w_ctx w)) k x -> bad_loss x = false) ->
  process_key_event X dbg k w = Ok (b, w') ->
  prefix (confirmed_text w) (confirmed_text w').
Proof.
  intros Hne HL Hk H.
  assert (Ha : key_allowed no_loss dbg (x_cmd (w_ctx w)) k).
  { apply key_runs_allowed. intros x Hx. specialize (Hk x Hx). destruct x; cbn in *; auto; discriminate. }
  pose proof (r_key X no_loss dbg (x_kb (w_ctx w)) (x_cmd (w_ctx w)) k Ha w (conj eq_refl eq_refl) Hne) as Hr.
  unfold wp in Hr. rewrite H in Hr. destruct Hr as [_ Hs _].
  rewrite !confirmed_last. eapply srel_conf in Hs; [apply Hs|exact HL].
Qed.
End Main.
