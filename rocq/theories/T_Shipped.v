(** C62: both shipped rules meet the conditions of the theorems about rules. *)
From Verif Require Import Str Keys Modes KanaBuilder FormChanger DictTypes Parser Lru
  Dictionary CState Context DefaultRule Demo Spec P_Register P_Confirmed P_Step
  P_Safe P_Select T_Panic T_Select T_Reading T_Unhandled T_Handled.
From Verif Require T_Frames.

Definition shipped (r : rule) : Prop := r = default_rule \/ r = azik_rule.
(** deciding a condition on every command list of a rule *)
Definition all_modes : list cmode := [Direct; PreComposition; PreCompositionOkurigana; CompositionSelection; Abbreviation; Register; Completion].
Definition all_inputs : list imode := [Hiragana; Katakana; HankakuKatakana; Zenkaku; Ascii].
Definition every_command (P : cmode -> list instr -> bool) (cr : command_rule) : bool :=
  forallb (fun c => forallb (fun i => forallb (fun e => P c (snd e)) (cr c i)) all_inputs) all_modes.
Lemma every_command_spec P cr : every_command P cr = true -> forall c i k l, In (k, l) (cr c i) -> P c l = true.
Proof.
  unfold every_command. rewrite forallb_forall. intros H c i k l Hin.
  assert (Hc : In c all_modes) by (destruct c; cbn; tauto). specialize (H c Hc). rewrite forallb_forall in H.
  assert (Hi : In i all_inputs) by (destruct i; cbn; tauto). specialize (H i Hi). rewrite forallb_forall in H.
  apply (H (k, l) Hin).
Qed.
Definition conditions_b (r : rule) : bool :=
  every_command (fun c l => forallb (fun x => match x with IChangeCompositionMode Register => false | _ => true end) l
                  && forallb (fun x => negb (bad_clear x)) l && debug_safe c l) (r_command r)
  && no_digits_b r && forallb (fun e => negb (is_nil (snd (snd e)))) (r_conversion r)
  && orderly_b (r_command r) && reading_rule_b (r_command r) && command_shape_b (r_command r)
  && T_Frames.carry_ok_b ascii_xkb r
  && T_Frames.nodupb (map (fun e : str * (str * str) => keysyms_from_str ascii_xkb (fst e)) (r_conversion r)).
Lemma default_conditions : conditions_b default_rule = true.
Proof. vm_compute. reflexivity. Qed.
Lemma azik_conditions : conditions_b azik_rule = true.
Proof. vm_compute. reflexivity. Qed.
(** No command switches to Register mode, none clears the kana, none moves the cursor after
    another step; the lists, the readings and the answers have the shapes asked for by C19, C20
    and C54; no kana has digits or is empty; the keys are distinct and every carry-over can
    be continued. *)
Theorem C62_shipped_rules : forall r, shipped r ->
  rule_no_register (r_command r) /\ rule_avoids bad_clear (r_command r) /\ rule_debug_safe (r_command r)
  /\ orderly (r_command r) /\ reading_rule (r_command r) /\ command_shape (r_command r)
  /\ rule_without_digits r /\ conversions_yield r
  /\ T_Frames.distinct_keys ascii_xkb r /\ T_Frames.carry_completable ascii_xkb r.
Proof.
  assert (G : forall r, conditions_b r = true ->
    rule_no_register (r_command r) /\ rule_avoids bad_clear (r_command r) /\ rule_debug_safe (r_command r)
    /\ orderly (r_command r) /\ reading_rule (r_command r) /\ command_shape (r_command r)
    /\ rule_without_digits r /\ conversions_yield r
    /\ T_Frames.distinct_keys ascii_xkb r /\ T_Frames.carry_completable ascii_xkb r).
  { intros r H. unfold conditions_b in H.
    apply andb_true_iff in H as [H H8]. apply andb_true_iff in H as [H H7]. apply andb_true_iff in H as [H H6].
    apply andb_true_iff in H as [H H5]. apply andb_true_iff in H as [H H4]. apply andb_true_iff in H as [H H3].
    apply andb_true_iff in H as [H H2].
    pose proof (every_command_spec _ _ H) as HC. clear H.
    refine (conj _ (conj _ (conj _ (conj _ (conj _ (conj _ (conj _ (conj _ (conj _ _))))))))).
    - intros c i k l Hin Hx. specialize (HC c i k l Hin). cbv beta in HC. apply andb_true_iff in HC as [HC _]. apply andb_true_iff in HC as [HC _].
      rewrite forallb_forall in HC. discriminate (HC _ Hx).
    - intros c i k l Hin x Hx. specialize (HC c i k l Hin). cbv beta in HC. apply andb_true_iff in HC as [HC _]. apply andb_true_iff in HC as [_ HC].
      rewrite forallb_forall in HC. specialize (HC _ Hx). now apply negb_true_iff.
    - intros c i k l Hin. specialize (HC c i k l Hin). cbv beta in HC. now apply andb_true_iff in HC as [_ HC].
    - now apply orderly_b_spec.
    - now apply reading_rule_b_spec.
    - now apply command_shape_b_spec.
    - now apply no_digits_b_spec.
    - intros k carry conv Hin ->. rewrite forallb_forall in H3. discriminate (H3 _ Hin).
    - apply T_Frames.nodupb_spec. exact H8.
    - apply T_Frames.carry_ok_spec. exact H7. }
  intros r [-> | ->]; apply G; [exact default_conditions|exact azik_conditions].
Qed.
