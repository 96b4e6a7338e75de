(** C20: the reading shown is the reading looked up. *)
From Verif Require Import Str Keys Modes KanaBuilder FormChanger DictTypes Parser Lru
  Dictionary CState Context DefaultRule Demo Spec P_Monad P_Frames P_Inv P_Keeps P_Register P_Step.

(* ------------------------------------------------------------ vocabulary *)
(** In the reading modes the frame shows the reading that is looked up (and that the API returns
    as the text to be converted); a okurigana that is looked up is shown too. *)
Definition shows_the_key (X : xkb) (kf : kana_form) (s : cstate) : Prop :=
  let key := get_composite_key s in
  let okuri_shown (o : option str) :=
    match ck_okuri key with Some t => o = Some (adjust_kana_string kf (s_imode s) t) | None => True end in
  match preedit_detail X kf (s_imode s) s with
  | SPreComposition _ kana _ _ => kana = adjust_kana_string kf (s_imode s) (ck_to key)
  | SPreCompositionOkurigana _ kana o _ => kana = adjust_kana_string kf (s_imode s) (ck_to key) /\ okuri_shown o
  | SRegister _ kana o p => kana = adjust_kana_string kf (s_imode s) (ck_to key) /\ okuri_shown o
  | _ => True
  end.
(** The commands of a rule: none clears the kana alone; a deletion comes first in its list, or
    right after confirming in a list mode. *)
Definition reading_rule (cr : command_rule) : Prop :=
  forall c i k l, In (k, l) (cr c i) ->
    ~ In IClearKanaConvertedInputs l
    /\ (In IDelete l -> (exists r, l = IDelete :: r)
        \/ ((c = CompositionSelection \/ c = Completion) /\ exists r, l = IConfirmComposition :: IDelete :: r)).
(** The user does not delete in the okurigana mode, except pending romaji. *)
Definition keeps_okuri (k : keyev) (w : world) : Prop :=
  forall s l, current w = Some s -> s_cmode s = PreCompositionOkurigana ->
    bound (x_cmd (w_ctx w)) (s_cmode s) (s_imode s) k l -> In IDelete l -> s_pre s <> [].
Definition reading_op (o : op) (w : world) : Prop :=
  match o with OKey k => keeps_okuri k w | OSetRule r => reading_rule (r_command r) | _ => True end.
Fixpoint reading_ops (X : xkb) (dbg : bool) (ops : list op) (w : world) : Prop :=
  match ops with
  | [] => True
  | o :: r => reading_op o w
              /\ match exec X dbg o w with Ok (_, w') => reading_ops X dbg r w' | Panic _ => True end
  end.

(* ------------------------------------------------------------ the invariant *)
Definition same_reading (s : cstate) : Prop := s_raw s = s_comp s /\ s_default s <> PreCompositionOkurigana.
Definition rflags : flags := mkFlags True False False True (fun _ => True).
Lemma reading_push t c s : same_reading s -> same_reading (push_string_for t c s).
Proof. intros [H1 H2]. destruct c; split; cbn; try assumption; now rewrite H1. Qed.
Lemma reading_consolidate s : same_reading s -> same_reading (consolidate s).
Proof. intros [H1 H2]. split; cbn; [now rewrite H1|exact H2]. Qed.
Lemma reading_delete s : same_reading s -> (s_cmode s = PreCompositionOkurigana -> s_pre s <> []) -> same_reading (snd (st_delete s)).
Proof.
  intros [H1 H2] Hc. unfold st_delete. destruct (s_cmode s) eqn:E; cbn;
    repeat match goal with |- context [if ?x then _ else _] => destruct x eqn:?; cbn end; split; cbn; try assumption; try now rewrite H1.
  all: exfalso; specialize (Hc eq_refl); destruct (s_pre s); try congruence; discriminate.
Qed.
Lemma delete_stays s : s_cmode s <> PreCompositionOkurigana -> s_cmode (snd (st_delete s)) <> PreCompositionOkurigana.
Proof.
  intros H. unfold st_delete. destruct (s_cmode s) eqn:E; cbn; try congruence;
    repeat match goal with |- context [if ?x then _ else _] => destruct x; cbn end; congruence.
Qed.
Lemma reading_iter n s : s_cmode s = PreComposition -> same_reading s ->
  same_reading (Nat.iter n (fun s => snd (st_delete s)) s) /\ s_cmode (Nat.iter n (fun s => snd (st_delete s)) s) <> PreCompositionOkurigana.
Proof.
  intros Hc Hs. induction n as [|n [IH1 IH2]]; cbn; [split; [exact Hs|congruence]|].
  split; [apply reading_delete; [exact IH1|intros; contradiction]|now apply delete_stays].
Qed.
Lemma reading_astep dbg b s s' : astep rflags dbg b s s' -> same_reading s -> same_reading s'.
Proof.
  intros H Hs. pose proof Hs as [H1 H2]. inversion H; subst; try exact Hs; try (split; [reflexivity|assumption]); try contradiction.
  - unfold abort_to_previous_mode. destruct (last_opt (s_hist s)) as [[]|]; try exact Hs. apply (reading_consolidate s Hs).
  - now apply reading_push.
  - now apply reading_consolidate.
  - now apply reading_iter.
  - unfold set_candidate_pointer. destruct (cl_set_pointer i (s_list s)); exact Hs.
  - unfold st_forward in *. destruct (cl_forward dbg (s_list s)); [|discriminate]. cbn in *. match goal with E : Ok _ = Ok _ |- _ => injection E as <- end. exact Hs.
Qed.
Lemma reading_srel dbg b l l' : srel rflags dbg b l l' -> Forall same_reading l -> Forall same_reading l'.
Proof.
  apply srel_forall.
  - intros s s'. apply reading_astep.
  - split; [reflexivity|discriminate].
  - intros s Hs. exact Hs.
Qed.
Definition R (w : world) : Prop := x_stack (w_ctx w) <> [] /\ Forall same_reading (x_stack (w_ctx w)).
Lemma reaches_R {A} dbg (m : M A) w : reaches rflags dbg (x_kb (w_ctx w)) (x_cmd (w_ctx w)) m -> R w ->
  wp any_panic m (fun _ => R) w.
Proof.
  intros Hm [H1 H2]. specialize (Hm w (conj eq_refl eq_refl) H1). unfold wp in *. destruct (m w) as [[a w']|]; [|exact I].
  destruct Hm as [_ Hst _]. split; [eapply srel_nonempty; eauto|]. eapply reading_srel; eauto.
Qed.
Lemma R_set w s r s' : R w -> x_stack (w_ctx w) = s :: r -> (same_reading s -> same_reading s') -> R (set_stack (s' :: r) w).
Proof. intros [H1 H2] Hs Hf. rewrite Hs in H2. inversion H2; subst. split; [discriminate|]. cbn. constructor; auto. Qed.
Lemma wp_delete dbg l c i res w s r : R w -> x_stack (w_ctx w) = s :: r -> (s_cmode s = PreCompositionOkurigana -> s_pre s <> []) ->
  wp any_panic (run_instrs dbg (IDelete :: l) c i res) (fun _ => R) w.
Proof.
  intros Hw Hs Hp. cbn [run_instrs run_instr]. apply wp_bind, wp_bind, wp_cur; [|congruence]. intros s0 r0 H0. rewrite Hs in H0. injection H0 as <- <-.
  apply wp_bind, wp_modcur; [|congruence]. intros s0 r0 H0. rewrite Hs in H0. injection H0 as <- <-.
  apply wp_ret. cbn [ret]. apply (R_set w s r); auto. intros G. now apply reading_delete.
Qed.
(** after confirming in a list mode the frame is in its default mode or still in a list mode *)
Lemma confirm_mode w s r x w' : x_stack (w_ctx w) = s :: r -> confirm_current w = Ok (x, w') ->
  exists s', x_stack (w_ctx w') = s' :: r /\ (s_cmode s' = s_cmode s \/ s_cmode s' = s_default s).
Proof.
  intros Hs. unfold confirm_current. unfold bind at 1, cur. rewrite Hs. unfold bind at 1, get.
  destruct (cl_current (s_list s)) as [c|].
  - unfold bind, for_dicts, modcur. cbn. rewrite Hs. intros [= <- <-]. eexists. split; [reflexivity|]. right. cbn.
    unfold push_string. destruct (s_cmode s); reflexivity.
  - intros [= <- <-]. exists s. auto.
Qed.
Lemma R_key X dbg k w : R w -> reading_rule (x_cmd (w_ctx w)) -> keeps_okuri k w ->
  wp any_panic (process_key_event X dbg k) (fun _ => R) w.
Proof.
  intros Hw Hr Hk. unfold process_key_event. destruct (has_mod k M_RELEASE); [exact Hw|].
  destruct (x_stack (w_ctx w)) as [|s fr] eqn:Hs; [destruct Hw; congruence|].
  unfold process_key_event_inner. apply wp_bind, wp_cur; [|congruence]. intros s0 r0 H0. rewrite Hs in H0. injection H0 as <- <-.
  apply wp_bind, wp_get. cbn zeta.
  destruct (skip_command _ _ _ _ _); [apply (reaches_R dbg); [apply r_input_key|exact Hw]|].
  apply wp_bind, wp_lift; [|intros; exact I]. intros [l|] Hi; [|apply (reaches_R dbg); [apply r_input_key|exact Hw]].
  assert (Hb : bound (x_cmd (w_ctx w)) (s_cmode s) (s_imode s) k l).
  { unfold get_instruction in Hi. unfold bound. destruct (s_cmode s); try congruence. destruct dbg; discriminate. }
  apply get_instruction_in in Hi as (k' & Hin). destruct (Hr _ _ _ _ Hin) as [Hck Hd].
  assert (Hcur : current w = Some s) by (unfold current; rewrite Hs; reflexivity).
  assert (Hdec : In IDelete l \/ ~ In IDelete l).
  { assert (D : forall x y : instr, {x = y} + {x <> y}) by (decide equality; decide equality). destruct (in_dec D IDelete l); auto. }
  unfold process_instructions. destruct Hdec as [Hdel|Hdel].
  - destruct (Hd Hdel) as [(r & ->)|(Hl & r & ->)].
    + eapply wp_delete; [exact Hw|exact Hs|]. intros Hm. eapply Hk; eauto.
    + generalize (negb (is_nil (IConfirmComposition :: IDelete :: r))). intros res.
      cbn [run_instrs run_instr]. apply wp_bind, wp_bind. pose proof (reaches_R dbg confirm_current w (r_confirm _ _ _ _) Hw) as G.
      unfold wp in *. destruct (confirm_current w) as [[x w1]|] eqn:Ec; [|exact I].
      destruct (confirm_mode w s fr x w1 Hs Ec) as (s1 & Hs1 & Hm1).
      match goal with |- match ?z with _ => _ end => change z with (Ok (@inl unit bool tt, w1)) end. cbv beta iota.
      assert (G2 : wp any_panic (run_instrs dbg (IDelete :: r) (s_cmode s) (s_imode s) res) (fun _ => R) w1).
      { eapply wp_delete; [exact G|exact Hs1|]. intros Hm. exfalso. destruct Hw as [_ Hw]. rewrite Hs in Hw. inversion Hw as [|? ? [_ Hdef] _]; subst.
        destruct Hm1 as [E|E]; rewrite E in Hm; [|contradiction]. destruct Hl as [E'|E']; rewrite E' in Hm; discriminate. }
      exact G2.
  - apply (reaches_R dbg); [|exact Hw]. apply r_instrs. apply Forall_forall. intros x Hx.
    destruct x; cbn; try exact I; contradiction.
Qed.
Definition RG (w : world) : Prop := R w /\ reading_rule (x_cmd (w_ctx w)).
Lemma RG_exec X dbg o w out w' : RG w -> reading_op o w -> exec X dbg o w = Ok (out, w') -> RG w'.
Proof.
  intros [Hw Hr] Ho He. pose proof Hw as [Hne Hfa]. split.
  - assert (K : (exists k, o = OKey k) \/ forall k, o <> OKey k) by (destruct o; eauto; right; discriminate).
    destruct K as [(k & ->)|K].
    + cbn [exec] in He. unfold bind in He. destruct (process_key_event X dbg k w) as [[b w1]|] eqn:E; [|discriminate].
      injection He as <- <-. pose proof (R_key X dbg k w Hw Hr Ho) as G. unfold wp in G. now rewrite E in G.
    + assert (Ha : op_allowed dbg rflags o w) by (destruct o; cbn; try exact I; exfalso; eapply K; reflexivity).
      pose proof (exec_step_fl X dbg rflags o w Ha Hne) as G. unfold wp in G. rewrite He in G.
      destruct G as [[_ G _]|(G & _)].
      * split; [eapply srel_nonempty; eauto|eapply reading_srel; eauto].
      * split; rewrite G; assumption.
  - destruct (changes_rule o) eqn:Er.
    + destruct o; try discriminate. cbn in He. injection He as <- <-. exact Ho.
    + pose proof (exec_step X dbg o w Hne) as G. unfold wp in G. rewrite He in G. destruct G as [[E _ _]|(_ & _ & G)].
      * destruct E as (E1 & _). rewrite E1. exact Hr.
      * destruct (G Er) as [_ ->]. exact Hr.
Qed.
Lemma RG_run X dbg ops : forall w outs w', RG w -> reading_ops X dbg ops w -> run X dbg ops w = Ok (outs, w') -> RG w'.
Proof.
  induction ops as [|o ops IH]; intros w outs w' Hw Hc Hr; cbn [run reading_ops] in *; [injection Hr as <- <-; exact Hw|].
  unfold bind at 1 in Hr. destruct Hc as [Hc1 Hc2]. destruct (exec X dbg o w) as [[x w1]|] eqn:E; [|discriminate].
  unfold bind in Hr. destruct (run X dbg ops w1) as [[xs w2]|] eqn:E2; [|discriminate]. injection Hr as <- <-.
  eapply IH; [|exact Hc2|exact E2]. eapply RG_exec; eauto.
Qed.
(** Every frame shows the reading that is looked up, for every history of API calls in which the
    okurigana mode is left otherwise than by deleting the okurigana. *)
Theorem C20_partial : forall X dbg r st kf am ds i c ops outs w,
  reading_rule (r_command r) -> c <> PreCompositionOkurigana ->
  reading_ops X dbg ops (mkW st (ctx_new X r kf am ds i c)) ->
  run X dbg ops (mkW st (ctx_new X r kf am ds i c)) = Ok (outs, w) ->
  forall s, In s (frames w) -> shows_the_key X (x_kf (w_ctx w)) s /\ ck_to (get_composite_key s) = s_comp s.
Proof.
  intros X dbg r st kf am ds i c ops outs w Hr Hc Ho Hrun s Hin.
  assert (Start : RG (mkW st (ctx_new X r kf am ds i c))).
  { split; [|exact Hr]. split; [discriminate|]. repeat constructor. exact Hc. }
  destruct (RG_run X dbg ops _ _ _ Start Ho Hrun) as [[_ H] _]. rewrite Forall_forall in H. specialize (H s Hin) as [H _].
  assert (K : ck_to (get_composite_key s) = s_raw s) by (unfold get_composite_key; destruct (_ && _); reflexivity).
  assert (O : ck_okuri (get_composite_key s) = None \/ (s_use s = true /\ is_nil (s_okuri s) = false /\ ck_okuri (get_composite_key s) = Some (s_okuri s))).
  { unfold get_composite_key. destruct (s_use s && negb (is_nil (s_okuri s))) eqn:E; [right|now left].
    apply andb_true_iff in E as [E1 E2]. apply negb_true_iff in E2. auto. }
  split; [|congruence]. unfold shows_the_key. rewrite K, H. unfold preedit_detail.
  destruct (s_cmode s); try reflexivity; try exact I.
  - split; [reflexivity|]. destruct O as [-> |(_ & E & ->)]; [exact I|]. rewrite E. reflexivity.
  - destruct O as [-> |(E1 & E & ->)]; [destruct (s_use s); split; auto|]. rewrite E1, E. split; reflexivity.
Qed.
Definition reading_rule_b (cr : command_rule) : bool :=
  forallb (fun c => forallb (fun i => forallb (fun e =>
    negb (existsb (fun x => match x with IClearKanaConvertedInputs => true | _ => false end) (snd e))
    && (negb (existsb (fun x => match x with IDelete => true | _ => false end) (snd e))
        || match snd e with
           | IDelete :: _ => true
           | IConfirmComposition :: IDelete :: _ => cmode_eqb c CompositionSelection || cmode_eqb c Completion
           | _ => false end)) (cr c i))
    [Hiragana; Katakana; HankakuKatakana; Zenkaku; Ascii])
  [Direct; PreComposition; PreCompositionOkurigana; CompositionSelection; Abbreviation; Register; Completion].
Lemma reading_rule_b_spec cr : reading_rule_b cr = true -> reading_rule cr.
Proof.
  unfold reading_rule_b. rewrite forallb_forall. intros H c i k l Hin.
  assert (Hc : In c [Direct; PreComposition; PreCompositionOkurigana; CompositionSelection; Abbreviation; Register; Completion])
    by (destruct c; cbn; tauto).
  specialize (H c Hc). rewrite forallb_forall in H.
  assert (Hi : In i [Hiragana; Katakana; HankakuKatakana; Zenkaku; Ascii]) by (destruct i; cbn; tauto).
  specialize (H i Hi). rewrite forallb_forall in H. specialize (H (k, l) Hin). cbn [snd] in H.
  apply andb_true_iff in H as [H1 H2]. apply negb_true_iff in H1. split.
  - intros Hx. rewrite <- Bool.not_true_iff_false in H1. apply H1, existsb_exists. exists IClearKanaConvertedInputs. auto.
  - intros Hx. apply orb_true_iff in H2 as [H2|H2].
    + apply negb_true_iff in H2. exfalso. rewrite <- Bool.not_true_iff_false in H2. apply H2, existsb_exists. exists IDelete. auto.
    + destruct l as [|x l]; [discriminate|]. destruct x; try discriminate; [|left; eauto].
      destruct l as [|y l]; [discriminate|]. destruct y; try discriminate. right. split; [|eauto].
      apply orb_true_iff in H2 as [H2|H2]; apply cmode_eqb_eq in H2; auto.
Qed.
Lemma default_reading_rule : reading_rule (r_command default_rule).
Proof. apply reading_rule_b_spec. vm_compute. reflexivity. Qed.
(** The full claim is false: deleting the okurigana also deletes from the hidden copy of the
    reading.  The preedit shows ▽か, the dictionary is asked for the empty reading. *)
Definition reading_seen (w : world) : str * option (cmode * ckey) :=
  (get_preedit ascii_xkb (w_ctx w), option_map (fun s => (s_cmode s, get_composite_key s)) (current w)).
Theorem C20_refuted : exists outs w s, typed false (U "K a T t BackSpace BackSpace") (demo [static_dict dic_small]) = Ok (outs, w)
  /\ current w = Some s /\ s_cmode s = PreComposition
  /\ get_preedit ascii_xkb (w_ctx w) = U "▽か" /\ get_composite_key s = mkCK [] None.
Proof.
  destruct (run_case (typed false (U "K a T t BackSpace BackSpace") (demo [static_dict dic_small])) reading_seen
    (U "▽か", Some (PreComposition, mkCK [] None))) as (outs & w & E & F); [vm_compute; reflexivity|].
  unfold reading_seen in F. destruct (current w) as [s|] eqn:Ec; [|discriminate]. injection F as F1 F2 F3.
  exists outs, w, s. auto.
Qed.
(** Histories the theorem covers: readings, okurigana, deleting kana and pending romaji. *)
Definition keeps_okuri_b (k : keyev) (w : world) : bool :=
  match current w with
  | Some s => negb (cmode_eqb (s_cmode s) PreCompositionOkurigana && is_nil (s_pre s))
              || match assoc_key (command_key k) (x_cmd (w_ctx w) (s_cmode s) (s_imode s)) with
                 | Some l => negb (existsb (fun x => match x with IDelete => true | _ => false end) l)
                 | None => true end
  | None => true
  end.
Fixpoint reading_keys_b (X : xkb) (dbg : bool) (ks : list keyev) (w : world) : bool :=
  match ks with
  | [] => true
  | k :: r => keeps_okuri_b k w && match exec X dbg (OKey k) w with Ok (_, w') => reading_keys_b X dbg r w' | Panic _ => true end
  end.
Lemma reading_keys_b_spec X dbg ks : forall w, reading_keys_b X dbg ks w = true -> reading_ops X dbg (map OKey ks) w.
Proof.
  induction ks as [|k ks IH]; intros w H; [exact I|]. cbn [reading_keys_b reading_ops map] in *. apply andb_true_iff in H as [H1 H2].
  split; [|destruct (exec X dbg (OKey k) w) as [[o w']|]; [now apply IH|exact I]].
  intros s l Hs Hm Hb Hd. unfold keeps_okuri_b in H1. rewrite Hs, Hm in H1. unfold bound in Hb. rewrite Hm in Hb. rewrite Hb in H1.
  intros Hp. rewrite Hp in H1. cbn in H1. apply negb_true_iff in H1. rewrite <- Bool.not_true_iff_false in H1.
  apply H1, existsb_exists. exists IDelete. auto.
Qed.
Example C20_case : reading_ops ascii_xkb false (map OKey (dkeys (U "K a n i BackSpace K k BackSpace i space C-g BackSpace"))) (demo [static_dict dic_small]).
Proof. apply reading_keys_b_spec. vm_compute. reflexivity. Qed.
