(** C18: key processing and panics. *)
From Verif Require Import Str Keys Modes KanaBuilder FormChanger DictTypes Parser Lru
  Dictionary CState Context DefaultRule Demo Spec P_Monad P_Frames P_Inv P_Kana P_Register T_Num P_Safe P_Step.
From Verif Require T_Frames.

(* ------------------------------------------------------------ counting digits *)
(** Digits a call puts into a reading: an ASCII digit key counts one, any other decimal digit
    counts twenty. *)
Definition digits_typed (X : xkb) (o : op) : nat :=
  match o with OKey k => key_weight X k | _ => 0 end.
Definition total_digits (X : xkb) (ops : list op) : nat := fold_right (fun o n => digits_typed X o + n) 0 ops.
(** No kana of the conversion table contains a digit. *)
Definition rule_without_digits (r : rule) : Prop :=
  forall k cy conv, In (k, (cy, conv)) (r_conversion r) -> weight conv = 0.
Definition words_without_digits (l : list str) : Prop := forall kw, In kw l -> weight kw = 0.
Definition op_without_digits (o : op) : Prop :=
  match o with
  | OSetRule r => rule_without_digits r
  | OSetAutoStart l => words_without_digits l
  | _ => True
  end.

Lemma tget_fold X (m : list (str * (str * str))) : forall t, (forall k c l, tget t k = Some (c, l) -> weight c = 0) ->
  (forall k cy conv, In (k, (cy, conv)) m -> weight conv = 0) ->
  forall k c l, tget (fold_left (fun t '(k, (carry, conv)) =>
    tinsert (keysyms_from_str X k) (conv, keysyms_from_str X carry) t) m t) k = Some (c, l) -> weight c = 0.
Proof.
  induction m as [|[k [cy conv]] m IH]; intros t Ht Hm; [exact Ht|]. cbn [fold_left]. apply IH.
  - intros k' c l. rewrite tget_insert. destruct (str_eqb _ _); [|apply Ht].
    intros [= <- <-]. eapply Hm. now left.
  - intros. eapply Hm. right; eauto.
Qed.
Lemma kb_new_digits X r : rule_without_digits r -> forall k c l, tget (kb_new X r) k = Some (c, l) -> weight c = 0.
Proof. intros H. apply tget_fold; [|exact H]. intros k c l. rewrite tget_empty. discriminate. Qed.
Lemma default_keywords : words_without_digits (cf_auto default_config).
Proof. intros kw H. repeat destruct H as [<-|H]; try reflexivity. destruct H. Qed.
Local Arguments weight : simpl never.

(* ------------------------------------------------------------ one call *)
Lemma exec_safe X dbg (P : Prop) n o w : inv P n w -> (P -> op_without_digits o) ->
  (forall k, o = OKey k -> debug_ok dbg k w) ->
  wp (E18 P (n + digits_typed X o)) (exec X dbg o) (fun _ => inv P (n + digits_typed X o)) w.
Proof.
  intros Hw Ho Hd. pose proof Hw as (H1 & H2 & H3).
  destruct (x_stack (w_ctx w)) as [|s fr] eqn:Hs; [congruence|].
  assert (K : inv P (n + 0) w) by (eapply inv_mono; [|exact Hw]; lia).
  destruct o; cbn [exec digits_typed] in *.
  - apply wp_bind. eapply wp_mono; [apply key_safe; [lia|exact Hw|auto]|]. intros ? w1 HH; exact HH.
  - apply wp_bind. unfold wp, poll_output. rewrite Hs. destruct (rev (s :: fr)) as [|t inner] eqn:Er.
    { apply (f_equal (@rev _)) in Er. rewrite rev_involutive in Er. discriminate. }
    destruct (is_nil (s_conf t)); [exact K|]. cbn. split; [exact H1|]. cbn.
    assert (Er' : s :: fr = rev inner ++ [t]) by (rewrite <- (rev_involutive (s :: fr)), Er; reflexivity).
    split; [destruct (rev inner); discriminate|]. rewrite Er' in H3. apply Forall_app in H3 as [H4 H5]. apply Forall_app.
    split; [eapply Forall_impl; [|exact H4]; intros ?; apply light_mono; lia|]. inversion H5; subst. constructor; [|constructor].
    eapply light_mono; [|eassumption]. lia.
  - apply wp_bind. unfold wp, reset_state_stack. rewrite Hs. destruct (rev (s :: fr)) as [|t inner] eqn:Er.
    { apply (f_equal (@rev _)) in Er. rewrite rev_involutive in Er. discriminate. }
    split; [exact H1|]. cbn. split; [discriminate|]. constructor; [apply light_cleared_all|constructor].
  - apply sf_bind; [apply sf_set_cmode|intros; apply sf_ret|exact K].
  - apply sf_bind; [apply sf_set_imode|intros; apply sf_ret|exact K].
  - apply sf_bind; [|intros; apply sf_ret|exact K]. unfold select_candidate_at. apply sf_cur_then. intros s0 L0. cbn zeta.
    destruct (N.eqb _ _); [apply sf_ret|]. apply sf_bind; [|intros; apply sf_ret]. destruct (i <? 0)%Z; [|destruct (_ <=? _)%Z].
    + apply sf_bind; [|intros; apply sf_set_cmode]. apply sf_modcur. intros s1 L1. now apply light_clear_list, light_consolidate.
    + apply sf_bind; [|intros; apply sf_enter]. apply sf_modcur. intros s1 L1. now apply light_pointer.
    + apply sf_modcur. intros s1 L1. now apply light_pointer.
  - apply sf_bind; [|intros; apply sf_ret|exact K]. unfold confirm_candidate_at. apply sf_cur_then. intros s0 L0.
    apply sf_bind; [apply sf_modcur; intros s1 L1; now apply light_pointer|intros ?]. destruct (fst _); [|apply sf_ret].
    apply sf_bind; [apply sf_confirm|intros; apply sf_ret]; lia.
  - split; [|exact (proj2 K)]. intros p. split; [apply (H1 p)|]. exact (Ho p).
  - split; [|exact (proj2 K)]. exact H1.
  - split; [|exact (proj2 K)]. exact H1.
  - split; [|exact (proj2 K)]. intros p. split; [|apply (H1 p)]. apply kb_new_digits. exact (Ho p).
  - exact K.
  - exact K.
Qed.

(* ------------------------------------------------------------ C18 *)
(** Outside debug builds, in whatever state the public API leads to, with any rule and any
    dictionaries: a key press panics only on the conversion of a number. *)
Theorem C18_release_partial : forall X w k r, reachable X false w ->
  process_key_event X false k w = Panic r -> r = PanicUnwrap.
Proof.
  intros X w k r Hr He. pose proof (key_safe X false False 0 (key_weight X k) k w (le_n _)) as G.
  unfold wp in G. rewrite He in G. apply G; [|now left].
  split; [intros []|]. split; [eapply reachable_nonempty; exact Hr|]. apply Forall_forall. intros s _ [].
Qed.
(** ... and a context that saw fewer than twenty digits never panics at all, whatever the API
    calls, the dictionaries (also those other contexts change meanwhile), the commands bound, the
    kana tables and the auto-start keywords, as long as those have no digits. *)
Lemma run_few_digits X ops : forall n w, inv True n w -> Forall op_without_digits ops ->
  n + total_digits X ops < 20 -> exists outs w', run X false ops w = Ok (outs, w').
Proof.
  induction ops as [|o ops IH]; intros n w Hw Ho Hn; [exists [], w; reflexivity|].
  inversion Ho; subst. cbn [total_digits fold_right] in Hn. fold (total_digits X ops) in Hn.
  pose proof (exec_safe X false True n o w Hw (fun _ => H1) (fun k _ => or_introl eq_refl)) as G. unfold wp in G.
  destruct (exec X false o w) as [[x w1]|r] eqn:E.
  - destruct (IH _ w1 G H2) as (outs & w2 & E2); [lia|]. exists (x :: outs), w2. cbn [run]. unfold bind. rewrite E, E2. reflexivity.
  - destruct G as [_ G]. specialize (G I). lia.
Qed.
Theorem C18_few_digits_partial : forall X r st kf am ds i c ops,
  rule_without_digits r -> Forall op_without_digits ops -> total_digits X ops < 20 ->
  exists outs w, run X false ops (mkW st (ctx_new X r kf am ds i c)) = Ok (outs, w).
Proof.
  intros X r st kf am ds i c ops Hr Ho Hn. apply (run_few_digits X ops 0); auto.
  split; [intros _; split; [apply kb_new_digits, Hr|exact default_keywords]|].
  split; [discriminate|]. repeat constructor; cbn; unfold weight; cbn; lia.
Qed.
(** The rule shipped with the library has no digits in its kana table. *)
Definition no_digits_b (r : rule) : bool := forallb (fun e : str * (str * str) => Nat.eqb (weight (snd (snd e))) 0) (r_conversion r).
Lemma no_digits_b_spec r : no_digits_b r = true -> rule_without_digits r.
Proof. unfold no_digits_b. rewrite forallb_forall. intros H k cy conv Hin. apply H in Hin. now apply Nat.eqb_eq in Hin. Qed.
Lemma default_without_digits : rule_without_digits default_rule.
Proof. apply no_digits_b_spec. vm_compute. reflexivity. Qed.
(** Debug builds: no panic while the current frame is not waiting for a registration, the list
    the cursor moves in has candidates, the readings have fewer than twenty digits, and no command
    moves the cursor after another step. *)
Theorem C18_debug_partial : forall X w k s, current w = Some s ->
  s_cmode s <> Register ->
  (s_cmode s = CompositionSelection \/ s_cmode s = Completion ->
     cl_list (s_list s) <> [] /\ (N.of_nat (length (cl_list (s_list s))) <= 2 ^ 64)%N) ->
  (forall l, bound (x_cmd (w_ctx w)) (s_cmode s) (s_imode s) k l -> debug_safe (s_cmode s) l = true) ->
  (forall u t l, tget (x_kb (w_ctx w)) u = Some (t, l) -> weight t = 0) ->
  words_without_digits (cf_auto (x_cfg (w_ctx w))) ->
  (forall s, In s (frames w) -> weight (s_raw s) + weight (s_okuri s) + key_weight X k < 20
                             /\ weight (ck_to (cl_key (s_list s))) + key_weight X k < 20) ->
  exists b w', process_key_event X true k w = Ok (b, w').
Proof.
  intros X w k s Hs Hc Hl Hb Ht Ha Hd. unfold current in Hs. unfold frames in Hd.
  destruct (x_stack (w_ctx w)) as [|s0 fr] eqn:Ex; [discriminate|]. injection Hs as ->.
  pose proof (Hd s (or_introl eq_refl)) as Hd0.
  assert (G : wp (E18 True ((19 - key_weight X k) + key_weight X k)) (process_key_event X true k)
                 (fun _ => inv True ((19 - key_weight X k) + key_weight X k)) w).
  { apply key_safe; [lia| |].
    - split; [intros _; split; [exact Ht|exact Ha]|]. rewrite Ex. split; [discriminate|]. apply Forall_forall.
      intros s1 H1 _. specialize (Hd s1 H1). lia.
    - right. intros s1 r1 H1. rewrite Ex in H1. injection H1 as <- <-. split; [exact Hc|]. split; [|exact Hb].
      intros H. destruct (Hl H) as [H1 H2]. split; [exact H1|exact H2]. }
  unfold wp in G. destruct (process_key_event X true k w) as [[b w']|r]; [eauto|].
  destruct G as [_ G]. specialize (G I). lia.
Qed.
(** The commands of the shipped rule are of this kind. *)
Definition rule_debug_safe (cr : command_rule) : Prop :=
  forall c i k l, In (k, l) (cr c i) -> debug_safe c l = true.
Lemma default_debug_safe : rule_debug_safe (r_command default_rule).
Proof.
  intros c i. assert (H : forallb (fun e => debug_safe c (snd e)) (r_command default_rule c i) = true)
    by (destruct c, i; vm_compute; reflexivity).
  rewrite forallb_forall in H. intros k l Hin. apply (H (k, l) Hin).
Qed.

(** The full claim is false.  In any build, a reading of twenty digits whose dictionary entry
    spells numbers in kanji panics; [false]: the release build. *)
Definition kanji_number := U "# /#3/".
Definition twenty_digits := U "Q 9 9 9 9 9 9 9 9 9 9 9 9 9 9 9 9 9 9 9 9 space".
Theorem C18_refuted : exists ks, Forall (fun k => kmods k = M_NONE) (tl ks)
  /\ run ascii_xkb false (map OKey ks) (demo [static_dict [kanji_number]]) = Panic PanicUnwrap.
Proof. exists (dkeys twenty_digits). split; [vm_compute; repeat constructor|vm_compute; reflexivity]. Qed.
(** In a debug build ordinary typing suffices: walking back before the first candidate, aborting
    and converting again; or purging a candidate, aborting and converting again. *)
Theorem C18_debug_refuted :
  run ascii_xkb true (map OKey (dkeys (U "A i space x C-g space"))) (demo [static_dict dic_small]) = Panic PanicUnderflow
  /\ run ascii_xkb true (map OKey (dkeys (U "A i space X C-g space"))) (demo [static_dict dic_small]) = Panic PanicUnderflow.
Proof. split; vm_compute; reflexivity. Qed.
Lemma keys_without_digits ks : Forall op_without_digits (map OKey ks).
Proof. induction ks; constructor; auto. exact I. Qed.
(** The hypotheses are met: nineteen digits, with the dictionary above. *)
Example C18_case : total_digits ascii_xkb (map OKey (dkeys (U "Q 9 9 9 9 9 9 9 9 9 9 9 9 9 9 9 9 9 9 9 space"))) = 19
  /\ exists outs w, run ascii_xkb false (map OKey (dkeys (U "Q 9 9 9 9 9 9 9 9 9 9 9 9 9 9 9 9 9 9 9 space")))
                        (demo [static_dict [kanji_number]]) = Ok (outs, w).
Proof.
  split; [vm_compute; reflexivity|]. apply C18_few_digits_partial; [exact default_without_digits| |].
  - apply keys_without_digits.
  - vm_compute. repeat constructor.
Qed.
Example C18_debug_case : exists outs w s, typed true (U "A i space") (demo [static_dict dic_small]) = Ok (outs, w)
  /\ current w = Some s /\ s_cmode s = CompositionSelection /\ cl_list (s_list s) <> []
  /\ forall k l, bound (x_cmd (w_ctx w)) (s_cmode s) (s_imode s) k l -> debug_safe (s_cmode s) l = true.
Proof.
  destruct (run_case (typed true (U "A i space") (demo [static_dict dic_small]))
    (fun w => match current w with
              | Some s => (s_cmode s, is_nil (cl_list (s_list s)),
                           forallb (fun e => debug_safe (s_cmode s) (snd e)) (x_cmd (w_ctx w) (s_cmode s) (s_imode s)))
              | None => (Direct, true, false) end) (CompositionSelection, false, true)) as (outs & w & E & F);
    [vm_compute; reflexivity|].
  exists outs, w. destruct (current w) as [s|]; [|discriminate]. exists s. injection F as F1 F2 F3.
  split; [exact E|]. split; [reflexivity|]. split; [exact F1|]. split; [destruct (cl_list (s_list s)); discriminate|].
  intros k l Hb. unfold bound in Hb. rewrite forallb_forall in F3. apply assoc_key_in in Hb as (k' & Hin).
  apply (F3 (k', l) Hin).
Qed.
