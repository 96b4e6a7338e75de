(** C80: every process behaves the same, although the rows of a rule are read in an order that differs
    from one process to the next (HashMap, rule.rs:11, 80-91; kana_builder.rs:166-177). *)
From Coq Require Import Permutation.
From Verif Require Import Str Keys Modes KanaBuilder FormChanger DictTypes Parser Lru Dictionary
  CState Context DefaultRule Demo Spec P_Kana T_Shipped P_SameRule.
From Verif Require T_Frames.

(** The same rule as another process reads it: the same rows in some other order. *)
Definition reordered (r r' : rule) : Prop :=
  Permutation (r_conversion r) (r_conversion r') /\ forall c i, Permutation (r_command r c i) (r_command r' c i).
(** No two rows are for the same keys. *)
Definition one_meaning (X : xkb) (r : rule) : Prop :=
  T_Frames.distinct_keys X r /\ forall c i, NoDup (map fst (r_command r c i)).
(** The same call, as another process makes it. *)
Definition same_call (X : xkb) (o o' : op) : Prop :=
  match o, o' with
  | OSetRule r, OSetRule r' => one_meaning X r /\ reordered r r'
  | OSetRule _, _ | _, OSetRule _ => False
  | _, _ => o = o'
  end.

Lemma assoc_key_in {A} k v : forall l : list (keyev * A), NoDup (map fst l) -> assoc_key k l = Some v <-> In (k, v) l.
Proof.
  induction l as [|[k' v'] l IH]; intros H; cbn in *; [split; [discriminate|tauto]|].
  inversion H as [|? ? Hn Hl]; subst. destruct (key_eqb k k') eqn:E.
  - apply key_eqb_eq in E as ->. split; [intros [= ->]; now left|]. intros [[= ->]|Hin]; [reflexivity|].
    exfalso. apply Hn. apply (in_map fst) in Hin. exact Hin.
  - rewrite (IH Hl). split; [now right|]. intros [[= -> ->]|Hin]; [|exact Hin].
    assert (key_eqb k k = true) by now apply key_eqb_eq. congruence.
Qed.
Lemma reordered_cmd X r r' : one_meaning X r -> reordered r r' -> cmd_same (r_command r) (r_command r').
Proof.
  intros [_ Hn] [_ P] c i k. apply some_ext. intros v. rewrite !assoc_key_in.
  - split; apply Permutation_in; [apply P|symmetry; apply P].
  - apply (Permutation_NoDup (Permutation_map fst (P c i)) (Hn c i)).
  - apply Hn.
Qed.
Lemma reordered_kb X r r' : one_meaning X r -> reordered r r' -> kb_same (kb_new X r) (kb_new X r').
Proof.
  intros [Hd _] [P _]. apply same_rows; [exact Hd|now apply (perm_distinct X r)|].
  intros e. split; apply Permutation_in; [exact P|now symmetry].
Qed.
Lemma same_calls X ops ops' : Forall2 (same_call X) ops ops' -> Forall2 (op_same X) ops ops'.
Proof.
  induction 1 as [|o o' ops ops' H Hs IH]; constructor; [|exact IH].
  destruct o, o'; cbn in *; try exact H. destruct H as [H1 H2]. split; [now apply (reordered_cmd X)|now apply reordered_kb].
Qed.

(** Two processes that make the same calls get the same answers, show the same text, learn the same words, and
    predict the same keys: whichever order each of them reads the rows of its rules in. *)
Theorem C80_same : forall X dbg r r' kf am ds i c st ops ops',
  one_meaning X r -> reordered r r' -> Forall2 (same_call X) ops ops' ->
  match run X dbg ops (mkW st (ctx_new X r kf am ds i c)), run X dbg ops' (mkW st (ctx_new X r' kf am ds i c)) with
  | Ok (answers, w), Ok (answers', w') =>
      answers = answers' /\ w_store w = w_store w' /\ frames w = frames w'
      /\ get_preedit X (w_ctx w) = get_preedit X (w_ctx w') /\ get_preedit_detail X (w_ctx w) = get_preedit_detail X (w_ctx w')
      /\ forall k, will_process dbg k w = will_process dbg k w'
  | Panic e, Panic e' => e = e'
  | _, _ => False
  end.
Proof.
  intros X dbg r r' kf am ds i c st ops ops' H1 H2 H3.
  assert (S0 : same_w (mkW st (ctx_new X r kf am ds i c)) (mkW st (ctx_new X r' kf am ds i c))).
  { split; [reflexivity|]. unfold ctx_same; cbn. pose proof (reordered_cmd _ _ _ H1 H2). pose proof (reordered_kb _ _ _ H1 H2). tauto. }
  pose proof (sim_run X dbg ops ops' (same_calls _ _ _ H3) _ _ S0) as G. unfold rel in G.
  destruct (run X dbg ops _) as [[a w]|e], (run X dbg ops' _) as [[a' w']|e']; try contradiction; [|exact G].
  destruct G as [<- G]. pose proof G as (Es & E1 & E2 & E3 & E4 & E5 & E6 & E7).
  split; [reflexivity|]. split; [exact Es|]. split; [exact E1|].
  split; [unfold get_preedit; now rewrite E1, E4|]. split; [unfold get_preedit_detail; now rewrite E1, E4|].
  intros k. unfold will_process. rewrite E1. destruct (x_stack (w_ctx w')); [reflexivity|].
  now rewrite !(ks_cc _ _ E3), (cs_get dbg _ _ E2).
Qed.

(** The shipped rules have no two rows for the same keys. *)
Definition keys_nodup_b (l : list keyev) : bool :=
  (fix go l := match l with [] => true | k :: r => negb (existsb (key_eqb k) r) && go r end) l.
Lemma keys_nodup_spec l : keys_nodup_b l = true -> NoDup l.
Proof.
  induction l as [|k l IH]; cbn; intros H; constructor; apply andb_true_iff in H as [H1 H2]; [|now apply IH].
  intros Hin. apply negb_true_iff in H1. assert (existsb (key_eqb k) l = true); [|congruence].
  apply existsb_exists. exists k. split; [exact Hin|now apply key_eqb_eq].
Qed.
Lemma shipped_tables : forall r, shipped r -> forall c i, NoDup (map fst (r_command r c i)).
Proof.
  intros r Hr c i. apply keys_nodup_spec. destruct Hr as [-> | ->]; destruct c, i; vm_compute; reflexivity.
Qed.
Theorem C80_shipped : forall r, shipped r -> one_meaning ascii_xkb r.
Proof.
  intros r Hr. split; [|now apply shipped_tables].
  now pose proof (C62_shipped_rules r Hr) as (_ & _ & _ & _ & _ & _ & _ & _ & H & _).
Qed.

(** Without that condition a rule has no fixed meaning: of two rows for the same keys the one read last is the one that
    counts. *)
Theorem C80_two_rows : forall X rows cmd e1 e2, keyseq X e1 = keyseq X e2 ->
  convert_greedy (kb_new X (mkRule (rows ++ [e1; e2]) cmd)) (keyseq X e1) = Some (val X e2)
  /\ convert_greedy (kb_new X (mkRule (rows ++ [e2; e1]) cmd)) (keyseq X e1) = Some (val X e1).
Proof.
  intros X rows cmd e1 e2 E. unfold kb_new, converter_from_map, convert_greedy. cbn [r_conversion].
  rewrite !converter_fold, !fold_left_app. cbn [fold_left]. rewrite !tget_insert, <- E, !str_eqb_refl. split; reflexivity.
Qed.
(** Such rows can be written: the keys of a row may be separated by spaces. The same key then types another kana in another
    process. *)
Definition two_rows : rule := mkRule [(U "a", ([], U "あ")); (U "a ", ([], U "い"))] (r_command default_rule).
Definition two_rows' : rule := mkRule (rev (r_conversion two_rows)) (r_command default_rule).
Definition types_a (r : rule) : option (str * option str * cmode) :=
  seen (typed false (U "a") (mkW [] (ctx_new ascii_xkb r default_kana_form default_ascii_map [] Hiragana Direct))).
Theorem C80_two_rows_seen : reordered two_rows two_rows' /\ types_a two_rows = Some (U "い", Some (U "い"), Direct) /\ types_a two_rows' = Some (U "あ", Some (U "あ"), Direct).
Proof.
  split; [split; [apply Permutation_rev|reflexivity]|]. split; vm_compute; reflexivity.
Qed.
(** A case: the default rule read backwards, and a program of calls that installs the other shipped rule, backwards too. *)
Definition backwards (r : rule) : rule := mkRule (rev (r_conversion r)) (fun c i => rev (r_command r c i)).
Lemma backwards_reordered r : reordered r (backwards r).
Proof. split; [apply Permutation_rev|intros; apply Permutation_rev]. Qed.
Example C80_case : forall dbg st kf am ds i c keys,
  match run ascii_xkb dbg (OSetRule azik_rule :: map OKey keys) (mkW st (ctx_new ascii_xkb default_rule kf am ds i c)),
        run ascii_xkb dbg (OSetRule (backwards azik_rule) :: map OKey keys) (mkW st (ctx_new ascii_xkb (backwards default_rule) kf am ds i c)) with
  | Ok (a, w), Ok (a', w') => a = a' /\ frames w = frames w'
  | Panic e, Panic e' => e = e'
  | _, _ => False
  end.
Proof.
  intros dbg st kf am ds i c keys.
  assert (F : Forall2 (same_call ascii_xkb) (OSetRule azik_rule :: map OKey keys) (OSetRule (backwards azik_rule) :: map OKey keys)).
  { constructor; [split; [apply C80_shipped; now right|apply backwards_reordered]|]. induction keys; constructor; [reflexivity|assumption]. }
  pose proof (C80_same ascii_xkb dbg _ _ kf am ds i c st _ _ (C80_shipped _ (or_introl eq_refl)) (backwards_reordered _) F) as G.
  destruct (run ascii_xkb dbg (OSetRule azik_rule :: _) _) as [[a w]|e], (run ascii_xkb dbg (OSetRule (backwards azik_rule) :: _) _) as [[a' w']|e'];
    try contradiction; [|exact G]. destruct G as (-> & _ & -> & _). now split.
Qed.
