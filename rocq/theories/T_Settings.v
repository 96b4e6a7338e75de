(** C84: the settings of a context act only where they say. *)
From Verif Require Import Str Keys Modes KanaBuilder FormChanger DictTypes Parser Lru Dictionary
  CState Context DefaultRule Demo Spec P_SameCfg.
From Verif Require T_Encoding.

(* ------------------------------------------------------------ vocabulary *)
(** The same context over the same dictionaries with other settings. *)
Definition with_settings (c : config) (w : world) : world :=
  mkW (w_store w) (mkCtx (x_stack (w_ctx w)) (x_cmd (w_ctx w)) (x_kb (w_ctx w)) (x_kf (w_ctx w)) (x_am (w_ctx w)) (x_dicts (w_ctx w)) c).
(** The two runs give the same answers and end with the same dictionaries, the same states, the same preedit and
    the same prediction for every key. *)
Definition indistinguishable (X : xkb) (dbg : bool) (r r' : res (list out * world)) : Prop :=
  match r, r' with
  | Ok (answers, w), Ok (answers', w') =>
      answers = answers' /\ w_store w = w_store w' /\ frames w = frames w'
      /\ get_preedit X (w_ctx w) = get_preedit X (w_ctx w') /\ get_preedit_detail X (w_ctx w) = get_preedit_detail X (w_ctx w')
      /\ forall k, will_process dbg k w = will_process dbg k w'
  | Panic e, Panic e' => e = e'
  | _, _ => False
  end.
(** The key types the character. *)
Definition key_of (X : xkb) (ch : N) (k : keyev) : Prop := get_symbol_char X k = Some ch.
(** The same calls, but for the period style being set; no key for a period. *)
Definition but_period (X : xkb) (o o' : op) : Prop :=
  match o, o' with
  | OSetPeriod _, OSetPeriod _ => True
  | OKey k, OKey k' => k = k' /\ ~ key_of X 46 k
  | _, _ => o = o'
  end.
Definition but_comma (X : xkb) (o o' : op) : Prop :=
  match o, o' with
  | OSetComma _, OSetComma _ => True
  | OKey k, OKey k' => k = k' /\ ~ key_of X 44 k
  | _, _ => o = o'
  end.
Definition but_styles (X : xkb) (o o' : op) : Prop :=
  match o, o' with
  | OSetComma _, OSetComma _ | OSetPeriod _, OSetPeriod _ => True
  | OKey k, OKey k' => k = k' /\ ~ key_of X 44 k /\ ~ key_of X 46 k
  | _, _ => o = o'
  end.
(** Two lists of keywords with the same keywords, none of which ends another one. *)
Definition same_keywords (l l' : list str) : Prop :=
  (forall k, In k l <-> In k l') /\ forall k k' t, In k l -> In k' l -> k = t ++ k' -> k = k'.
Definition but_keywords (o o' : op) : Prop :=
  match o, o' with
  | OSetAutoStart l, OSetAutoStart l' => same_keywords l l'
  | _, _ => o = o'
  end.

(* ------------------------------------------------------------ proofs *)
Lemma like_indistinguishable pd cm X dbg c' w ops ops' : cfg_like pd cm (x_cfg (w_ctx w)) c' -> Forall2 (op_like pd cm X) ops ops' ->
  indistinguishable X dbg (run X dbg ops w) (run X dbg ops' (with_settings c' w)).
Proof.
  intros Hc Ho.
  assert (S0 : same_w pd cm w (with_settings c' w)).
  { split; [reflexivity|]. unfold ctx_like, with_settings. cbn [w_ctx x_stack x_cmd x_kb x_kf x_am x_dicts x_cfg]. repeat split; apply Hc. }
  pose proof (sim_run pd cm X dbg ops ops' Ho _ _ S0) as G. unfold rel in G. unfold indistinguishable.
  destruct (run X dbg ops _) as [[a v]|e], (run X dbg ops' _) as [[a' v']|e']; try contradiction; [|exact G].
  destruct G as [<- G]. pose proof G as (Es & E1 & E2 & E3 & E4 & E5 & E6 & E7).
  split; [reflexivity|]. split; [exact Es|]. split; [exact E1|].
  split; [unfold get_preedit; now rewrite E1, E4|]. split; [unfold get_preedit_detail; now rewrite E1, E4|].
  intros k. unfold will_process. now rewrite E1, E2, E3.
Qed.
Lemma same_keywords_matching l l' : same_keywords l l' -> forall t, matching_keyword l t = matching_keyword l' t.
Proof.
  intros [Hi Hn] t. unfold matching_keyword. set (f := fun w => negb (str_eqb t w) && is_suffixb w t).
  assert (U : forall k k', In k l -> In k' l -> f k = true -> f k' = true -> k = k').
  { intros k k' H1 H2 F1 F2. apply andb_prop in F1 as [_ F1]. apply andb_prop in F2 as [_ F2].
    apply is_suffixb_spec in F1 as (a & E1). apply is_suffixb_spec in F2 as (b & E2). rewrite E1 in E2.
    destruct (Nat.le_ge_cases (length a) (length b)) as [Hl|Hl].
    - assert (exists c, b = a ++ c /\ k = c ++ k') as (c & _ & Hk).
      { clear -E2 Hl. revert b E2 Hl. induction a as [|x a IH]; intros b E Hl; [exists b; auto|].
        destruct b as [|y b]; [cbn in Hl; lia|]. cbn in E. injection E as -> E. destruct (IH b E) as (c & -> & Hc); [cbn in Hl; lia|]. exists c. auto. }
      now apply (Hn k k' c).
    - symmetry. assert (exists c, a = b ++ c /\ k' = c ++ k) as (c & _ & Hk).
      { symmetry in E2. clear -E2 Hl. revert a E2 Hl. induction b as [|x b IH]; intros a E Hl; [exists a; auto|].
        destruct a as [|y a]; [cbn in Hl; lia|]. cbn in E. injection E as -> E. destruct (IH a E) as (c & -> & Hc); [cbn in Hl; lia|]. exists c. auto. }
      now apply (Hn k' k c). }
  destruct (find f l) as [k|] eqn:E1, (find f l') as [k'|] eqn:E2; try reflexivity.
  - apply find_some in E1 as [A1 A2]. apply find_some in E2 as [B1 B2]. apply Hi in B1. f_equal. now apply U.
  - exfalso. apply find_some in E1 as [A1 A2]. apply Hi in A1. pose proof (find_none _ _ E2 _ A1). congruence.
  - exfalso. apply find_some in E2 as [A1 A2]. apply Hi in A1. pose proof (find_none _ _ E1 _ A1). congruence.
Qed.
Ltac settings H := induction H as [|o o' ops ops' Ho Hops IH]; constructor; [|exact IH];
  destruct o, o'; cbn in Ho |- *; try discriminate Ho; try exact Ho; try (intros; discriminate); try (injection Ho as ->); try (intros; reflexivity).

(** While no period is typed, the period style makes no difference, whenever it is set. *)
Theorem C84_period : forall X dbg p' w ops ops', Forall2 (but_period X) ops ops' ->
  indistinguishable X dbg (run X dbg ops w)
    (run X dbg ops' (with_settings (mkConfig (cf_auto (x_cfg (w_ctx w))) p' (cf_comma (x_cfg (w_ctx w)))) w)).
Proof.
  intros X dbg p' w ops ops' H. apply (like_indistinguishable true false).
  - repeat split; cbn; auto; discriminate.
  - settings H. destruct Ho as [<- Ho]. split; [reflexivity|]. intros ch E. split; [|discriminate]. intros _ ->. now apply Ho.
Qed.
(** While no comma is typed, the comma style makes no difference. *)
Theorem C84_comma : forall X dbg p' w ops ops', Forall2 (but_comma X) ops ops' ->
  indistinguishable X dbg (run X dbg ops w)
    (run X dbg ops' (with_settings (mkConfig (cf_auto (x_cfg (w_ctx w))) (cf_period (x_cfg (w_ctx w))) p') w)).
Proof.
  intros X dbg p' w ops ops' H. apply (like_indistinguishable false true).
  - repeat split; cbn; auto; discriminate.
  - settings H. destruct Ho as [<- Ho]. split; [reflexivity|]. intros ch E. split; [discriminate|]. intros _ ->. now apply Ho.
Qed.
Theorem C84_styles : forall X dbg p' c' w ops ops', Forall2 (but_styles X) ops ops' ->
  indistinguishable X dbg (run X dbg ops w) (run X dbg ops' (with_settings (mkConfig (cf_auto (x_cfg (w_ctx w))) p' c') w)).
Proof.
  intros X dbg p' c' w ops ops' H. apply (like_indistinguishable true true).
  - repeat split; cbn; auto; discriminate.
  - settings H. destruct Ho as (<- & Ho1 & Ho2). split; [reflexivity|]. intros ch E. split; intros _ ->; auto.
Qed.
(** The order of the auto-start keywords, and whether one is given twice, makes no difference, when none of
    them ends another one. *)
Theorem C84_keywords : forall X dbg l' w ops ops', same_keywords (cf_auto (x_cfg (w_ctx w))) l' -> Forall2 but_keywords ops ops' ->
  indistinguishable X dbg (run X dbg ops w)
    (run X dbg ops' (with_settings (mkConfig l' (cf_period (x_cfg (w_ctx w))) (cf_comma (x_cfg (w_ctx w)))) w)).
Proof.
  intros X dbg l' w ops ops' Hk H. apply (like_indistinguishable false false).
  - repeat split; cbn; auto. now apply same_keywords_matching.
  - settings H.
    + split; [reflexivity|]. intros ch _. split; discriminate.
    + now apply same_keywords_matching.
Qed.
(** Changing a setting shows nothing and touches nothing, whatever is being typed. *)
Theorem C84_now : forall X dbg w o, match o with OSetPeriod _ | OSetComma _ | OSetAutoStart _ => True | _ => False end ->
  exists w', exec X dbg o w = Ok (OutUnit, w') /\ indistinguishable X dbg (Ok ([], w)) (Ok ([], w'))
    /\ (forall p, o = OSetPeriod p -> w' = with_settings (mkConfig (cf_auto (x_cfg (w_ctx w))) p (cf_comma (x_cfg (w_ctx w)))) w)
    /\ (forall p, o = OSetComma p -> w' = with_settings (mkConfig (cf_auto (x_cfg (w_ctx w))) (cf_period (x_cfg (w_ctx w))) p) w)
    /\ (forall l, o = OSetAutoStart l -> w' = with_settings (mkConfig l (cf_period (x_cfg (w_ctx w))) (cf_comma (x_cfg (w_ctx w)))) w).
Proof.
  intros X dbg w o Ho. destruct o; try contradiction; cbn [exec]; eexists; (split; [reflexivity|]);
    (split; [repeat split|]); (split; [|split]); intros ? E; try discriminate; injection E as <-; reflexivity.
Qed.

(* ------------------------------------------------------------ cases *)
(** Typing a word, converting and registering, with the one and with the other style, changed in between. *)
Lemma keys_but_styles X l : forallb (fun k => match get_symbol_char X k with Some ch => negb (N.eqb ch 44) && negb (N.eqb ch 46) | None => true end) l = true ->
  Forall2 (but_styles X) (map OKey l) (map OKey l).
Proof.
  induction l as [|k l IH]; cbn [map forallb]; intros H; constructor; apply andb_prop in H as [H1 H2]; [|now apply IH].
  cbn. split; [reflexivity|]. unfold key_of. destruct (get_symbol_char X k) as [ch|]; [|split; discriminate].
  apply andb_prop in H1 as [H3 H4]. apply negb_true_iff, N.eqb_neq in H3, H4. split; intros E; apply T_Encoding.some_inj in E; auto.
Qed.
Example C84_case : forall ds, indistinguishable ascii_xkb false
  (typed false (U "k y o K a space a Return l b") (demo ds))
  (typed false (U "k y o K a space a Return l b") (with_settings (mkConfig (cf_auto (x_cfg (demo_ctx []))) PeriodEn CommaEn) (demo ds))).
Proof.
  intros ds. apply (C84_styles ascii_xkb false PeriodEn CommaEn (demo ds)). apply keys_but_styles. vm_compute. reflexivity.
Qed.
(** The period does tell the styles apart. *)
Example C84_period_seen : exists a w a' w',
  typed false (U "period") (demo []) = Ok (a, w)
  /\ typed false (U "period") (with_settings (mkConfig [] PeriodEn CommaJa) (demo [])) = Ok (a', w')
  /\ confirmed_text w = U "。" /\ confirmed_text w' = U "．".
Proof.
  destruct (run_case (typed false (U "period") (demo [])) confirmed_text (U "。")) as (a & w & E & F); [vm_compute; reflexivity|].
  destruct (run_case (typed false (U "period") (with_settings (mkConfig [] PeriodEn CommaJa) (demo []))) confirmed_text (U "．")) as (a' & w' & E' & F'); [vm_compute; reflexivity|].
  exists a, w, a', w'. auto.
Qed.
(** The keywords of the default configuration end none of each other. *)
Definition no_endings (l : list str) : bool :=
  forallb (fun k => forallb (fun k' => negb (is_suffixb k' k) || str_eqb k k') l) l.
Lemma no_endings_spec l l' : no_endings l = true -> (forall k, In k l <-> In k l') -> same_keywords l l'.
Proof.
  intros H Hi. split; [exact Hi|]. intros k k' t Hk Hk' E. unfold no_endings in H. rewrite forallb_forall in H. specialize (H k Hk).
  rewrite forallb_forall in H. specialize (H k' Hk'). apply Bool.orb_prop in H as [H|H]; [|now apply str_eqb_eq].
  apply negb_true_iff in H. assert (is_suffixb k' k = true); [|congruence]. apply is_suffixb_spec. eauto.
Qed.
Example C84_default_keywords : same_keywords (cf_auto (x_cfg (demo_ctx []))) (rev (cf_auto (x_cfg (demo_ctx [])))).
Proof. apply no_endings_spec; [vm_compute; reflexivity|]. intros k. apply in_rev. Qed.
(** When one keyword ends another, the first in the list counts: the reading converted is another one. *)
Definition keywords_1 : list str := [U "。"; U "い。"].
Definition reading_asked (w : world) : option str := match frames w with _ :: s :: _ => Some (ck_to (cl_key (s_list s))) | _ => None end.
Example C84_order_seen : exists a w a' w',
  typed false (U "A i period") (with_settings (mkConfig keywords_1 PeriodJa CommaJa) (demo [])) = Ok (a, w)
  /\ typed false (U "A i period") (with_settings (mkConfig (rev keywords_1) PeriodJa CommaJa) (demo [])) = Ok (a', w')
  /\ reading_asked w = Some (U "あい") /\ reading_asked w' = Some (U "あ").
Proof.
  destruct (run_case (typed false (U "A i period") (with_settings (mkConfig keywords_1 PeriodJa CommaJa) (demo []))) reading_asked (Some (U "あい")))
    as (a & w & E & F); [vm_compute; reflexivity|].
  destruct (run_case (typed false (U "A i period") (with_settings (mkConfig (rev keywords_1) PeriodJa CommaJa) (demo []))) reading_asked (Some (U "あ")))
    as (a' & w' & E' & F'); [vm_compute; reflexivity|].
  exists a, w, a', w'. auto.
Qed.
