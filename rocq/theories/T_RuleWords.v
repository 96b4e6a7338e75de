(** C13, C50, C53 in the words of the rule: the conversion table of the context is replaced by the rows of the
    rule it was made of. *)
From Verif Require Import Str Keys Modes KanaBuilder FormChanger DictTypes Parser Lru Dictionary CState Context DefaultRule Demo Spec
  P_Monad P_Frames P_Inv T_Input T_Auto T_Exact.
From Verif Require Import T_Frames T_Word.
From Verif Require T_Encoding T_Sentence.
From Coq Require Import Lia.

(* ------------------------------------------------------------- specification *)
(** The context converts by the rule [r], whose rows are for different keys. *)
Definition converts_by (X : xkb) (r : rule) (w : world) : Prop := distinct_keys X r /\ x_kb (w_ctx w) = kb_new X r.
(** A key without Control and the like, not a capital, that has the character [ch]. *)
Definition plain_key (X : xkb) (k : keyev) (ch : N) : Prop := types X k ch /\ ~ (65 <= ksym k <= 90)%N.
(** The keys [u] are a row that no longer row begins with: they convert at once. *)
Definition whole_row (X : xkb) (r : rule) (u : list N) (kana : str) (carry : list N) : Prop :=
  entry X r u kana carry /\ forall x, ~ completable X r (u ++ [x]).

(* -------------------------------------------------------------------- proofs *)
Lemma plain_facts X k ch : plain_key X k ch ->
  is_modifierless_input k = true /\ is_upper k = false /\ is_ascii_inputtable k = true /\ get_symbol_char X k = Some ch.
Proof.
  intros ((Hm & Hr & Hch) & Hu). split; [destruct Hm as [Hm|Hm]; unfold is_modifierless_input; rewrite Hm; reflexivity|].
  split; [|split; [|exact Hch]].
  - unfold is_upper. change KEY_A with 65%N. change KEY_Z with 90%N. destruct (65 <=? ksym k)%N eqn:E; [|reflexivity].
    apply N.leb_le in E. apply N.leb_gt. lia.
  - unfold is_ascii_inputtable. change KEY_space with 32%N. change KEY_asciitilde with 126%N. apply andb_true_intro. split; apply N.leb_le; lia.
Qed.
Lemma no_whole X r u w : converts_by X r w -> (forall kana carry, ~ whole_row X r u kana carry) -> convert_non_partial (x_kb (w_ctx w)) u = None.
Proof.
  intros (Hd & ->) H. destruct (convert_non_partial (kb_new X r) u) as [[kana carry]|] eqn:E; [|reflexivity].
  apply C11_convert_at_once in E; [|exact Hd]. now destruct (H kana carry).
Qed.
Lemma no_forced X r u w : converts_by X r w -> (forall kana carry, ~ entry X r u kana carry) -> convert_greedy (x_kb (w_ctx w)) u = None.
Proof.
  intros (Hd & ->) H. destruct (convert_greedy (kb_new X r) u) as [[kana carry]|] eqn:E; [|reflexivity].
  apply C11_force_convert in E; [|exact Hd]. now destruct (H kana carry).
Qed.
Lemma no_continue X r k u w : converts_by X r w -> ~ completable X r (u ++ [ksym k]) -> can_continue (x_kb (w_ctx w)) k u = false.
Proof. intros (Hd & ->) H. destruct (can_continue _ _ _) eqn:E; [|reflexivity]. apply C11_may_continue in E. contradiction. Qed.
Lemma periods_of ch p c t : convert_periods ch p c = Some t -> punctuation p c ch t.
Proof.
  unfold convert_periods, punctuation. destruct (N.eqb ch 46) eqn:E1.
  - apply N.eqb_eq in E1. intros H. apply T_Encoding.some_inj in H. left. split; [exact E1|]. rewrite <- H. destruct p; reflexivity.
  - destruct (N.eqb ch 44) eqn:E2; [|discriminate]. apply N.eqb_eq in E2. intros H. apply T_Encoding.some_inj in H. right. split; [exact E2|]. rewrite <- H. destruct c; reflexivity.
Qed.

(** C13: the keys that wait are a row of the rule (n); the next key, not a command, makes no row with
    them and has none by itself.  Then their kana is written first, and afterwards the key waits, or its
    character, or the configured comma or period is written. *)
Theorem C13_rule_partial : forall X r dbg k ch w s fr kana, converts_by X r w ->
  frames w = s :: fr -> reading_mode (s_cmode s) -> kana_mode (s_imode s) ->
  entry X r (s_pre s) kana [] -> plain_key X k ch -> unbound (x_cmd (w_ctx w)) (s_cmode s) (s_imode s) k ->
  ~ completable X r (s_pre s ++ [ksym k]) -> (forall kana' carry, ~ whole_row X r [ksym k] kana' carry) ->
  (s_cmode s = PreComposition -> forall t,
     t = [] \/ t = [ch] \/ punctuation (cf_period (x_cfg (w_ctx w))) (cf_comma (x_cfg (w_ctx w))) ch t ->
     no_auto_start (cf_auto (x_cfg (w_ctx w))) (s_raw s ++ kana ++ t)) ->
  exists s1 s2, exec X dbg (OKey k) w = Ok (OutBool true, with_frames (s2 :: fr) w)
    /\ entered (x_kf (w_ctx w)) kana s s1
    /\ (   (s2 = set_pre [ksym k] s1)
        \/ (s_pre s2 = [] /\ s_cmode s1 = Direct /\ s_conf s2 = s_conf s1 ++ [ch])
        \/ (s_pre s2 = [] /\ entered (x_kf (w_ctx w)) [ch] s1 s2)
        \/ (s_pre s2 = [] /\ exists t, punctuation (cf_period (x_cfg (w_ctx w))) (cf_comma (x_cfg (w_ctx w))) ch t
              /\ entered (x_kf (w_ctx w)) t s1 s2)).
Proof.
  intros X r dbg k ch w s fr kana Hb F Hc Hi He Hk Hun Hno Hrow Ha. destruct (plain_facts X k ch Hk) as (K1 & K2 & K3 & K4).
  destruct (C13_pending_not_dropped_partial X dbg k ch w s fr kana F Hc Hi) as (s1 & s2 & E & H1 & H2); auto.
  - destruct Hb as (Hd & ->). now apply C11_force_convert.
  - now apply (no_continue X r).
  - now apply (no_whole X r).
  - intros Em t Ht. apply (Ha Em). destruct Ht as [Ht|[Ht|Ht]]; auto using periods_of.
  - exists s1, s2. split; [exact E|]. split; [exact H1|]. destruct H2 as [H2|[H2|[H2|(H2 & t & H3 & H4)]]]; auto.
    do 3 right. split; [exact H2|]. exists t. split; [now apply periods_of|exact H4].
Qed.
(** ... and if the key is a row by itself (minus, for the long vowel), it acts as if nothing had waited. *)
Theorem C13_rule_dropped_exact : forall X r dbg k ch w s fr kana carry, converts_by X r w ->
  frames w = s :: fr -> reading_mode (s_cmode s) -> kana_mode (s_imode s) ->
  plain_key X k ch -> ch <> 44%N -> ch <> 46%N -> unbound (x_cmd (w_ctx w)) (s_cmode s) (s_imode s) k ->
  ~ completable X r (s_pre s ++ [ksym k]) -> whole_row X r [ksym k] kana carry ->
  exec X dbg (OKey k) w = exec X dbg (OKey k) (with_frames (set_pre [] s :: fr) w).
Proof.
  intros X r dbg k ch w s fr kana carry Hb F Hc Hi Hk H44 H46 Hun Hno Hrow. destruct (plain_facts X k ch Hk) as (K1 & K2 & K3 & K4).
  apply (C13_dropped_exact X dbg k ch w s fr kana carry F Hc Hi); auto.
  - now apply (no_continue X r).
  - destruct Hb as (Hd & ->). now apply C11_convert_at_once.
Qed.
(** C50. *)
Theorem C50_rule : forall X r dbg k ch t w s fr, converts_by X r w -> rows_have_keys X r ->
  frames w = s :: fr -> reading_mode (s_cmode s) -> kana_mode (s_imode s) -> s_pre s = [] -> plain_key X k ch ->
  punctuation (cf_period (x_cfg (w_ctx w))) (cf_comma (x_cfg (w_ctx w))) ch t ->
  unbound (x_cmd (w_ctx w)) (s_cmode s) (s_imode s) k -> (forall kana carry, ~ whole_row X r [ksym k] kana carry) ->
  no_auto_start (cf_auto (x_cfg (w_ctx w))) (s_raw s ++ t) ->
  exists s', exec X dbg (OKey k) w = Ok (OutBool true, with_frames (s' :: fr) w)
    /\ entered (x_kf (w_ctx w)) t s s' /\ s_pre s' = [].
Proof.
  intros X r dbg k ch t w s fr Hb Hrows F Hc Hi Hp Hk Hpt Hun Hrow Ha. destruct (plain_facts X k ch Hk) as (K1 & K2 & K3 & K4).
  apply (C50_punctuation X dbg k ch t w s fr); auto.
  - now apply (no_whole X r).
  - now apply (no_forced X r).
Qed.
(** C53: [k] writes [t] in the reading: it completes a row, or is the configured comma or period. *)
Definition writes (X : xkb) (r : rule) (w : world) (s : cstate) (k : keyev) (t : str) : Prop :=
  exists ch, plain_key X k ch /\
  (whole_row X r (s_pre s ++ [ksym k]) t []
   \/ (s_pre s = [] /\ (forall kana carry, ~ whole_row X r [ksym k] kana carry)
       /\ unbound (x_cmd (w_ctx w)) (s_cmode s) (s_imode s) k
       /\ punctuation (cf_period (x_cfg (w_ctx w))) (cf_comma (x_cfg (w_ctx w))) ch t)).
Theorem C53_rule : forall X r dbg k t body kw w s fr cs, converts_by X r w -> rows_have_keys X r ->
  frames w = s :: fr -> s_cmode s = PreComposition -> kana_mode (s_imode s) -> s_comp s = s_raw s ->
  writes X r w s k t -> s_raw s ++ t = body ++ kw -> first_keyword (cf_auto (x_cfg (w_ctx w))) body kw ->
  get_all_candidates (ctx_dicts w) (mkCK body None) = Ok cs ->
  exists s' l, exec X dbg (OKey k) w = Ok (OutBool true, with_frames l w) /\ converting body kw cs s s' /\
    (cs <> [] -> l = s' :: fr /\ s_cmode s' = CompositionSelection) /\
    (cs = [] -> length (frames w) < 10 -> l = st_new Hiragana Direct :: s' :: fr /\ s_cmode s' = Register).
Proof.
  intros X r dbg k t body kw w s fr cs Hb Hrows F Hc Hi Hraw (ch & Hk & Hw) Et Hkw Hcs. destruct (plain_facts X k ch Hk) as (K1 & K2 & K3 & K4).
  apply (C53_auto_start X dbg k t body kw w s fr cs); auto; [|now apply (no_forced X r)].
  split; [exact K1|]. split; [exact K2|]. destruct Hw as [Hw|(Hp & Hrow & Hun & Hpt)].
  - left. destruct Hb as (Hd & ->). now apply C11_convert_at_once.
  - right. split; [exact Hp|]. split; [now apply (no_whole X r)|]. split; [exact Hun|]. exists ch. auto.
Qed.
Lemma typed_kb dbg ks ds outs w : typed dbg ks (demo ds) = Ok (outs, w) -> x_kb (w_ctx w) = x_kb (w_ctx (demo ds)).
Proof.
  intros H. eapply (run_inv ascii_xkb dbg (fun w => x_stack (w_ctx w) <> [] /\ x_kb (w_ctx w) = x_kb (w_ctx (demo ds)))
     (fun o => changes_rule o = false)); [| | | |exact H].
  - tauto.
  - intros o w1 w2 Ho [N1 N2] Hs. split; [eapply step_nonempty; eauto|].
    destruct Hs as [[(_ & E & _) _ _]|(_ & _ & E)]; [|destruct (E Ho) as [E' _]]; congruence.
  - apply Forall_forall. intros o Ho. apply in_map_iff in Ho as (k & <- & _). reflexivity.
  - split; [discriminate|reflexivity].
Qed.
(** The hypotheses are met: in the shipped rule n waits; k makes no row with it; minus is a row by
    itself, k and the period are none. *)
Example C13_rule_case : exists outs w s, typed true (U "n") (demo []) = Ok (outs, w) /\ frames w = [s]
  /\ converts_by ascii_xkb default_rule (demo []) /\ rows_have_keys ascii_xkb default_rule
  /\ (x_kb (w_ctx w) = x_kb (w_ctx (demo [])) /\ s_cmode s = Direct /\ s_imode s = Hiragana /\ s_pre s = U "n")
  /\ entry ascii_xkb default_rule (U "n") (U "ん") [] /\ ~ completable ascii_xkb default_rule (U "nk")
  /\ plain_key ascii_xkb (mkKey 107 0) 107 /\ unbound (r_command default_rule) Direct Hiragana (mkKey 107 0)
  /\ (forall kana carry, ~ whole_row ascii_xkb default_rule (U "k") kana carry)
  /\ (forall kana carry, ~ whole_row ascii_xkb default_rule (U ".") kana carry)
  /\ whole_row ascii_xkb default_rule (U "-") (U "ー") [].
Proof.
  destruct (run_case (typed true (U "n") (demo [])) (fun w => map (fun s => (s_cmode s, s_imode s, s_pre s)) (frames w))
    [(Direct, Hiragana, U "n")] ltac:(vm_compute; reflexivity)) as (o & w & H1 & H2).
  assert (G : forall l, map (fun s => (s_cmode s, s_imode s, s_pre s)) l = [(Direct, Hiragana, U "n")] ->
    exists s, l = [s] /\ s_cmode s = Direct /\ s_imode s = Hiragana /\ s_pre s = U "n").
  { intros [|s [|]] Hl; try discriminate Hl. cbn [map] in Hl. exists s. split; [reflexivity|].
    apply (f_equal (fun l => match l with x :: _ => x | [] => (Direct, Hiragana, []) end)) in Hl.
    split; [exact (f_equal (fun x => fst (fst x)) Hl)|split; [exact (f_equal (fun x => snd (fst x)) Hl)|exact (f_equal snd Hl)]]. }
  destruct (G _ H2) as (s & Es & Ec & Ei & Ep).
  assert (Hd : distinct_keys ascii_xkb default_rule) by (apply nodupb_spec; vm_compute; reflexivity).
  assert (Hn : forall u, completable_b ascii_xkb default_rule u = false -> forall kana carry, ~ entry ascii_xkb default_rule u kana carry).
  { intros u Hu kana carry (k0 & cy & Hin & E & _). apply (completable_b_spec _ _ _ Hu). exists k0, (cy, kana). split; [exact Hin|]. exists []. rewrite app_nil_r. exact E. }
  exists o, w, s. split; [exact H1|]. split; [exact Es|]. split; [split; [exact Hd|reflexivity]|].
  split; [exact T_Sentence.default_rows_have_keys|].
  split; [split; [exact (typed_kb _ _ _ _ _ H1)|auto]|].
  split; [apply entry_of_spec; vm_compute; reflexivity|]. split; [apply completable_b_spec; vm_compute; reflexivity|].
  split. { split; [split; [now left|split; [cbn; lia|reflexivity]]|cbn; lia]. }
  split; [apply unbound_b_spec; vm_compute; reflexivity|].
  split. { intros kana carry (He & _). destruct He as (k0 & cy & Hin & E & _).
    assert (B : forallb (fun e : str * (str * str) => negb (str_eqb (keysyms_from_str ascii_xkb (fst e)) (U "k"))) (r_conversion default_rule) = true) by (vm_compute; reflexivity).
    rewrite forallb_forall in B. specialize (B _ Hin). apply negb_true_iff in B. cbn [fst] in B. rewrite E, str_eqb_refl in B. discriminate B. }
  split; [intros kana carry (He & _); revert He; apply Hn; vm_compute; reflexivity|].
  split; [apply entry_of_spec; vm_compute; reflexivity|]. apply next_of_none. vm_compute. reflexivity.
Qed.
