(** C82: a new word starts empty: no text of an earlier word comes back. *)
From Verif Require Import Str Keys Modes KanaBuilder FormChanger DictTypes Parser Lru
  Dictionary CState Context DefaultRule Demo Spec P_Monad P_Frames P_Inv P_Keeps P_Register P_Fresh.
From Verif Require T_Shipped T_Encoding.

(* ------------------------------------------------------------ vocabulary *)
(** Nothing is left of an earlier word: no reading, no okurigana, no candidates. *)
Definition nothing_left (s : cstate) : Prop :=
  s_comp s = [] /\ s_raw s = [] /\ s_okuri s = [] /\ candidate_count s = 0%N.
(** Everything the frame keeps is displayed: without an open word nothing is kept; while a reading is typed no
    okurigana and no candidates are; candidates are kept while they are shown, together with the reading they
    were looked up for, or there is nothing at all. *)
Definition all_displayed (s : cstate) : Prop :=
  match s_cmode s with
  | Direct => nothing_left s
  | PreComposition | Abbreviation => s_okuri s = [] /\ candidate_count s = 0%N
  | PreCompositionOkurigana => candidate_count s = 0%N
  | CompositionSelection | Completion => cl_current (s_list s) <> None \/ nothing_left s
  | Register => False
  end.
(** The commands a rule binds in a mode: only an empty frame changes its mode by hand or is aborted out of a
    reading, and what converts or aborts is the last command of its list. *)
Definition tidy_rule (cr : command_rule) : Prop :=
  forall c i k l, In (k, l) (cr c i) -> l = [IConfirmDirect] \/ tidy_list c false false l = true.
(** The frame waits for a registration that was opened from the reading itself, with a keyword kept aside. *)
Definition keyword_aside (s : cstate) : Prop :=
  s_okuri s <> [] /\ (last_opt (s_hist s) = Some PreComposition \/ last_opt (s_hist s) = Some Abbreviation).
(** What the user avoids: giving up a registration opened by a keyword, registering a word with a number sign,
    and typing keywords in the tenth frame. *)
Definition considerate_key (k : keyev) (w : world) : Prop :=
  (length (frames w) < 10 \/ cf_auto (x_cfg (w_ctx w)) = [])
  /\ forall s r l, frames w = s :: r -> bound (x_cmd (w_ctx w)) (s_cmode s) (s_imode s) k l ->
       (In IConfirmDirect l -> ~ In 35%N (s_conf s))
       /\ forall o r', r = o :: r' -> (In IAbort l /\ s_cmode s = Direct) \/ (In IConfirmDirect l /\ s_conf s = []) -> ~ keyword_aside o.
(** Calls considered: keys, polling, selecting and confirming by index, changing the input mode, the configuration,
    the dictionaries or to another such rule; a reset while no registration is open; entering a mode by hand
    where no word is open. *)
Definition considerate_op (o : op) (w : world) : Prop :=
  match o with
  | OKey k => considerate_key k w
  | OReset => length (frames w) = 1
  | OSetCompositionMode c => c <> Register /\ forall s, current w = Some s -> s_cmode s = Direct
  | OSelectAt _ => forall s, current w = Some s -> s_cmode s = CompositionSelection \/ s_cmode s = Completion
  | OSetRule r => tidy_rule (r_command r)
  | _ => True
  end.
Fixpoint considerate (X : xkb) (dbg : bool) (ops : list op) (w : world) : Prop :=
  match ops with
  | [] => True
  | o :: r => considerate_op o w
              /\ match exec X dbg o w with Ok (_, w') => considerate X dbg r w' | Panic _ => True end
  end.

(* ------------------------------------------------------------ proofs *)
Definition good (w : world) : Prop := W K w /\ tidy_rule (x_cmd (w_ctx w)).
Lemma K_displayed s : K s -> all_displayed s.
Proof.
  intros [B H]. pose proof (raw_nil s B) as Hr. unfold all_displayed, nothing_left, candidate_count, blank, no_list, by_mode, listed, blank, no_list in *.
  assert (L : cl_list (s_list s) = [] -> N.of_nat (length (cl_list (s_list s))) = 0%N) by (intros ->; reflexivity).
  destruct (s_cmode s); try tauto.
  all: destruct H as [[H|H] [[H1 H2]|[H3 H4]]]; auto; unfold P_Select.has_current in *; auto.
  all: right; auto.
Qed.
Lemma fits k w : tidy_rule (x_cmd (w_ctx w)) -> considerate_key k w -> key_fits k w.
Proof.
  intros Ht [_ Hc] s r l Hs Hb. destruct (Hc s r l Hs Hb) as [C1 C2]. pose proof Hb as Hb'. unfold bound in Hb'. apply assoc_key_in in Hb' as (k' & Hin).
  assert (F : forall P, (forall o r', r = o :: r' -> P -> ~ keyword_aside o) -> P -> outer_free r).
  { intros P HP p. destruct r as [|o r']; [exact I|]. exact (HP o r' eq_refl p). }
  split; [|split].
  - unfold list_fits. destruct (Ht _ _ _ _ Hin) as [-> | ->]; [apply orb_true_r|reflexivity].
  - intros Ha Hm. eapply F; [exact C2|]. left; auto.
  - intros Ha. split; [now apply C1|]. intros Hn. eapply F; [exact C2|]. right; auto.
Qed.
Lemma exec_K X dbg o w : good w -> considerate_op o w -> wp any_panic (exec X dbg o) (fun _ => W K) w.
Proof.
  intros [Hw Ht] Hc. destruct o; cbn [exec considerate_op] in *; try exact Hw.
  - destruct Hc as [Hr Hc]. apply wp_bind. eapply wp_mono; [apply key_fresh; [exact Hw|exact Hr|apply fits; [exact Ht|split; assumption]]|]. intros ? w1 H1; exact H1.
  - destruct Hw as (s & r & H1 & H2 & H3). apply wp_bind. unfold wp, poll_output. rewrite H1.
    destruct (rev (s :: r)) as [|t inner] eqn:Er; [exact I|]. destruct (is_nil (s_conf t)); [exists s, r; auto|].
    cbn. assert (Es : s :: r = rev inner ++ [t]) by (rewrite <- (rev_involutive (s :: r)), Er; reflexivity).
    destruct (rev inner) as [|s' r'].
    + injection Es as -> ->. exists (flush_confirmed t), []. split; [reflexivity|]. split; [exact H2|constructor].
    + injection Es as <- ->. exists s, (r' ++ [flush_confirmed t]). split; [reflexivity|]. split; [exact H2|].
      apply Forall_app in H3 as [G1 G2]. apply Forall_app. split; [exact G1|]. inversion G2; subst. constructor; [assumption|constructor].
  - destruct Hw as (s & r & H1 & H2 & H3). unfold frames in Hc. rewrite H1 in Hc. destruct r; [|discriminate]. apply wp_bind. unfold wp, reset_state_stack. rewrite H1. cbn.
    exists (clear_all s), []. split; [reflexivity|]. split; [|constructor]. apply E_K, E_clear_all; [apply H2|now apply K_not_register].
  - destruct Hc as [Hc1 Hc2]. destruct Hw as (s & r & H1 & H2 & H3). assert (Hm : s_cmode s = Direct) by (apply Hc2; unfold current; rewrite H1; reflexivity).
    apply wp_bind. eapply wp_mono; [apply (q_modcurW (fun s' => s' = s) K); [|exists s, r; auto]|intros ? w1 G; exact G].
    intros s' ->. apply E_K, E_change; [exact Hc1|]. now apply K_E.
  - apply wp_bind. eapply wp_mono; [apply (q_modcurW K K (set_imode i)); [intros s; now apply K_eq|exact Hw]|]. intros ? w1 H1; exact H1.
  - destruct Hw as (s & r & H1 & H2 & H3). assert (Hm : s_cmode s = CompositionSelection \/ s_cmode s = Completion) by (apply Hc; unfold current; rewrite H1; reflexivity).
    assert (Hl : listed (s_hist s) s) by (destruct H2 as [_ H2]; destruct Hm as [Hm|Hm]; rewrite Hm in H2; exact H2).
    apply wp_bind. unfold select_candidate_at. apply wp_bind, wp_cur; [|congruence]. intros s0 r0 H0. rewrite H1 in H0. injection H0 as <- <-. cbn zeta.
    destruct (N.eqb_spec (cl_len (s_list s)) 0) as [En|En]; [exists s, r; auto|].
    assert (P : forall j, (j < cl_len (s_list s))%N -> snd (set_candidate_pointer j s) = set_list (mkCL (cl_key (s_list s)) j (cl_list (s_list s))) s
      /\ P_Select.has_current (set_list (mkCL (cl_key (s_list s)) j (cl_list (s_list s))) s)).
    { intros j Hj. unfold set_candidate_pointer, cl_set_pointer. destruct (N.ltb_spec j (cl_len (s_list s))); [|lia]. split; [reflexivity|].
      unfold P_Select.has_current, cl_current. cbn. apply nth_error_Some. unfold cl_len in Hj. lia. }
    assert (Hh : blank s \/ backable (s_hist s)) by (destruct Hl as [_ [Hl|[_ Hl]]]; auto).
    assert (Pk : forall j, (j < cl_len (s_list s))%N -> K (snd (set_candidate_pointer j s))).
    { intros j Hj. destruct (P j Hj) as [-> Hcur]. destruct H2 as [B H2]. split; [exact B|]. cbn [set_list s_cmode s_hist].
      assert (G : listed (s_hist s) (set_list (mkCL (cl_key (s_list s)) j (cl_list (s_list s))) s)).
      { split; [now left|]. destruct Hh as [Hh|Hh]; [left; exact Hh|right; auto]. }
      destruct Hm as [-> | ->]; exact G. }
    apply wp_bind. destruct (i <? 0)%Z.
    + apply wp_bind. eapply wp_mono; [apply (q_modcurW (fun s' => s' = s) (fun s' => s' = clear_candidate_list (consolidate s))); [intros s' ->; reflexivity|exists s, r; auto]|].
      intros ? w1 Hw1. eapply wp_mono; [apply (q_modcurW (fun s' => s' = clear_candidate_list (consolidate s)) K); [|exact Hw1]|intros ? w2 Hw2; exact Hw2].
      intros s2 Hs2. rewrite Hs2. destruct H2 as [(B1 & B2 & B3) _]. unfold K, base, no_list. cbn. rewrite !app_length. repeat split; auto; [|lia].
      apply nr_push; [exact B2|]. destruct Hm as [-> | ->]; discriminate.
    + destruct (as_i32 (cl_len (s_list s)) <=? i)%Z.
      * apply wp_bind. assert (Hj : (cl_len (s_list s) - 1 < cl_len (s_list s))%N) by lia.
        eapply wp_mono; [apply (q_modcurW (fun s' => s' = s) (fun s' => s' = snd (set_candidate_pointer (cl_len (s_list s) - 1) s))); [intros s' ->; reflexivity|exists s, r; auto]|].
        intros ? w1 Hw1. eapply wp_mono; [eapply wp_enter; [| |exact Hw1]|intros ? w2 Hw2; exact Hw2].
        -- intros s2 Hs2. rewrite Hs2. split; [apply (Pk _ Hj)|]. destruct (P _ Hj) as [-> Hcur]. cbn [waiting by_mode set_list s_hist]. split; [now left|].
           destruct Hh as [Hh|Hh]; [left; exact Hh|right; auto].
        -- intros _. revert Hw1. apply W_mono. intros s2 Hs2. rewrite Hs2. now apply Pk.
      * eapply wp_mono; [apply (q_modcurW (fun s' => s' = s) K); [|exists s, r; auto]|intros ? w2 Hw2; exact Hw2].
        intros s2 Hs2. rewrite Hs2. destruct (N.ltb_spec (Z.to_N i) (cl_len (s_list s))) as [L|L]; [now apply Pk|].
        unfold set_candidate_pointer, cl_set_pointer. destruct (N.ltb_spec (Z.to_N i) (cl_len (s_list s))); [lia|]. destruct s; exact H2.
  - apply wp_bind. unfold confirm_candidate_at. destruct Hw as (s & r & H1 & H2 & H3).
    apply wp_bind, wp_cur; [|congruence]. intros s0 r0 H0. rewrite H1 in H0. injection H0 as <- <-.
    apply wp_bind, wp_modcur; [|congruence]. intros s0 r0 H0. rewrite H1 in H0. injection H0 as <- <-.
    unfold set_candidate_pointer, cl_set_pointer. destruct (N.ltb_spec i (cl_len (s_list s))) as [L|L]; cbn [fst snd].
    + apply wp_bind. eapply wp_mono; [eapply wp_confirm_has; [reflexivity|apply H2| |exact H3]|intros ? w1 G; eapply W_mono; [apply E_K|exact G]].
      unfold P_Select.has_current, cl_current. cbn. apply nth_error_Some. unfold cl_len in L. lia.
    + exists (set_list (s_list s) s), r. split; [reflexivity|]. split; [destruct s; exact H2|exact H3].
Qed.
Lemma exec_good X dbg o w out w' : good w -> considerate_op o w -> exec X dbg o w = Ok (out, w') -> good w'.
Proof.
  intros Hg Hc He. pose proof Hg as [Hw Ht]. split.
  - pose proof (exec_K X dbg o w Hg Hc) as G. unfold wp in G. now rewrite He in G.
  - destruct (changes_rule o) eqn:Er.
    + destruct o; try discriminate. cbn in He. injection He as <- <-. exact Hc.
    + assert (Hs : x_stack (w_ctx w) <> []) by (eapply W_ne, Hw).
      pose proof (exec_step X dbg o w Hs) as G. unfold wp in G. rewrite He in G. destruct G as [[Ev _ _]|(_ & _ & G)].
      * destruct Ev as (E1 & _). rewrite E1. exact Ht.
      * destruct (G Er) as [_ ->]. exact Ht.
Qed.
Lemma run_good X dbg ops : forall w outs w', good w -> considerate X dbg ops w -> run X dbg ops w = Ok (outs, w') -> good w'.
Proof.
  induction ops as [|o ops IH]; intros w outs w' Hw Hc Hr; cbn [run considerate] in *; [injection Hr as <- <-; exact Hw|].
  unfold bind at 1 in Hr. destruct Hc as [Hc1 Hc2]. destruct (exec X dbg o w) as [[x w1]|] eqn:Ex; [|discriminate].
  unfold bind in Hr. destruct (run X dbg ops w1) as [[xs w2]|] eqn:E2; [|discriminate]. injection Hr as <- <-.
  eapply IH; [|exact Hc2|exact E2]. eapply exec_good; eauto.
Qed.
Lemma start_good X r st kf am ds i : tidy_rule (r_command r) -> good (mkW st (ctx_new X r kf am ds i Direct)).
Proof.
  intros Ho. split; [|exact Ho]. exists (st_new i Direct), []. split; [reflexivity|]. split; [|constructor].
  split; [split; [reflexivity|split; [constructor|apply le_n]]|]. cbn. repeat split; reflexivity.
Qed.

(* ------------------------------------------------------------ theorems *)
(** After every considerate history of calls on a new context, with any dictionaries and any tidy rule, a
    frame without an open word keeps no reading, no okurigana and no candidates, and what would be looked up is
    the empty reading: the next word starts empty. *)
Theorem C82_partial : forall X dbg st r kf am ds i ops outs w s,
  tidy_rule (r_command r) ->
  let w0 := mkW st (ctx_new X r kf am ds i Direct) in
  considerate X dbg ops w0 -> run X dbg ops w0 = Ok (outs, w) ->
  current w = Some s -> s_cmode s = Direct ->
  nothing_left s /\ get_composite_key s = mkCK [] None.
Proof.
  intros X dbg st r kf am ds i ops outs w s Ht w0 Hc Hr Hs Hm.
  destruct (run_good X dbg ops w0 outs w (start_good X r st kf am ds i Ht) Hc Hr) as [(s' & r' & H1 & H2 & _) _].
  unfold current in Hs. rewrite H1 in Hs. injection Hs as ->. pose proof (K_displayed s H2) as D. unfold all_displayed in D. rewrite Hm in D.
  split; [exact D|]. destruct D as (_ & D1 & D2 & _). unfold get_composite_key. rewrite D1, D2. cbn. now rewrite andb_false_r.
Qed.
(** In every mode: what the current frame keeps is what it displays. *)
Theorem C82_displayed_partial : forall X dbg st r kf am ds i ops outs w s,
  tidy_rule (r_command r) ->
  let w0 := mkW st (ctx_new X r kf am ds i Direct) in
  considerate X dbg ops w0 -> run X dbg ops w0 = Ok (outs, w) ->
  current w = Some s -> all_displayed s.
Proof.
  intros X dbg st r kf am ds i ops outs w s Ht w0 Hc Hr Hs.
  destruct (run_good X dbg ops w0 outs w (start_good X r st kf am ds i Ht) Hc Hr) as [(s' & r' & H1 & H2 & _) _].
  unfold current in Hs. rewrite H1 in Hs. injection Hs as ->. exact (K_displayed s H2).
Qed.
(** Both shipped rules are such rules. *)
Theorem C82_shipped : forall r, T_Shipped.shipped r -> tidy_rule (r_command r).
Proof.
  assert (G : forall r, T_Shipped.every_command list_fits (r_command r) = true -> tidy_rule (r_command r)).
  { intros r H c i k l Hin. pose proof (T_Shipped.every_command_spec _ _ H c i k l Hin) as F. unfold list_fits in F.
    apply orb_true_iff in F as [F|F]; [now right|left]. destruct l as [|[] [|? ?]]; try discriminate. reflexivity. }
  intros r [-> | ->]; apply G; vm_compute; reflexivity.
Qed.

(* ------------------------------------------------------------ a case *)
Definition keyword_aside_b (s : cstate) : bool :=
  negb (is_nil (s_okuri s)) && match last_opt (s_hist s) with Some PreComposition | Some Abbreviation => true | _ => false end.
Definition considerate_key_b (k : keyev) (w : world) : bool :=
  (Nat.ltb (length (frames w)) 10 || is_nil (cf_auto (x_cfg (w_ctx w))))
  && match frames w with
     | [] => true
     | s :: r =>
         match assoc_key (command_key k) (x_cmd (w_ctx w) (s_cmode s) (s_imode s)) with
         | None => true
         | Some l =>
             let direct := existsb (fun x => match x with IConfirmDirect => true | _ => false end) l in
             let abort := existsb (fun x => match x with IAbort => true | _ => false end) l in
             negb (direct && existsb (N.eqb 35) (s_conf s))
             && match r with
                | [] => true
                | o :: _ => negb ((abort && cmode_eqb (s_cmode s) Direct || direct && is_nil (s_conf s)) && keyword_aside_b o)
                end
         end
     end.
Lemma considerate_key_b_spec k w : considerate_key_b k w = true -> considerate_key k w.
Proof.
  unfold considerate_key_b. intros H. apply andb_true_iff in H as [H0 H]. split.
  - apply orb_true_iff in H0 as [H0|H0]; [left; now apply Nat.ltb_lt|right]. destruct (cf_auto (x_cfg (w_ctx w))); [reflexivity|discriminate].
  - intros s r l Hs Hb. rewrite Hs in H. unfold bound in Hb. rewrite Hb in H. cbv zeta in H. apply andb_true_iff in H as [H1 H2].
    assert (D : In IConfirmDirect l -> existsb (fun x => match x with IConfirmDirect => true | _ => false end) l = true)
      by (intros; apply existsb_exists; exists IConfirmDirect; auto).
    assert (B : In IAbort l -> existsb (fun x => match x with IAbort => true | _ => false end) l = true)
      by (intros; apply existsb_exists; exists IAbort; auto).
    split.
    + intros Hd H35. rewrite (D Hd) in H1. apply negb_true_iff in H1. cbn [andb] in H1.
      assert (existsb (N.eqb 35) (s_conf s) = true) by (apply existsb_exists; exists 35%N; auto). congruence.
    + intros o r' -> Hor [A1 A2]. apply negb_true_iff in H2. apply andb_false_iff in H2 as [H2|H2].
      * apply orb_false_iff in H2 as [H2 H3]. destruct Hor as [[Ha Hm]|[Hd Hn]].
        -- rewrite (B Ha), Hm in H2. discriminate.
        -- rewrite (D Hd), Hn in H3. discriminate.
      * unfold keyword_aside_b in H2. destruct (s_okuri o); [congruence|]. cbn [is_nil negb andb] in H2. destruct A2 as [A2|A2]; rewrite A2 in H2; discriminate.
Qed.
Fixpoint considerate_b (X : xkb) (dbg : bool) (ks : list keyev) (w : world) : bool :=
  match ks with
  | [] => true
  | k :: r => considerate_key_b k w && match exec X dbg (OKey k) w with Ok (_, w') => considerate_b X dbg r w' | Panic _ => true end
  end.
Lemma considerate_b_spec X dbg ks : forall w, considerate_b X dbg ks w = true -> considerate X dbg (map OKey ks) w.
Proof.
  induction ks as [|k ks IH]; intros w H; [exact I|]. cbn [considerate_b considerate map considerate_op] in *. apply andb_true_iff in H as [H1 H2].
  split; [now apply considerate_key_b_spec|]. destruct (exec X dbg (OKey k) w) as [[o w']|]; [now apply IH|exact I].
Qed.
(** words with okurigana, a registration that is given up and one that is used, a keyword, a completion *)
Definition busy_keys := U "A i space Return A K u space C-g C-g C-g K a n a space C-g C-g K a n a space K a space Return Return A i period Return A Tab Return".
Example C82_case : considerate ascii_xkb false (map OKey (dkeys busy_keys)) (demo [user_dict dic_small])
  /\ exists outs w s, run ascii_xkb false (map OKey (dkeys busy_keys)) (demo [user_dict dic_small]) = Ok (outs, w)
     /\ current w = Some s /\ s_cmode s = Direct /\ s_conf s <> [].
Proof.
  split; [apply considerate_b_spec; vm_compute; reflexivity|].
  destruct (run_case (run ascii_xkb false (map OKey (dkeys busy_keys)) (demo [user_dict dic_small]))
    (fun w => match current w with Some s => (s_cmode s, negb (is_nil (s_conf s))) | None => (Register, false) end) (Direct, true)) as (outs & w & E & F); [vm_compute; reflexivity|].
  destruct (current w) as [s|] eqn:Es; [|discriminate]. exists outs, w, s. injection F as F1 F2. repeat split; auto.
  intros G. rewrite G in F2. discriminate.
Qed.

(* ------------------------------------------------------------ every condition is needed *)
Definition preedit_after (keys : str) (w : world) : option str :=
  match typed false keys w with Ok (_, w') => Some (get_preedit ascii_xkb (w_ctx w')) | Panic _ => None end.
Definition idle_after (keys : str) (f : cstate -> str) : option (option (str * str * cmode) * option str) :=
  match typed false keys (demo [user_dict dic_small]) with
  | Ok (_, w) => Some (option_map (fun s => (get_preedit ascii_xkb (w_ctx w), f s, s_cmode s)) (current w), preedit_after (U "A i space") w)
  | Panic _ => None
  end.
Lemma idle_spec keys f t p : idle_after keys f = Some (Some ([], t, Direct), Some p) ->
  exists o w s, typed false keys (demo [user_dict dic_small]) = Ok (o, w) /\ current w = Some s /\ s_cmode s = Direct
    /\ get_preedit ascii_xkb (w_ctx w) = [] /\ f s = t /\ preedit_after (U "A i space") w = Some p.
Proof.
  unfold idle_after. destruct (typed false keys (demo [user_dict dic_small])) as [[o w]|] eqn:Er; [|discriminate]. intros H. apply T_Encoding.some_inj in H.
  pose proof (f_equal fst H) as H1. pose proof (f_equal snd H) as H2. cbn [fst snd] in H1, H2. destruct (current w) as [s|] eqn:Es; [|discriminate].
  apply T_Encoding.some_inj in H1. pose proof (f_equal (fun x => fst (fst x)) H1) as G1. pose proof (f_equal (fun x => snd (fst x)) H1) as G2.
  pose proof (f_equal snd H1) as G3. cbn [fst snd] in G1, G2, G3. exists o, w, s. auto 10.
Qed.
Definition shown_word : str := U "▼愛".
(** On a new context A i space shows the word ... *)
Example C82_fresh : preedit_after (U "A i space") (demo [user_dict dic_small]) = Some shown_word.
Proof. vm_compute. reflexivity. Qed.
(** ... but when a keyword opened a registration that was given up and the reading was deleted, the keyword, no
    longer displayed, is kept and shown behind the next word. *)
Theorem C82_refuted : exists o w s,
  typed false (U "K a m i period C-g BackSpace BackSpace BackSpace") (demo [user_dict dic_small]) = Ok (o, w)
  /\ current w = Some s /\ s_cmode s = Direct /\ get_preedit ascii_xkb (w_ctx w) = []
  /\ s_okuri s = U "。" /\ preedit_after (U "A i space") w = Some (shown_word ++ U "。").
Proof. apply (idle_spec _ s_okuri). vm_compute. reflexivity. Qed.
(** Registering a word with a number sign whose number does not fit leaves the reading behind: it comes back in front of
    the next one. *)
Theorem C82_number_refuted : exists o w s,
  typed false (U "A 1 space numbersign 4 Return") (demo [user_dict dic_small]) = Ok (o, w)
  /\ current w = Some s /\ s_cmode s = Direct /\ get_preedit ascii_xkb (w_ctx w) = []
  /\ s_comp s = U "あ1" /\ preedit_after (U "A i space") w = Some (U "▼あ1あい【】").
Proof. apply (idle_spec _ s_comp). vm_compute. reflexivity. Qed.
(** In the tenth frame no further registration is opened, and the keyword is kept in the same way. *)
Definition ten_times : str := concat (repeat (U "K a m i period ") 10).
Theorem C82_depth_refuted : exists o w s,
  typed false (ten_times ++ U "BackSpace BackSpace BackSpace") (demo [user_dict dic_small]) = Ok (o, w)
  /\ current w = Some s /\ s_cmode s = Direct /\ length (frames w) = 10 /\ s_okuri s = U "。".
Proof.
  destruct (run_case (typed false (ten_times ++ U "BackSpace BackSpace BackSpace") (demo [user_dict dic_small]))
    (fun w => option_map (fun s => (s_cmode s, length (frames w), s_okuri s)) (current w)) (Some (Direct, 10, U "。"))) as (o & w & E & F); [vm_compute; reflexivity|].
  destruct (current w) as [s|] eqn:Es; [|discriminate]. apply T_Encoding.some_inj in F. exists o, w, s.
  pose proof (f_equal (fun x => fst (fst x)) F) as G1. pose proof (f_equal (fun x => snd (fst x)) F) as G2.
  pose proof (f_equal snd F) as G3. cbn [fst snd] in G1, G2, G3. auto 10.
Qed.
