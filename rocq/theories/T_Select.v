(** C19: a selection always has candidates; and with it C18 for debug builds over histories. *)
From Verif Require Import Str Keys Modes KanaBuilder FormChanger DictTypes Parser Lru
  Dictionary CState Context DefaultRule Demo Spec P_Monad P_Frames P_Inv P_Keeps P_Register P_Safe P_Select T_Panic.

(* ------------------------------------------------------------ vocabulary *)
(** The frame shows one of its candidates. *)
Definition shows_a_candidate (X : xkb) (kf : kana_form) (s : cstate) : Prop :=
  exists c, In c (cl_list (s_list s)) /\
    match preedit_detail X kf (s_imode s) s with
    | SCompositionSelection conf text _ ann => conf = s_conf s /\ text = c_output c /\ ann = c_annot c
    | SComplete conf _ mid text _ ann => conf = s_conf s /\ mid = c_midashi c /\ text = c_output c /\ ann = c_annot c
    | _ => False
    end.
(** The commands a rule binds: in the list modes only moving, confirming, aborting, deleting and
    purging; elsewhere only the last command of a list converts or aborts, and none enters a list
    mode or Register mode by hand. *)
Definition orderly (cr : command_rule) : Prop :=
  forall c i k l, In (k, l) (cr c i) -> list_ok c l = true \/ (listing c = true /\ In IPurge l).
(** What the user avoids: purging from a list, stepping back from the first candidate, and
    registering a word containing a number sign. *)
Definition careful_key (k : keyev) (w : world) : Prop :=
  forall s l, current w = Some s -> bound (x_cmd (w_ctx w)) (s_cmode s) (s_imode s) k l ->
    (listing (s_cmode s) = true -> ~ In IPurge l)
    /\ (s_cmode s = CompositionSelection -> In ITryPreviousCandidate l -> cursor s <> 0%N)
    /\ (In IConfirmDirect l -> ~ In 35%N (s_conf s)).
(** Calls considered: keys, polling, confirming by index, changing the input mode, the
    configuration, the dictionaries or to another orderly rule. *)
Definition careful_op (o : op) (w : world) : Prop :=
  match o with
  | OKey k => careful_key k w
  | OReset | OSetCompositionMode _ | OSelectAt _ => False
  | OSetRule r => orderly (r_command r)
  | _ => True
  end.
Fixpoint careful (X : xkb) (dbg : bool) (ops : list op) (w : world) : Prop :=
  match ops with
  | [] => True
  | o :: r => careful_op o w
              /\ match exec X dbg o w with Ok (_, w') => careful X dbg r w' | Panic _ => True end
  end.

(* ------------------------------------------------------------ C19 *)
Lemma J1_shows X kf s : J1 s -> listing (s_cmode s) = true -> shows_a_candidate X kf s.
Proof.
  intros (_ & H & _) L. specialize (H L). unfold has_current in H. destruct (cl_current (s_list s)) as [c|] eqn:E; [|congruence].
  exists c. split; [eapply nth_error_In; exact E|]. unfold preedit_detail. rewrite E. destruct (s_cmode s); try discriminate; auto.
Qed.
Lemma key_ok_careful k w : orderly (x_cmd (w_ctx w)) -> careful_key k w -> key_ok k w.
Proof.
  intros Ho Hc s r l Hs Hb. assert (Hcur : current w = Some s) by (unfold current; rewrite Hs; reflexivity).
  destruct (Hc s l Hcur Hb) as (H1 & H2 & H3). pose proof Hb as Hb'. unfold bound in Hb'. apply assoc_key_in in Hb' as (k' & Hin).
  split; [|split].
  - destruct (Ho _ _ _ _ Hin) as [G|[G1 G2]]; [exact G|]. exfalso. now apply (H1 G1).
  - exact H3.
  - intros Hm Ht. specialize (H2 Hm Ht). unfold cursor in H2. unfold cl_has_previous. apply N.eqb_neq in H2. now rewrite H2.
Qed.
Definition good (w : world) : Prop := W J1 w /\ orderly (x_cmd (w_ctx w)).
Lemma flush_J1 s : J1 s -> J1 (flush_confirmed s).
Proof. intros H; exact H. Qed.
Lemma flush_JL s : JL s -> JL (flush_confirmed s).
Proof. intros H; exact H. Qed.
Lemma exec_lists X dbg o w : W J1 w -> orderly (x_cmd (w_ctx w)) -> careful_op o w ->
  wp any_panic (exec X dbg o) (fun _ => W J1) w.
Proof.
  intros Hw Ho Hc. destruct o; cbn [exec careful_op] in *; try contradiction; try exact Hw.
  - apply wp_bind. eapply wp_mono; [apply key_lists; [exact Hw|now apply key_ok_careful]|]. intros ? w1 H1; exact H1.
  - destruct Hw as (s & r & H1 & H2 & H3). apply wp_bind. unfold wp, poll_output. rewrite H1.
    destruct (rev (s :: r)) as [|t inner] eqn:Er; [exact I|]. destruct (is_nil (s_conf t)); [exists s, r; auto|].
    cbn. assert (E : s :: r = rev inner ++ [t]) by (rewrite <- (rev_involutive (s :: r)), Er; reflexivity).
    destruct (rev inner) as [|s' r'].
    + injection E as -> ->. exists (flush_confirmed t), []. split; [reflexivity|]. split; [now apply flush_J1|constructor].
    + injection E as <- ->. exists s, (r' ++ [flush_confirmed t]). split; [reflexivity|]. split; [exact H2|].
      apply Forall_app in H3 as [G1 G2]. apply Forall_app. split; [exact G1|]. inversion G2; subst. constructor; [now apply flush_JL|constructor].
  - apply wp_bind. eapply wp_mono; [apply (q_modcur J1 J1 (set_imode i)); [intros s; now apply J1_eq|exact Hw]|]. intros ? w1 H1; exact H1.
  - apply wp_bind. unfold confirm_candidate_at. destruct Hw as (s & r & H1 & H2 & H3).
    apply wp_bind, wp_cur; [|congruence]. intros s0 r0 H0. rewrite H1 in H0. injection H0 as <- <-.
    apply wp_bind, wp_modcur; [|congruence]. intros s0 r0 H0. rewrite H1 in H0. injection H0 as <- <-.
    assert (G : W J1 (set_stack (snd (set_candidate_pointer i s) :: r) w)).
    { eexists _, r. split; [reflexivity|]. split; [|exact H3]. unfold set_candidate_pointer, cl_set_pointer.
      destruct (N.ltb_spec i (cl_len (s_list s))) as [L|L]; [|destruct s; exact H2]. cbn [snd].
      destruct H2 as (G1 & G2 & G3). split; [exact G1|]. split; [|exact G3]. intros _. unfold has_current, cl_current. cbn.
      apply nth_error_Some. unfold cl_len in L. lia. }
    destruct (fst _); [|exact G]. apply wp_bind. eapply wp_mono; [apply q_confirm1; exact G|].
    intros ? w1 Hw1. now apply W01.
Qed.
Lemma exec_orderly X dbg o w out w' : x_stack (w_ctx w) <> [] -> orderly (x_cmd (w_ctx w)) -> careful_op o w ->
  exec X dbg o w = Ok (out, w') -> orderly (x_cmd (w_ctx w')).
Proof.
  intros Hs Ho Hc He. destruct (changes_rule o) eqn:Er.
  - destruct o; try discriminate. cbn in He. injection He as <- <-. exact Hc.
  - pose proof (exec_step X dbg o w Hs) as G. unfold wp in G. rewrite He in G. destruct G as [[E _ _]|(_ & _ & G)].
    + destruct E as (E1 & _). rewrite E1. exact Ho.
    + destruct (G Er) as [_ ->]. exact Ho.
Qed.
Lemma exec_good X dbg o w out w' : good w -> careful_op o w -> exec X dbg o w = Ok (out, w') -> good w'.
Proof.
  intros [Hw Ho] Hc He. split.
  - pose proof (exec_lists X dbg o w Hw Ho Hc) as G. unfold wp in G. now rewrite He in G.
  - eapply exec_orderly; eauto. destruct Hw as (s & r & E & _). rewrite E. discriminate.
Qed.
Lemma run_good X dbg ops : forall w outs w', good w -> careful X dbg ops w -> run X dbg ops w = Ok (outs, w') -> good w'.
Proof.
  induction ops as [|o ops IH]; intros w outs w' Hw Hc Hr; cbn [run careful] in *; [injection Hr as <- <-; exact Hw|].
  unfold bind at 1 in Hr. destruct Hc as [Hc1 Hc2]. destruct (exec X dbg o w) as [[x w1]|] eqn:E; [|discriminate].
  unfold bind in Hr. destruct (run X dbg ops w1) as [[xs w2]|] eqn:E2; [|discriminate]. injection Hr as <- <-.
  eapply IH; [|exact Hc2|exact E2]. eapply exec_good; eauto.
Qed.
Lemma start_good X r st kf am ds i c : orderly (r_command r) -> plainmode c = true -> good (mkW st (ctx_new X r kf am ds i c)).
Proof.
  intros Ho Hc. split; [|exact Ho]. exists (st_new i c), []. split; [reflexivity|]. split; [|constructor].
  split; [intros E; cbn in E; rewrite E in Hc; discriminate|]. split; [intros L; cbn in L; destruct c; discriminate|]. split; [exact Hc|constructor].
Qed.
(** Whenever a frame is selecting (or completing), its list is not empty and its preedit shows
    one of its candidates. *)
Theorem C19_partial : forall X dbg r st kf am ds i c ops outs w,
  orderly (r_command r) -> plainmode c = true ->
  careful X dbg ops (mkW st (ctx_new X r kf am ds i c)) ->
  run X dbg ops (mkW st (ctx_new X r kf am ds i c)) = Ok (outs, w) ->
  forall s, In s (frames w) -> s_cmode s = CompositionSelection \/ s_cmode s = Completion ->
  shows_a_candidate X (x_kf (w_ctx w)) s.
Proof.
  intros X dbg r st kf am ds i c ops outs w Ho Hc Hca Hr s Hin Hm.
  destruct (run_good X dbg ops _ _ _ (start_good X r st kf am ds i c Ho Hc) Hca Hr) as [(s0 & fr & E & H1 & H2) _].
  unfold frames in Hin. rewrite E in Hin. destruct Hin as [<-|Hin].
  - apply J1_shows; [exact H1|]. destruct Hm as [-> | ->]; reflexivity.
  - rewrite Forall_forall in H2. destruct (H2 s Hin) as [G _]. destruct Hm; congruence.
Qed.
(** The shipped rule is orderly. *)
Definition orderly_b (cr : command_rule) : bool :=
  forallb (fun c => forallb (fun i => forallb (fun e => list_ok c (snd e)
    || (listing c && existsb (fun x => match x with IPurge => true | _ => false end) (snd e))) (cr c i))
    [Hiragana; Katakana; HankakuKatakana; Zenkaku; Ascii])
  [Direct; PreComposition; PreCompositionOkurigana; CompositionSelection; Abbreviation; Register; Completion].
Lemma orderly_b_spec cr : orderly_b cr = true -> orderly cr.
Proof.
  unfold orderly_b. rewrite forallb_forall. intros H c i k l Hin.
  assert (Hc : In c [Direct; PreComposition; PreCompositionOkurigana; CompositionSelection; Abbreviation; Register; Completion])
    by (destruct c; cbn; tauto).
  specialize (H c Hc). rewrite forallb_forall in H.
  assert (Hi : In i [Hiragana; Katakana; HankakuKatakana; Zenkaku; Ascii]) by (destruct i; cbn; tauto).
  specialize (H i Hi). rewrite forallb_forall in H. specialize (H (k, l) Hin). cbn [snd] in H.
  apply orb_true_iff in H as [H|H]; [now left|]. apply andb_true_iff in H as [H1 H2]. right. split; [exact H1|].
  apply existsb_exists in H2 as (x & H2 & H3). destruct x; try discriminate. exact H2.
Qed.
Lemma default_orderly : orderly (r_command default_rule).
Proof. apply orderly_b_spec. vm_compute. reflexivity. Qed.
(** The full claim is false: under the default rule, stepping back from the first candidate and
    aborting, or purging a candidate and aborting, leads to a selection without candidates. *)
Definition selects_nothing (w : world) : bool :=
  match current w with Some s => cmode_eqb (s_cmode s) CompositionSelection && is_nil (cl_list (s_list s)) | None => false end.
Theorem C19_refuted : forall keys, In keys [U "A i space x C-g"; U "A i space X C-g"] ->
  exists outs w, typed false keys (demo [user_dict dic_small]) = Ok (outs, w)
  /\ selects_nothing w = true /\ get_preedit ascii_xkb (w_ctx w) = U "▼エラー".
Proof.
  intros keys [<-|[<-|[]]].
  - destruct (run_case (typed false (U "A i space x C-g") (demo [user_dict dic_small]))
      (fun w => (selects_nothing w, get_preedit ascii_xkb (w_ctx w))) (true, U "▼エラー")) as (outs & w & E & F); [vm_compute; reflexivity|].
    exists outs, w. injection F as F1 F2. auto.
  - destruct (run_case (typed false (U "A i space X C-g") (demo [user_dict dic_small]))
      (fun w => (selects_nothing w, get_preedit ascii_xkb (w_ctx w))) (true, U "▼エラー")) as (outs & w & E & F); [vm_compute; reflexivity|].
    exists outs, w. injection F as F1 F2. auto.
Qed.

(** A concrete careful history: looking at all candidates, registering a word, completing. *)
Definition careful_key_b (k : keyev) (w : world) : bool :=
  match current w with
  | None => true
  | Some s =>
      match assoc_key (command_key k) (x_cmd (w_ctx w) (s_cmode s) (s_imode s)) with
      | None => true
      | Some l =>
          negb (listing (s_cmode s) && existsb (fun x => match x with IPurge => true | _ => false end) l)
          && negb (existsb (fun x => match x with ITryPreviousCandidate => true | _ => false end) l && N.eqb (cursor s) 0)
          && negb (existsb (fun x => match x with IConfirmDirect => true | _ => false end) l && existsb (N.eqb 35) (s_conf s))
      end
  end.
Lemma careful_key_b_spec k w : careful_key_b k w = true -> careful_key k w.
Proof.
  unfold careful_key_b. intros H s l Hs Hb. rewrite Hs in H. unfold bound in Hb. rewrite Hb in H.
  apply andb_true_iff in H as [H H3]. apply andb_true_iff in H as [H1 H2].
  apply negb_true_iff in H1, H2, H3. split; [|split].
  - intros L Hin. rewrite L in H1. cbn [andb] in H1.
    assert (existsb (fun x => match x with IPurge => true | _ => false end) l = true) by (apply existsb_exists; exists IPurge; auto). congruence.
  - intros _ Hin E. rewrite E in H2.
    assert (existsb (fun x => match x with ITryPreviousCandidate => true | _ => false end) l = true) as Ex
      by (apply existsb_exists; exists ITryPreviousCandidate; auto). rewrite Ex in H2. discriminate.
  - intros Hin H35. assert (existsb (fun x => match x with IConfirmDirect => true | _ => false end) l = true) as Ex
      by (apply existsb_exists; exists IConfirmDirect; auto).
    assert (existsb (N.eqb 35) (s_conf s) = true) as Ey by (apply existsb_exists; exists 35%N; auto). rewrite Ex, Ey in H3. discriminate.
Qed.
Fixpoint careful_b (X : xkb) (dbg : bool) (ks : list keyev) (w : world) : bool :=
  match ks with
  | [] => true
  | k :: r => careful_key_b k w && match exec X dbg (OKey k) w with Ok (_, w') => careful_b X dbg r w' | Panic _ => true end
  end.
Lemma careful_b_spec X dbg ks : forall w, careful_b X dbg ks w = true -> careful X dbg (map OKey ks) w.
Proof.
  induction ks as [|k ks IH]; intros w H; [exact I|]. cbn [careful_b careful map] in *. apply andb_true_iff in H as [H1 H2].
  split; [now apply careful_key_b_spec|]. destruct (exec X dbg (OKey k) w) as [[o w']|]; [now apply IH|exact I].
Qed.
Definition careful_keys := U "A i space space space x space space a i Return K a n a space C-g C-g A Tab Tab".
Example C19_case : careful ascii_xkb true (map OKey (dkeys careful_keys)) (demo [user_dict dic_small])
  /\ exists outs w, typed true careful_keys (demo [user_dict dic_small]) = Ok (outs, w)
     /\ exists s, current w = Some s /\ s_cmode s = Completion.
Proof.
  split; [apply careful_b_spec; vm_compute; reflexivity|].
  destruct (run_case (typed true careful_keys (demo [user_dict dic_small]))
    (fun w => match current w with Some s => s_cmode s | None => Direct end) Completion) as (outs & w & E & F); [vm_compute; reflexivity|].
  exists outs, w. split; [exact E|]. destruct (current w) as [s|]; [|discriminate]. exists s. auto.
Qed.

(* ------------------------------------------------------------ C18 in debug builds *)
(** No candidate list has more than 2^64 entries (no such list fits in memory). *)
Fixpoint small_lists (X : xkb) (dbg : bool) (ops : list op) (w : world) : Prop :=
  match ops with
  | [] => True
  | o :: r => (forall s, current w = Some s -> (candidate_count s <= 2 ^ 64)%N)
              /\ match exec X dbg o w with Ok (_, w') => small_lists X dbg r w' | Panic _ => True end
  end.
Definition op_debug_safe (o : op) : Prop := match o with OSetRule r => rule_debug_safe (r_command r) | _ => True end.
Lemma exec_debug_safe X dbg o w out w' : x_stack (w_ctx w) <> [] -> rule_debug_safe (x_cmd (w_ctx w)) -> op_debug_safe o ->
  exec X dbg o w = Ok (out, w') -> rule_debug_safe (x_cmd (w_ctx w')).
Proof.
  intros Hs Ho Hc He. destruct (changes_rule o) eqn:Er.
  - destruct o; try discriminate. cbn in He. injection He as <- <-. exact Hc.
  - pose proof (exec_step X dbg o w Hs) as G. unfold wp in G. rewrite He in G. destruct G as [[E _ _]|(_ & _ & G)].
    + destruct E as (E1 & _). rewrite E1. exact Ho.
    + destruct (G Er) as [_ ->]. exact Ho.
Qed.
Lemma run_debug X ops : forall n w, inv True n w -> good w -> rule_debug_safe (x_cmd (w_ctx w)) ->
  Forall op_without_digits ops -> Forall op_debug_safe ops -> careful X true ops w -> small_lists X true ops w ->
  n + total_digits X ops < 20 -> exists outs w', run X true ops w = Ok (outs, w').
Proof.
  induction ops as [|o ops IH]; intros n w Hi Hg Hd Ho Hs Hc Hl Hn; [exists [], w; reflexivity|].
  inversion Ho; subst. inversion Hs; subst. cbn [careful small_lists] in *. destruct Hc as [Hc1 Hc2]. destruct Hl as [Hl1 Hl2].
  cbn [total_digits fold_right] in Hn. fold (total_digits X ops) in Hn.
  assert (G : wp (E18 True (n + digits_typed X o)) (exec X true o) (fun _ => inv True (n + digits_typed X o)) w).
  { apply exec_safe; auto. intros k ->. right. intros s r Hst. destruct Hg as [(s0 & r0 & E & G1 & _) _]. rewrite Hst in E. injection E as <- <-.
    destruct G1 as (R1 & R2 & _). split; [exact R1|]. split.
    - intros Hm. assert (L : listing (s_cmode s) = true) by (destruct Hm as [-> | ->]; reflexivity). specialize (R2 L).
      assert (Hcur : current w = Some s) by (unfold current; rewrite Hst; reflexivity). specialize (Hl1 s Hcur).
      split; [|exact Hl1]. unfold has_current, cl_current in R2. intros En. rewrite En in R2. apply R2. destruct (N.to_nat _); reflexivity.
    - intros l Hb. unfold bound in Hb. apply assoc_key_in in Hb as (k' & Hin). eapply Hd; exact Hin. }
  unfold wp in G. destruct (exec X true o w) as [[x w1]|r] eqn:E.
  - destruct (IH _ w1 G) as (outs & w2 & E2); auto.
    + eapply exec_good; eauto.
    + eapply exec_debug_safe; eauto. apply Hi.
    + lia.
    + exists (x :: outs), w2. cbn [run]. unfold bind. rewrite E, E2. reflexivity.
  - destruct G as [_ G]. specialize (G I). lia.
Qed.
(** In a debug build a careful user who types fewer than twenty digits sees no panic. *)
Theorem C18_debug_careful_partial : forall X r st kf am ds i c ops,
  orderly (r_command r) -> rule_debug_safe (r_command r) -> rule_without_digits r -> plainmode c = true ->
  Forall op_without_digits ops -> Forall op_debug_safe ops ->
  careful X true ops (mkW st (ctx_new X r kf am ds i c)) -> small_lists X true ops (mkW st (ctx_new X r kf am ds i c)) ->
  total_digits X ops < 20 ->
  exists outs w, run X true ops (mkW st (ctx_new X r kf am ds i c)) = Ok (outs, w).
Proof.
  intros X r st kf am ds i c ops Ho Hd Hr Hc Hw Hs Hca Hl Hn. apply (run_debug X ops 0); auto.
  - split; [intros _; split; [apply kb_new_digits, Hr|exact default_keywords]|].
    split; [discriminate|]. repeat constructor; cbn; unfold weight; cbn; lia.
  - now apply start_good.
Qed.
