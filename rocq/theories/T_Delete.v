(** C72: the key that deletes takes back what was typed last. *)
From Verif Require Import Str Keys Modes KanaBuilder FormChanger DictTypes Parser Lru
  Dictionary CState Context DefaultRule Demo Spec P_Monad P_Frames P_Inv P_Kana P_Step T_Keys T_Predict T_Offered T_Convert.
From Verif Require Import T_Frames T_Romaji T_Word.

(** ** Specification *)
(** A key that only deletes in this mode, and is in no row of the rule. *)
Definition erase_key (X : xkb) (r : rule) (cr : command_rule) (c : cmode) (i : imode) (k : keyev) : Prop :=
  has_mod k M_RELEASE = false /\ bound cr c i k [IDelete]
  /\ forall u, ~ completable X r (u ++ [ksym k]) /\ ~ completable X r (u ++ [uncapitalize (ksym k)]).
(** All but the last n. *)
Definition drop_last {A} (n : nat) (l : list A) : list A := firstn (length l - n) l.
(** The frame with the reading cut. *)
Definition cut_reading (n : nat) (s : cstate) : cstate := set_raw (drop_last n (s_raw s)) (set_comp (drop_last n (s_comp s)) s).

(** ** Proofs *)
Lemma pop_snoc {A} (l : list A) x : removelast (l ++ [x]) = l.
Proof. rewrite removelast_app by discriminate. cbn. apply app_nil_r. Qed.
Lemma drop_last_0 {A} (l : list A) : drop_last 0 l = l.
Proof. unfold drop_last. rewrite Nat.sub_0_r. apply firstn_all. Qed.
Lemma drop_last_len {A} n (l : list A) : length (drop_last n l) = length l - n.
Proof. unfold drop_last. rewrite firstn_length. lia. Qed.
Lemma drop_last_one {A} (l : list A) : drop_last 1 l = removelast l.
Proof. unfold drop_last. rewrite removelast_firstn_len. f_equal. lia. Qed.
Lemma drop_last_add {A} n m (l : list A) : drop_last n (drop_last m l) = drop_last (m + n) l.
Proof. unfold drop_last. rewrite firstn_length, firstn_firstn. f_equal. lia. Qed.
Lemma drop_last_all {A} (l : list A) : drop_last (length l) l = [].
Proof. unfold drop_last. now rewrite Nat.sub_diag. Qed.
Section Erase.
Context (X : xkb) (dbg : bool) (r : rule) (Hd : distinct_keys X r).
Lemma erase_runs w s fr k : x_kb (w_ctx w) = kb_new X r -> s_cmode s <> Register ->
  erase_key X r (x_cmd (w_ctx w)) (s_cmode s) (s_imode s) k -> runs (with_frames (s :: fr) w) k [IDelete].
Proof.
  intros Hb Hm (Hr & Hbd & Hu). split; [exact Hr|]. exists s. split; [reflexivity|]. split; [exact Hm|]. split; [|exact Hbd].
  unfold completes, skip_command. cbn [with_frames w_ctx x_kb]. rewrite Hb. unfold combine_lower, combine_raw.
  destruct (Hu (s_pre s)) as [U1 U2]. rewrite (nothing_row X r Hd _ U1), (nothing_row X r Hd _ U2). cbn [orb]. now rewrite !andb_false_r.
Qed.
Lemma erase_step w s fr k : x_kb (w_ctx w) = kb_new X r -> s_cmode s <> Register ->
  erase_key X r (x_cmd (w_ctx w)) (s_cmode s) (s_imode s) k ->
  exec X dbg (OKey k) (with_frames (s :: fr) w) = Ok (OutBool (fst (st_delete s)), with_frames (snd (st_delete s) :: fr) w).
Proof.
  intros Hb Hm He. apply exec_key. rewrite (runs_process X dbg k _ _ s fr (erase_runs w s fr k Hb Hm He) eq_refl).
  unfold process_instructions. cbn [is_nil negb run_instrs run_instr]. unfold bind, cur, modcur, ret. cbn [x_stack w_ctx with_frames].
  destruct (st_delete s) as [b s']. cbn [fst snd]. destruct b; reflexivity.
Qed.
Lemma delete_pending s u x c : s_cmode s = c -> c = Direct \/ c = PreComposition -> s_pre s = u ++ [x] -> st_delete s = (true, set_pre u s).
Proof.
  intros Hm Hc Hp. unfold st_delete. rewrite Hm, Hp. unfold str_pop. rewrite pop_snoc. destruct Hc as [-> | ->]; destruct u; reflexivity.
Qed.
Lemma erase_pending w fr k c : x_kb (w_ctx w) = kb_new X r -> c = Direct \/ c = PreComposition -> forall ks s u,
  s_cmode s = c -> erase_key X r (x_cmd (w_ctx w)) c (s_imode s) k -> s_pre s = u ++ ks ->
  run X dbg (repeat (OKey k) (length ks)) (with_frames (s :: fr) w) = Ok (repeat (OutBool true) (length ks), with_frames (set_pre u s :: fr) w).
Proof.
  intros Hb Hc ks. induction ks as [|x ks IH] using rev_ind; intros s u Hm He Hp.
  - rewrite app_nil_r in Hp. cbn [length repeat run]. unfold ret. do 4 f_equal. destruct s; cbn in *; subst; reflexivity.
  - rewrite app_assoc in Hp. rewrite app_length, Nat.add_1_r. cbn [repeat].
    assert (E := erase_step w s fr k Hb ltac:(rewrite Hm; destruct Hc as [-> | ->]; discriminate) ltac:(rewrite Hm; exact He)).
    rewrite (delete_pending s (u ++ ks) x c Hm Hc Hp) in E. cbn [fst snd] in E.
    rewrite (run_cons X dbg _ _ _ _ _ E). rewrite (IH (set_pre (u ++ ks) s) u Hm He eq_refl). reflexivity.
Qed.
Lemma wait_keys w c i : x_kb (w_ctx w) = kb_new X r -> c = Direct \/ c = PreComposition -> kana_mode i -> forall ks s fr u x,
  s_cmode s = c -> s_imode s = i -> s_pre s = u -> Forall (letter X (x_cmd (w_ctx w)) c i) ks -> completable X r ((u ++ ks) ++ [x]) ->
  (c = PreComposition -> no_auto (cf_auto (x_cfg (w_ctx w))) (s_raw s)) ->
  run X dbg (map press ks) (with_frames (s :: fr) w) = Ok (repeat (OutBool true) (length ks), with_frames (set_pre (u ++ ks) s :: fr) w).
Proof.
  intros Hb Hc Hi. assert (Ht : typing_mode c) by (unfold typing_mode; tauto).
  induction ks as [|k ks IH]; intros s fr u x Hm Him Hp Hl Hx Ha.
  - cbn [map length repeat run]. unfold ret. rewrite app_nil_r. do 4 f_equal. destruct s; cbn in *; subst; reflexivity.
  - inversion Hl as [|? ? Hk Hl']; subst. cbn [map length repeat]. unfold press at 1.
    assert (Hx1 : exists y, completable X r ((s_pre s ++ [k]) ++ [y])).
    { destruct ks as [|y ks]; [exists x; exact Hx|]. exists y. apply (completable_prefix X r _ (ks ++ [x])).
      rewrite <- !app_assoc in *. cbn [app] in *. exact Hx. }
    destruct Hx1 as [y Hy].
    rewrite (run_cons X dbg _ _ _ _ _ (exec_key X dbg _ _ _ _ (wait_step X dbg r Hd w s fr (s_cmode s) (s_pre s) k y Hb eq_refl Ht Hi eq_refl Hy Hk Ha))).
    rewrite (IH (set_pre (s_pre s ++ [k]) s) fr (s_pre s ++ [k]) x); auto; cbn [set_pre]; rewrite <- !app_assoc in *; cbn [app] in *; auto.
Qed.
Lemma delete_conf s : s_cmode s = Direct -> s_pre s = [] -> st_delete s = (negb (is_nil (s_conf s)), set_conf (drop_last 1 (s_conf s)) s).
Proof. intros Hm Hp. unfold st_delete. rewrite Hm, Hp. cbn [is_nil negb]. now rewrite drop_last_one. Qed.
Lemma erase_conf w fr k : x_kb (w_ctx w) = kb_new X r -> forall n s,
  s_cmode s = Direct -> s_pre s = [] -> erase_key X r (x_cmd (w_ctx w)) Direct (s_imode s) k -> n <= length (s_conf s) ->
  run X dbg (repeat (OKey k) n) (with_frames (s :: fr) w) = Ok (repeat (OutBool true) n, with_frames (set_conf (drop_last n (s_conf s)) s :: fr) w).
Proof.
  intros Hb n. induction n as [|n IH]; intros s Hm Hp He Hn.
  - cbn [repeat run]. unfold ret. rewrite drop_last_0, set_conf_same. reflexivity.
  - cbn [repeat]. assert (E := erase_step w s fr k Hb ltac:(rewrite Hm; discriminate) ltac:(rewrite Hm; exact He)).
    rewrite (delete_conf s Hm Hp) in E. cbn [fst snd] in E.
    assert (Hne : is_nil (s_conf s) = false) by (destruct (s_conf s); [cbn in Hn; lia|reflexivity]). rewrite Hne in E. cbn [negb] in E.
    rewrite (run_cons X dbg _ _ _ _ _ E). rewrite (IH (set_conf (drop_last 1 (s_conf s)) s) Hm Hp He); [|cbn [set_conf s_conf]; rewrite drop_last_len; lia].
    cbn [set_conf s_conf]. rewrite drop_last_add. reflexivity.
Qed.
Lemma delete_reading s : s_cmode s = PreComposition -> s_pre s = [] -> s_comp s <> [] -> st_delete s = (true, cut_reading 1 s).
Proof.
  intros Hm Hp Hc. unfold st_delete. rewrite Hm, Hp. cbn [is_nil negb]. destruct (s_comp s) as [|a b] eqn:E; [congruence|]. cbn [is_nil].
  unfold cut_reading. rewrite !drop_last_one, E. reflexivity.
Qed.
Lemma cut_0 s : cut_reading 0 s = s.
Proof. unfold cut_reading. rewrite !drop_last_0. destruct s; reflexivity. Qed.
Lemma cut_add n m s : cut_reading n (cut_reading m s) = cut_reading (m + n) s.
Proof. unfold cut_reading. cbn [set_raw set_comp s_raw s_comp]. rewrite !drop_last_add. reflexivity. Qed.
Lemma erase_reading w fr k : x_kb (w_ctx w) = kb_new X r -> forall n s,
  s_cmode s = PreComposition -> s_pre s = [] -> erase_key X r (x_cmd (w_ctx w)) PreComposition (s_imode s) k -> n <= length (s_comp s) ->
  run X dbg (repeat (OKey k) n) (with_frames (s :: fr) w) = Ok (repeat (OutBool true) n, with_frames (cut_reading n s :: fr) w).
Proof.
  intros Hb n. induction n as [|n IH]; intros s Hm Hp He Hn.
  - cbn [repeat run]. unfold ret. rewrite cut_0. reflexivity.
  - cbn [repeat]. assert (E := erase_step w s fr k Hb ltac:(rewrite Hm; discriminate) ltac:(rewrite Hm; exact He)).
    assert (Hne : s_comp s <> []) by (intros E0; rewrite E0 in Hn; cbn in Hn; lia).
    rewrite (delete_reading s Hm Hp Hne) in E. cbn [fst snd] in E.
    rewrite (run_cons X dbg _ _ _ _ _ E). rewrite (IH (cut_reading 1 s) Hm Hp He); [|cbn [cut_reading set_raw set_comp s_comp]; rewrite drop_last_len; lia].
    rewrite cut_add. reflexivity.
Qed.
Lemma erase_empty w fr k s : x_kb (w_ctx w) = kb_new X r ->
  s_cmode s = PreComposition -> s_pre s = [] -> erase_key X r (x_cmd (w_ctx w)) PreComposition (s_imode s) k -> s_comp s = [] -> s_raw s = [] ->
  exec X dbg (OKey k) (with_frames (s :: fr) w) = Ok (OutBool true, with_frames (set_cmode Direct s :: fr) w).
Proof.
  intros Hb Hm Hp He Hc Hr. rewrite (erase_step w s fr k Hb ltac:(rewrite Hm; discriminate) ltac:(rewrite Hm; exact He)).
  unfold st_delete. rewrite Hm, Hp, Hc, Hr. cbn [is_nil negb fst snd str_pop removelast]. do 5 f_equal. destruct s; cbn in *; subst; reflexivity.
Qed.
End Erase.

(** Romaji waiting for more keys: as many deletions as keys were pressed and everything, hidden state
    included, is as before. *)
Theorem C72_waiting : forall X dbg r w s rest c u ks x k, distinct_keys X r -> x_kb (w_ctx w) = kb_new X r ->
  frames w = s :: rest -> s_cmode s = c -> c = Direct \/ c = PreComposition -> kana_mode (s_imode s) -> s_pre s = u ->
  Forall (letter X (x_cmd (w_ctx w)) c (s_imode s)) ks -> completable X r ((u ++ ks) ++ [x]) ->
  (c = PreComposition -> no_keyword (cf_auto (x_cfg (w_ctx w))) (s_raw s)) ->
  erase_key X r (x_cmd (w_ctx w)) c (s_imode s) k ->
  run X dbg (map press ks ++ repeat (OKey k) (length ks)) w = Ok (repeat (OutBool true) (2 * length ks), w).
Proof.
  intros X dbg r w s fr c u ks x k Hd Hb Hf Hm Hc Hi Hp Hl Hx Hk He.
  rewrite <- (with_frames_same w (s :: fr) Hf) at 1.
  rewrite (run_two X dbg _ _ _ _ _ (wait_keys X dbg r Hd w c (s_imode s) Hb Hc Hi ks s fr u x Hm eq_refl Hp Hl Hx
    ltac:(intros E; exact (no_keyword_auto _ _ (s_raw s) [] (Hk E) ltac:(now rewrite app_nil_r))))).
  rewrite (erase_pending X dbg r Hd w fr k c Hb Hc ks (set_pre (u ++ ks) s) u Hm He eq_refl).
  rewrite <- repeat_app. replace (length ks + length ks) with (2 * length ks) by lia.
  replace (set_pre u (set_pre (u ++ ks) s)) with s by (destruct s; cbn in *; subst; reflexivity).
  now rewrite (with_frames_same w _ Hf).
Qed.
(** Confirmed text not yet polled: each deletion takes its last character; with none left, the key is
    left to the application and nothing changes. *)
Theorem C72_confirmed : forall X dbg r w s rest n k, distinct_keys X r -> x_kb (w_ctx w) = kb_new X r ->
  frames w = s :: rest -> s_cmode s = Direct -> s_pre s = [] -> erase_key X r (x_cmd (w_ctx w)) Direct (s_imode s) k -> n <= length (s_conf s) ->
  run X dbg (repeat (OKey k) n) w = Ok (repeat (OutBool true) n, with_frames (set_conf (drop_last n (s_conf s)) s :: rest) w)
  /\ (s_conf s = [] -> exec X dbg (OKey k) w = Ok (OutBool false, w)).
Proof.
  intros X dbg r w s fr n k Hd Hb Hf Hm Hp He Hn. split.
  - rewrite <- (with_frames_same w (s :: fr) Hf) at 1. exact (erase_conf X dbg r Hd w fr k Hb n s Hm Hp He Hn).
  - intros E. rewrite <- (with_frames_same w (s :: fr) Hf) at 1. rewrite (erase_step X dbg r Hd w s fr k Hb ltac:(rewrite Hm; discriminate) ltac:(rewrite Hm; exact He)).
    rewrite (delete_conf s Hm Hp). cbn [fst snd]. rewrite E. cbn [is_nil negb]. change (drop_last 1 (@nil N)) with (@nil N).
    replace (set_conf [] s) with s by (rewrite <- E at 1; symmetry; apply set_conf_same). now rewrite (with_frames_same w _ Hf).
Qed.
(** The reading of a word: each deletion takes its last kana, shown and looked up. *)
Theorem C72_reading : forall X dbg r w s rest n k, distinct_keys X r -> x_kb (w_ctx w) = kb_new X r ->
  frames w = s :: rest -> s_cmode s = PreComposition -> s_pre s = [] -> erase_key X r (x_cmd (w_ctx w)) PreComposition (s_imode s) k ->
  n <= length (s_comp s) ->
  run X dbg (repeat (OKey k) n) w = Ok (repeat (OutBool true) n, with_frames (cut_reading n s :: rest) w).
Proof.
  intros X dbg r w s fr n k Hd Hb Hf Hm Hp He Hn. rewrite <- (with_frames_same w (s :: fr) Hf) at 1. exact (erase_reading X dbg r Hd w fr k Hb n s Hm Hp He Hn).
Qed.
(** A whole reading typed and deleted, once more for the mark: the context is idle as before; the word
    can be typed again (C71). *)
Theorem C72_word : forall X dbg r w s rest keys caps ps k, distinct_keys X r -> x_kb (w_ctx w) = kb_new X r ->
  frames w = s :: rest -> idle s -> kana_mode (s_imode s) ->
  spells X r (x_cmd (w_ctx w)) (x_kf (w_ctx w)) (x_cfg (w_ctx w)) PreComposition (s_imode s) false [] [] keys ps ->
  shifted X r (x_cmd (w_ctx w)) Direct (s_imode s) [] [] keys caps -> no_keyword (cf_auto (x_cfg (w_ctx w))) (concat ps) ->
  erase_key X r (x_cmd (w_ctx w)) PreComposition (s_imode s) k ->
  exists s', run X dbg (map press caps ++ repeat (OKey k) (S (length (concat ps)))) w
      = Ok (repeat (OutBool true) (length caps + S (length (concat ps))), with_frames (s' :: rest) w)
    /\ idle s' /\ s_conf s' = s_conf s /\ s_imode s' = s_imode s /\ s_default s' = s_default s /\ s_list s' = s_list s /\ s_cokuri s' = s_cokuri s.
Proof.
  intros X dbg r w s fr keys caps ps k Hd Hb Hf Hidle Hi Hs Hsh Hk He.
  destruct (C71_reading X dbg r w s fr [] [] keys caps ps Hd Hb Hf Hidle Hi Hs Hsh Hk) as (s0 & Hread & E0 & _).
  destruct Hidle as (Hm & Hp & Hraw & Hcomp & Hok & Huse & Hcap).
  assert (E1 : s0 = with_reading (concat ps) s).
  { rewrite E0. unfold flushed. rewrite adjust_nil, app_nil_r, set_conf_same. destruct s; cbn in *; subst; reflexivity. }
  clear E0. subst s0. set (s1 := with_reading (concat ps) s) in *.
  pose proof (erase_reading X dbg r Hd w fr k Hb (length (concat ps)) s1 eq_refl Hp He (le_n _)) as E1.
  set (s2 := cut_reading (length (concat ps)) s1) in *.
  assert (C2 : s_comp s2 = []) by (exact (drop_last_all (concat ps))). assert (R2 : s_raw s2 = []) by (exact (drop_last_all (concat ps))).
  pose proof (erase_empty X dbg r Hd w fr k s2 Hb eq_refl Hp He C2 R2) as E2.
  exists (set_cmode Direct s2). split.
  - rewrite (run_two X dbg _ _ _ _ _ Hread). rewrite <- repeat_snoc, (run_two X dbg _ _ _ _ _ E1), (run_cons X dbg _ _ _ _ _ E2).
    cbn [run ret]. unfold ret. rewrite map_repeat_true, repeat_snoc, <- repeat_app. reflexivity.
  - unfold idle. cbn [set_cmode s_cmode s_pre s_raw s_comp s_okuri s_use s_cap s_conf s_imode s_default s_list s_cokuri]. auto 20.
Qed.
(** The claim in full - after deleting everything that was typed, typing it again has the same effect - is
    false: a capital still waiting for its vowel that is deleted leaves the context believing that
    the capital was used.  At the start K a begins a word; after K BackSpace BackSpace, with nothing
    shown, no mode changed and nothing confirmed, it writes か. *)
Definition appears (w : world) : str * list (cmode * imode * list N) := (get_preedit ascii_xkb (w_ctx w), map (fun s => (s_cmode s, s_imode s, s_pre s)) (frames w)).
Theorem C72_refuted : exists o1 w1 o2 w2 o3 w3,
  typed false (U "K BackSpace BackSpace") (demo [user_dict dic_small]) = Ok (o1, w1)
  /\ appears w1 = appears (demo [user_dict dic_small])
  /\ typed false (U "K a") (demo [user_dict dic_small]) = Ok (o2, w2) /\ get_preedit ascii_xkb (w_ctx w2) = U "▽か"
  /\ typed false (U "K a") w1 = Ok (o3, w3) /\ get_preedit ascii_xkb (w_ctx w3) = U "か".
Proof.
  destruct (run_case (typed false (U "K a") (demo [user_dict dic_small])) (fun w => get_preedit ascii_xkb (w_ctx w)) (U "▽か")) as (o2 & w2 & E2 & F2); [vm_compute; reflexivity|].
  destruct (run_case (typed false (U "K BackSpace BackSpace") (demo [user_dict dic_small]))
    (fun w => (appears w, rmap (fun x => get_preedit ascii_xkb (w_ctx (snd x))) (typed false (U "K a") w)))
    (appears (demo [user_dict dic_small]), Ok (U "か"))) as (o1 & w1 & E1 & F1); [vm_compute; reflexivity|].
  injection F1 as G1 G2 G3. destruct (typed false (U "K a") w1) as [[o3 w3]|] eqn:E3; [|discriminate].
  exists o1, w1, o2, w2, o3, w3. split; [exact E1|]. split; [|split; [exact E2|split; [exact F2|split; [exact E3|]]]].
  - unfold appears. rewrite G1, G2. reflexivity.
  - exact (f_equal (fun x => match x with Ok t => t | Panic _ => [] end) G3).
Qed.
(** The same inside a word: K a shows ▽か; K a K BackSpace shows the same; K u then converts with
    okurigana in the first case and only goes on with the reading in the second. *)
Theorem C72_okuri_refuted : exists o0 w0 o1 w1 o2 w2 o3 w3,
  typed false (U "K a") (demo [user_dict dic_small]) = Ok (o0, w0) /\ typed false (U "K BackSpace") w0 = Ok (o1, w1) /\ appears w1 = appears w0
  /\ typed false (U "K u") w0 = Ok (o2, w2) /\ get_preedit ascii_xkb (w_ctx w2) = U "▼書く"
  /\ typed false (U "K u") w1 = Ok (o3, w3) /\ get_preedit ascii_xkb (w_ctx w3) = U "▽かく".
Proof.
  destruct (run_case (typed false (U "K a") (demo [user_dict dic_small])) (fun w => (appears w, rmap (fun x => get_preedit ascii_xkb (w_ctx (snd x))) (typed false (U "K u") w),
    rmap (fun x => (appears (snd x), rmap (fun y => get_preedit ascii_xkb (w_ctx (snd y))) (typed false (U "K u") (snd x)))) (typed false (U "K BackSpace") w)))
    ((U "▽か", [(PreComposition, Hiragana, [])]), Ok (U "▼書く"), Ok ((U "▽か", [(PreComposition, Hiragana, [])]), Ok (U "▽かく")))) as (o0 & w0 & E0 & F0); [vm_compute; reflexivity|].
  assert (F1 := f_equal (fun x => fst (fst x)) F0). assert (F2 := f_equal (fun x => snd (fst x)) F0). assert (F3 := f_equal snd F0). cbn [fst snd] in F1, F2, F3. clear F0.
  destruct (typed false (U "K BackSpace") w0) as [[o1 w1]|] eqn:E1; [|discriminate].
  assert (F4 := f_equal (fun x => match x with Ok y => snd y | Panic e => Panic e end) F3).
  assert (F5 := f_equal (fun x => match x with Ok y => fst y | Panic _ => ([], []) end) F3). cbn [rmap rbind fst snd] in F4, F5. clear F3.
  destruct (typed false (U "K u") w0) as [[o2 w2]|] eqn:E2; [|discriminate]. destruct (typed false (U "K u") w1) as [[o3 w3]|] eqn:E3; [|discriminate].
  exists o0, w0, o1, w1, o2, w2, o3, w3. split; [exact E0|]. split; [exact E1|]. split; [exact (eq_trans F5 (eq_sym F1))|].
  split; [exact E2|]. split; [exact (f_equal (fun x => match x with Ok t => t | Panic _ => [] end) F2)|]. split; [exact E3|].
  exact (f_equal (fun x => match x with Ok t => t | Panic _ => [] end) F4).
Qed.
(** Met with the shipped rule: BackSpace in Direct mode and in a reading; k and y wait. *)
Definition erase_b (X : xkb) (r : rule) (cr : command_rule) (c : cmode) (i : imode) (k : keyev) : bool :=
  negb (has_mod k M_RELEASE) && match assoc_key (command_key k) (cr c i) with Some [IDelete] => true | _ => false end
  && forallb (fun e => negb (existsb (fun x => N.eqb x (ksym k) || N.eqb x (uncapitalize (ksym k))) (row_seq X e))) (r_conversion r).
Lemma erase_b_spec X r cr c i k : erase_b X r cr c i k = true -> erase_key X r cr c i k.
Proof.
  intros H. apply andb_prop in H as [H H3]. apply andb_prop in H as [H1 H2]. apply negb_true_iff in H1. split; [exact H1|]. split.
  - unfold bound. destruct (assoc_key _ _) as [[|x [|]]|]; try discriminate; destruct x; try discriminate; reflexivity.
  - rewrite forallb_forall in H3.
    assert (A : forall u x, N.eqb x (ksym k) || N.eqb x (uncapitalize (ksym k)) = true -> ~ completable X r (u ++ [x])).
    { intros u x Hx (key & v & Hin & rest & E). specialize (H3 _ Hin). unfold row_seq in H3. cbn [fst] in H3. apply negb_true_iff in H3.
      assert (T : existsb (fun x => N.eqb x (ksym k) || N.eqb x (uncapitalize (ksym k))) (keysyms_from_str X key) = true); [|congruence].
      apply existsb_exists. exists x. split; [|exact Hx]. rewrite E. apply in_or_app. left. apply in_or_app. right. now left. }
    intros u. split; apply A; rewrite N.eqb_refl; [reflexivity|apply Bool.orb_true_r].
Qed.
Definition backspace_key := mkKey 65288 M_NONE.
Example C72_case :
  erase_key ascii_xkb default_rule (r_command default_rule) Direct Hiragana backspace_key
  /\ erase_key ascii_xkb default_rule (r_command default_rule) PreComposition Hiragana backspace_key
  /\ Forall (letter ascii_xkb (r_command default_rule) PreComposition Hiragana) (U "ky")
  /\ completable ascii_xkb default_rule (([] ++ U "ky") ++ U "a")
  /\ (exists ps, spells ascii_xkb default_rule (r_command default_rule) default_kana_form (x_cfg (demo_ctx [0])) PreComposition Hiragana false [] [] (U "kannda") ps /\ concat ps = U "かんだ")
  /\ shifted ascii_xkb default_rule (r_command default_rule) Direct Hiragana [] [] (U "kannda") (U "Kannda").
Proof.
  split; [apply erase_b_spec; vm_compute; reflexivity|]. split; [apply erase_b_spec; vm_compute; reflexivity|]. split.
  { repeat apply Forall_cons; [..|apply Forall_nil]; apply letter_b_spec; vm_compute; reflexivity. }
  split. { apply next_of_some. vm_compute. reflexivity. }
  split. { destruct (spell ascii_xkb default_rule (r_command default_rule) default_kana_form (x_cfg (demo_ctx [0])) Hiragana PreComposition false [] (U "kannda")) as [[ps v]|] eqn:E; [|vm_compute in E; discriminate].
    assert (F : option_map (fun x => (concat (fst x), snd x)) (Some (ps, v)) = Some (U "かんだ", [])) by (rewrite <- E; vm_compute; reflexivity).
    cbn [option_map fst snd] in F. injection F as F1 F2. subst v. exists ps. split; [eapply spell_spec; exact E|exact F1]. }
  assert (E : U "Kannda" = caps (U "kannda")) by (vm_compute; reflexivity). rewrite E. apply shift_of_spec. vm_compute. reflexivity.
Qed.
