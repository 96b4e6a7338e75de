(** C18: what key processing can panic on.  The only panic outside debug builds is the number
    conversion of #3 and #5, and it needs a reading with twenty digits. *)
From Verif Require Import Str Keys Modes KanaBuilder FormChanger DictTypes Parser Lru
  Dictionary CState Context Spec P_Monad P_Frames P_Register T_Num.

(* ------------------------------------------------------------ digits *)
(** Digits of a text; a digit that is not ASCII weighs as much as twenty. *)
Definition digit_weight (c : N) : nat :=
  if is_digit c then (if N.leb 48 c && N.leb c 57 then 1 else 20) else 0.
Definition weight (s : str) : nat := fold_right (fun c n => digit_weight c + n) 0 s.
Lemma weight_app a b : weight (a ++ b) = weight a + weight b.
Proof. induction a; cbn [app weight fold_right] in *; [reflexivity|]. fold (weight (a0 ++ b)). rewrite IHa. unfold weight. lia. Qed.
Lemma weight_cons c s : weight (c :: s) = digit_weight c + weight s.
Proof. reflexivity. Qed.
Lemma weight_removelast s : weight (removelast s) <= weight s.
Proof.
  induction s as [|c s IH]; [cbn; lia|]. destruct s as [|c' s]; [cbn; lia|].
  change (removelast (c :: c' :: s)) with (c :: removelast (c' :: s)). rewrite !weight_cons in *. lia.
Qed.
Local Arguments is_digit : simpl never.
Lemma digit_runs_weight f : forall s d, In d (digit_runs f s) -> digits d /\ weight d <= weight s.
Proof.
  induction f as [|f IH]; intros s d H; [destruct H|]. cbn [digit_runs] in H.
  destruct (find_digits s) as [[[p e] r]|] eqn:E; [|destruct H].
  apply find_digits_spec in E as (-> & _ & He & _). rewrite !weight_app. destruct H as [<-|H].
  - split; [exact He|lia].
  - apply IH in H as [H1 H2]. split; [exact H1|lia].
Qed.
Lemma numbers_weight s d : In d (numbers_of s) -> digits d /\ weight d <= weight s.
Proof. apply digit_runs_weight. Qed.
Lemma light_ascii d : digits d -> weight d < 20 -> ascii_digits d /\ length d < 20.
Proof.
  intros [H1 H2] Hw. assert (G : Forall (fun c => (48 <= c <= 57)%N) d /\ length d = weight d).
  { clear H1. induction H2 as [|c d Hc _ IH]; [split; [constructor|reflexivity]|].
    rewrite weight_cons in Hw. destruct IH as [IH1 IH2]; [lia|]. rewrite weight_cons.
    unfold digit_weight in *. rewrite Hc in *. destruct (N.leb 48 c && N.leb c 57) eqn:E; [|lia].
    apply andb_true_iff in E as [E1 E2]. apply N.leb_le in E1, E2. split; [constructor; [lia|exact IH1]|].
    cbn [length]. lia. }
  destruct G as [G1 G2]. split; [split; assumption|lia].
Qed.
Lemma decimal_bound d : ascii_digits d -> (decimal d < 10 ^ N.of_nat (length d))%N.
Proof.
  intros [_ H]. unfold decimal.
  assert (G : forall acc, (fold_left (fun acc c => acc * 10 + (c - 48)) d acc < (acc + 1) * 10 ^ N.of_nat (length d))%N).
  { induction H as [|c d Hc _ IH]; intros acc; cbn [fold_left length]; [cbn; lia|].
    specialize (IH (acc * 10 + (c - 48))%N). rewrite Nat2N.inj_succ, N.pow_succ_r'.
    eapply N.lt_le_trans; [exact IH|]. rewrite N.mul_assoc. apply N.mul_le_mono_r. lia. }
  specialize (G 0%N). now rewrite N.mul_1_l in G.
Qed.
Lemma light_small d : digits d -> weight d < 20 -> ascii_digits d /\ (decimal d < 10 ^ 19)%N.
Proof.
  intros H1 H2. destruct (light_ascii d H1 H2) as [H3 H4]. split; [exact H3|].
  eapply N.lt_le_trans; [apply decimal_bound, H3|]. apply N.pow_le_mono_r; lia.
Qed.

(* ------------------------------------------------------------ lookups *)
Section Lookups.
(** what the panics below are allowed to be *)
Context (E : reason -> Prop).
Definition only {A} (r : res A) : Prop := forall e, r = Panic e -> E e.
Lemma only_Ok {A} (a : A) : only (Ok a).
Proof. intros e; discriminate. Qed.
Lemma only_rmap {A B} (f : A -> B) r : only r -> only (rmap f r).
Proof. destruct r; cbn; intros H e He; [discriminate|]. injection He as <-. now apply H. Qed.
Lemma only_rbind {A B} (r : res A) (f : A -> res B) :
  only r -> (forall a, r = Ok a -> only (f a)) -> only (rbind r f).
Proof. destruct r; cbn; intros H Hf e He; [eapply Hf; eauto|]. injection He as <-. now apply H. Qed.
Lemma only_res_map {A B} (f : A -> res B) l : (forall a, In a l -> only (f a)) -> only (res_map f l).
Proof.
  induction l as [|a l IH]; intros H; cbn; [apply only_Ok|]. apply only_rbind; [apply H; now left|].
  intros ? ?. apply only_rmap, IH. intros b Hb. apply H. now right.
Qed.
Definition proper (k : ckey) : Prop := ck_okuri k <> Some [].
Lemma only_dict_key k : proper k -> only (get_dict_key k).
Proof. unfold proper, get_dict_key. destruct (ck_okuri k) as [[|c o]|]; [intros []; reflexivity| |]; intros _; [destruct (kana_to_okuri_prefix c)|]; apply only_Ok. Qed.
Lemma only_lookup d k : proper k -> only (lookup d k).
Proof.
  intros H. unfold lookup. destruct (d_kind d); try apply only_Ok; apply only_rmap, only_dict_key, H.
Qed.
Lemma only_exact ds k : proper k -> only (exact_candidates ds k).
Proof.
  intros H. unfold exact_candidates. apply only_rbind.
  - induction ds as [|d ds IH]; cbn; [apply only_Ok|]. apply only_rbind; [apply only_lookup, H|].
    intros ? ?. apply only_rmap, IH.
  - intros l _. apply only_res_map. intros c _. unfold candidate_of_dcand. apply only_rmap, only_dict_key, H.
Qed.
Lemma only_complete ds k : proper k -> only (get_all_complete ds k).
Proof.
  intros H. unfold get_all_complete. apply only_rmap. induction ds as [|d ds IH]; cbn; [apply only_Ok|].
  apply only_rbind; [|intros ? ?; apply only_rmap, IH]. destruct (d_completable d); [|apply only_Ok].
  unfold complete. destruct (d_kind d); try apply only_Ok; cbn zeta; destruct (liter_sorted _); try apply only_Ok; apply only_rmap, only_dict_key, H.
Qed.
(** [n]: a bound of the weight of the numbers. *)
Context (n : nat) (HE : 20 <= n -> E PanicUnwrap).
Lemma only_parse (P : str -> res str) d : digits d -> weight d <= n ->
  (forall e, P d = Panic e -> e = PanicUnwrap) -> (ascii_digits d -> (decimal d < 10 ^ 19)%N -> exists t, P d = Ok t) -> only (P d).
Proof.
  intros Hd Hw Hr Hok e He. destruct (Nat.le_gt_cases 20 (weight d)) as [H|H].
  - rewrite (Hr e He). apply HE. lia.
  - destruct (light_small d Hd H) as [H1 H2]. destruct (Hok H1 H2) as (t & Ht). congruence.
Qed.
Lemma only_template ds t d : digits d -> weight d <= n -> only (template_texts ds t d).
Proof.
  intros Hd Hw. unfold template_texts.
  assert (K : only (numeric_to_simple_kanji_as_number d)).
  { apply only_parse; auto.
    - intros e. unfold numeric_to_simple_kanji_as_number. destruct (find_digits d) as [[[p x] r]|]; [|discriminate].
      destruct (parse_u64 x); congruence.
    - intros H1 H2. destruct (C39_kanji d H1 H2) as (t0 & Ht & _). eauto. }
  assert (J : forall l, only (numeric_to_daiji_as_number d l)).
  { intros l. apply (only_parse (fun d => numeric_to_daiji_as_number d l)); auto.
    - intros e. unfold numeric_to_daiji_as_number. destruct (find_digits d) as [[[p x] r]|]; [|discriminate].
      destruct (parse_u64 x); congruence.
    - intros H1 H2. destruct (C39_daiji d l H1 H2) as (t0 & Ht & _). eauto. }
  repeat match goal with |- only (if ?x then _ else _) => destruct x end; try apply only_Ok.
  - apply only_rmap, K.
  - apply only_rmap, only_exact. discriminate.
  - apply only_rbind; [apply J|]. intros ? ?. apply only_rmap, J.
Qed.
Lemma only_templates ds ts : forall ns cur, (forall d, In d ns -> digits d /\ weight d <= n) ->
  only (replace_templates ds ts ns cur).
Proof.
  induction ts as [|t ts IH]; intros ns cur Hn; cbn [replace_templates]; [apply only_Ok|].
  destruct ns as [|d ns]; [apply only_Ok|]. destruct cur; [apply only_Ok|].
  destruct (Hn d (or_introl eq_refl)) as [H1 H2]. apply only_rbind; [now apply only_template|].
  intros a _. apply IH. intros d' Hd'. apply Hn. now right.
Qed.
Lemma only_all ds k : proper k -> weight (ck_to k) <= n -> only (get_all_candidates ds k).
Proof.
  intros Hk Hw. unfold get_all_candidates. apply only_rbind; [apply only_exact, Hk|]. intros ex _.
  cbn [to_numeric_key]. destruct (ckey_eqb _ k); [apply only_Ok|]. apply only_rbind; [apply only_exact; exact Hk|].
  intros cs _. apply only_rmap, only_res_map. intros c _. unfold replace_numeric_match. apply only_rmap.
  apply only_templates. intros d Hd. apply numbers_weight in Hd as [H1 H2]. split; [exact H1|lia].
Qed.
Lemma only_registered ds s t : weight (ck_to (cl_key (s_list s))) <= n -> only (registered_candidates ds s t).
Proof.
  intros Hw. unfold registered_candidates. cbn zeta. destruct (_ && _); [|apply only_Ok]. cbn [to_numeric_key].
  apply only_rmap. apply only_templates. intros d Hd. apply numbers_weight in Hd as [H1 H2]. split; [exact H1|lia].
Qed.
End Lookups.

(* ------------------------------------------------------------ the monad *)
Local Arguments weight : simpl never.
Lemma weight_nil : weight [] = 0.
Proof. reflexivity. Qed.
Section Safe.
Context (X : xkb) (dbg : bool) (P : Prop) (top : nat).
Definition E18 (r : reason) : Prop := r = PanicUnwrap /\ (P -> 20 <= top).
Definition light (n : nat) (s : cstate) : Prop :=
  P -> weight (s_raw s) + weight (s_okuri s) <= n /\ weight (ck_to (cl_key (s_list s))) <= n.
(** The table and the keywords have no digits. *)
Definition plain (c : ctx) : Prop :=
  P -> (forall k t l, tget (x_kb c) k = Some (t, l) -> weight t = 0)
       /\ forall kw, In kw (cf_auto (x_cfg c)) -> weight kw = 0.
Definition inv (n : nat) (w : world) : Prop :=
  plain (w_ctx w) /\ x_stack (w_ctx w) <> [] /\ Forall (light n) (x_stack (w_ctx w)).
Definition sf {A} (n : nat) (m : M A) : Prop := forall w, inv n w -> wp E18 m (fun _ => inv n) w.

Lemma light_mono n n' s : n <= n' -> light n s -> light n' s.
Proof. intros H L p. destruct (L p). lia. Qed.
Lemma inv_mono n n' w : n <= n' -> inv n w -> inv n' w.
Proof.
  intros H (H1 & H2 & H3). split; [exact H1|split; [exact H2|]]. eapply Forall_impl; [|exact H3].
  intros s. now apply light_mono.
Qed.
Lemma sf_ret {A} n (a : A) : sf n (ret a).
Proof. intros w H. exact H. Qed.
Lemma sf_bind {A B} n (m : M A) (f : A -> M B) : sf n m -> (forall a, sf n (f a)) -> sf n (bind m f).
Proof. intros Hm Hf w H. apply wp_bind. eapply wp_mono; [apply Hm, H|]. intros a w' H'. apply Hf, H'. Qed.
Lemma sf_cur {A} n (f : cstate -> M A) :
  (forall s r w, inv n w -> x_stack (w_ctx w) = s :: r -> light n s -> wp E18 (f s) (fun _ => inv n) w) -> sf n (bind cur f).
Proof.
  intros Hf w H. apply wp_bind, wp_cur; [|intros E; destruct H as (_ & H & _); congruence].
  intros s r Hs. apply (Hf s r); auto. destruct H as (_ & _ & H). rewrite Hs in H. now inversion H.
Qed.
Lemma sf_cur_then {A} n (f : cstate -> M A) : (forall s, light n s -> sf n (f s)) -> sf n (bind cur f).
Proof. intros Hf. apply sf_cur. intros s r w Hw _ Hl. now apply Hf. Qed.
Lemma sf_get_then {A} n (f : world -> M A) : (forall w0, plain (w_ctx w0) -> sf n (f w0)) -> sf n (bind get f).
Proof. intros Hf w H. apply wp_bind, wp_get. apply Hf; auto. apply H. Qed.
Lemma sf_lift_then {A B} n (r : res A) (f : A -> M B) : only E18 r -> (forall a, r = Ok a -> sf n (f a)) -> sf n (bind (lift r) f).
Proof. intros Hr Hf w H. apply wp_bind, wp_lift; [|exact Hr]. intros a Ha. now apply Hf. Qed.
Lemma inv_set n w s r s' : inv n w -> x_stack (w_ctx w) = s :: r -> light n s' -> inv n (set_stack (s' :: r) w).
Proof.
  intros (H1 & H2 & H3) Hs Hl. split; [exact H1|split; [discriminate|]]. cbn. rewrite Hs in H3. inversion H3; subst.
  constructor; auto.
Qed.
Lemma sf_modcur n f : (forall s, light n s -> light n (f s)) -> sf n (modcur f).
Proof.
  intros Hf w H. apply wp_modcur; [|intros E; destruct H as (_ & H & _); congruence].
  intros s r Hs. eapply inv_set; eauto. apply Hf. destruct H as (_ & _ & H). rewrite Hs in H. now inversion H.
Qed.
Lemma sf_for n f : sf n (for_dicts f).
Proof. intros w H. apply wp_for_dicts. exact H. Qed.
Lemma sf_enter n p : sf n (enter_register_mode p).
Proof.
  intros w (H1 & H2 & H3). unfold wp, enter_register_mode. destruct (Nat.ltb _ _); [|exact (conj H1 (conj H2 H3))].
  destruct (x_stack (w_ctx w)) as [|s r]; [congruence|]. split; [exact H1|split; [discriminate|]].
  inversion H3 as [|? ? L1 L2]; subst. constructor; [intros _; cbn; rewrite weight_nil; lia|constructor; [exact L1|exact L2]].
Qed.

(** ** frame updates *)
Lemma light_eq n s s' : s_raw s' = s_raw s -> s_okuri s' = s_okuri s -> s_list s' = s_list s -> light n s -> light n s'.
Proof. unfold light. intros -> -> ->. auto. Qed.
Lemma light_set_pre n u s : light n s -> light n (set_pre u s).
Proof. apply light_eq; reflexivity. Qed.
Lemma light_set_cap n u s : light n s -> light n (set_cap u s).
Proof. apply light_eq; reflexivity. Qed.
Lemma light_set_imode n u s : light n s -> light n (set_imode u s).
Proof. apply light_eq; reflexivity. Qed.
Lemma light_set_cmode n u s : light n s -> light n (set_cmode u s).
Proof. apply light_eq; reflexivity. Qed.
Lemma light_clear_preconverted n  s : light n s -> light n (clear_preconverted s).
Proof. apply light_eq; reflexivity. Qed.
Lemma light_reset_to_default n  s : light n s -> light n (reset_to_default s).
Proof. apply light_eq; reflexivity. Qed.
Lemma light_change_composition_mode n u s : light n s -> light n (change_composition_mode u s).
Proof. apply light_eq; reflexivity. Qed.
Lemma light_change_from_old_mode n u v s : light n s -> light n (change_from_old_mode u v s).
Proof. apply light_eq; reflexivity. Qed.
Lemma light_push n t c s : (P -> weight t = 0) -> light n s -> light n (push_string_for t c s).
Proof. intros Ht L p. specialize (L p). specialize (Ht p). destruct c; cbn; rewrite ?weight_app; lia. Qed.
Lemma light_push_conf n t c s : c = Direct \/ c = CompositionSelection \/ c = Completion -> light n s -> light n (push_string_for t c s).
Proof. intros [-> |[-> | ->]] L p; apply (L p). Qed.
Lemma light_push_by n m t s : (P -> weight t <= m) -> light n s -> light (n + m) (push_string t s).
Proof. intros Ht L p. specialize (L p). specialize (Ht p). unfold push_string. destruct (s_cmode s); cbn; rewrite ?weight_app; lia. Qed.
Lemma light_abort n s : light n s -> light n (abort_to_previous_mode s).
Proof.
  intros L p. specialize (L p). unfold abort_to_previous_mode. destruct (last_opt (s_hist s)) as [[]|]; cbn; rewrite ?weight_app, ?weight_nil; lia.
Qed.
Lemma light_consolidate n s : light n s -> light n (consolidate s).
Proof. intros L p. specialize (L p). cbn. rewrite weight_app, weight_nil. lia. Qed.
Lemma light_delete n s : light n s -> light n (snd (st_delete s)).
Proof.
  intros L p. specialize (L p). unfold st_delete. pose proof (weight_removelast (s_raw s)). pose proof (weight_removelast (s_okuri s)).
  unfold str_pop. destruct (s_cmode s); cbn; repeat match goal with |- context [if ?x then _ else _] => destruct x; cbn end; lia.
Qed.
Lemma light_iter n m s : light n s -> light n (Nat.iter m (fun s => snd (st_delete s)) s).
Proof. intros L; induction m; cbn; auto. apply light_delete; auto. Qed.
Lemma delete_raw s : s_cmode s = PreComposition -> s_okuri (snd (st_delete s)) = s_okuri s
  /\ weight (s_raw (snd (st_delete s))) <= weight (s_raw s).
Proof.
  intros E. unfold st_delete. rewrite E. pose proof (weight_removelast (s_raw s)). unfold str_pop.
  repeat match goal with |- context [if ?x then _ else _] => destruct x; cbn end; split; auto; lia.
Qed.
Lemma light_postfix n t s : (P -> weight t = 0) -> light n s -> light n (set_converted_to_postfix t s).
Proof. intros Ht L p. specialize (L p). specialize (Ht p). cbn. lia. Qed.
Lemma light_forward n s s' : st_forward dbg s = Ok s' -> light n s -> light n s'.
Proof.
  unfold st_forward, cl_forward. destruct (usize_sub _ _ _) as [m|]; cbn; [|discriminate].
  destruct (N.ltb _ _); [|cbn; intros [= <-]; auto]. destruct (usize_add _ _ _); cbn; [|discriminate]. intros [= <-]. auto.
Qed.
Lemma light_backward n s : light n s -> light n (st_backward s).
Proof. intros L p. specialize (L p). unfold st_backward, cl_backward. destruct (N.ltb _ _); exact L. Qed.
Lemma composite_raw s : ck_to (get_composite_key s) = s_raw s.
Proof. unfold get_composite_key. destruct (_ && _); reflexivity. Qed.
Lemma composite_proper s : proper (get_composite_key s).
Proof. unfold get_composite_key, proper. destruct (s_use s && negb (is_nil (s_okuri s))) eqn:E; cbn; [|discriminate].
  apply andb_true_iff in E as [_ E]. destruct (s_okuri s); [discriminate|]. discriminate. Qed.
Lemma light_new_list n cs s : light n s -> light n (set_new_candidate_list cs s).
Proof. intros L p. specialize (L p). unfold set_new_candidate_list. cbn. rewrite composite_raw. lia. Qed.
Lemma light_add n cs s : light n s -> light n (add_new_candidates cs s).
Proof. intros L p. apply (L p). Qed.
Lemma light_cleared n s : light n (clear_unconfirmed s).
Proof. intros p. cbn. rewrite weight_nil. lia. Qed.
Lemma light_cleared_all n s : light n (clear_all s).
Proof. intros p. cbn. rewrite weight_nil. lia. Qed.
Lemma light_clear n s : light n s -> light n (clear_unconfirmed s).
Proof. intros L p. cbn. rewrite weight_nil. lia. Qed.
Lemma light_clear_all n s : light n s -> light n (clear_all s).
Proof. intros L p. cbn. rewrite weight_nil. lia. Qed.
Lemma light_clear_kanas n s : light n s -> light n (clear_kanas s).
Proof. intros L p. specialize (L p). cbn. rewrite ?weight_nil. lia. Qed.
Lemma light_clear_list n s : light n s -> light n (clear_candidate_list s).
Proof. intros L p. specialize (L p). cbn. rewrite ?weight_nil. lia. Qed.
Lemma light_pointer n i s : light n s -> light n (snd (set_candidate_pointer i s)).
Proof. unfold set_candidate_pointer, cl_set_pointer. destruct (N.ltb _ _); auto. Qed.
Lemma HE18 n t : n <= top -> (P -> weight t <= n) -> 20 <= weight t -> E18 PanicUnwrap.
Proof. intros Hn Hw H. split; [reflexivity|]. intros p. specialize (Hw p). lia. Qed.
Lemma only_update n ds s : n <= top -> light n s -> only E18 (get_all_candidates ds (get_composite_key s)).
Proof.
  intros Hn L. apply (only_all E18 (weight (s_raw s))).
  - apply (HE18 n); auto. intros p. specialize (L p). lia.
  - apply composite_proper.
  - now rewrite composite_raw.
Qed.

(** ** operations *)
Context (n : nat) (Hn : n <= top).
Ltac lt := repeat first
  [ assumption
  | match goal with
    | |- light n (push_string_for _ Direct _) => apply light_push_conf; [tauto|]
    | |- light n (push_string_for _ _ _) => apply light_push; [assumption|]
    | |- light n (push_string _ _) => apply light_push; [assumption|]
    | |- light n (abort_to_previous_mode _) => apply light_abort
    | |- light n (consolidate _) => apply light_consolidate
    | |- light n (snd (st_delete _)) => apply light_delete
    | |- light n (st_backward _) => apply light_backward
    | |- light n (set_new_candidate_list _ _) => apply light_new_list
    | |- light n (add_new_candidates _ _) => apply light_add
    | |- light n (clear_unconfirmed _) => apply light_cleared
    | |- light n (clear_all _) => apply light_cleared_all
    | |- light n (clear_all _) => apply light_clear_all
    | |- light n (clear_kanas _) => apply light_clear_kanas
    | |- light n (clear_candidate_list _) => apply light_clear_list
    | |- light n (snd (set_candidate_pointer _ _)) => apply light_pointer
    | |- light n (if ?x then _ else _) => destruct x
    | |- light n (set_pre _ ?s) => apply light_set_pre
    | |- light n (set_cap _ ?s) => apply light_set_cap
    | |- light n (set_imode _ ?s) => apply light_set_imode
    | |- light n (set_cmode _ ?s) => apply light_set_cmode
    | |- light n (clear_preconverted ?s) => apply light_clear_preconverted
    | |- light n (reset_to_default ?s) => apply light_reset_to_default
    | |- light n (change_composition_mode _ ?s) => apply light_change_composition_mode
    | |- light n (change_from_old_mode _ _ ?s) => apply light_change_from_old_mode
    end ].
Create HintDb sf.
Ltac sf1 := first
  [ assumption
  | solve [auto 2 with sf nocore]
  | match goal with
    | |- sf _ (ret _) => apply sf_ret
    | |- sf _ (for_dicts _) => apply sf_for
    | |- sf _ (enter_register_mode _) => apply sf_enter
    | |- sf _ (bind cur _) => apply sf_cur_then; intros ? ?
    | |- sf _ (bind get _) => apply sf_get_then; intros ? ?
    | |- sf _ (bind _ _) => apply sf_bind; [|intros ?]
    | |- sf _ (modcur _) => apply sf_modcur; intros ? ?; cbn beta zeta; solve [lt]
    | |- sf _ (match ?x with _ => _ end) => destruct x eqn:?
    | |- sf _ (if ?x then _ else _) => destruct x eqn:?
    end ].
Ltac sf := cbn beta zeta; repeat (sf1; cbn beta zeta).
Lemma sf_append_direct t : forall w, inv n w -> forall s r, x_stack (w_ctx w) = s :: r -> s_cmode s = Direct ->
  wp E18 (append_converted t) (fun _ => inv n) w.
Proof.
  intros w Hw s r Hs Hc. unfold append_converted, wp.
  apply (wp_modcur E18 (fun s => push_string (adjust_kana_string (x_kf (w_ctx w)) (s_imode s) t) s) (fun _ => inv n) w); [|intros E; congruence].
  intros s' r' Hs'. eapply inv_set; eauto. assert (s' = s) as -> by congruence. unfold push_string. rewrite Hc.
  apply light_push_conf; [tauto|]. destruct Hw as (_ & _ & L). rewrite Hs in L. now inversion L.
Qed.
Lemma sf_append t : (P -> weight t = 0) -> forall w, inv n w -> forall s r, x_stack (w_ctx w) = s :: r -> s_cmode s = Direct ->
  wp E18 (append_converted t) (fun _ => inv n) w.
Proof. intros _. apply sf_append_direct. Qed.
Lemma sf_carry u : sf n (set_carry_over u).
Proof. unfold set_carry_over. sf. Qed.
Lemma sf_update : sf n update_candidate_list.
Proof.
  unfold update_candidate_list. apply sf_cur_then. intros s L. apply sf_get_then. intros w _.
  apply sf_lift_then; [now apply (only_update n)|]. intros. sf.
Qed.
Lemma sf_update_completion : sf n update_completion_list.
Proof.
  unfold update_completion_list. apply sf_cur_then. intros s L. apply sf_get_then. intros w _.
  apply sf_lift_then; [apply only_complete, composite_proper|]. intros. sf.
Qed.
Lemma sf_purge : sf n purge_current.
Proof. unfold purge_current. sf. Qed.
Lemma sf_confirm : sf n confirm_current.
Proof.
  unfold confirm_current. sf.
Qed.
Lemma sf_confirm_as i : sf n (confirm_as i).
Proof. unfold confirm_as. sf. Qed.
Lemma sf_set_cmode c : sf n (set_composition_mode c).
Proof. unfold set_composition_mode. sf. Qed.
Lemma sf_set_imode i : sf n (set_input_mode i).
Proof. unfold set_input_mode. sf. Qed.
Lemma sf_abort_register : sf n abort_register_mode.
Proof.
  intros w (H1 & H2 & H3). unfold wp, abort_register_mode.
  destruct (x_stack (w_ctx w)) as [|s [|s' r]] eqn:E; try (split; [exact H1|split; [rewrite E; exact H2|rewrite E; exact H3]]).
  split; [exact H1|]. cbn. split; [discriminate|]. now inversion H3.
Qed.
Hint Resolve sf_carry sf_update sf_update_completion sf_purge sf_confirm sf_confirm_as sf_set_cmode sf_set_imode sf_abort_register : sf.
Lemma sf_exit t : sf n (exit_register_mode t).
Proof.
  intros w (H1 & H2 & H3). unfold wp, exit_register_mode.
  destruct (x_stack (w_ctx w)) as [|s [|s' r]] eqn:E; try (split; [exact H1|split; [rewrite E; exact H2|rewrite E; exact H3]]).
  match goal with |- match ?m ?w0 with _ => _ end => set (m0 := m); set (w1 := w0) end.
  assert (G : sf n m0).
  { subst m0. destruct (is_nil t); [sf|]. apply sf_bind; [sf|intros _]. apply sf_cur_then. intros s1 L1.
    apply sf_get_then. intros w2 _. apply sf_lift_then.
    - apply (only_registered E18 (weight (ck_to (cl_key (s_list s1))))); [|lia].
      apply (HE18 n); auto. intros p. specialize (L1 p). lia.
    - intros cs _. sf. }
  apply G. split; [exact H1|]. subst w1. cbn. split; [discriminate|]. now inversion H3.
Qed.
Lemma sf_output i c : sf n (output_converted_kana_if_any i c).
Proof.
  unfold output_converted_kana_if_any. apply sf_cur_then. intros s L. apply sf_get_then. intros w Hp.
  destruct (convert_greedy (x_kb (w_ctx w)) (s_pre s)) as [[kana carry]|] eqn:E; [|sf].
  assert (Hk : P -> weight kana = 0) by (intros p; destruct (Hp p) as [Hp1 _]; eapply Hp1; exact E).
  sf.
Qed.
Lemma sf_capital k c d : sf n (transition_by_capital k c d).
Proof. unfold transition_by_capital. sf. Qed.
Hint Resolve sf_exit sf_output sf_capital : sf.
Lemma sf_next c i : c <> CompositionSelection -> sf n (try_next_candidate dbg c i).
Proof.
  intros Hc. unfold try_next_candidate. assert (cmode_eqb c CompositionSelection = false) as ->.
  { destruct (cmode_eqb c CompositionSelection) eqn:E; [apply cmode_eqb_eq in E; congruence|reflexivity]. }
  cbn [negb]. sf.
Qed.
Lemma sf_next_completion c i : c <> Completion -> sf n (try_next_completion dbg c i).
Proof.
  intros Hc. unfold try_next_completion. assert (cmode_eqb c Completion = false) as ->.
  { destruct (cmode_eqb c Completion) eqn:E; [apply cmode_eqb_eq in E; congruence|reflexivity]. }
  cbn [negb]. sf.
Qed.
(** moving the cursor: no panic outside debug builds, nor with candidates *)
Definition movable (s : cstate) : Prop := dbg = false \/ (cl_list (s_list s) <> [] /\ (cl_len (s_list s) <= usize_mod)%N).
Lemma movable_sub s : movable s -> exists m, usize_sub dbg (cl_len (s_list s)) 1 = Ok m /\ (dbg = true -> m + 1 = cl_len (s_list s))%N.
Proof.
  intros [H|[H _]]; unfold usize_sub.
  - rewrite H. destruct (N.leb _ _); eexists; (split; [reflexivity|discriminate]).
  - assert (1 <= cl_len (s_list s))%N as E by (unfold cl_len; destruct (cl_list (s_list s)); [congruence|cbn; lia]).
    pose proof E as E'. apply N.leb_le in E'. rewrite E'. eexists. split; [reflexivity|]. intros _. lia.
Qed.
Lemma movable_forward s : movable s -> exists s', st_forward dbg s = Ok s'.
Proof.
  intros H. unfold st_forward, cl_forward. destruct (movable_sub s H) as (m & -> & Hm). cbn [rbind].
  destruct (N.ltb_spec (cl_cur (s_list s)) m); cbn [rmap]; [|eauto].
  unfold usize_add. destruct (N.ltb_spec (cl_cur (s_list s) + 1) usize_mod); cbn [rmap]; [eauto|].
  destruct H as [H|[Ha Hb]]; [rewrite H; cbn; eauto|]. destruct dbg; [|cbn; eauto]. specialize (Hm eq_refl). lia.
Qed.
Lemma movable_next s : movable s -> exists b, cl_has_next dbg (s_list s) = Ok b.
Proof. intros H. unfold cl_has_next. destruct (movable_sub s H) as (m & -> & _). cbn. eauto. Qed.
Lemma wp_forward (m : M unit) w s r : inv n w -> x_stack (w_ctx w) = s :: r -> movable s -> sf n m ->
  wp E18 (s' <- lift (st_forward dbg s) ;; modcur (fun _ => s') ;; m) (fun _ => inv n) w.
Proof.
  intros Hw Hs Hm Hk. destruct (movable_forward s Hm) as (s' & E). apply wp_bind, wp_lift; [|congruence].
  intros s1 E1. assert (s1 = s') as -> by congruence. apply wp_bind, wp_modcur; [|congruence].
  intros s2 r2 Hs2. apply Hk. eapply inv_set; eauto. eapply light_forward; [exact E|].
  destruct Hw as (_ & _ & L). rewrite Hs in L. now inversion L.
Qed.
Lemma wp_next_list i w s r : inv n w -> x_stack (w_ctx w) = s :: r -> movable s ->
  wp E18 (try_next_candidate dbg CompositionSelection i) (fun _ => inv n) w.
Proof.
  intros Hw Hs Hm. unfold try_next_candidate. cbn [cmode_eqb negb]. apply wp_bind, wp_cur; [|congruence].
  intros s' r' Hs'. assert (s' = s) as -> by congruence. destruct (movable_next s Hm) as (b & E).
  apply wp_bind, wp_lift; [|congruence]. intros b' _. destruct (negb b'); [now apply sf_enter|].
  destruct (movable_forward s Hm) as (s1 & E1). apply wp_bind, wp_lift; [|congruence].
  intros s2 E2. assert (s2 = s1) as -> by congruence. apply wp_modcur; [|congruence].
  intros s3 r3 Hs3. eapply inv_set; eauto. eapply light_forward; [exact E1|].
  destruct Hw as (_ & _ & L). rewrite Hs in L. now inversion L.
Qed.
Lemma wp_next_completion i w s r : inv n w -> x_stack (w_ctx w) = s :: r -> movable s ->
  wp E18 (try_next_completion dbg Completion i) (fun _ => inv n) w.
Proof.
  intros Hw Hs Hm. unfold try_next_completion. cbn [cmode_eqb negb]. apply wp_bind, wp_cur; [|congruence].
  intros s' r' Hs'. assert (s' = s) as -> by congruence. destruct (movable_next s Hm) as (b & E).
  apply wp_bind, wp_lift; [|congruence]. intros b' _. destruct (negb b'); [now apply sf_ret|].
  apply (wp_forward _ w s r); auto with sf.
Qed.
Lemma sf_auto_start w s r : inv n w -> x_stack (w_ctx w) = s :: r -> s_cmode s = PreComposition ->
  wp E18 (auto_start_henkan dbg) (fun _ => inv n) w.
Proof.
  intros Hw Hs Hc. unfold auto_start_henkan. apply wp_bind, wp_cur; [|congruence].
  intros s' r' Hs'. assert (s' = s) as -> by congruence. rewrite Hc. cbn [cmode_eqb negb].
  apply wp_bind, wp_get. destruct (matching_keyword _ _) as [kw|] eqn:Ek; [|exact Hw].
  assert (Hkw : P -> weight kw = 0).
  { intros p. destruct (proj1 Hw p) as [_ H]. apply H. unfold matching_keyword in Ek. now apply find_some in Ek. }
  revert w Hw Hs Hs' Ek. intros w Hw Hs Hs' Ek. apply wp_bind.
  eapply wp_mono; [apply (sf_modcur n); [|exact Hw]|].
  - intros s0 L0. apply light_postfix; [exact Hkw|]. now apply light_iter.
  - intros ? w1 Hw1. revert w1 Hw1. apply sf_cur_then. intros s1 L1. apply sf_next. discriminate.
Qed.
Lemma sf_finish : sf n (finish_kana_input dbg).
Proof.
  unfold finish_kana_input. apply sf_cur. intros s r w Hw Hs L. destruct (cmode_eqb (s_cmode s) PreComposition) eqn:E.
  - apply cmode_eqb_eq in E. apply wp_bind. eapply wp_mono; [eapply sf_auto_start; eauto|]. intros ? w1 H1. exact H1.
  - exact Hw.
Qed.
Hint Resolve sf_finish : sf.
Lemma modcur_run f w s r : x_stack (w_ctx w) = s :: r -> modcur f w = Ok (tt, set_stack (f s :: r) w).
Proof. intros H. unfold modcur. now rewrite H. Qed.
Lemma sf_converted conv carry did u : (P -> weight conv = 0) -> sf n (input_converted_kana dbg conv carry did u).
Proof.
  intros Hc. unfold input_converted_kana. apply sf_cur. intros s r w Hw Hs L. destruct (s_cmode s) eqn:Em; try exact Hw.
  - apply wp_bind. eapply wp_mono; [eapply sf_append; eauto|]. intros ? w1 H1. now apply sf_carry.
  - (* PreComposition *)
    apply wp_bind. unfold wp at 1. rewrite (modcur_run _ w s r Hs).
    set (s1 := push_string conv s). assert (L1 : light n s1) by (apply light_push; auto).
    assert (Em1 : s_cmode s1 = PreComposition) by (subst s1; unfold push_string; now rewrite Em).
    assert (Hw1 : inv n (set_stack (s1 :: r) w)) by (eapply inv_set; eauto). clearbody s1.
    apply wp_bind. unfold wp at 1, set_carry_over. rewrite (modcur_run _ (set_stack (s1 :: r) w) s1 r eq_refl).
    eapply (sf_auto_start _ _ r); [eapply inv_set; [exact Hw1|reflexivity|]|reflexivity|].
    + cbn beta zeta. lt.
    + cbn beta zeta. destruct (is_nil carry); exact Em1.
  - revert w Hw Hs. intros w Hw _. revert w Hw.
    match goal with |- forall w, _ -> wp E18 ?m _ w => change (sf n m) end. sf.
Qed.
Lemma sf_continuous k : sf n (input_as_continuous_kana k).
Proof. unfold input_as_continuous_kana. sf. Qed.
Lemma sf_abort : sf n abort.
Proof. unfold abort, when. sf. Qed.
Hint Resolve sf_continuous sf_abort : sf.

(** ** instructions *)
Definition risky (c : cmode) (x : instr) : bool :=
  match x with
  | INextCandidatePointer => true
  | ITryNextCandidate => cmode_eqb c CompositionSelection
  | ITryNextCompletion => cmode_eqb c Completion
  | _ => false
  end.
Lemma sf_instr x c i : dbg = false \/ risky c x = false -> sf n (run_instr dbg x c i).
Proof.
  intros Hx. destruct x; try (cbn [run_instr]; sf; fail).
  - cbn [run_instr]. apply sf_bind; [|intros; apply sf_ret].
    cbn [risky] in Hx. destruct (cmode_eqb c CompositionSelection) eqn:E.
    + destruct Hx as [Hd|]; [|discriminate]. apply cmode_eqb_eq in E as ->. intros w Hw. destruct (x_stack (w_ctx w)) as [|s r] eqn:Hs; [destruct Hw as (_ & H & _); congruence|].
      eapply wp_next_list; eauto. now left.
    + apply sf_next. intros ->. discriminate.
  - destruct Hx as [Hd|]; [|discriminate]. cbn [run_instr]. apply sf_bind; [|intros; apply sf_ret].
    apply sf_cur. intros s r w Hw Hs L. destruct (movable_forward s (or_introl Hd)) as (s' & E).
    apply wp_bind, wp_lift; [|congruence]. intros s1 E1. apply wp_modcur; [|congruence].
    intros s2 r2 Hs2. eapply inv_set; eauto. eapply light_forward; eauto.
  - cbn [run_instr]. apply sf_bind; [|intros; apply sf_ret].
    cbn [risky] in Hx. destruct (cmode_eqb c Completion) eqn:E.
    + destruct Hx as [Hd|]; [|discriminate]. apply cmode_eqb_eq in E as ->. intros w Hw. destruct (x_stack (w_ctx w)) as [|s r] eqn:Hs; [destruct Hw as (_ & H & _); congruence|].
      eapply wp_next_completion; eauto. now left.
    + apply sf_next_completion. intros ->. discriminate.
Qed.
Lemma sf_instrs l c i : (dbg = false \/ forallb (fun x => negb (risky c x)) l = true) -> forall b, sf n (run_instrs dbg l c i b).
Proof.
  induction l as [|x l IH]; intros Hl b; cbn [run_instrs]; [apply sf_ret|].
  apply sf_bind.
  - apply sf_instr. destruct Hl as [Hl|Hl]; [now left|right]. cbn in Hl. apply andb_true_iff in Hl as [Hl _]. now apply negb_true_iff.
  - intros [|]; [|apply sf_ret]. apply IH. destruct Hl as [Hl|Hl]; [now left|right]. cbn in Hl. now apply andb_true_iff in Hl.
Qed.
(** In debug builds the cursor may only be moved by the first instruction of a list. *)
Definition debug_safe (c : cmode) (l : list instr) : bool :=
  match l with
  | [] => true
  | x :: r => (match x with INextCandidatePointer => cmode_eqb c CompositionSelection || cmode_eqb c Completion | _ => true end) && forallb (fun x => negb (risky c x)) r
  end.
Lemma wp_instructions l w s r i : dbg = false \/ debug_safe (s_cmode s) l = true -> inv n w -> x_stack (w_ctx w) = s :: r ->
  (s_cmode s = CompositionSelection \/ s_cmode s = Completion -> movable s) ->
  wp E18 (process_instructions dbg l (s_cmode s) i) (fun _ => inv n) w.
Proof.
  intros Hl Hw Hs Hm. unfold process_instructions. destruct Hl as [Hl|Hl]; [apply sf_instrs; auto|].
  destruct l as [|x l]; [exact Hw|]. cbn in Hl. apply andb_true_iff in Hl as [Hx Hl]. cbn [run_instrs].
  apply wp_bind. eapply wp_mono with (Q := fun _ => inv n).
  - destruct (risky (s_cmode s) x) eqn:Er; [|apply sf_instr; auto]. destruct x; try discriminate; cbn [run_instr].
    + destruct (cmode_eqb (s_cmode s) CompositionSelection) eqn:E.
      * apply cmode_eqb_eq in E. rewrite E. apply wp_bind. eapply wp_mono; [eapply wp_next_list; eauto|]. intros ? w1 H1. exact H1.
      * apply sf_bind; [apply sf_next|intros; apply sf_ret|exact Hw]. intros E'. rewrite E' in E. discriminate.
    + assert (Hm' : movable s). { apply Hm. apply orb_true_iff in Hx as [Hx|Hx]; apply cmode_eqb_eq in Hx; auto. }
      apply wp_bind, wp_bind, wp_cur; [|congruence]. intros s1 r1 Hs1. assert (s1 = s) as -> by congruence.
      destruct (movable_forward s Hm') as (s' & E). apply wp_bind, wp_lift; [|congruence]. intros s2 E2.
      apply wp_modcur; [|congruence]. intros s3 r3 Hs3. eapply inv_set; eauto. eapply light_forward; [exact E2|].
      destruct Hw as (_ & _ & L). rewrite Hs in L. now inversion L.
    + destruct (cmode_eqb (s_cmode s) Completion) eqn:E.
      * apply cmode_eqb_eq in E. rewrite E. apply wp_bind. eapply wp_mono; [eapply wp_next_completion; eauto|]. intros ? w1 H1. exact H1.
      * apply sf_bind; [apply sf_next_completion|intros; apply sf_ret|exact Hw]. intros E'. rewrite E' in E. discriminate.
  - intros [|] w1 H1; [|exact H1]. apply sf_instrs; auto.
Qed.

(** ** input *)
Lemma period_weight c p q t : convert_periods c p q = Some t -> weight t = 0.
Proof.
  unfold convert_periods. destruct (N.eqb c 46); [intros [= <-]; destruct p; reflexivity|].
  destruct (N.eqb c 44); [intros [= <-]; destruct q; reflexivity|discriminate].
Qed.
Lemma sf_periods i c t : weight t = 0 -> sf n (input_periods dbg i c t).
Proof.
  intros Ht. assert (Ht' : P -> weight t = 0) by auto. unfold input_periods. apply sf_bind; [sf|intros ?]. apply sf_bind; [sf|intros ?].
  apply sf_cur. intros s r w Hw Hs L. destruct (s_cmode s) eqn:E; try exact Hw.
  - apply wp_bind. eapply wp_mono; [eapply sf_append; eauto|]. intros ? w1 H1. now apply sf_finish.
  - revert w Hw Hs. intros w Hw _. revert w Hw.
    match goal with |- forall w, _ -> wp E18 ?m _ w => change (sf n m) end. sf.
  - revert w Hw Hs. intros w Hw _. revert w Hw.
    match goal with |- forall w, _ -> wp E18 ?m _ w => change (sf n m) end. sf.
Qed.
Hint Resolve sf_periods : sf.
End Safe.

(* ------------------------------------------------------------ a key *)
Section Key.
Context (X : xkb) (dbg : bool) (P : Prop) (n m : nat).
Notation top := (n + m).
Notation E := (E18 P top).
Lemma n_top : n <= top.
Proof. lia. Qed.
Definition up {A} (x : M A) : Prop := forall w, inv P n w -> wp E x (fun _ => inv P top) w.
Lemma up_sf {A} (x : M A) : sf P top n x -> up x.
Proof. intros H w Hw. eapply wp_mono; [apply H, Hw|]. intros ? w1 H1. eapply inv_mono; [|exact H1]. lia. Qed.
Lemma up_bind {A B} (x : M A) (f : A -> M B) : sf P top n x -> (forall a, up (f a)) -> up (bind x f).
Proof. intros H Hf w Hw. apply wp_bind. eapply wp_mono; [apply H, Hw|]. intros a w1 H1. apply Hf, H1. Qed.
Lemma up_bind_r {A B} (x : M A) (f : A -> M B) : up x -> (forall a, sf P top top (f a)) -> up (bind x f).
Proof. intros H Hf w Hw. apply wp_bind. eapply wp_mono; [apply H, Hw|]. intros a w1 H1. apply Hf, H1. Qed.
Lemma up_cur {A} (f : cstate -> M A) : (forall s, light P n s -> up (f s)) -> up (bind cur f).
Proof.
  intros Hf w H. apply wp_bind, wp_cur; [|intros Z; destruct H as (_ & H & _); congruence].
  intros s r Hs. apply Hf; auto. destruct H as (_ & _ & H). rewrite Hs in H. now inversion H.
Qed.
Lemma up_get {A} (f : world -> M A) : (forall w0, plain P (w_ctx w0) -> up (f w0)) -> up (bind get f).
Proof. intros Hf w H. apply wp_bind, wp_get. apply Hf; auto. apply H. Qed.
Lemma up_push t : (P -> weight t <= m) -> up (modcur (push_string t)).
Proof.
  intros Ht w H. apply wp_modcur; [|intros Z; destruct H as (_ & H & _); congruence].
  intros s r Hs. destruct H as (H1 & H2 & H3). rewrite Hs in H3. inversion H3; subst.
  split; [exact H1|split; [discriminate|]]. cbn. constructor; [now apply light_push_by|].
  eapply Forall_impl; [|eassumption]. intros s'. apply light_mono. lia.
Qed.
Lemma up_ret {A} (a : A) : up (ret a).
Proof. apply up_sf, sf_ret. Qed.
Hint Resolve n_top : core.
Lemma up_finish : up (finish_kana_input dbg).
Proof. apply up_sf, sf_finish, n_top. Qed.
Lemma up_direct_char k ch i c : weight [ch] <= m -> up (input_direct_char dbg k ch i c).
Proof.
  intros Hc. unfold input_direct_char. destruct (is_ascii_inputtable k); [|apply up_ret].
  apply up_bind; [apply sf_output; auto|intros ?]. apply up_bind; [apply sf_modcur; intros s L; now apply light_clear_preconverted|intros ?].
  apply up_cur. intros s L. destruct (s_cmode s); try apply up_ret.
  all: apply up_bind_r; [apply up_push; auto|intros ?; apply sf_finish; lia].
Qed.
Lemma plain_conv c b k t l : plain P c -> x_kb c = b -> convert_non_partial b k = Some (t, l) -> P -> weight t = 0.
Proof. intros H Hb E1 p. subst b. apply non_partial_tget in E1. destruct (H p) as [H1 _]. eapply H1, E1. Qed.
Lemma up_converted conv carry did u : (P -> weight conv = 0) -> up (input_converted_kana dbg conv carry did u ;; ret true).
Proof. intros H. apply up_sf, sf_bind; [now apply sf_converted|intros ?; apply sf_ret]. Qed.
Lemma up_unconverted k u ch c : weight [ch] <= m -> up (input_unconverted dbg k u ch c).
Proof.
  intros Hc. unfold input_unconverted. apply up_cur. intros s L. apply up_get. intros w Hp. cbn zeta.
  destruct (convert_periods _ _ _) as [t|] eqn:Et; [apply up_sf, sf_periods; eauto using period_weight|].
  destruct (can_continue _ k u); [apply up_bind; [apply sf_continuous; auto|intros ?; apply up_finish]|].
  destruct (_ && _). { apply up_bind; [apply sf_capital; auto|intros ?]. apply up_bind; [apply sf_continuous; auto|intros ?; apply up_finish]. }
  destruct (convert_non_partial _ (combine_raw k [])) as [[t l]|] eqn:E1.
  { apply up_converted. eapply plain_conv; [exact Hp|reflexivity|exact E1]. }
  destruct (convert_non_partial _ (combine_lower k [])) as [[t l]|] eqn:E2.
  { destruct (is_upper k); [|apply up_finish]. apply up_bind; [apply sf_capital; auto|intros ?].
    apply up_converted. eapply plain_conv; [exact Hp|reflexivity|exact E2]. }
  assert (Hclear : sf P top n (modcur clear_preconverted)) by (apply sf_modcur; intros s' L'; now apply light_clear_preconverted).
  destruct (can_continue _ k []).
  { apply up_bind; [apply sf_output; auto|intros ?]. apply up_bind; [exact Hclear|intros ?].
    apply up_bind; [apply sf_continuous; auto|intros ?; apply up_finish]. }
  destruct (can_continue_lower _ k []).
  { apply up_bind; [apply sf_capital; auto|intros ?]. apply up_bind; [apply sf_output; auto|intros ?]. apply up_bind; [exact Hclear|intros ?].
    apply up_bind; [apply sf_continuous; auto|intros ?; apply up_finish]. }
  now apply up_direct_char.
Qed.
(** the digits a key can add to a reading *)
Definition key_weight (k : keyev) : nat := match get_symbol_char X k with Some ch => digit_weight ch | None => 0 end.
Lemma key_weight_char k ch : key_weight k <= m -> get_symbol_char X k = Some ch -> weight [ch] <= m.
Proof. unfold key_weight. intros H E1. rewrite E1 in H. rewrite weight_cons, weight_nil. lia. Qed.
Lemma up_kana k u : key_weight k <= m -> up (input_kana X dbg k u).
Proof.
  intros Hk. unfold input_kana. apply up_cur. intros s L. apply up_get. intros w Hp. cbn zeta.
  assert (U : up match get_symbol_char X k with Some ch => input_unconverted dbg k u ch (s_cmode s) | None => ret false end).
  { destruct (get_symbol_char X k) as [ch|] eqn:Ec; [|apply up_ret]. apply up_unconverted. eapply key_weight_char; eauto. }
  destruct (convert_non_partial _ (combine_raw k u)) as [[t l]|] eqn:E1.
  { apply up_converted. eapply plain_conv; [exact Hp|reflexivity|exact E1]. }
  destruct (is_upper k); [|exact U].
  destruct (convert_non_partial _ (combine_lower k u)) as [[t l]|] eqn:E2; [|exact U].
  apply up_bind; [apply sf_capital; auto|intros ?]. apply up_converted. eapply plain_conv; [exact Hp|reflexivity|exact E2].
Qed.
Lemma up_plain k : key_weight k <= m -> up (input_plain X k).
Proof.
  intros Hk. unfold input_plain. intros w0 Hw0. apply wp_bind, wp_cur; [|intros Z; destruct Hw0 as (_ & H & _); congruence].
  intros s r Hs. apply wp_bind, wp_get. destruct (s_cmode s) eqn:Ec; try (apply up_ret; assumption).
  - destruct (get_symbol_char X k) as [ch|] eqn:Ech; [|apply up_ret; assumption].
    pose proof (key_weight_char k ch Hk Ech). destruct (s_imode s); try (apply up_ret; assumption).
    + apply wp_bind. eapply wp_mono; [eapply (sf_append_direct P top n); eauto|]. intros ? w1 H1. eapply inv_mono; [|exact H1]. lia.
    + apply up_bind_r; [apply up_push; auto|intros ?; apply sf_ret|exact Hw0].
  - destruct (get_symbol_char X k) as [ch|] eqn:Ech; [|apply up_ret; assumption].
    pose proof (key_weight_char k ch Hk Ech). apply up_bind_r; [apply up_push; auto|intros ?; apply sf_ret|exact Hw0].
Qed.
Lemma up_input k c u : key_weight k <= m -> up (input_key X dbg k c u).
Proof.
  intros Hk. unfold input_key. destruct (negb _); [apply up_ret|]. apply up_cur. intros s L. apply up_get. intros w Hp.
  apply up_bind. { destruct (_ && _); [apply sf_confirm; auto|apply sf_ret]. }
  intros ?. apply up_cur. intros s1 L1. destruct (_ && _); [now apply up_kana|]. destruct (_ && _); [now apply up_plain|apply up_ret].
Qed.
(** What keeps a debug build from panicking. *)
Definition debug_ok (k : keyev) (w : world) : Prop :=
  dbg = false \/ forall s r, x_stack (w_ctx w) = s :: r ->
    s_cmode s <> Register
    /\ (s_cmode s = CompositionSelection \/ s_cmode s = Completion ->
          cl_list (s_list s) <> [] /\ (cl_len (s_list s) <= usize_mod)%N)
    /\ forall l, bound (x_cmd (w_ctx w)) (s_cmode s) (s_imode s) k l -> debug_safe (s_cmode s) l = true.
Lemma only_instruction cr k i c : dbg = false \/ c <> Register -> only E (get_instruction dbg cr k i c).
Proof.
  intros H e. unfold get_instruction. destruct c; try discriminate. destruct H as [-> |H]; [discriminate|congruence].
Qed.
Theorem key_safe k w : key_weight k <= m -> inv P n w -> debug_ok k w ->
  wp E (process_key_event X dbg k) (fun _ => inv P top) w.
Proof.
  intros Hk Hw Hd. unfold process_key_event. destruct (has_mod k M_RELEASE); [apply up_ret, Hw|].
  unfold process_key_event_inner. apply wp_bind, wp_cur; [|intros Z; destruct Hw as (_ & H & _); congruence].
  intros s r Hs. apply wp_bind, wp_get. cbn zeta. destruct (skip_command _ _ _ _ _); [now apply up_input|].
  apply wp_bind, wp_lift.
  - intros mi Hi. destruct mi as [l|]; [|now apply up_input].
    eapply wp_mono; [eapply (wp_instructions dbg P top n n_top l w s r)|].
    + destruct Hd as [Hd|Hd]; [now left|]. right. destruct (Hd s r Hs) as (_ & _ & H). apply H.
      unfold get_instruction in Hi. unfold bound. destruct (s_cmode s); try congruence. destruct dbg; discriminate.
    + exact Hw.
    + exact Hs.
    + intros Hm. destruct Hd as [Hd|Hd]; [now left|]. right. now apply (Hd s r Hs).
    + intros ? w1 H1. eapply inv_mono; [|exact H1]. lia.
  - apply only_instruction. destruct Hd as [Hd|Hd]; [now left|right]. now apply (Hd s r Hs).
Qed.
End Key.
