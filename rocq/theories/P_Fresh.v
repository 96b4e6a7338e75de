(** Invariant behind C82: a frame without an open word holds no text of an earlier one. *)
From Verif Require Import Str Keys Modes KanaBuilder FormChanger DictTypes Parser Lru
  Dictionary CState Context Spec P_Monad P_Frames P_Inv P_Keeps P_Register.
From Verif Require P_Select.
Import P_Select (listing, has_current, forward_current, templates_none, nonempty_list).

(** ** Frames *)
Definition noreg (h : list cmode) : Prop := Forall (fun c => c <> Register) h.
Definition base (s : cstate) : Prop :=
  s_default s = Direct /\ noreg (s_hist s) /\ length (s_raw s) <= length (s_comp s).
Definition blank (s : cstate) : Prop := s_comp s = [] /\ s_okuri s = [].
Definition no_list (s : cstate) : Prop := cl_list (s_list s) = [].
(** the modes a list is opened from *)
Definition wordmode (c : cmode) : bool := match c with PreComposition | PreCompositionOkurigana | Abbreviation => true | _ => false end.
Definition backable (h : list cmode) : Prop := exists m, last_opt h = Some m /\ wordmode m = true.
Definition listed (h : list cmode) (s : cstate) : Prop :=
  (has_current s \/ no_list s) /\ (blank s \/ (has_current s /\ backable h)).
Definition by_mode (c : cmode) (h : list cmode) (s : cstate) : Prop :=
  match c with
  | Direct => blank s /\ no_list s
  | PreComposition | Abbreviation => s_okuri s = [] /\ no_list s
  | PreCompositionOkurigana => no_list s
  | CompositionSelection | Completion => listed h s
  | Register => False
  end.
Definition K (s : cstate) : Prop := base s /\ by_mode (s_cmode s) (s_hist s) s.
Definition KM (c : cmode) (s : cstate) : Prop := K s /\ s_cmode s = c.
Definition E (s : cstate) : Prop := base s /\ s_cmode s <> Register /\ blank s /\ no_list s.
(** a frame waiting for a registration; behind a keyword the kana are kept aside *)
Definition waiting (c : cmode) (h : list cmode) (s : cstate) : Prop :=
  match c with
  | PreComposition | Abbreviation => (s_okuri s = [] \/ s_use s = false) /\ no_list s
  | _ => by_mode c h s
  end.
Definition JL (s : cstate) : Prop :=
  s_cmode s = Register /\ s_default s = Direct /\ length (s_raw s) <= length (s_comp s)
  /\ exists h p, s_hist s = h ++ [p] /\ noreg h /\ waiting p h s.
(** text kept aside by a keyword, in a frame that waits for a registration opened from the reading *)
Definition keeps_aside (s : cstate) : Prop :=
  s_okuri s <> [] /\ (last_opt (s_hist s) = Some PreComposition \/ last_opt (s_hist s) = Some Abbreviation).

Lemma E_K s : E s -> K s.
Proof.
  intros (H1 & H2 & [H3 H4] & H5). split; [exact H1|]. unfold by_mode, listed, blank. destruct (s_cmode s); auto; tauto.
Qed.
Lemma K_E s : K s -> s_cmode s = Direct -> E s.
Proof. intros [H1 H2] Hm. rewrite Hm in H2. destruct H2 as [H2 H3]. split; [exact H1|]. split; [congruence|auto]. Qed.
Lemma E_mode c s : c <> Register -> E s -> E (set_cmode c s).
Proof. intros Hc (H1 & H2 & H3 & H4). repeat split; try apply H1; try apply H3; auto. Qed.
Lemma K_not_register s : K s -> s_cmode s <> Register.
Proof. intros [_ H] Hm. rewrite Hm in H. exact H. Qed.
Lemma raw_nil s : base s -> s_comp s = [] -> s_raw s = [].
Proof. intros (_ & _ & H) Hc. rewrite Hc in H. destruct (s_raw s); [reflexivity|cbn in H; lia]. Qed.

(** ** Worlds *)
Definition W (P : cstate -> Prop) (w : world) : Prop :=
  exists s r, x_stack (w_ctx w) = s :: r /\ P s /\ Forall JL r.
(** [g]: what is known of the number of frames and the settings *)
Definition R (g : nat -> config -> Prop) (P : cstate -> Prop) (w : world) : Prop :=
  W P w /\ g (length (x_stack (w_ctx w))) (x_cfg (w_ctx w)).
Definition room (n : nat) (c : config) : Prop := n < 10 \/ cf_auto c = [].
Definition few (n : nat) (c : config) : Prop := n < 10.
Lemma R_W g P w : R g P w -> W P w.
Proof. intros [H _]; exact H. Qed.
Lemma W_mono (P Q : cstate -> Prop) w : (forall s, P s -> Q s) -> W P w -> W Q w.
Proof. intros H (s & r & H1 & H2 & H3). exists s, r; auto. Qed.
Lemma R_mono g (P Q : cstate -> Prop) w : (forall s, P s -> Q s) -> R g P w -> R g Q w.
Proof. intros H [H1 H2]. split; [eapply W_mono; eauto|exact H2]. Qed.
Definition q {A} (P Q : world -> Prop) (m : M A) : Prop := forall w, P w -> wp any_panic m (fun _ => Q) w.
Lemma q_ret {A} (a : A) (P Q : world -> Prop) : (forall w, P w -> Q w) -> q P Q (ret a).
Proof. intros H w Hw; exact (H w Hw). Qed.
Lemma q_bind {A B} P Q T (m : M A) (f : A -> M B) : q P Q m -> (forall a, q Q T (f a)) -> q P T (bind m f).
Proof. intros Hm Hf w H. apply wp_bind. eapply wp_mono; [apply Hm, H|]. intros a w'. apply Hf. Qed.
Lemma q_pre {A} (P P' Q : world -> Prop) (m : M A) : (forall w, P w -> P' w) -> q P' Q m -> q P Q m.
Proof. intros H Hm w Hw. apply Hm, H, Hw. Qed.
Lemma q_post {A} (P Q' Q : world -> Prop) (m : M A) : q P Q' m -> (forall w, Q' w -> Q w) -> q P Q m.
Proof. intros Hm H w Hw. eapply wp_mono; [apply Hm, Hw|]. intros a w'. apply H. Qed.
Lemma q_cur {A} (P Q : world -> Prop) (f : cstate -> M A) : (forall w, P w -> x_stack (w_ctx w) <> []) ->
  (forall s r w, x_stack (w_ctx w) = s :: r -> P w -> wp any_panic (f s) (fun _ => Q) w) -> q P Q (bind cur f).
Proof. intros Hn Hf w H. apply wp_bind, wp_cur; [|intros Hx; exfalso; exact (Hn w H Hx)]. intros s r Hs. eauto. Qed.
Lemma W_cur P w s r : W P w -> x_stack (w_ctx w) = s :: r -> P s /\ Forall JL r.
Proof. intros (s' & r' & H1 & H2 & H3) H. rewrite H in H1. injection H1 as <- <-. auto. Qed.
Lemma W_ne P w : W P w -> x_stack (w_ctx w) <> [].
Proof. intros (s & r & H1 & _). rewrite H1. discriminate. Qed.
(** with the frame in hand the pre- and postconditions can mention it *)
Lemma q_cur_then {A} g (P : cstate -> Prop) Q (f : cstate -> M A) : (forall s, P s -> q (R g (fun s' => s' = s /\ P s)) Q (f s)) -> q (R g P) Q (bind cur f).
Proof.
  intros Hf. apply q_cur; [intros w Hw; eapply W_ne, R_W, Hw|]. intros s r w H1 [H2 H3]. destruct (W_cur _ _ _ _ H2 H1) as [G1 G2].
  apply Hf; [exact G1|]. split; [|exact H3]. exists s, r. auto.
Qed.
Lemma q_cur_keep {A} g (P : cstate -> Prop) Q (f : cstate -> M A) : (forall s, P s -> q (R g P) Q (f s)) -> q (R g P) Q (bind cur f).
Proof.
  intros Hf. apply q_cur_then. intros s Hs. eapply q_pre; [|apply (Hf s Hs)]. intros w. apply R_mono. intros s' [-> H]; exact H.
Qed.
Lemma q_get_then {A} P Q (f : world -> M A) : (forall w0, q P Q (f w0)) -> q P Q (bind get f).
Proof. intros Hf w H. apply wp_bind, wp_get. apply Hf; auto. Qed.
Lemma q_lift_then {A B} P Q (r : res A) (f : A -> M B) : (forall a, r = Ok a -> q P Q (f a)) -> q P Q (bind (lift r) f).
Proof. intros Hf w H. apply wp_bind, wp_lift; [|intros; exact I]. intros a Ha. now apply Hf. Qed.
Lemma q_modcur g (P Q : cstate -> Prop) f : (forall s, P s -> Q (f s)) -> q (R g P) (R g Q) (modcur f).
Proof.
  intros Hf w [(s & r & H1 & H2 & H3) H4]. apply wp_modcur; [|congruence]. intros s' r' H'. rewrite H1 in H'. injection H' as <- <-.
  split; [|cbn; rewrite H1 in H4; exact H4]. exists (f s), r. repeat split; auto.
Qed.
Lemma q_modcurW (P Q : cstate -> Prop) f : (forall s, P s -> Q (f s)) -> q (W P) (W Q) (modcur f).
Proof.
  intros Hf w (s & r & H1 & H2 & H3). apply wp_modcur; [|congruence]. intros s' r' H'. rewrite H1 in H'. injection H' as <- <-.
  exists (f s), r. repeat split; auto.
Qed.
Lemma q_for g P f : q (R g P) (R g P) (for_dicts f).
Proof. intros w H. apply wp_for_dicts. exact H. Qed.
Lemma q_forW P f : q (W P) (W P) (for_dicts f).
Proof. intros w H. apply wp_for_dicts. exact H. Qed.

(** ** Frame updates *)
Lemma nr_push h m : noreg h -> m <> Register -> noreg (push_history m h).
Proof.
  intros H Hm. assert (G : noreg (h ++ [m])) by (apply Forall_app; split; auto).
  unfold push_history. destruct (Nat.ltb _ _); [|exact G]. destruct (h ++ [m]); [exact G|]. now inversion G.
Qed.
Lemma nr_removelast h : noreg h -> noreg (removelast h).
Proof. intros H. apply Forall_forall. intros c Hc. apply in_removelast in Hc. unfold noreg in H. rewrite Forall_forall in H. auto. Qed.
Lemma nr_last h m : noreg h -> last_opt h = Some m -> m <> Register.
Proof. intros H G. apply last_opt_in in G. unfold noreg in H. rewrite Forall_forall in H. auto. Qed.
Lemma push_last h m : exists h', push_history m h = h' ++ [m] /\ (noreg h -> noreg h').
Proof.
  unfold push_history. destruct (Nat.ltb HISTORY_MAX _) eqn:Hn; [|eauto].
  destruct h as [|c h]; [discriminate|]. exists h. split; [reflexivity|]. intros H; now inversion H.
Qed.
Lemma last_push h m : last_opt (push_history m h) = Some m.
Proof. destruct (push_last h m) as (h' & -> & _). apply last_opt_app. Qed.
Lemma base_eq s s' : s_default s' = s_default s -> s_hist s' = s_hist s -> s_raw s' = s_raw s -> s_comp s' = s_comp s -> base s -> base s'.
Proof. unfold base. intros -> -> -> ->. auto. Qed.
Lemma by_mode_eq c h s s' : s_comp s' = s_comp s -> s_okuri s' = s_okuri s -> s_list s' = s_list s -> by_mode c h s -> by_mode c h s'.
Proof. unfold by_mode, listed, blank, no_list, has_current. intros -> -> ->. auto. Qed.
Lemma K_eq s s' : s_cmode s' = s_cmode s -> s_default s' = s_default s -> s_hist s' = s_hist s -> s_raw s' = s_raw s -> s_comp s' = s_comp s ->
  s_okuri s' = s_okuri s -> s_list s' = s_list s -> K s -> K s'.
Proof.
  intros E1 E2 E3 E4 E5 E6 E7 [H1 H2]. split; [now apply (base_eq s)|]. rewrite E1, E3. now apply (by_mode_eq _ _ s).
Qed.
Lemma E_eq s s' : s_cmode s' = s_cmode s -> s_default s' = s_default s -> s_hist s' = s_hist s -> s_raw s' = s_raw s -> s_comp s' = s_comp s ->
  s_okuri s' = s_okuri s -> s_list s' = s_list s -> E s -> E s'.
Proof.
  intros E1 E2 E3 E4 E5 E6 E7 (H1 & H2 & H3 & H4). split; [now apply (base_eq s)|]. unfold blank, no_list in *. rewrite E1, E5, E6, E7. auto.
Qed.
Lemma str_pop_length (t : str) : length (str_pop t) = length t - 1.
Proof. unfold str_pop. induction t as [|c t IH]; [reflexivity|]. destruct t as [|c' t]; [reflexivity|]. cbn [removelast length] in *. lia. Qed.
Lemma pop_nil (t : str) : t = [] -> str_pop t = [].
Proof. intros ->. reflexivity. Qed.
Lemma K_delete s : K s -> K (snd (st_delete s)).
Proof.
  intros H. pose proof H as [(H1 & H2 & H3) H4]. unfold st_delete. destruct (s_cmode s) eqn:Em; cbn [by_mode] in H4; try exact H.
  - destruct (negb _); cbn; apply (K_eq s); auto.
  - destruct (negb _); [apply (K_eq s); auto|]. cbn [snd]. destruct (is_nil (s_comp s)) eqn:En.
    + destruct (s_comp s) eqn:Ec; [|discriminate]. unfold K, base, by_mode, blank, no_list; cbn. rewrite ?Ec.
      assert (s_raw s = []) as -> by (destruct (s_raw s); [reflexivity|cbn in H3; lia]). cbn. destruct H4; auto 10.
    + unfold K, base, by_mode, no_list; cbn. rewrite Em, !str_pop_length. destruct H4. repeat split; auto. lia.
  - set (p := if negb (is_nil (s_pre s)) then _ else _). 
    assert (G : base (snd p) /\ no_list (snd p) /\ s_cmode (snd p) = PreCompositionOkurigana).
    { subst p. destruct (negb _); cbn; unfold base, no_list; cbn; rewrite ?str_pop_length; repeat split; auto; lia. }
    clearbody p. destruct p as [b s1]. cbn [snd] in *. destruct G as (G1 & G2 & G3). destruct (is_nil (s_pre s1) && is_nil (s_okuri s1)) eqn:En.
    + apply andb_true_iff in En as [_ En]. destruct (s_okuri s1) eqn:Eo; [|discriminate].
      destruct G1 as (G4 & G5 & G6). unfold K, base, by_mode, no_list; cbn. rewrite Eo. auto.
    + split; [exact G1|]. now rewrite G3.
  - destruct (negb _); [apply (K_eq s); auto|]. cbn [snd]. destruct (is_nil (s_comp s)) eqn:En.
    + destruct (s_comp s) eqn:Ec; [|discriminate]. unfold K, base, by_mode, blank, no_list; cbn. rewrite ?Ec.
      assert (s_raw s = []) as -> by (destruct (s_raw s); [reflexivity|cbn in H3; lia]). cbn. destruct H4; auto 10.
    + unfold K, base, by_mode, no_list; cbn. rewrite Em, !str_pop_length. destruct H4. repeat split; auto. lia.
Qed.
(** deleting fewer characters than the reading has *)
Lemma iter_delete n : forall s, KM PreComposition s -> n < length (s_comp s) ->
  KM PreComposition (Nat.iter n (fun s => snd (st_delete s)) s) /\ length (s_comp s) - n <= length (s_comp (Nat.iter n (fun s => snd (st_delete s)) s)).
Proof.
  induction n as [|n IH]; intros s H Hn; [cbn; split; [exact H|lia]|].
  destruct (IH s H ltac:(lia)) as [G1 G2]. set (t := Nat.iter n _ s) in *. change (Nat.iter (S n) (fun s => snd (st_delete s)) s) with (snd (st_delete t)).
  destruct G1 as [G1 Gm]. pose proof (K_delete t G1) as Kd. split; [split; [exact Kd|]|].
  - unfold st_delete. rewrite Gm. destruct (negb _); [exact Gm|]. cbn [snd]. destruct (s_comp t); [cbn in G2; lia|]. exact Gm.
  - unfold st_delete. rewrite Gm. destruct (negb _); [cbn; lia|]. cbn [snd].
    destruct (is_nil _); cbn; rewrite str_pop_length; lia.
Qed.
Lemma base_push_for t c s : base s -> base (push_string_for t c s).
Proof. intros (H1 & H2 & H3). destruct c; unfold base; cbn; rewrite ?app_length; repeat split; auto; lia. Qed.
Lemma mode_push_for t c s : s_cmode (push_string_for t c s) = s_cmode s.
Proof. destruct c; reflexivity. Qed.
Lemma K_push t s : K s -> K (push_string t s).
Proof.
  intros [H1 H2]. unfold push_string. split; [now apply base_push_for|]. rewrite mode_push_for.
  destruct (s_cmode s); cbn [by_mode push_string_for] in *; try exact H2.
Qed.
Lemma K_push_Direct t s : K s -> K (push_string_for t Direct s).
Proof. intros H. apply (K_eq s); auto. Qed.
Lemma K_push_Pre t s : K s -> wordmode (s_cmode s) = true -> K (push_string_for t PreComposition s).
Proof.
  intros [H1 H2] Hm. split; [now apply base_push_for|]. rewrite mode_push_for. destruct (s_cmode s); try discriminate; exact H2.
Qed.
Lemma K_push_Okuri t s : K s -> s_cmode s = PreCompositionOkurigana -> K (push_string_for t PreCompositionOkurigana s).
Proof. intros H Hm. pose proof (K_push t s H) as G. unfold push_string in G. now rewrite Hm in G. Qed.
Lemma E_clear s : base s -> s_cmode s <> Register -> E (clear_unconfirmed s).
Proof. intros (H1 & H2 & H3) Hc. unfold E, base, blank, no_list. cbn. auto 10. Qed.
Lemma E_clear_all s : base s -> s_cmode s <> Register -> E (clear_all s).
Proof. intros (H1 & H2 & H3) Hc. unfold E, base, blank, no_list. cbn. repeat split; auto. constructor. Qed.
Lemma E_reset s : s_default s = Direct -> E (reset_to_default (clear_unconfirmed s)).
Proof. intros H. unfold E, base, blank, no_list. cbn. rewrite H. repeat split; auto; try constructor. discriminate. Qed.
Lemma E_change c s : c <> Register -> E s -> E (change_composition_mode c s).
Proof.
  intros Hc ((H1 & H2 & H3) & H4 & H5 & H6). unfold E, base, blank, no_list in *. cbn. repeat split; auto; try apply H5.
  now apply nr_push.
Qed.
Lemma K_consolidated s : base s -> no_list s -> s_cmode s <> Register -> KM PreComposition (change_composition_mode PreComposition (consolidate s)).
Proof.
  intros (H1 & H2 & H3) H4 H5. split; [|reflexivity]. unfold K, base, no_list in *. cbn. rewrite !app_length.
  repeat split; auto; [now apply nr_push|lia].
Qed.
Lemma K_any c s : base s -> blank s -> no_list s -> c <> Register -> K (set_cmode c s).
Proof.
  intros (H1 & H2 & H3) H4 H5 Hc. apply E_K. unfold E, base, blank, no_list in *. cbn. tauto.
Qed.
(** leaving a list or an empty frame: okurigana joined to the reading, list cleared *)
Lemma K_abort s : base s -> s_okuri s = [] -> no_list s -> (s_comp s = [] \/ backable (s_hist s)) -> K (abort_to_previous_mode s).
Proof.
  intros (H1 & H2 & H3) H4 H5 H6. unfold abort_to_previous_mode. destruct (last_opt (s_hist s)) as [m|] eqn:El.
  - pose proof (nr_last _ _ H2 El) as Hm. pose proof (nr_removelast _ H2) as Hr.
    assert (G : base (set_hist (removelast (s_hist s)) s)) by (unfold base; cbn; auto).
    assert (Gc : base (consolidate (set_hist (removelast (s_hist s)) s))) by (unfold base; cbn; rewrite !app_length; repeat split; auto; lia).
    destruct H6 as [H6|(m' & Hm' & Hw)].
    + assert (Q1 : forall c, c <> Register -> K (set_cmode c (set_hist (removelast (s_hist s)) s))) by (intros c Hc; apply K_any; auto; split; auto).
      assert (Q2 : K (set_cmode PreComposition (consolidate (set_hist (removelast (s_hist s)) s)))).
      { apply K_any; auto; [|discriminate]. split; cbn; [rewrite H6, H4; reflexivity|reflexivity]. }
      destruct m; try exact Q2; apply Q1; try discriminate. congruence.
    + rewrite El in Hm'; injection Hm' as <-. destruct m; try discriminate; unfold K; cbn [set_cmode s_cmode by_mode]; (split; [|split]); try reflexivity; try exact H5; try exact H4; try exact G; try exact Gc.
  - apply K_any; auto. { unfold base; auto. } { destruct H6 as [H6|(m' & Hm' & _)]; [split; auto|congruence]. } rewrite H1. discriminate.
Qed.
Lemma no_list_current s : no_list s -> cl_current (s_list s) = None.
Proof. unfold no_list, cl_current. intros ->. destruct (N.to_nat _); reflexivity. Qed.
Lemma JL_abort s : JL s -> ~ keeps_aside s -> K (abort_to_previous_mode s).
Proof.
  intros (H1 & H2 & H3 & h & p & Eh & Hh & Hp) Hn. unfold abort_to_previous_mode. unfold keeps_aside in Hn. rewrite Eh, last_opt_app in *.
  assert (Er : removelast (h ++ [p]) = h) by (rewrite removelast_app by discriminate; apply app_nil_r). rewrite Er.
  assert (B : base (set_hist h s)) by (unfold base; cbn; auto).
  assert (O : p = PreComposition \/ p = Abbreviation -> s_okuri s = []).
  { intros Hx. destruct (s_okuri s) eqn:Eo; [reflexivity|]. exfalso. apply Hn. split; [discriminate|]. destruct Hx as [-> | ->]; auto. }
  destruct p; cbn [waiting by_mode] in Hp; try contradiction; try (split; [exact B|]; cbn [set_cmode s_cmode by_mode set_hist s_hist]; try exact Hp).
  - destruct Hp as [_ Hp]. split; [apply O; auto|exact Hp].
  - unfold K, base, no_list in *. cbn. rewrite !app_length. repeat split; auto. lia.
  - destruct Hp as [_ Hp]. split; [apply O; auto|exact Hp].
Qed.
Lemma push_keeps_last h m : exists h', push_history m h = h' ++ [m] /\ (noreg h -> noreg h') /\ (backable h -> backable h').
Proof.
  unfold push_history. rewrite app_length. cbn [length]. unfold HISTORY_MAX. destruct (Nat.ltb_spec 20 (length h + 1)) as [L|L]; [|eauto].
  destruct h as [|c h]; [cbn in L; lia|]. exists h. split; [reflexivity|]. split; [intros H; now inversion H|].
  intros (x & H1 & H2). exists x. split; [|exact H2]. destruct h as [|c' h]; [cbn in L; lia|]. exact H1.
Qed.
Lemma JL_enter p s : base s -> waiting p (s_hist s) s -> JL (change_from_old_mode Register p s).
Proof.
  intros (H1 & H2 & H3) Hp. split; [reflexivity|]. split; [exact H1|]. split; [exact H3|]. cbn.
  destruct (push_keeps_last (s_hist s) p) as (h' & Eh & Hr & Hb). exists h', p. split; [exact Eh|]. split; [auto|].
  destruct p; cbn [waiting by_mode] in *; auto.
  all: destruct Hp as [G1 G2]; split; [exact G1|]; destruct G2 as [G2|[G2 G3]]; [now left|right; auto].
Qed.
Lemma K_waiting s : K s -> waiting (s_cmode s) (s_hist s) s.
Proof. intros [_ H]. destruct (s_cmode s); cbn [waiting by_mode] in *; auto. all: destruct H; auto. Qed.
Lemma wp_enter (P : cstate -> Prop) p w : (forall s, P s -> base s /\ waiting p (s_hist s) s) ->
  (~ length (x_stack (w_ctx w)) < 10 -> W K w) -> W P w -> wp any_panic (enter_register_mode p) (fun _ => W K) w.
Proof.
  intros HP Hf Hw. unfold wp, enter_register_mode. destruct (Nat.ltb_spec (length (x_stack (w_ctx w))) REGISTER_MODE_STACK_MAX) as [L|L].
  - destruct Hw as (s & r & H1 & H2 & H3). rewrite H1. destruct (HP s H2) as (G1 & G2).
    exists (st_new Hiragana Direct), (change_from_old_mode Register p s :: r).
    split; [reflexivity|]. split; [|constructor; [now apply JL_enter|exact H3]].
    split; [split; [reflexivity|split; [constructor|apply le_n]]|]. cbn. repeat split; reflexivity.
  - apply Hf. unfold REGISTER_MODE_STACK_MAX in L. lia.
Qed.
Lemma q_enterK p : q (W (KM p)) (W K) (enter_register_mode p).
Proof.
  intros w Hw. apply (wp_enter (KM p)); [| |exact Hw].
  - intros s [H1 H2]. split; [apply H1|]. rewrite <- H2. now apply K_waiting.
  - intros _. revert Hw. apply W_mono. now intros s [H _].
Qed.
(** ** Inputs *)
Lemma KM_K c s : KM c s -> K s.
Proof. intros [H _]; exact H. Qed.
Section Ops.
Context (X : xkb) (dbg : bool) (g : nat -> config -> Prop).
Lemma q_modK c f : (forall s, s_cmode (f s) = s_cmode s) -> (forall s, K s -> K (f s)) -> q (R g (KM c)) (R g (KM c)) (modcur f).
Proof. intros H1 H2. apply q_modcur. intros s [G1 G2]. split; [auto|]. now rewrite H1. Qed.
Lemma q_append c t : q (R g (KM c)) (R g (KM c)) (append_converted t).
Proof.
  intros w Hw. unfold append_converted.
  apply (q_modK c (fun s => push_string (adjust_kana_string (x_kf (w_ctx w)) (s_imode s) t) s)); [intros s; apply mode_push_for|intros s; apply K_push|exact Hw].
Qed.
Lemma KM_eq c s s' : s_cmode s' = s_cmode s -> s_default s' = s_default s -> s_hist s' = s_hist s -> s_raw s' = s_raw s -> s_comp s' = s_comp s ->
  s_okuri s' = s_okuri s -> s_list s' = s_list s -> KM c s -> KM c s'.
Proof. intros E1 E2 E3 E4 E5 E6 E7 [H1 H2]. split; [apply (K_eq s); auto|congruence]. Qed.
Lemma q_carry c u : q (R g (KM c)) (R g (KM c)) (set_carry_over u).
Proof. apply q_modcur. intros s H. destruct (is_nil u); apply (KM_eq c s); auto. Qed.
Lemma q_clear_pre c : q (R g (KM c)) (R g (KM c)) (modcur clear_preconverted).
Proof. apply q_modcur. intros s. apply KM_eq; reflexivity. Qed.
(** pushing the pending kana as mode [c] says, in a frame that may have moved on to mode [m] *)
Definition follows (c m : cmode) : bool :=
  match c with PreComposition => wordmode m | PreCompositionOkurigana => cmode_eqb m PreCompositionOkurigana | _ => true end.
Lemma q_output i c m : follows c m = true -> q (R g (KM m)) (R g (KM m)) (output_converted_kana_if_any i c).
Proof.
  intros Hf. unfold output_converted_kana_if_any. apply q_cur_keep. intros s _. apply q_get_then. intros w.
  destruct (convert_greedy _ _) as [[kana carry]|]; [|apply q_ret; auto].
  assert (G : forall f : cstate -> cstate, (forall s, KM m s -> KM m (f s)) -> q (R g (KM m)) (R g (KM m)) (modcur f ;; set_carry_over carry ;; ret true)).
  { intros f Hk. apply (q_bind _ (R g (KM m))); [now apply q_modcur|intros ?]. apply (q_bind _ (R g (KM m))); [apply q_carry|intros ?]. apply q_ret; auto. }
  destruct c; try (apply q_ret; auto); apply G; intros s1 [H1 H2]; cbn [follows] in Hf.
  - apply (KM_eq m (push_string_for (adjust_kana_string (x_kf (w_ctx w)) i kana) Direct s1)); try reflexivity. split; [now apply K_push_Direct|exact H2].
  - apply (KM_eq m (push_string_for kana PreComposition s1)); try reflexivity. split; [apply K_push_Pre; [exact H1|now rewrite H2]|exact H2].
  - apply (KM_eq m (push_string_for kana PreCompositionOkurigana s1)); try reflexivity. apply cmode_eqb_eq in Hf. split; [apply K_push_Okuri; [exact H1|congruence]|exact H2].
Qed.

Hint Resolve q_append q_carry q_clear_pre : fr.
(** the modes reached by a capital *)
Definition moved (c m : cmode) : bool :=
  cmode_eqb c m || match c, m with Direct, PreComposition | PreComposition, PreCompositionOkurigana => true | _, _ => false end.
Definition KT (c : cmode) (s : cstate) : Prop := exists m, moved c m = true /\ KM m s.
Lemma q_ex {A} c Q (f : M A) : (forall m, moved c m = true -> q (R g (KM m)) Q f) -> q (R g (KT c)) Q f.
Proof. intros H w [(s & r & H1 & (m & Hm & H2) & H3) H4]. apply (H m Hm). split; [exists s, r; auto|exact H4]. Qed.
Lemma moved_refl c : moved c c = true.
Proof. unfold moved. rewrite (proj2 (cmode_eqb_eq c c) eq_refl). reflexivity. Qed.
Lemma moved_follows c m : moved c m = true -> follows c m = true.
Proof. destruct c, m; try reflexivity; discriminate. Qed.
Lemma KM_KT c s : KM c s -> KT c s.
Proof. intros H. exists c. split; [apply moved_refl|exact H]. Qed.
Lemma q_capital k c d : q (R g (KM c)) (R g (KT c)) (transition_by_capital k c d).
Proof.
  unfold transition_by_capital. apply q_cur_keep. intros s _.
  assert (N : q (R g (KM c)) (R g (KT c)) (ret false)) by (apply q_ret; intros w; apply R_mono; apply KM_KT).
  assert (T : forall m, moved c m = true -> (forall s, KM c s -> KM m (change_composition_mode m s)) ->
    q (R g (KM c)) (R g (KT c)) (set_composition_mode m ;; modcur (set_cap true) ;; ret true)).
  { intros m Hm Hk. apply (q_bind _ (R g (KM m))); [now apply q_modcur|intros ?]. apply (q_bind _ (R g (KM m))).
    - apply q_modcur. intros s1. apply KM_eq; reflexivity.
    - intros ?. apply q_ret. intros w. apply R_mono. intros s1 H. exists m; auto. }
  destruct (_ && cmode_eqb c Direct) eqn:Ed.
  - apply andb_true_iff in Ed as [_ Ed]. apply cmode_eqb_eq in Ed. subst c. apply T; [reflexivity|]. intros s1 [H1 H2]. split; [|reflexivity].
    apply E_K, E_change; [discriminate|now apply K_E].
  - destruct (_ && cmode_eqb c PreComposition) eqn:Ep; [|exact N].
    apply andb_true_iff in Ep as [_ Ep]. apply cmode_eqb_eq in Ep. subst c. apply T; [reflexivity|]. intros s1 [[(H1 & H2 & H3) H4] H5]. split; [|reflexivity].
    rewrite H5 in H4. destruct H4 as [H4 H6]. split; [|exact H6]. split; [exact H1|]. split; [|exact H3]. apply nr_push; [exact H2|congruence].
Qed.
Lemma q_continuous k c : q (R g (KM c)) (R g (KM c)) (input_as_continuous_kana k).
Proof.
  unfold input_as_continuous_kana. apply q_cur_keep. intros s _. apply q_get_then. intros w.
  destruct (s_cmode s); try (apply q_ret; now auto); apply (q_bind _ (R g (KM c))); try (intros ?; apply q_ret; now auto);
    apply q_modcur; intros s1; apply KM_eq; reflexivity.
Qed.

(** ** Conversions *)
Definition plain (c : cmode) : bool := match c with CompositionSelection | Completion | Register => false | _ => true end.
Definition asked (P : cstate -> Prop) (s : cstate) : Prop := exists s0 cs, P s0 /\ s = set_new_candidate_list cs s0.
Lemma q_update P : q (R g P) (R g (asked P)) update_candidate_list.
Proof.
  unfold update_candidate_list. apply q_cur_keep. intros s _. apply q_get_then. intros w. apply q_lift_then. intros cs _.
  apply q_modcur. intros s0 H. exists s0, cs. auto.
Qed.
Lemma q_update_completion P : q (R g P) (R g (asked P)) update_completion_list.
Proof.
  unfold update_completion_list. apply q_cur_keep. intros s _. apply q_get_then. intros w. apply q_lift_then. intros cs _.
  apply q_modcur. intros s0 H. exists s0, cs. auto.
Qed.
Lemma asked_empty c s : plain c = true -> asked (KM c) s -> cl_is_empty (s_list s) = true -> KM c s.
Proof.
  intros Hc (s0 & cs & [[H1 H2] H3] & ->) He. unfold cl_is_empty in He. cbn in He. destruct cs; [|discriminate].
  split; [|exact H3]. split; [exact H1|]. cbn. rewrite H3 in *. destruct c; try discriminate; cbn [by_mode] in *; unfold blank, no_list in *; cbn in *; tauto.
Qed.
Lemma asked_listed m s c : plain c = true -> listing m = true -> asked (KM c) s -> cl_is_empty (s_list s) = false -> K (change_composition_mode m s).
Proof.
  intros Hc Hm (s0 & cs & [[(H1 & H2 & H3) H4] H5] & ->) He. unfold cl_is_empty in He. cbn in He. destruct cs as [|x cs]; [discriminate|].
  assert (Hcur : has_current (change_composition_mode m (set_new_candidate_list (x :: cs) s0))) by (unfold has_current, cl_current; cbn; discriminate).
  assert (Hl : listed (s_hist (change_composition_mode m (set_new_candidate_list (x :: cs) s0))) (change_composition_mode m (set_new_candidate_list (x :: cs) s0))).
  { split; [now left|]. cbn. rewrite H5 in *. destruct c; try discriminate.
    - left. apply H4.
    - right. split; [exact Hcur|]. eexists. split; [apply last_push|reflexivity].
    - right. split; [exact Hcur|]. eexists. split; [apply last_push|reflexivity].
    - right. split; [exact Hcur|]. eexists. split; [apply last_push|reflexivity]. }
  split; [|destruct m; try discriminate; exact Hl]. split; [exact H1|]. split; [|exact H3]. apply nr_push; [exact H2|]. cbn. rewrite H5. destruct c; discriminate.
Qed.
Lemma R_here P w s r : R g P w -> x_stack (w_ctx w) = s :: r -> P s.
Proof. intros [H _] Hs. now destruct (W_cur _ _ _ _ H Hs). Qed.
Lemma q_next c i : plain c = true -> q (R g (KM c)) (W K) (try_next_candidate dbg c i).
Proof.
  intros Hc. unfold try_next_candidate. assert (cmode_eqb c CompositionSelection = false) as -> by (destruct c; try discriminate; reflexivity).
  cbn [negb]. apply (q_bind _ (R g (KM c))); [apply q_output; destruct c; reflexivity|intros ?]. apply (q_bind _ (R g (asked (KM c)))); [apply q_update|intros ?].
  apply q_cur; [intros w Hw; eapply W_ne, R_W, Hw|]. intros s r w H1 [H2 H3]. destruct (W_cur _ _ _ _ H2 H1) as [G1 G2].
  destruct (cl_is_empty (s_list s)) eqn:Ee; cbn [negb]; rewrite ?andb_true_r, ?andb_false_r.
  - pose proof (asked_empty c s Hc G1 Ee) as Gk. assert (Gw : W (KM c) w) by (exists s, r; auto).
    destruct (negb _); [now apply q_enterK|]. apply wp_ret. eapply W_mono; [apply KM_K|exact Gw].
  - apply wp_modcur; [|congruence]. intros s' r' H'. rewrite H1 in H'. injection H' as <- <-. exists (change_composition_mode CompositionSelection s), r.
    split; [reflexivity|]. split; [now apply (asked_listed _ _ c)|exact G2].
Qed.
Lemma q_next_completion c i : plain c = true -> q (R g (KM c)) (W K) (try_next_completion dbg c i).
Proof.
  intros Hc. unfold try_next_completion. assert (cmode_eqb c Completion = false) as -> by (destruct c; try discriminate; reflexivity).
  cbn [negb]. apply (q_bind _ (R g (KM c))); [apply q_output; destruct c; reflexivity|intros ?]. apply (q_bind _ (R g (asked (KM c)))); [apply q_update_completion|intros ?].
  apply q_cur; [intros w Hw; eapply W_ne, R_W, Hw|]. intros s r w H1 [H2 H3]. destruct (W_cur _ _ _ _ H2 H1) as [G1 G2].
  destruct (cl_is_empty (s_list s)) eqn:Ee; cbn [negb]; rewrite ?andb_true_r, ?andb_false_r.
  - pose proof (asked_empty c s Hc G1 Ee) as Gk. assert (Gw : W K w) by (exists s, r; repeat split; auto; apply Gk).
    destruct (negb _); exact Gw.
  - apply wp_modcur; [|congruence]. intros s' r' H'. rewrite H1 in H'. injection H' as <- <-. exists (change_composition_mode Completion s), r.
    split; [reflexivity|]. split; [now apply (asked_listed _ _ c)|exact G2].
Qed.
(** behind a keyword *)
Definition PF (s : cstate) : Prop := base s /\ s_cmode s = PreComposition /\ s_use s = false /\ no_list s /\ s_comp s <> [].
End Ops.
Section Auto.
Context (X : xkb) (dbg : bool).
Lemma q_output_PF i : q (R few PF) (R few PF) (output_converted_kana_if_any i PreComposition).
Proof.
  unfold output_converted_kana_if_any. apply q_cur_keep. intros s _. apply q_get_then. intros w.
  destruct (convert_greedy _ _) as [[kana carry]|]; [|apply q_ret; auto].
  apply (q_bind _ (R few PF)); [|intros ?; apply (q_bind _ (R few PF)); [|intros ?; apply q_ret; auto]]; apply q_modcur; intros s0 ((H1 & H2 & H3) & H4 & H5 & H6 & H7).
  - unfold PF, base, no_list in *. cbn. rewrite !app_length. repeat split; auto; [lia|]. intros G. apply app_eq_nil in G as [G _]. auto.
  - unfold PF, base, no_list in *. destruct (is_nil carry); cbn; auto 10.
Qed.
Lemma q_next_PF i : q (R few PF) (W K) (try_next_candidate dbg PreComposition i).
Proof.
  unfold try_next_candidate. cbn [cmode_eqb negb]. apply (q_bind _ (R few PF)); [apply q_output_PF|intros ?].
  apply (q_bind _ (R few (asked PF))); [apply q_update|intros ?].
  apply q_cur; [intros w Hw; eapply W_ne, R_W, Hw|]. intros s r w H1 [H2 H3]. destruct (W_cur _ _ _ _ H2 H1) as [(s0 & cs & (B & G2 & G3 & G4 & G5) & ->) G6].
  unfold cl_is_empty. cbn [set_new_candidate_list set_cokuri set_list s_list s_comp cl_set cl_list]. destruct (s_comp s0) as [|y ys] eqn:Ec; [congruence|]. cbn [is_nil negb andb].
  destruct cs as [|x cs]; cbn [is_nil negb].
  - apply (wp_enter (fun s => s = set_new_candidate_list [] s0)).
    + intros s ->. split; [exact B|]. cbn. split; [now right|reflexivity].
    + intros Hn. exfalso. apply Hn. exact H3.
    + exists (set_new_candidate_list [] s0), r. auto.
  - apply wp_modcur; [|congruence]. intros s' r' H'. rewrite H1 in H'. injection H' as <- <-.
    eexists _, r. split; [reflexivity|]. split; [|exact G6]. destruct B as (B1 & B2 & B3). split.
    + split; [exact B1|]. split; [|exact B3]. apply nr_push; [exact B2|]. cbn. rewrite G2. discriminate.
    + cbn. split; [left; unfold has_current, cl_current; cbn; discriminate|]. right. split; [unfold has_current, cl_current; cbn; discriminate|].
      rewrite G2. eexists. split; [apply last_push|reflexivity].
Qed.
Lemma suffix_shorter (a b : str) : str_eqb b a = false -> is_suffixb a b = true -> length a < length b.
Proof.
  intros Hn Hs. unfold is_suffixb in Hs. apply is_prefixb_spec in Hs as [t Ht].
  assert (Eb : b = rev t ++ a) by (rewrite <- (rev_involutive b), Ht, rev_app_distr, rev_involutive; reflexivity).
  subst b. rewrite app_length. destruct t as [|x t]; [|cbn [rev length]; rewrite app_length; cbn; lia].
  cbn in Hn. rewrite str_eqb_refl in Hn. discriminate.
Qed.
Lemma q_auto_start : q (R room (KM PreComposition)) (W K) (auto_start_henkan dbg).
Proof.
  unfold auto_start_henkan. apply q_cur; [intros w Hw; eapply W_ne, R_W, Hw|]. intros s r w H1 [H2 H3]. destruct (W_cur _ _ _ _ H2 H1) as [G1 G2].
  destruct (negb _). { unfold wp, lift. exact I. }
  apply wp_bind, wp_get. destruct (matching_keyword _ _) as [kw|] eqn:Ek; [|eapply W_mono; [apply KM_K|exact H2]].
  unfold matching_keyword in Ek. pose proof (find_some _ _ Ek) as [Hin Hb]. apply andb_true_iff in Hb as [Hb1 Hb2]. apply negb_true_iff in Hb1.
  assert (L : few (length (x_stack (w_ctx w))) (x_cfg (w_ctx w))). { destruct H3 as [H3|H3]; [exact H3|]. rewrite H3 in Hin. destruct Hin. }
  assert (Hlen : length kw < length (s_comp s)).
  { pose proof (suffix_shorter kw _ Hb1 Hb2) as Hl. destruct G1 as [[(_ & _ & B) _] _].
    replace (ck_to (get_composite_key s)) with (s_raw s) in Hl by (unfold get_composite_key; destruct (_ && _); reflexivity). lia. }
  apply (q_bind (R few (fun s' => s' = s)) (R few PF)); [| |split; [exists s, r; auto|exact L]].
  - apply q_modcur. intros s' ->. destruct (iter_delete (length kw) s G1 Hlen) as [[[I1 I2] I3] I4]. set (t := Nat.iter _ _ s) in *. clearbody t.
    rewrite I3 in I2. destruct I2 as [_ I2]. unfold PF, base, no_list in *. cbn. repeat split; try apply I1; auto. intros Hx. rewrite Hx in I4. cbn in I4. lia.
  - intros ?. apply q_cur_keep. intros s' _. apply q_next_PF.
Qed.
Lemma q_finish c : q (R room (KM c)) (W K) (finish_kana_input dbg).
Proof.
  unfold finish_kana_input. apply q_cur; [intros w Hw; eapply W_ne, R_W, Hw|]. intros s r w H1 H2. pose proof (R_here _ _ _ _ _ H2 H1) as [G1 G2].
  apply wp_bind. destruct (cmode_eqb (s_cmode s) PreComposition) eqn:Em.
  - apply cmode_eqb_eq in Em. assert (Ec : c = PreComposition) by congruence. rewrite Ec in H2. eapply wp_mono; [apply q_auto_start, H2|]. intros ? w1 Hw1. exact Hw1.
  - apply wp_ret, wp_ret. eapply W_mono; [apply KM_K|apply (R_W _ _ _ H2)].
Qed.
Lemma q_converted m conv carry did u : q (R room (KM m)) (W K) (input_converted_kana dbg conv carry did u).
Proof.
  unfold input_converted_kana. apply q_cur; [intros w Hw; eapply W_ne, R_W, Hw|]. intros s r w H1 H2. pose proof (R_here _ _ _ _ _ H2 H1) as [G1 G2].
  assert (Hk : W K w) by (eapply W_mono; [apply KM_K|apply (R_W _ _ _ H2)]).
  rewrite G2. destruct m; try exact Hk; revert w H1 H2 Hk; intros w _ H2 _; revert w H2.
  - match goal with |- forall w, _ -> wp _ ?m _ w => change (q (R room (KM Direct)) (W K) m) end.
    apply (q_bind _ (R room (KM Direct))); [apply q_append|intros ?]. eapply q_post; [apply q_carry|]. intros w H. eapply W_mono; [apply KM_K|apply (R_W _ _ _ H)].
  - match goal with |- forall w, _ -> wp _ ?m _ w => change (q (R room (KM PreComposition)) (W K) m) end.
    apply (q_bind _ (R room (KM PreComposition))). { apply q_modK; [intros s0; apply mode_push_for|intros s0; apply K_push]. }
    intros ?. apply (q_bind _ (R room (KM PreComposition))); [apply q_carry|intros ?]. apply q_auto_start.
  - match goal with |- forall w, _ -> wp _ ?m _ w => change (q (R room (KM PreCompositionOkurigana)) (W K) m) end.
    apply (q_bind _ (R room (KM PreCompositionOkurigana))).
    { destruct (_ && _).
      - apply q_modcur. intros s0 [K1 K2]. split; [apply K_push_Pre; [exact K1|now rewrite K2]|exact K2].
      - apply q_modK; [intros s0; apply mode_push_for|intros s0; apply K_push]. }
    intros ?. apply (q_bind _ (R room (KM PreCompositionOkurigana))); [apply q_carry|intros ?]. apply q_cur_keep. intros s1 _.
    destruct (_ && _); [|apply q_ret; intros w H; eapply W_mono; [apply KM_K|apply (R_W _ _ _ H)]].
    apply (q_bind _ (R room (asked (KM PreCompositionOkurigana)))); [apply q_update|intros ?].
    apply q_cur; [intros w Hw; eapply W_ne, R_W, Hw|]. intros s2 r2 w K1 [K2 K3]. destruct (W_cur _ _ _ _ K2 K1) as [K4 K5].
    destruct (cl_is_empty (s_list s2)) eqn:Ee.
    + pose proof (asked_empty PreCompositionOkurigana s2 eq_refl K4 Ee) as Gk. destruct Gk as [Gk1 Gk2]. rewrite Gk2. apply q_enterK. exists s2, r2. split; [exact K1|]. split; [split; assumption|exact K5].
    + apply wp_modcur; [|congruence]. intros s' r' H'. rewrite K1 in H'. injection H' as <- <-. eexists _, r2.
      split; [reflexivity|]. split; [eapply asked_listed; [| |exact K4|exact Ee]; reflexivity|exact K5].
Qed.
Lemma RK_W m w : R room (KM m) w -> W K w.
Proof. intros H. eapply W_mono; [apply KM_K|apply (R_W _ _ _ H)]. Qed.
Lemma q_then_true {A} P (m : M A) : q P (W K) m -> q P (W K) (m ;; ret true).
Proof. intros H. apply (q_bind _ (W K)); [exact H|intros ?; apply q_ret; auto]. Qed.
Lemma q_keep {A B} m (f : M A) (h : A -> M B) : q (R room (KM m)) (R room (KM m)) f -> (forall a, q (R room (KM m)) (W K) (h a)) -> q (R room (KM m)) (W K) (bind f h).
Proof. intros H1 H2. eapply q_bind; eauto. Qed.
Lemma q_push m t : q (R room (KM m)) (R room (KM m)) (modcur (push_string t)).
Proof. apply q_modK; [intros s0; apply mode_push_for|intros s0; apply K_push]. Qed.
Lemma q_periods i c t m : follows c m = true -> q (R room (KM m)) (W K) (input_periods dbg i c t).
Proof.
  intros Hf. unfold input_periods. apply q_keep; [now apply q_output|intros ?]. apply q_keep; [apply q_clear_pre|intros ?]. apply q_cur_keep. intros s _.
  destruct (s_cmode s); try (apply q_ret; intros w; apply RK_W).
  - apply q_keep; [apply q_append|intros ?]. apply q_finish.
  - apply q_keep; [apply q_push|intros ?]. apply q_keep; [apply q_clear_pre|intros ?]. apply q_finish.
  - apply q_keep; [apply q_push|intros ?]. apply q_keep; [apply q_clear_pre|intros ?]. apply q_finish.
Qed.
Lemma q_direct_char k ch i c m : follows c m = true -> q (R room (KM m)) (W K) (input_direct_char dbg k ch i c).
Proof.
  intros Hf. unfold input_direct_char. destruct (is_ascii_inputtable k); [|apply q_ret; intros w; apply RK_W].
  apply q_keep; [now apply q_output|intros ?]. apply q_keep; [apply q_clear_pre|intros ?]. apply q_cur_keep. intros s _.
  destruct (s_cmode s); try (apply q_ret; intros w; apply RK_W); (apply q_keep; [apply q_push|intros ?]; apply q_finish).
Qed.
Lemma q_moving {B} k c d (h : bool -> M B) : (forall b m, moved c m = true -> q (R room (KM m)) (W K) (h b)) ->
  q (R room (KM c)) (W K) (bind (transition_by_capital k c d) h).
Proof. intros H. apply (q_bind _ (R room (KT c))); [apply q_capital|]. intros b. apply q_ex. intros m Hm. now apply H. Qed.
Lemma follows_refl c : follows c c = true.
Proof. destruct c; reflexivity. Qed.
Lemma q_unconverted k u ch c : q (R room (KM c)) (W K) (input_unconverted dbg k u ch c).
Proof.
  unfold input_unconverted. apply q_cur_keep. intros s _. apply q_get_then. intros w. cbn zeta.
  destruct (convert_periods _ _ _); [apply q_periods, follows_refl|].
  destruct (can_continue _ k u); [apply q_keep; [apply q_continuous|intros ?; apply q_finish]|].
  destruct (is_upper k && _). { apply q_moving. intros b m Hm. apply q_keep; [apply q_continuous|intros ?; apply q_finish]. }
  destruct (convert_non_partial _ (combine_raw k [])) as [[conv carry]|]; [apply q_then_true, q_converted|].
  destruct (convert_non_partial _ (combine_lower k [])) as [[conv carry]|].
  { destruct (is_upper k); [|apply q_finish]. apply q_moving. intros b m Hm. apply q_then_true, q_converted. }
  destruct (can_continue _ k []). { apply q_keep; [apply q_output, follows_refl|intros ?]. apply q_keep; [apply q_clear_pre|intros ?]. apply q_keep; [apply q_continuous|intros ?; apply q_finish]. }
  destruct (can_continue_lower _ k []).
  { apply q_moving. intros b m Hm. apply q_keep; [apply q_output; now apply moved_follows|intros ?]. apply q_keep; [apply q_clear_pre|intros ?]. apply q_keep; [apply q_continuous|intros ?; apply q_finish]. }
  apply q_direct_char, follows_refl.
Qed.
Lemma q_kana k u c : q (R room (KM c)) (W K) (input_kana X dbg k u).
Proof.
  unfold input_kana. apply q_cur; [intros w Hw; eapply W_ne, R_W, Hw|]. intros s r w H1 H2. pose proof (R_here _ _ _ _ _ H2 H1) as [G1 G2]. rewrite G2. clear H1.
  apply wp_bind, wp_get. cbn zeta. generalize (x_kb (w_ctx w)). intros b. revert w H2.
  match goal with |- forall w, _ -> wp _ ?m _ w => change (q (R room (KM c)) (W K) m) end.
  assert (U : q (R room (KM c)) (W K) match get_symbol_char X k with Some ch => input_unconverted dbg k u ch c | None => ret false end).
  { destruct (get_symbol_char X k); [apply q_unconverted|apply q_ret; intros w; apply RK_W]. }
  destruct (convert_non_partial _ (combine_raw k u)) as [[t l]|]; [apply q_then_true, q_converted|].
  destruct (is_upper k); [|exact U]. destruct (convert_non_partial _ (combine_lower k u)) as [[t l]|]; [|exact U].
  apply q_moving. intros b0 m Hm. apply q_then_true, q_converted.
Qed.
Lemma q_plain k c : q (R room (KM c)) (W K) (input_plain X k).
Proof.
  unfold input_plain. apply q_cur_keep. intros s _. apply q_get_then. intros w.
  destruct (s_cmode s); try (apply q_ret; intros ?; apply RK_W).
  - destruct (get_symbol_char X k); [|apply q_ret; intros ?; apply RK_W]. destruct (s_imode s); try (apply q_ret; intros ?; apply RK_W).
    + apply q_keep; [apply q_append|intros ?; apply q_ret; intros ?; apply RK_W].
    + apply q_keep; [apply q_push|intros ?; apply q_ret; intros ?; apply RK_W].
  - destruct (get_symbol_char X k); [|apply q_ret; intros ?; apply RK_W]. apply q_keep; [apply q_push|intros ?; apply q_ret; intros ?; apply RK_W].
Qed.
End Auto.

(** ** Confirming, aborting, registering *)
Lemma W_eq (P : cstate -> Prop) w s r : x_stack (w_ctx w) = s :: r -> P s -> Forall JL r -> W P w.
Proof. intros H1 H2 H3. exists s, r; auto. Qed.
(** a frame with a current candidate, whatever its mode *)
Lemma wp_confirm_has w s r : x_stack (w_ctx w) = s :: r -> s_default s = Direct -> has_current s -> Forall JL r ->
  wp any_panic confirm_current (fun _ => W E) w.
Proof.
  intros H1 H2 Hh H3. unfold confirm_current. apply wp_bind, wp_cur; [|congruence]. intros s' r' H'. rewrite H1 in H'. injection H' as <- <-.
  apply wp_bind, wp_get. unfold has_current in Hh. destruct (cl_current (s_list s)) as [c|] eqn:Ec; [|congruence].
  apply wp_bind, wp_for_dicts. apply (q_modcurW (fun s' => s' = s) E); [|exists s, r; auto].
  intros s' ->. apply E_reset. unfold push_string. rewrite <- H2. destruct (s_cmode s); reflexivity.
Qed.
Lemma wp_confirm_none w s r : x_stack (w_ctx w) = s :: r -> cl_current (s_list s) = None -> forall Q : world -> Prop, Q w ->
  wp any_panic confirm_current (fun _ => Q) w.
Proof.
  intros H1 H2 Q HQ. unfold confirm_current. apply wp_bind, wp_cur; [|congruence]. intros s' r' H'. rewrite H1 in H'. injection H' as <- <-.
  apply wp_bind, wp_get. rewrite H2. exact HQ.
Qed.
Lemma q_confirm_E : q (W E) (W E) confirm_current.
Proof.
  intros w (s & r & H1 & H2 & H3). eapply wp_confirm_none; [exact H1|apply no_list_current, H2|]. exists s, r; auto.
Qed.
Definition KL (s : cstate) : Prop := K s /\ listing (s_cmode s) = true.
Lemma KL_E s : KL s -> ~ has_current s -> E s.
Proof.
  intros [[H1 H2] H3] Hn. assert (L : listed (s_hist s) s) by (destruct (s_cmode s); try discriminate; exact H2).
  destruct L as [[L|L1] [L2|[L2 _]]]; try contradiction. split; [exact H1|]. split; [|auto]. intros Hm. rewrite Hm in H3. discriminate.
Qed.
Lemma q_confirm_list : q (W KL) (W E) confirm_current.
Proof.
  intros w (s & r & H1 & H2 & H3). destruct (cl_current (s_list s)) as [c|] eqn:Ec.
  - eapply wp_confirm_has; eauto; [apply H2|]. unfold has_current. congruence.
  - eapply wp_confirm_none; eauto. exists s, r. split; [exact H1|]. split; [|exact H3]. apply KL_E; [exact H2|]. unfold has_current. congruence.
Qed.
Lemma K_clear_consolidate s : K s -> (s_cmode s = Direct \/ listing (s_cmode s) = true \/ blank s) ->
  let s' := clear_candidate_list (consolidate (clear_preconverted s)) in
  base s' /\ s_okuri s' = [] /\ no_list s' /\ (s_comp s' = [] \/ backable (s_hist s')) /\ s_cmode s' = s_cmode s /\ (blank s -> s_comp s' = []).
Proof.
  intros [(H1 & H2 & H3) H4] Hm s'. subst s'. unfold base, no_list; cbn. rewrite !app_length. repeat split; auto; [lia| |intros [Z1 Z2]; rewrite Z1, Z2; reflexivity].
  destruct Hm as [Hm|[Hm|[Hm1 Hm2]]].
  - rewrite Hm in H4. destruct H4 as [[H4 H5] _]. rewrite H4, H5. now left.
  - assert (L : listed (s_hist s) s) by (destruct (s_cmode s); try discriminate; exact H4). destruct L as [_ [[L1 L2]|[_ L]]]; [rewrite L1, L2; now left|now right].
  - rewrite Hm1, Hm2. now left.
Qed.
Definition outer_free (r : list cstate) : Prop := match r with o :: _ => ~ keeps_aside o | [] => True end.
Lemma blank_abort s : s_okuri s = [] -> s_comp s = [] -> no_list s ->
  s_okuri (abort_to_previous_mode s) = [] /\ s_comp (abort_to_previous_mode s) = [] /\ no_list (abort_to_previous_mode s).
Proof.
  intros H1 H2 H3. unfold abort_to_previous_mode, no_list in *. destruct (last_opt _) as [[]|]; cbn; rewrite ?H1, ?H2, ?H3; auto.
Qed.
Lemma wp_abort w s r : x_stack (w_ctx w) = s :: r -> K s -> (s_cmode s = Direct \/ listing (s_cmode s) = true \/ blank s) -> Forall JL r ->
  (s_cmode s = Direct -> outer_free r) -> wp any_panic abort (fun _ => W K) w.
Proof.
  intros H1 H2 Hm H3 Ho. destruct (K_clear_consolidate s H2 Hm) as (B & O & L & C & M & Bl). set (s1 := clear_candidate_list _) in *.
  unfold abort. apply wp_bind, wp_modcur; [|congruence]. intros s' r' H'. rewrite H1 in H'. injection H' as <- <-. fold s1.
  set (w1 := set_stack (s1 :: r) w). assert (E1 : x_stack (w_ctx w1) = s1 :: r) by reflexivity. clearbody w1. clearbody s1.
  apply wp_bind, wp_cur; [|congruence]. intros s' r' H'. rewrite E1 in H'. injection H' as <- <-. rewrite M.
  assert (N : forall w2, x_stack (w_ctx w2) = s1 :: r -> wp any_panic (modcur abort_to_previous_mode ;;
    s2 <- cur ;; when (cmode_eqb (s_cmode s) PreCompositionOkurigana && cmode_eqb (s_cmode s2) PreComposition) (modcur abort_to_previous_mode)) (fun _ => W K) w2).
  { intros w2 E2. pose proof (K_abort s1 B O L C) as Ka. apply wp_bind, wp_modcur; [|congruence]. intros s' r' H'. rewrite E2 in H'. injection H' as <- <-.
    set (w3 := set_stack _ w2). assert (E3 : x_stack (w_ctx w3) = abort_to_previous_mode s1 :: r) by reflexivity. clearbody w3.
    apply wp_bind, wp_cur; [|congruence]. intros s' r' H'. rewrite E3 in H'. injection H' as <- <-. unfold when.
    destruct (_ && _) eqn:Eb; [|exists (abort_to_previous_mode s1), r; auto].
    apply andb_true_iff in Eb as [Eb1 Eb2]. apply cmode_eqb_eq in Eb1, Eb2.
    assert (Hb : s_comp s1 = []) by (apply Bl; destruct Hm as [Hm|[Hm|Hm]]; [congruence|rewrite Eb1 in Hm; discriminate|exact Hm]).
    destruct (blank_abort s1 O Hb L) as (T1 & T2 & T3).
    apply wp_modcur; [|congruence]. intros s' r' H'. rewrite E3 in H'. injection H' as <- <-. exists (abort_to_previous_mode (abort_to_previous_mode s1)), r.
    split; [reflexivity|]. split; [|exact H3]. apply K_abort; auto. apply Ka. }
  destruct (cmode_eqb (s_cmode s) Direct) eqn:Ed.
  - apply cmode_eqb_eq in Ed. rewrite Ed. destruct r as [|o r].
    + apply wp_bind, wp_bind. unfold wp at 1, abort_register_mode. rewrite E1. apply wp_ret. rewrite <- Ed. now apply N.
    + apply wp_bind, wp_bind. unfold wp at 1, abort_register_mode. rewrite E1. cbn [tl]. apply wp_ret.
      inversion H3 as [|? ? L1 L2]; subst. apply wp_bind, wp_modcur; [|discriminate]. intros s' r' H'. injection H' as <- <-.
      apply wp_bind, wp_cur; [|discriminate]. intros s' r' H'. injection H' as <- <-. unfold when. cbn [cmode_eqb andb]. eexists _, r. split; [reflexivity|].
      split; [apply JL_abort; [exact L1|apply (Ho Ed)]|exact L2].
  - assert (Ex : match s_cmode s with Direct => abort_register_mode ;; ret tt | _ => ret tt end = ret tt) by (destruct (s_cmode s); try discriminate; reflexivity).
    rewrite Ex. apply wp_bind, wp_ret. now apply N.
Qed.

Lemma wp_exit w s r t : x_stack (w_ctx w) = s :: r -> K s -> Forall JL r -> ~ In 35%N t -> (t = [] -> outer_free r) ->
  wp any_panic (exit_register_mode t) (fun _ => W K) w.
Proof.
  intros H1 H2 H3 Ht Ho. unfold wp, exit_register_mode. rewrite H1. destruct r as [|o r]. { exists s, []. auto. }
  inversion H3 as [|? ? L1 L2]; subst. cbn [tl].
  match goal with |- match ?m ?w0 with _ => _ end => change (wp any_panic m (fun _ => W K) w0); set (w1 := w0) end.
  assert (E1 : x_stack (w_ctx w1) = o :: r) by reflexivity. clearbody w1. destruct t as [|x t]; cbn [is_nil].
  - apply (q_modcurW (fun o' => o' = o) K); [|exists o, r; auto]. intros o' ->. apply JL_abort; [exact L1|]. now apply Ho.
  - destruct L1 as (Lm & Ld & Lr & Lh). apply wp_bind, wp_modcur; [|congruence]. intros s' r' H'. rewrite E1 in H'. injection H' as <- <-.
    set (o1 := set_cmode Direct o). set (w2 := set_stack _ w1). assert (E2 : x_stack (w_ctx w2) = o1 :: r) by reflexivity. assert (D1 : s_default o1 = Direct) by exact Ld. clearbody w2 o1.
    apply wp_bind, wp_cur; [|congruence]. intros s' r' H'. rewrite E2 in H'. injection H' as <- <-. apply wp_bind, wp_get.
    apply wp_bind, wp_lift; [|intros; exact I]. intros cs Ec.
    assert (Hc : exists c, cs = [c]).
    { unfold registered_candidates, numeric_entry_count in Ec. rewrite (templates_none (x :: t) Ht) in Ec. cbn in Ec. injection Ec as <-. eauto. }
    destruct Hc as (c & ->). apply wp_bind, wp_modcur; [|congruence]. intros s' r' H'. rewrite E2 in H'. injection H' as <- <-.
    eapply wp_mono; [|intros ? w'; apply W_mono, E_K]. eapply wp_confirm_has; [reflexivity|exact D1| |exact L2].
    unfold has_current, cl_current. cbn. rewrite app_length. cbn [length]. replace (N.to_nat _) with (length (cl_list (s_list o1))) by lia.
    rewrite nth_error_app2 by lia. rewrite Nat.sub_diag. discriminate.
Qed.

(** ** Moving in a list *)
Lemma K_list s l : K s -> (cl_list (s_list s) = [] -> cl_list l = []) -> (has_current s -> has_current (set_list l s)) -> K (set_list l s).
Proof.
  intros [H1 H2] Hl Hc. split; [exact H1|]. cbn [set_list s_cmode s_hist]. destruct (s_cmode s); cbn [by_mode] in *; unfold blank, no_list, listed in *; cbn in *; tauto.
Qed.
Lemma forward_list dbg s s' : st_forward dbg s = Ok s' -> exists l, s' = set_list l s /\ cl_list l = cl_list (s_list s).
Proof.
  unfold st_forward, cl_forward. destruct (usize_sub dbg _ _) as [m|]; cbn; [|discriminate]. destruct (N.ltb _ _).
  - destruct (usize_add _ _ _); cbn; [|discriminate]. intros [= <-]. eexists. split; reflexivity.
  - cbn. intros [= <-]. eexists. split; reflexivity.
Qed.
Lemma K_forward dbg s s' : st_forward dbg s = Ok s' -> K s -> K s'.
Proof.
  intros Hf H. pose proof (forward_current dbg s s' Hf) as G. destruct (forward_list dbg s s' Hf) as (l & -> & El). apply K_list; auto. now rewrite El.
Qed.
Lemma backward_current s : has_current s -> has_current (st_backward s).
Proof.
  unfold has_current, cl_current. intros H2. apply nth_error_Some in H2. unfold st_backward, cl_backward. destruct (N.ltb _ _); cbn; apply nth_error_Some; lia.
Qed.
Lemma K_backward s : K s -> K (st_backward s).
Proof.
  intros H. unfold st_backward. apply K_list; auto; [|apply backward_current]. unfold cl_backward. destruct (N.ltb _ _); auto.
Qed.

(** ** Commands *)
(** what is known while a list of commands bound in mode [c0] runs: [mv], the mode may have changed;
    [em], the frame is empty *)
Definition move (c0 : cmode) (x : instr) (mv em : bool) : option (bool * bool) :=
  match x with
  | IChangeInputMode _ | IClearUnconvertedInputs | IFinishKeyEvent | INextCandidatePointer
  | IPreviousCandidatePointer | ITryPreviousCompletion => Some (mv, em)
  | IForceKanaConvert _ => if mv then None else Some (false, false)
  | IClearUnconfirmedInputs | IConfirmAs _ | IPurge => Some (mv, true)
  | IChangeCompositionMode m =>
      if (em || (negb mv && cmode_eqb c0 Direct)) && negb (cmode_eqb m Register) then Some (true, true) else None
  | IConfirmComposition => if em then Some (mv, true) else if negb mv && listing c0 then Some (true, true) else None
  | _ => None
  end.
Definition ends (x : instr) : bool := match x with IDelete | IPassthroughKeyEvent => true | _ => false end.
Definition lasts (c0 : cmode) (x : instr) (mv em : bool) : bool :=
  match x with
  | IAbort => negb mv && (em || cmode_eqb c0 Direct || listing c0)
  | ITryNextCandidate => negb mv && (plain c0 || cmode_eqb c0 CompositionSelection)
  | ITryNextCompletion => negb mv && plain c0
  | ITryPreviousCandidate => true
  | _ => false
  end.
Fixpoint tidy_list (c0 : cmode) (mv em : bool) (l : list instr) : bool :=
  match l with
  | [] => true
  | x :: r => if ends x then true
              else match move c0 x mv em with
                   | Some (mv', em') => tidy_list c0 mv' em' r
                   | None => is_nil r && lasts c0 x mv em
                   end
  end.
Section Commands.
Context (dbg : bool) (c0 : cmode) (fr : list cstate -> Prop).
Definition A (mv em : bool) (s : cstate) : Prop := K s /\ (em = true -> E s) /\ (mv = false -> s_cmode s = c0).
Definition WO (P : cstate -> Prop) (w : world) : Prop := exists s r, x_stack (w_ctx w) = s :: r /\ P s /\ Forall JL r /\ fr r.
Lemma WO_W (P Q : cstate -> Prop) w : (forall s, P s -> Q s) -> WO P w -> W Q w.
Proof. intros H (s & r & H1 & H2 & H3 & _). exists s, r; auto. Qed.
Lemma A_K mv em s : A mv em s -> K s.
Proof. intros [H _]; exact H. Qed.
Lemma A_base mv em s : A mv em s -> base s /\ s_cmode s <> Register.
Proof. intros [H _]. split; [apply H|now apply K_not_register]. Qed.
Lemma wo_modcur (P Q : cstate -> Prop) f : (forall s, P s -> Q (f s)) -> q (WO P) (WO Q) (modcur f).
Proof.
  intros Hf w (s & r & H1 & H2 & H3 & H4). apply wp_modcur; [|congruence]. intros s' r' H'. rewrite H1 in H'. injection H' as <- <-.
  exists (f s), r. auto.
Qed.
Lemma wo_for P f : q (WO P) (WO P) (for_dicts f).
Proof. intros w H. apply wp_for_dicts. exact H. Qed.
Lemma wo_cur {B} (P : cstate -> Prop) Q (f : cstate -> M B) : (forall s, P s -> q (WO (fun s' => s' = s)) Q (f s)) -> q (WO P) Q (bind cur f).
Proof.
  intros Hf w (s & r & H1 & H2 & H3 & H4). apply wp_bind, wp_cur; [|congruence]. intros s' r' H'. rewrite H1 in H'. injection H' as <- <-.
  apply Hf; [exact H2|]. exists s, r. auto.
Qed.
(** the frames below are not touched by a step on the current frame *)
Lemma A_eq mv em s s' : s_cmode s' = s_cmode s -> s_default s' = s_default s -> s_hist s' = s_hist s -> s_raw s' = s_raw s -> s_comp s' = s_comp s ->
  s_okuri s' = s_okuri s -> s_list s' = s_list s -> A mv em s -> A mv em s'.
Proof.
  intros E1 E2 E3 E4 E5 E6 E7 (H1 & H2 & H3). split; [apply (K_eq s); auto|]. split; [|rewrite E1; auto].
  intros He. apply (E_eq s); auto.
Qed.
Lemma A_list mv em s l : A mv em s -> (cl_list (s_list s) = [] -> cl_list l = []) -> (has_current s -> has_current (set_list l s)) -> A mv em (set_list l s).
Proof.
  intros (H1 & H2 & H3) Hl Hc. split; [now apply K_list|]. split; [|exact H3]. intros He. specialize (H2 He). destruct H2 as (G1 & G2 & G3 & G4).
  split; [exact G1|]. split; [exact G2|]. split; [exact G3|]. unfold no_list in *. cbn. auto.
Qed.
Lemma A_backward mv em s : A mv em s -> A mv em (st_backward s).
Proof.
  intros H. unfold st_backward. apply A_list; auto; [|apply backward_current]. unfold cl_backward. destruct (N.ltb _ _); auto.
Qed.
Lemma A_empty mv em s f : E (f s) -> s_cmode (f s) = s_cmode s -> A mv em s -> A mv true (f s).
Proof. intros H1 H2 (G1 & G2 & G3). split; [now apply E_K|]. split; [auto|]. rewrite H2. exact G3. Qed.
Lemma q_go {B} (P Q : world -> Prop) (m : M B) : q P Q m -> q P Q (m ;; ret (@inl unit bool tt)).
Proof. intros H. apply (q_bind P Q); [exact H|intros ?; apply q_ret; auto]. Qed.
Lemma wo_output i mv em : mv = false -> q (WO (A mv em)) (WO (A mv false)) (output_converted_kana_if_any i c0).
Proof.
  intros ->. unfold output_converted_kana_if_any. apply wo_cur. intros s Hs. apply q_get_then. intros w.
  assert (N : q (WO (fun s' => s' = s)) (WO (A false false)) (ret false)).
  { apply q_ret. intros w1 (s' & r & H1 & -> & H3). exists s, r. split; [exact H1|]. split; [|exact H3]. destruct Hs as (G1 & G2 & G3). split; [exact G1|]. split; [discriminate|exact G3]. }
  destruct (convert_greedy _ _) as [[kana carry]|]; [|exact N].
  assert (G : forall f : cstate -> cstate, KM c0 (f s) -> q (WO (fun s' => s' = s)) (WO (A false false)) (modcur f ;; set_carry_over carry ;; ret true)).
  { intros f Hk. apply (q_bind _ (WO (A false false))).
    - apply wo_modcur. intros s' ->. split; [apply Hk|]. split; [discriminate|intros _; apply Hk].
    - intros ?. apply (q_bind _ (WO (A false false))); [|intros ?; apply q_ret; auto]. apply wo_modcur. intros s1 H1. cbn zeta. destruct (is_nil carry); apply (A_eq false false s1); auto. }
  destruct Hs as (H1 & H2 & H3). specialize (H3 eq_refl).
  destruct c0 eqn:Ec; try exact N; apply G.
  - apply (KM_eq _ (push_string_for (adjust_kana_string (x_kf (w_ctx w)) i kana) Direct s)); try reflexivity. split; [now apply K_push_Direct|exact H3].
  - apply (KM_eq _ (push_string_for kana PreComposition s)); try reflexivity. split; [apply K_push_Pre; [exact H1|now rewrite H3]|exact H3].
  - apply (KM_eq _ (push_string_for kana PreCompositionOkurigana s)); try reflexivity. split; [apply K_push_Okuri; [exact H1|congruence]|exact H3].
Qed.
Lemma wo_confirm_em mv : q (WO (A mv true)) (WO (A mv true)) confirm_current.
Proof.
  intros w (s & r & H1 & H2 & H3 & H4). eapply wp_confirm_none; [exact H1| |]. { apply no_list_current. now apply H2. } exists s, r; auto.
Qed.
Lemma wo_confirm_list : listing c0 = true -> q (WO (A false false)) (WO (A true true)) confirm_current.
Proof.
  intros Hl w (s & r & H1 & (H2 & _ & H4) & H5 & H6). specialize (H4 eq_refl). destruct (cl_current (s_list s)) as [c|] eqn:Ec.
  - unfold confirm_current. apply wp_bind, wp_cur; [|congruence]. intros s' r' H'. rewrite H1 in H'. injection H' as <- <-.
    apply wp_bind, wp_get. rewrite Ec. apply wp_bind, wp_for_dicts. apply (wo_modcur (fun s' => s' = s) (A true true)); [|exists s, r; auto].
    intros s' ->. assert (Hd : s_default s = Direct) by apply H2. set (t := _ ++ _). clearbody t.
    assert (He : E (reset_to_default (clear_unconfirmed (push_string t s)))) by (apply E_reset; unfold push_string; rewrite <- Hd; destruct (s_cmode s); reflexivity).
    split; [now apply E_K|]. split; [auto|discriminate].
  - eapply wp_confirm_none; [exact H1|exact Ec|]. exists s, r. split; [exact H1|]. split; [|auto].
    assert (He : E s) by (apply KL_E; [split; [exact H2|now rewrite H4]|unfold has_current; congruence]).
    split; [exact H2|]. split; [auto|discriminate].
Qed.
Lemma wo_move x mv em mv' em' i0 : ends x = false -> move c0 x mv em = Some (mv', em') -> q (WO (A mv em)) (WO (A mv' em')) (run_instr dbg x c0 i0).
Proof.
  intros He Hm. destruct x; try discriminate He; cbn [move run_instr] in *; try discriminate Hm; try apply q_go.
  - (* ChangeInputMode *) injection Hm as <- <-. apply wo_modcur. intros s. apply A_eq; reflexivity.
  - destruct mv; [discriminate|]. injection Hm as <- <-. apply (q_bind _ (WO (A false false))); [now apply wo_output|intros ?; apply q_ret; auto].
  - injection Hm as <- <-. apply wo_modcur. intros s. apply A_eq; reflexivity.
  - injection Hm as <- <-. apply wo_modcur. intros s H. apply (A_empty mv em s clear_unconfirmed); [|reflexivity|exact H]. apply E_clear; apply (A_base _ _ _ H).
  - destruct ((em || _) && _) eqn:Eb; [|discriminate]. injection Hm as <- <-. apply andb_true_iff in Eb as [Eb1 Eb2]. apply negb_true_iff in Eb2.
    apply wo_modcur. intros s (H1 & H2 & H3). assert (Es : E s).
    { apply orb_true_iff in Eb1 as [Eb1|Eb1]; [now apply H2|]. apply andb_true_iff in Eb1 as [Eb1 Eb3]. apply negb_true_iff in Eb1. apply cmode_eqb_eq in Eb3.
      apply K_E; [exact H1|]. rewrite (H3 Eb1). exact Eb3. }
    assert (Ec : E (change_composition_mode c s)) by (apply E_change; [intros ->; discriminate|exact Es]).
    split; [now apply E_K|]. split; [auto|discriminate].
  - injection Hm as <- <-. apply q_ret. auto.
  - injection Hm as <- <-. apply wo_cur. intros s Hs. apply q_lift_then. intros s' Hf. apply wo_modcur. intros s1 _. 
    pose proof (forward_current dbg s s' Hf) as G. destruct (forward_list dbg s s' Hf) as (l & -> & El). apply A_list; auto. now rewrite El.
  - injection Hm as <- <-. apply wo_modcur. intros s. apply A_backward.
  - destruct em; [injection Hm as <- <-; apply wo_confirm_em|]. destruct (negb mv && listing c0) eqn:Eb; [|discriminate]. injection Hm as <- <-.
    apply andb_true_iff in Eb as [Eb1 Eb2]. apply negb_true_iff in Eb1. subst mv. now apply wo_confirm_list.
  - injection Hm as <- <-. unfold confirm_as. apply q_get_then. intros w. apply wo_modcur. intros s H.
    apply (A_empty mv em s (fun s => clear_unconfirmed (push_string_for _ Direct s))); [|reflexivity|exact H].
    apply E_clear; [apply base_push_for|]; apply (A_base _ _ _ H).
  - injection Hm as <- <-. unfold purge_current. apply wo_cur. intros s Hs. apply (q_bind _ (WO (fun s' => s' = s))).
    + destruct (cl_current _); [apply wo_for|apply q_ret; auto].
    + intros ?. apply wo_modcur. intros s' ->. apply (A_empty mv em s clear_all); [|reflexivity|exact Hs]. apply E_clear_all; apply (A_base _ _ _ Hs).
  - injection Hm as <- <-. apply wo_cur. intros s Hs. 
    assert (N : q (WO (fun s' => s' = s)) (WO (A mv em)) (ret tt)) by (apply q_ret; intros w (s' & r & H1 & -> & H3); exists s, r; auto).
    destruct (negb _); [exact N|]. destruct (cl_has_previous _); [|exact N]. apply wo_modcur. intros s' ->. now apply A_backward.
Qed.
Lemma wo_last x mv em i0 : lasts c0 x mv em = true -> (x <> IAbort \/ (c0 = Direct -> forall r, fr r -> outer_free r)) -> q (WO (A mv em)) (W K) (run_instr dbg x c0 i0).
Proof.
  intros Hl Hf. destruct x; try discriminate Hl; cbn [lasts run_instr] in *; apply q_go.
  - (* Abort *) destruct Hf as [Hf|Hf]; [congruence|]. apply andb_true_iff in Hl as [Hl1 Hl2]. apply negb_true_iff in Hl1. subst mv.
    intros w (s & r & H1 & (H2 & H3 & H4) & H5 & H6). specialize (H4 eq_refl). eapply wp_abort; eauto.
    + apply orb_true_iff in Hl2 as [Hl2|Hl2]; [apply orb_true_iff in Hl2 as [Hl2|Hl2]|].
      * right; right. apply (H3 Hl2).
      * left. apply cmode_eqb_eq in Hl2. congruence.
      * right; left. congruence.
    + intros Hd. apply Hf; [congruence|exact H6].
  - apply andb_true_iff in Hl as [Hl1 Hl2]. apply negb_true_iff in Hl1. subst mv. destruct (plain c0) eqn:Ep.
    + eapply q_pre; [|apply (q_next dbg (fun _ _ => True) c0 i0 Ep)]. intros w (s & r & H1 & (H2 & H3 & H4) & H5 & H6). split; [|exact I]. exists s, r. split; [exact H1|]. split; [split; auto|exact H5].
    + cbn [orb] in Hl2. apply cmode_eqb_eq in Hl2. rewrite Hl2. unfold try_next_candidate. cbn [cmode_eqb negb].
      intros w (s & r & H1 & (H2 & H3 & H4) & H5 & H6). specialize (H4 eq_refl). apply wp_bind, wp_cur; [|congruence]. intros s' r' H'. rewrite H1 in H'. injection H' as <- <-.
      apply wp_bind, wp_lift; [|intros; exact I]. intros b _. destruct (negb b).
      * apply q_enterK. exists s, r. split; [exact H1|]. split; [split; [exact H2|congruence]|exact H5].
      * apply wp_bind, wp_lift; [|intros; exact I]. intros s' Hs'. apply (q_modcurW (fun s' => s' = s) K); [|exists s, r; auto].
        intros s1 _. eapply K_forward; eauto.
  - intros w (s & r & H1 & (H2 & H3 & H4) & H5 & H6). apply wp_bind, wp_cur; [|congruence]. intros s' r' H'. rewrite H1 in H'. injection H' as <- <-.
    destruct (cmode_eqb (s_cmode s) CompositionSelection) eqn:Es; cbn [negb]; [|exists s, r; auto].
    destruct (cl_has_previous _); cbn [negb].
    + apply (q_modcurW (fun s' => s' = s) K); [|exists s, r; auto]. intros s' ->. now apply K_backward.
    + apply wp_bind. eapply wp_mono; [apply (q_modcurW (fun s' => s' = s) (fun s' => s' = clear_candidate_list (consolidate s))); [intros s' ->; reflexivity|exists s, r; auto]|].
      intros ? w1 Hw1. apply (q_modcurW (fun s' => s' = clear_candidate_list (consolidate s)) K); [|exact Hw1]. intros s2 Hs2. rewrite Hs2.
      destruct H2 as [(B1 & B2 & B3) _]. unfold K, base, no_list. cbn. rewrite !app_length. repeat split; auto; [|lia]. apply nr_push; [exact B2|]. apply cmode_eqb_eq in Es. rewrite Es. discriminate.
  - apply andb_true_iff in Hl as [Hl1 Hl2]. apply negb_true_iff in Hl1. subst mv.
    eapply q_pre; [|apply (q_next_completion dbg (fun _ _ => True) c0 i0 Hl2)]. intros w (s & r & H1 & (H2 & H3 & H4) & H5 & H6). split; [|exact I]. exists s, r. split; [exact H1|]. split; [split; auto|exact H5].
Qed.

Lemma wo_list l i0 : (~ In IAbort l \/ (c0 = Direct -> forall r, fr r -> outer_free r)) ->
  forall mv em b, tidy_list c0 mv em l = true -> q (WO (A mv em)) (W K) (run_instrs dbg l c0 i0 b).
Proof.
  induction l as [|x l IH]; intros Ha mv em b Hl; cbn [run_instrs tidy_list] in *; [apply q_ret; intros w; apply WO_W, A_K|].
  assert (Ha' : ~ In IAbort l \/ (c0 = Direct -> forall r, fr r -> outer_free r)) by (destruct Ha as [Ha|Ha]; [left; intros G; apply Ha; now right|now right]).
  destruct (ends x) eqn:Ex.
  - destruct x; try discriminate Ex; cbn [run_instr]; intros w Hw.
    + apply wp_bind, wp_ret, wp_ret. eapply WO_W; [apply A_K|exact Hw].
    + destruct Hw as (s & r & H1 & H2 & H3 & H4). apply wp_bind, wp_bind, wp_cur; [|congruence]. intros s' r' H'. rewrite H1 in H'. injection H' as <- <-.
      apply wp_bind, wp_modcur; [|congruence]. intros s' r' H'. rewrite H1 in H'. injection H' as <- <-. apply wp_ret, wp_ret.
      eexists _, r. split; [reflexivity|]. split; [apply K_delete, H2|exact H3].
  - destruct (move c0 x mv em) as [[mv' em']|] eqn:Em.
    + apply (q_bind _ (WO (A mv' em'))); [eapply wo_move; eauto|]. intros [|]; [now apply IH|apply q_ret; intros w; apply WO_W, A_K].
    + apply andb_true_iff in Hl as [Hn Hl]. destruct l; [|discriminate Hn]. apply (q_bind _ (W K)).
      * apply (wo_last x mv em); [exact Hl|]. destruct Ha as [Ha|Ha]; [left; intros ->; apply Ha; now left|now right].
      * intros [|]; apply q_ret; auto.
Qed.
End Commands.

(** ** A key *)
Section Keys.
Context (X : xkb) (dbg : bool).
Definition list_fits (c : cmode) (l : list instr) : bool :=
  tidy_list c false false l || match l with [IConfirmDirect] => true | _ => false end.
Definition key_fits (k : keyev) (w : world) : Prop :=
  forall s r l, x_stack (w_ctx w) = s :: r -> bound (x_cmd (w_ctx w)) (s_cmode s) (s_imode s) k l ->
    list_fits (s_cmode s) l = true
    /\ (In IAbort l -> s_cmode s = Direct -> outer_free r)
    /\ (In IConfirmDirect l -> ~ In 35%N (s_conf s) /\ (s_conf s = [] -> outer_free r)).
Lemma wp_commands l s r w i : x_stack (w_ctx w) = s :: r -> K s -> Forall JL r -> list_fits (s_cmode s) l = true ->
  (In IAbort l -> s_cmode s = Direct -> outer_free r) ->
  (In IConfirmDirect l -> ~ In 35%N (s_conf s) /\ (s_conf s = [] -> outer_free r)) ->
  wp any_panic (process_instructions dbg l (s_cmode s) i) (fun _ => W K) w.
Proof.
  intros H1 H2 H3 Hl Ha Hc. unfold process_instructions. generalize (negb (is_nil l)). intros b.
  unfold list_fits in Hl. apply orb_true_iff in Hl as [Hl|Hl].
  - assert (D : In IAbort l \/ ~ In IAbort l).
    { clear. induction l as [|x l IH]; [now right|]. destruct x; try (destruct IH as [IH|IH]; [left; now right|right; intros [G|G]; [discriminate|auto]]). left; now left. }
    apply (wo_list dbg (s_cmode s) (fun r' => r' = r) l i) with (mv := false) (em := false); [|exact Hl|].
    + destruct D as [D|D]; [right; intros Hd r' ->; now apply Ha|now left].
    + exists s, r. split; [exact H1|]. split; [|auto]. split; [exact H2|]. split; [discriminate|auto].
  - destruct l as [|x [|y l]]; try discriminate; [|destruct x; discriminate]. destruct x; try discriminate. cbn [run_instrs run_instr].
    assert (HW : W K w) by (exists s, r; auto). destruct (Hc (or_introl eq_refl)) as [Hc1 Hc2].
    apply wp_bind, wp_bind, wp_get. destruct (Nat.ltb _ _); [|exact HW]. apply wp_bind, wp_cur; [|congruence]. intros s0 r0 H0.
    rewrite H1 in H0. injection H0 as <- <-. apply wp_bind. eapply wp_mono; [eapply wp_exit; eauto|]. intros ? w1 Hw1. exact Hw1.
Qed.
Lemma wp_input k u s r w : x_stack (w_ctx w) = s :: r -> K s -> Forall JL r -> room (length (x_stack (w_ctx w))) (x_cfg (w_ctx w)) ->
  wp any_panic (input_key X dbg k (s_cmode s) u) (fun _ => W K) w.
Proof.
  intros H1 H2 H3 Hr. assert (HW : W K w) by (exists s, r; auto).
  unfold input_key. destruct (negb _); [exact HW|]. apply wp_bind, wp_cur; [|congruence]. intros s0 r0 H0.
  rewrite H1 in H0. injection H0 as <- <-. apply wp_bind, wp_get.
  assert (C : forall w c, R room (KM c) w -> wp any_panic (s1 <- cur ;;
    if has_rom2kana_conversion (s_imode s1) (s_cmode s1) && is_modifierless_input k
    then input_kana X dbg k u
    else if is_ascii_inputtable k && is_modifierless_input k then input_plain X k
    else ret false) (fun _ => W K) w).
  { intros w1 c. revert w1. match goal with |- forall w, _ -> wp _ ?m _ w => change (q (R room (KM c)) (W K) m) end. apply q_cur_keep. intros s1 G.
    destruct (_ && _); [apply q_kana|]. destruct (_ && _); [apply q_plain|apply q_ret; intros w1; apply RK_W]. }
  fold (listing (s_cmode s)). destruct (listing (s_cmode s) && will_be_processed _ _ _ _ _) eqn:Ew.
  - apply andb_true_iff in Ew as [El _]. apply wp_bind.
    assert (G : wp any_panic confirm_current (fun _ => R room E) w).
    { destruct (cl_current (s_list s)) as [c|] eqn:Ec.
      - unfold confirm_current. apply wp_bind, wp_cur; [|congruence]. intros s0 r0 H0. rewrite H1 in H0. injection H0 as <- <-. apply wp_bind, wp_get. rewrite Ec.
        apply wp_bind, wp_for_dicts. apply (q_modcur room (fun s' => s' = s) E); [|split; [exists s, r; auto|exact Hr]].
        intros s' ->. assert (Hd : s_default s = Direct) by apply H2. apply E_reset. unfold push_string. rewrite <- Hd. destruct (s_cmode s); reflexivity.
      - eapply wp_confirm_none; [exact H1|exact Ec|]. split; [|exact Hr]. exists s, r. split; [exact H1|]. split; [|exact H3].
        apply KL_E; [split; assumption|]. unfold has_current. congruence. }
    eapply wp_mono; [exact G|]. intros ? w1 [(s1 & r1 & G1 & G2 & G3) G4]. apply (C w1 (s_cmode s1)). split; [|exact G4].
    exists s1, r1. split; [exact G1|]. split; [split; [now apply E_K|reflexivity]|exact G3].
  - apply wp_bind, wp_ret, (C w (s_cmode s)). split; [|exact Hr]. exists s, r. split; [exact H1|]. split; [split; auto|exact H3].
Qed.
Theorem key_fresh k w : W K w -> room (length (x_stack (w_ctx w))) (x_cfg (w_ctx w)) -> key_fits k w ->
  wp any_panic (process_key_event X dbg k) (fun _ => W K) w.
Proof.
  intros HW Hr Hk. unfold process_key_event. destruct (has_mod k M_RELEASE); [exact HW|].
  destruct HW as (s & r & H1 & H2 & H3). unfold process_key_event_inner. apply wp_bind, wp_cur; [|congruence]. intros s0 r0 H0.
  rewrite H1 in H0. injection H0 as <- <-. apply wp_bind, wp_get. cbn zeta.
  destruct (skip_command _ _ _ _ _); [eapply wp_input; eauto|].
  apply wp_bind, wp_lift; [|intros; exact I]. intros [l|] Hi; [|eapply wp_input; eauto].
  assert (Hb : bound (x_cmd (w_ctx w)) (s_cmode s) (s_imode s) k l).
  { unfold get_instruction in Hi. unfold bound. destruct (s_cmode s); try congruence. destruct dbg; discriminate. }
  destruct (Hk s r l H1 Hb) as (Hl & Ha & Hc). eapply wp_commands; eauto.
Qed.
End Keys.
