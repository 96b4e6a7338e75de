(** C68: the list of rules handed to C and given back. *)
From Verif Require Import Str CApi RulesMem.
From Coq Require Import Permutation Lia.

(** ** Specification *)
(** no address is used twice, none is beyond the next one *)
Definition sane (h : rheap) : Prop :=
  NoDup (map fst (rh_live h)) /\ Forall (fun p => (fst p < rh_next h)%N) (rh_live h).
(** what C reads at an address *)
Definition text_at (h : rheap) (a : N) (s : str) : Prop := In (a, BText s) (rh_live h).
Definition no_nul (s : str) : Prop := ~ In 0%N s.
Definition plain (r : str * str * str) : Prop := no_nul (fst (fst r)) /\ no_nul (snd (fst r)) /\ no_nul (snd r).
(** the array shows these rules: identifier, name and description, in order *)
Definition shows (h : rheap) (a : N) (rs : list (str * str * str)) : Prop :=
  exists capacity fs, In (a, BRules capacity fs) (rh_live h) /\
    Forall2 (fun r f => text_at h (f_id f) (fst (fst r)) /\ text_at h (f_name f) (snd (fst r))
                        /\ text_at h (f_description f) (snd r)) rs fs.
(** the same allocations are live *)
Definition same_memory (h h' : rheap) : Prop := Permutation (rh_live h) (rh_live h').

(** ** Proofs *)
Definition owns (h : rheap) (l : list (N * block)) : Prop :=
  Permutation (rh_live h) l /\ NoDup (map fst l) /\ Forall (fun p => (fst p < rh_next h)%N) l.
Lemma owns_perm h l l' : owns h l -> Permutation l l' -> owns h l'.
Proof.
  intros (H1 & H2 & H3) P. split; [now rewrite H1|]. split; [now apply (Permutation_NoDup (Permutation_map fst P))|].
  rewrite Forall_forall in *. intros a Ha. apply H3. now apply (Permutation_in _ (Permutation_sym P)).
Qed.
Lemma sane_owns h : sane h -> owns h (rh_live h).
Proof. intros [H1 H2]. split; auto. Qed.
Lemma alloc_owns h l b : owns h l -> exists h', ralloc b h = Some (rh_next h, h') /\ owns h' ((rh_next h, b) :: l).
Proof.
  intros (H1 & H2 & H3). eexists. split; [reflexivity|]. split; [|split]; cbn.
  - now constructor.
  - constructor; auto. intros H. apply in_map_iff in H as ([a b'] & E & H). rewrite Forall_forall in H3.
    specialize (H3 _ H). cbn in *. lia.
  - constructor; cbn; [lia|]. eapply Forall_impl; [|exact H3]. intros [a b'] H. cbn in *. lia.
Qed.
Lemma take_spec a b : forall l, NoDup (map fst l) -> In (a, b) l ->
  exists r, take a l = Some (b, r) /\ Permutation l ((a, b) :: r).
Proof.
  induction l as [|[x c] l IH]; intros Hn H; [destruct H|]. cbn. inversion Hn as [|? ? Hx Hl]; subst.
  destruct (N.eqb a x) eqn:E.
  - apply N.eqb_eq in E as <-. destruct H as [H|H].
    + injection H as ->. eauto.
    + exfalso. apply Hx. change a with (fst (a, b)). now apply in_map.
  - destruct H as [H|H]; [injection H as -> ->; rewrite N.eqb_refl in E; discriminate|].
    destruct (IH Hl H) as (r & -> & P). cbn. eexists. split; [reflexivity|]. rewrite P. apply perm_swap.
Qed.
Lemma take_owns h a b l : owns h ((a, b) :: l) ->
  exists r, take a (rh_live h) = Some (b, r) /\ owns (mkRh (rh_next h) r) l.
Proof.
  intros (H1 & H2 & H3).
  destruct (take_spec a b (rh_live h)) as (r & E & P).
  - apply (Permutation_NoDup (Permutation_map fst (Permutation_sym H1))), H2.
  - apply (Permutation_in _ (Permutation_sym H1)). now left.
  - exists r. split; [exact E|]. inversion H2; inversion H3; subst. split; [|split; assumption]. cbn.
    apply (Permutation_cons_inv (a := (a, b))). now rewrite <- P.
Qed.
Lemma free_text_owns h a s l : owns h ((a, BText s) :: l) -> exists h', free_text a h = Some (tt, h') /\ owns h' l.
Proof. intros H. destruct (take_owns _ _ _ _ H) as (r & E & H'). unfold free_text. rewrite E. eauto. Qed.
Definition buf (v : vec) : list (N * block) :=
  match v_cap v with O => [] | _ => [(v_ptr v, BRules (v_cap v) (v_elems v))] end.
Lemma free_buffer_owns h v l : owns h (buf v ++ l) ->
  exists h', free_buffer (v_ptr v) (v_cap v) h = Some (tt, h') /\ owns h' l
    /\ (v_cap v <> O -> owns (mkRh (rh_next h') ((v_ptr v, BRules 0 []) :: rh_live h')) ((v_ptr v, BRules 0 []) :: l)).
Proof.
  unfold buf, free_buffer. destruct (v_cap v) as [|n] eqn:E; intros H; [exists h; cbn in *; repeat split; auto; try apply H; congruence|].
  destruct (take_owns _ _ _ _ H) as (r & Er & H'). rewrite Er, Nat.eqb_refl. eexists. split; [reflexivity|]. split; [exact H'|].
  intros _. destruct H as (_ & H2 & H3). destruct H' as (G1 & G2 & G3). cbn in *. split; [|split]; cbn.
  - now constructor.
  - inversion H2; subst. now constructor.
  - inversion H3; subst. now constructor.
Qed.
(** the texts of rules *)
Fixpoint cells (rs : list (str * str * str)) (fs : list rule_ffi) : list (N * block) :=
  match rs, fs with
  | r :: rs, f :: fs => (f_id f, BText (fst (fst r))) :: (f_name f, BText (snd (fst r)))
                        :: (f_description f, BText (snd r)) :: cells rs fs
  | _, _ => []
  end.
Lemma cells_app r1 : forall f1 r2 f2, length r1 = length f1 -> cells (r1 ++ r2) (f1 ++ f2) = cells r1 f1 ++ cells r2 f2.
Proof.
  induction r1 as [|r r1 IH]; intros [|f f1] r2 f2 E; try discriminate; [reflexivity|]. cbn. now rewrite IH by now injection E.
Qed.
Lemma drop_owns rs : forall fs h l, length rs = length fs -> owns h (cells rs fs ++ l) ->
  exists h', drop_rules fs h = Some (tt, h') /\ owns h' l.
Proof.
  induction rs as [|r rs IH]; intros [|f fs] h l E H; try discriminate; [exists h; auto|].
  cbn [cells app] in H. cbn [drop_rules]. unfold drop_rule, rthen.
  destruct (free_text_owns _ _ _ _ H) as (h1 & -> & H1).
  destruct (free_text_owns _ _ _ _ H1) as (h2 & -> & H2).
  destruct (free_text_owns _ _ _ _ H2) as (h3 & -> & H3).
  apply IH; auto.
Qed.
Lemma c_string_plain s : (no_nul s /\ c_string s = Some s) \/ (~ no_nul s /\ c_string s = None).
Proof.
  unfold c_string, no_nul. destruct (existsb (N.eqb 0) s) eqn:E.
  - right. split; auto. apply existsb_exists in E as (x & H & E). apply N.eqb_eq in E as <-. auto.
  - left. split; auto. intros H. assert (existsb (N.eqb 0) s = true); [|congruence].
    apply existsb_exists. exists 0%N. auto.
Qed.
(** capacity of a Vec made by pushing *)
Definition cap_ok (len cap : nat) : Prop :=
  (len = 0 /\ cap = 0) \/ exists k, cap = 4 * 2 ^ k /\ len <= cap /\ 0 < len /\ (k = 0 \/ 2 * 2 ^ k < len).
Lemma cap_grow len cap : cap_ok len cap -> cap_ok (S len) (if Nat.eqb len cap then grown cap else cap).
Proof.
  unfold grown. intros [[-> ->]|(k & -> & H1 & H2 & H3)].
  - right. exists 0. cbn. lia.
  - destruct (Nat.eqb_spec len (4 * 2 ^ k)) as [E|E].
    + right. exists (S k). rewrite Nat.pow_succ_r'. assert (2 ^ k <> 0) by now apply Nat.pow_nonzero.
      repeat split; lia.
    + right. exists k. repeat split; try lia.
Qed.
Lemma cap_exact len cap : 0 < len -> cap_ok len cap -> (cap = len <-> exists k, len = 4 * 2 ^ k).
Proof.
  intros H [[-> _]|(k & -> & H1 & _ & H3)]; [lia|]. split; [eauto|]. intros [j ->].
  assert (Hj : 2 ^ j <= 2 ^ k) by lia. apply Nat.pow_le_mono_r_iff in Hj; [|lia].
  destruct H3 as [->|H3]; [f_equal; f_equal; lia|].
  destruct (Nat.eq_dec j k) as [->|Hne]; [reflexivity|]. exfalso.
  assert (E : 2 ^ S j <= 2 ^ k) by (apply Nat.pow_le_mono_r; lia). rewrite Nat.pow_succ_r' in E. lia.
Qed.
Definition vec_ok (v : vec) : Prop := cap_ok (length (v_elems v)) (v_cap v).
Lemma push_owns h v f l : vec_ok v -> owns h (buf v ++ l) ->
  exists v' h', vec_push v f h = Some (v', h') /\ owns h' (buf v' ++ l) /\ vec_ok v' /\ v_elems v' = v_elems v ++ [f].
Proof.
  intros Hv H. unfold vec_push. unfold vec_ok in *.
  pose proof (cap_grow _ _ Hv) as Hc.
  destruct (free_buffer_owns _ _ _ H) as (h1 & E1 & H1 & H1').
  destruct (Nat.eqb (length (v_elems v)) (v_cap v)) eqn:E.
  - unfold rthen. rewrite E1. destruct (alloc_owns h1 l (BRules (grown (v_cap v)) (v_elems v ++ [f])) H1) as (h2 & -> & H2).
    eexists _, _. split; [reflexivity|]. cbn [v_elems v_cap]. split; [|split; [|reflexivity]].
    + unfold buf. cbn [v_elems v_cap v_ptr]. unfold grown in *. destruct (Nat.max (2 * v_cap v) 4) as [|m] eqn:E4; [lia|]. exact H2.
    + rewrite app_length. cbn. now rewrite Nat.add_1_r.
  - assert (Hn : v_cap v <> 0).
    { intros E0. destruct Hv as [[Ha Hb]|(k & Hb & _ & _ & _)]; [rewrite Ha, Hb in E; discriminate|].
      rewrite E0 in Hb. assert (2 ^ k <> 0) by now apply Nat.pow_nonzero. lia. }
    unfold rthen. rewrite E1. eexists _, _. split; [reflexivity|]. cbn [v_elems v_cap]. split; [|split; [|reflexivity]].
    + specialize (H1' Hn). unfold buf. cbn [v_elems v_cap v_ptr]. destruct (v_cap v) as [|m] eqn:E4; [congruence|].
      destruct H1' as (G1 & G2 & G3). destruct H1 as (K1 & K2 & K3). cbn in *. split; [|split]; cbn.
      * now constructor.
      * assumption.
      * inversion G3; subst. now constructor.
    + rewrite app_length. cbn. now rewrite Nat.add_1_r.
Qed.
Lemma push_rules_owns rs : forall done v h base, vec_ok v -> length done = length (v_elems v) ->
  owns h (buf v ++ cells done (v_elems v) ++ base) ->
  exists ok v' h' done', push_rules rs v h = Some ((ok, v'), h') /\ vec_ok v' /\ length done' = length (v_elems v')
    /\ owns h' (buf v' ++ cells done' (v_elems v') ++ base)
    /\ ((ok = true /\ Forall plain rs /\ done' = done ++ rs) \/ (ok = false /\ ~ Forall plain rs)).
Proof.
  induction rs as [|r rs IH]; intros done v h base Hv El H.
  - cbn. exists true, v, h, done. rewrite app_nil_r. split; [reflexivity|]. do 3 (split; [assumption|]). left. auto.
  - cbn [push_rules]. unfold rules_ffi_new.
    assert (Hbad : ~ plain r -> exists ok v' h' done', Some ((false, v), h) = Some ((ok, v'), h') /\ vec_ok v' /\ length done' = length (v_elems v')
      /\ owns h' (buf v' ++ cells done' (v_elems v') ++ base)
      /\ ((ok = true /\ Forall plain (r :: rs) /\ done' = done ++ r :: rs) \/ (ok = false /\ ~ Forall plain (r :: rs)))).
    { intros Hp. exists false, v, h, done. split; [reflexivity|]. repeat (split; [auto; apply H|]). right. split; auto.
      intros Hf. inversion Hf. auto. }
    destruct (c_string_plain (fst (fst r))) as [[P1 ->]|[P1 ->]]; [|apply Hbad; unfold plain; tauto].
    destruct (c_string_plain (snd (fst r))) as [[P2 ->]|[P2 ->]]; [|apply Hbad; unfold plain; tauto].
    destruct (c_string_plain (snd r)) as [[P3 ->]|[P3 ->]]; [|apply Hbad; unfold plain; tauto].
    unfold rthen at 1. unfold rthen at 1.
    destruct (alloc_owns _ _ (BText (fst (fst r))) H) as (h1 & -> & H1). unfold rthen at 1.
    destruct (alloc_owns _ _ (BText (snd (fst r))) H1) as (h2 & -> & H2). unfold rthen at 1.
    destruct (alloc_owns _ _ (BText (snd r)) H2) as (h3 & -> & H3). cbn [rret]. unfold rret.
    set (f := mkRuleFfi (rh_next h) (rh_next h1) (rh_next h2)) in *.
    assert (H4 : owns h3 (buf v ++ cells (done ++ [r]) (v_elems v ++ [f]) ++ base)).
    { rewrite cells_app by exact El. cbn [cells]. eapply owns_perm; [exact H3|]. subst f. cbn [f_id f_name f_description].
      set (x1 := (rh_next h2, BText (snd r))). set (x2 := (rh_next h1, _)). set (x3 := (rh_next h, _)).
      rewrite <- app_assoc. cbn [app].
      transitivity (x3 :: x2 :: x1 :: buf v ++ cells done (v_elems v) ++ base).
      { change (x3 :: x2 :: x1 :: buf v ++ cells done (v_elems v) ++ base) with ([x3; x2; x1] ++ (buf v ++ cells done (v_elems v) ++ base)).
        change (x1 :: x2 :: x3 :: buf v ++ cells done (v_elems v) ++ base) with ([x1; x2; x3] ++ (buf v ++ cells done (v_elems v) ++ base)).
        apply Permutation_app_tail. apply (Permutation_rev [x1; x2; x3]). }
      change (x3 :: x2 :: x1 :: buf v ++ cells done (v_elems v) ++ base) with ([x3; x2; x1] ++ (buf v ++ (cells done (v_elems v) ++ base))).
      change (x3 :: x2 :: x1 :: base) with ([x3; x2; x1] ++ base).
      rewrite !app_assoc. apply Permutation_app_tail. rewrite <- app_assoc. apply Permutation_app_comm. }
    unfold rthen at 1.
    destruct (push_owns h3 v f _ Hv H4) as (v' & h4 & -> & H5 & Hv' & Ee).
    rewrite <- Ee in H5. destruct (IH (done ++ [r]) v' h4 base Hv') as (ok & v2 & h5 & done' & E & Hv2 & El2 & Ho & Hor).
    { rewrite Ee, !app_length. cbn. now rewrite El. }
    { exact H5. }
    exists ok, v2, h5, done'. split; [exact E|]. split; [exact Hv2|]. split; [exact El2|]. split; [exact Ho|].
    rewrite <- app_assoc in Hor. destruct Hor as [(A1 & A2 & A3)|(A1 & A2)]; [left|right].
    + repeat split; auto. constructor; auto. repeat split; auto.
    + split; auto. intros Hf. inversion Hf. auto.
Qed.
Lemma vec_drop_owns h v done base : length done = length (v_elems v) -> owns h (buf v ++ cells done (v_elems v) ++ base) ->
  exists h', vec_drop v h = Some (tt, h') /\ owns h' base.
Proof.
  intros El H. unfold vec_drop, rthen.
  destruct (drop_owns done (v_elems v) h (buf v ++ base) El) as (h1 & -> & H1).
  { eapply owns_perm; [exact H|]. rewrite !app_assoc. apply Permutation_app_tail, Permutation_app_comm. }
  destruct (free_buffer_owns _ _ _ H1) as (h2 & -> & H2 & _). eauto.
Qed.
Lemma start_owns h : sane h -> owns h (buf vec_new ++ cells [] (v_elems vec_new) ++ rh_live h).
Proof. intros H. cbn. now apply sane_owns. Qed.
Lemma vec_new_ok : vec_ok vec_new.
Proof. left. auto. Qed.
Lemma cells_in rs : forall fs h, length rs = length fs -> (forall p, In p (cells rs fs) -> In p (rh_live h)) ->
  Forall2 (fun r f => text_at h (f_id f) (fst (fst r)) /\ text_at h (f_name f) (snd (fst r))
                        /\ text_at h (f_description f) (snd r)) rs fs.
Proof.
  induction rs as [|r rs IH]; intros [|f fs] h El H; try discriminate; constructor.
  - unfold text_at. repeat split; apply H; cbn; auto.
  - apply IH; [now injection El|]. intros p Hp. apply H. cbn. auto.
Qed.
(** everything after a successful call *)
Lemma get_rules_ok rs h : sane h -> Forall plain rs -> rs <> [] -> (N.of_nat (length rs) < 2 ^ 32)%N ->
  exists v h', get_rules (Some rs) h = Some ((Some (v_ptr v), Some (length rs)), h') /\ vec_ok v
    /\ length rs = length (v_elems v) /\ owns h' (buf v ++ cells rs (v_elems v) ++ rh_live h).
Proof.
  intros Hs Hp Hne Hl. unfold get_rules, rthen.
  destruct (push_rules_owns rs [] vec_new h (rh_live h) vec_new_ok eq_refl (start_owns h Hs))
    as (ok & v & h' & done & -> & Hv & El & Ho & [(-> & _ & ->)|(_ & Hf)]); [|tauto].
  cbn [app] in *. apply N.ltb_lt in Hl. rewrite Hl. cbn [andb]. destruct rs as [|r rs]; [congruence|].
  exists v, h'. cbn [length Nat.ltb Nat.leb]. repeat split; auto; apply Ho.
Qed.

(** ** Theorems *)
(** The list shows the available rules, everything allocated before is untouched. *)
Theorem C68_shows : forall rs h, sane h -> Forall plain rs -> rs <> [] -> (N.of_nat (length rs) < 2 ^ 32)%N ->
  exists a h', get_rules (Some rs) h = Some ((Some a, Some (length rs)), h') /\ sane h' /\ shows h' a rs
    /\ forall p, In p (rh_live h) -> In p (rh_live h').
Proof.
  intros rs h Hs Hp Hne Hl. destruct (get_rules_ok rs h Hs Hp Hne Hl) as (v & h' & E & Hv & El & (P & Hn & Hf)).
  exists (v_ptr v), h'. split; [exact E|]. split; [|split].
  - split.
    + apply (Permutation_NoDup (Permutation_map fst (Permutation_sym P))), Hn.
    + rewrite Forall_forall in *. intros p Hin. apply Hf, (Permutation_in _ P), Hin.
  - exists (v_cap v), (v_elems v). split.
    + apply (Permutation_in _ (Permutation_sym P)). unfold buf. destruct (v_cap v) eqn:Ec; [|now left].
      exfalso. destruct Hv as [[H0 _]|(k & H0 & _)]; [rewrite H0 in El; now destruct rs|].
      rewrite Ec in H0. assert (2 ^ k <> 0) by now apply Nat.pow_nonzero. lia.
    + apply cells_in; auto. intros p Hin. apply (Permutation_in _ (Permutation_sym P)). rewrite !in_app_iff. auto.
  - intros p Hin. apply (Permutation_in _ (Permutation_sym P)). rewrite !in_app_iff. auto.
Qed.
Lemma drop_all_perm h v rs l : length rs = length (v_elems v) -> owns h (buf v ++ cells rs (v_elems v) ++ l) ->
  exists h', drop_rules (v_elems v) h = Some (tt, h') /\ owns h' (buf v ++ l).
Proof.
  intros El H. apply (drop_owns rs); auto. eapply owns_perm; [exact H|].
  rewrite !app_assoc. apply Permutation_app_tail, Permutation_app_comm.
Qed.
(** Giving it back is defined exactly when the number of rules is 4, 8, 16, ... (the capacity the
    array happens to have); then everything is given back. *)
Lemma free_after_get rs h : sane h -> Forall plain rs -> rs <> [] -> (N.of_nat (length rs) < 2 ^ 32)%N ->
  exists a h', get_rules (Some rs) h = Some ((Some a, Some (length rs)), h') /\
  (((exists k, length rs = 4 * 2 ^ k) /\ exists h2, free_rules (Some a) (length rs) h' = Some (tt, h2) /\ same_memory h h2)
   \/ (~ (exists k, length rs = 4 * 2 ^ k) /\ free_rules (Some a) (length rs) h' = None)).
Proof.
  intros Hs Hp Hne Hl. destruct (get_rules_ok rs h Hs Hp Hne Hl) as (v & h' & E & Hv & El & Ho).
  exists (v_ptr v), h'. split; [exact E|].
  assert (H0 : 0 < length rs) by (destruct rs; [congruence|cbn; lia]).
  assert (Hc : v_cap v <> 0).
  { intros Ec. destruct Hv as [[H1 _]|(k & H1 & _)]; [lia|].
    rewrite Ec in H1. assert (2 ^ k <> 0) by now apply Nat.pow_nonzero. lia. }
  unfold free_rules.
  destruct (drop_all_perm _ _ _ _ El Ho) as (h1 & E1 & H1).
  assert (Et : exists r, take (v_ptr v) (rh_live h') = Some (BRules (v_cap v) (v_elems v), r)).
  { unfold buf in Ho. destruct (v_cap v) as [|m] eqn:Ec; [congruence|]. destruct (take_owns _ _ _ _ Ho) as (r & Er & _). eauto. }
  destruct Et as [r ->]. rewrite <- El, Nat.ltb_irrefl, El, firstn_all. unfold rthen. rewrite E1.
  assert (Hx := cap_exact (length (v_elems v)) (v_cap v) ltac:(lia) Hv).
  destruct (Nat.eq_dec (v_cap v) (length (v_elems v))) as [Ec|Ec].
  - left. split; [apply Hx, Ec|]. rewrite <- Ec. destruct (free_buffer_owns _ _ _ H1) as (h2 & -> & H2 & _).
    eexists. split; [reflexivity|]. unfold same_memory. symmetry. apply H2.
  - right. split; [tauto|]. unfold free_buffer. destruct (length (v_elems v)) as [|m] eqn:Em; [lia|].
    unfold buf in H1. destruct (v_cap v) as [|m'] eqn:Ec'; [congruence|].
    destruct (take_owns _ _ _ _ H1) as (r' & -> & _). destruct (Nat.eqb_spec (S m') (S m)); [congruence|reflexivity].
Qed.
Theorem C68_given_back_partial : forall rs h k, sane h -> Forall plain rs ->
  length rs = 4 * 2 ^ k -> (N.of_nat (length rs) < 2 ^ 32)%N ->
  exists a h1 h2, get_rules (Some rs) h = Some ((Some a, Some (length rs)), h1) /\
    free_rules (Some a) (length rs) h1 = Some (tt, h2) /\ same_memory h h2.
Proof.
  intros rs h k Hs Hp Hk Hl.
  assert (Hne : rs <> []). { intros ->. cbn in Hk. assert (2 ^ k <> 0) by now apply Nat.pow_nonzero. lia. }
  destruct (free_after_get rs h Hs Hp Hne Hl) as (a & h1 & E & [(_ & h2 & E2 & S2)|(Hn & _)]); [eauto 6|].
  exfalso. eauto.
Qed.
(** With any other number of rules, in particular with the two that are shipped, giving the list
    back is undefined behaviour. *)
Theorem C68_refuted : forall rs h, sane h -> Forall plain rs -> rs <> [] ->
  (N.of_nat (length rs) < 2 ^ 32)%N -> (forall k, length rs <> 4 * 2 ^ k) ->
  exists a h', get_rules (Some rs) h = Some ((Some a, Some (length rs)), h') /\
    free_rules (Some a) (length rs) h' = None.
Proof.
  intros rs h Hs Hp Hne Hl Hk.
  destruct (free_after_get rs h Hs Hp Hne Hl) as (a & h1 & E & [((k & Ek) & _)|(_ & E2)]); [|eauto].
  exfalso. eapply Hk; eauto.
Qed.
(** On failure there is nothing to give back, and nothing is left behind. *)
Theorem C68_failed : forall available h, sane h ->
  (forall rs, available = Some rs -> rs = [] \/ Exists (fun r => ~ plain r) rs \/ (2 ^ 32 <= N.of_nat (length rs))%N) ->
  exists n h', get_rules available h = Some ((None, n), h') /\ same_memory h h'.
Proof.
  intros [rs|] h Hs Hr; [|exists None, h; split; [reflexivity|apply Permutation_refl]].
  specialize (Hr rs eq_refl). unfold get_rules, rthen.
  destruct (push_rules_owns rs [] vec_new h (rh_live h) vec_new_ok eq_refl (start_owns h Hs))
    as (ok & v & h' & done & -> & Hv & El & Ho & Hor).
  destruct (vec_drop_owns _ _ _ _ El Ho) as (h2 & E2 & (P2 & _)).
  assert (S2 : same_memory h h2) by (unfold same_memory; now symmetry).
  destruct (ok && N.ltb (N.of_nat (length rs)) (2 ^ 32)) eqn:Eok; [|exists None, h2; rewrite E2; auto].
  apply andb_prop in Eok as [-> Hlt]. apply N.ltb_lt in Hlt.
  destruct Hor as [(_ & Hp & _)|(? & _)]; [|discriminate].
  destruct Hr as [->|[Hr|Hr]].
  - exists (Some 0), h2. cbn [length Nat.ltb Nat.leb]. rewrite E2. auto.
  - apply Exists_exists in Hr as (r & Hin & Hn). rewrite Forall_forall in Hp. destruct (Hn (Hp r Hin)).
  - exfalso. revert Hlt. apply N.le_ngt, Hr.
Qed.
(** Cases: the shipped metadata.toml; four rules. *)
Definition shipped_rules : list (str * str * str) :=
  [(U "azik", U "AZIK", U "AZIKルール"); (U "default", U "Default", U "default rule")].
Definition four_rules : list (str * str * str) := shipped_rules ++ [(U "my", U "My", []); (U "act", U "ACT", [])].
Definition before : rheap := mkRh 3 [(1%N, BText (U "x")); (0%N, BRules 4 [])].
Lemma plain_b r : forallb (fun c => negb (N.eqb 0 c)) (fst (fst r) ++ snd (fst r) ++ snd r) = true -> plain r.
Proof.
  intros H. rewrite forallb_forall in H. unfold plain, no_nul.
  repeat split; intros Hin; specialize (H 0%N); rewrite !in_app_iff in H; specialize (H ltac:(auto)); discriminate.
Qed.
Example C68_case :
  sane before /\ Forall plain shipped_rules /\ Forall plain four_rules /\
  (forall k, length shipped_rules <> 4 * 2 ^ k) /\ length four_rules = 4 * 2 ^ 0 /\
  (match get_rules (Some shipped_rules) before with
   | Some ((p, Some n), h) => (n, length (rh_live h), free_rules p n h)
   | _ => (0, 0, None) end) = (2, 9, None) /\
  (match get_rules (Some four_rules) before with
   | Some ((p, Some n), h) => (n, length (rh_live h), option_map (fun r => rh_live (snd r)) (free_rules p n h))
   | _ => (0, 0, None) end) = (4, 15, Some (rh_live before)).
Proof.
  split; [|split; [|split; [|split; [|split; [|split]]]]].
  - split; [|repeat constructor; cbn; lia]. cbn. repeat constructor; cbn; intuition discriminate.
  - repeat constructor; apply plain_b; vm_compute; reflexivity.
  - repeat constructor; apply plain_b; vm_compute; reflexivity.
  - intros k. assert (2 ^ k <> 0) by now apply Nat.pow_nonzero. cbn [length shipped_rules]. lia.
  - reflexivity.
  - vm_compute. reflexivity.
  - vm_compute. reflexivity.
Qed.
