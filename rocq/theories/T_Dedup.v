(** Properties C21, C22 and C23: the candidates offered for a reading. *)
From Coq Require Import Permutation Sorting.Sorted.
From Verif Require Import Str Keys Modes FormChanger DictTypes Parser Lru Dictionary.

(** * Specification *)
(** [x] is an annotated copy at least as good as [y]: the order of annotations, none being
    the least. *)
Definition annot_le (a b : option str) : Prop :=
  match a, b with
  | None, _ => True
  | Some _, None => False
  | Some x, Some y => x = y \/ str_lt x y
  end.
(** The preferred copy of a text among the copies in [l]. *)
Definition preferred (l : list dcand) (x : dcand) : Prop :=
  forall y, In y l -> dc_kouho y = dc_kouho x -> annot_le (dc_annot y) (dc_annot x).
Definition annot_leb (a b : option str) : bool :=
  match a, b with
  | None, _ => true
  | Some _, None => false
  | Some x, Some y => str_leb x y
  end.
Definition preferredb (l : list dcand) (x : dcand) : bool :=
  forallb (fun y => negb (str_eqb (dc_kouho y) (dc_kouho x)) || annot_leb (dc_annot y) (dc_annot x)) l.
(** Keep the first element of each text. *)
Fixpoint first_appearances (l : list dcand) : list dcand :=
  match l with
  | [] => []
  | x :: r => x :: filter (fun y => negb (str_eqb (dc_kouho y) (dc_kouho x))) (first_appearances r)
  end.

(** * Orders *)
Lemma str_leb_spec a b : str_leb a b = true <-> a = b \/ str_lt a b.
Proof.
  unfold str_leb, str_lt. destruct (str_cmp a b) eqn:E.
  - apply str_cmp_eq in E. split; auto.
  - split; auto.
  - split; [discriminate|]. intros [->|H]; [now rewrite str_cmp_refl in E|congruence].
Qed.
Lemma annot_leb_spec a b : annot_leb a b = true <-> annot_le a b.
Proof. destruct a, b; cbn; try tauto; [apply str_leb_spec|split; [discriminate|tauto]]. Qed.
Lemma preferredb_spec l x : preferredb l x = true <-> preferred l x.
Proof.
  unfold preferredb, preferred. rewrite forallb_forall. split; intros H y Hy.
  - intros Hk. specialize (H y Hy). apply str_eqb_eq in Hk. rewrite Hk in H.
    cbn in H. now apply annot_leb_spec.
  - destruct (str_eqb_spec (dc_kouho y) (dc_kouho x)) as [Hk|]; [|reflexivity].
    cbn. apply annot_leb_spec. now apply H.
Qed.

Definition dle (a b : dcand) : Prop :=
  str_lt (dc_kouho a) (dc_kouho b) \/ (dc_kouho a = dc_kouho b /\ annot_le (dc_annot a) (dc_annot b)).
Lemma annot_le_refl a : annot_le a a.
Proof. destruct a; cbn; auto. Qed.
Lemma annot_le_trans a b c : annot_le a b -> annot_le b c -> annot_le a c.
Proof.
  destruct a, b, c; cbn; try tauto. intros [->|H1] [->|H2]; auto.
  right. eapply str_lt_trans; eauto.
Qed.
Lemma annot_le_antisym a b : annot_le a b -> annot_le b a -> a = b.
Proof.
  destruct a, b; cbn; try tauto. intros [E1|H1] [E2|H2]; try congruence.
  exfalso. eapply str_lt_irrefl, str_lt_trans; eauto.
Qed.
Lemma dle_refl a : dle a a.
Proof. right. split; [reflexivity|apply annot_le_refl]. Qed.
Lemma dle_trans a b c : dle a b -> dle b c -> dle a c.
Proof.
  intros [H1|[E1 H1]] [H2|[E2 H2]].
  - left. eapply str_lt_trans; eauto.
  - left. now rewrite <- E2.
  - left. now rewrite E1.
  - right. split; [congruence|eapply annot_le_trans; eauto].
Qed.
Lemma dle_antisym a b : dle a b -> dle b a -> a = b.
Proof.
  intros [H1|[E1 H1]] [H2|[E2 H2]].
  - exfalso. eapply str_lt_irrefl, str_lt_trans; eauto.
  - exfalso. rewrite E2 in H1. now apply str_lt_irrefl in H1.
  - exfalso. rewrite E1 in H2. now apply str_lt_irrefl in H2.
  - destruct a, b; cbn in *. f_equal; [exact E1|now apply annot_le_antisym].
Qed.
Lemma ostr_cmp_le a b : (ostr_cmp a b <> Gt <-> annot_le a b) /\ (ostr_cmp a b = Gt -> annot_le b a).
Proof.
  destruct a as [x|], b as [y|]; cbn.
  2-4: split; [split; intros; try congruence; tauto|intros; try congruence; exact I].
  - split.
    + unfold str_lt. rewrite <- str_cmp_eq. destruct (str_cmp x y); intuition congruence.
    + intros H. right. unfold str_lt. rewrite str_cmp_antisym, H. reflexivity.
Qed.
Lemma dcand_cmp_le a b : dcand_cmp a b <> Gt <-> dle a b.
Proof.
  unfold dcand_cmp, dle. destruct (str_cmp (dc_kouho a) (dc_kouho b)) eqn:E.
  - apply str_cmp_eq in E. rewrite (proj1 (ostr_cmp_le _ _)). rewrite E. split; [auto|].
    intros [H|[_ H]]; [now apply str_lt_irrefl in H|exact H].
  - split; [left; exact E|discriminate].
  - split; [congruence|]. intros [H|[H _]]; unfold str_lt in *; [congruence|].
    apply str_cmp_eq in H. congruence.
Qed.
Lemma dcand_cmp_gt a b : dcand_cmp a b = Gt -> dle b a.
Proof.
  unfold dcand_cmp, dle. destruct (str_cmp (dc_kouho a) (dc_kouho b)) eqn:E; try discriminate.
  - apply str_cmp_eq in E. rewrite E. intros H. right. split; [reflexivity|].
    now apply (proj2 (ostr_cmp_le _ _)).
  - intros _. left. unfold str_lt. rewrite str_cmp_antisym, E. reflexivity.
Qed.
Lemma dcand_cmp_eq a b : dcand_cmp a b = Eq <-> a = b.
Proof.
  split.
  - unfold dcand_cmp. destruct (str_cmp (dc_kouho a) (dc_kouho b)) eqn:E; try discriminate.
    apply str_cmp_eq in E. destruct a as [ka aa], b as [kb ab]; cbn in *. subst.
    destruct aa, ab; cbn; try discriminate; [|reflexivity].
    intros H. apply str_cmp_eq in H. now subst.
  - intros ->. unfold dcand_cmp. rewrite str_cmp_refl.
    destruct (dc_annot b); cbn; [apply str_cmp_refl|reflexivity].
Qed.

(** * Sorting *)
Lemma insert_perm x l : Permutation (insert_cmp dcand_cmp x l) (x :: l).
Proof.
  induction l as [|y l IH]; cbn; [reflexivity|].
  destruct (dcand_cmp x y); try reflexivity.
  rewrite IH. apply perm_swap.
Qed.
Lemma insert_in x l y : In y (insert_cmp dcand_cmp x l) <-> y = x \/ In y l.
Proof.
  split.
  - intros H. apply (Permutation_in _ (insert_perm x l)) in H. destruct H; auto.
  - intros H. apply (Permutation_in _ (Permutation_sym (insert_perm x l))). destruct H; [left|right]; auto.
Qed.
Lemma insert_sorted x l : StronglySorted dle l -> StronglySorted dle (insert_cmp dcand_cmp x l).
Proof.
  induction 1 as [|y l Hs IH Hf]; cbn; [repeat constructor|].
  assert (Hc : dle x y -> StronglySorted dle (x :: y :: l)).
  { intros H. constructor; [constructor; assumption|]. constructor; [exact H|].
    eapply Forall_impl; [|exact Hf]. cbn. intros z. now apply dle_trans. }
  destruct (dcand_cmp x y) eqn:E.
  - apply Hc, dcand_cmp_le. congruence.
  - apply Hc, dcand_cmp_le. congruence.
  - constructor; [exact IH|]. apply Forall_forall. intros z Hz. apply insert_in in Hz as [->|Hz].
    + now apply dcand_cmp_gt.
    + rewrite Forall_forall in Hf. auto.
Qed.
Lemma sort_in l y : In y (sort_cmp dcand_cmp l) <-> In y l.
Proof.
  induction l as [|x l IH]; cbn; [tauto|]. rewrite insert_in, IH. split; intros [H|H]; auto.
Qed.
Lemma sort_sorted l : StronglySorted dle (sort_cmp dcand_cmp l).
Proof. induction l as [|x l IH]; cbn; [constructor|]. now apply insert_sorted. Qed.

Lemma sorted_rev l : StronglySorted dle l -> StronglySorted (fun a b => dle b a) (rev l).
Proof.
  induction 1 as [|x l Hs IH Hf]; cbn; [constructor|].
  assert (G : forall m, StronglySorted (fun a b => dle b a) m -> Forall (fun z => dle x z) m ->
              StronglySorted (fun a b => dle b a) (m ++ [x])).
  { induction 1 as [|y m Hm IHm Hfm]; intros Hx; cbn; [repeat constructor|].
    inversion Hx; subst. constructor; [now apply IHm|]. apply Forall_app. split; [exact Hfm|].
    constructor; [assumption|constructor]. }
  apply G; [exact IH|]. now apply Forall_rev.
Qed.

(** * The best copies, one per text *)
Lemma dedup_from_spec l : forall prev, StronglySorted (fun a b => dle b a) (prev :: l) ->
  (forall y, In y (dedup_from dc_kouho prev l) <->
     In y l /\ dc_kouho y <> dc_kouho prev
     /\ (forall z, In z l -> dc_kouho z = dc_kouho y -> dle z y))
  /\ NoDup (map dc_kouho (dedup_from dc_kouho prev l)).
Proof.
  induction l as [|x l IH]; intros prev Hs.
  { cbn. split; [tauto|constructor]. }
  inversion Hs as [|? ? Hs1 Hf1]; subst. inversion Hs1 as [|? ? Hs2 Hf2]; subst.
  inversion Hf1 as [|? ? Hpx Hf3]; subst. rewrite Forall_forall in Hf2, Hf3. cbn [dedup_from].
  destruct (str_eqb_spec (dc_kouho x) (dc_kouho prev)) as [E|E].
  - destruct (IH prev) as (H1 & H2).
    { constructor; [exact Hs2|]. apply Forall_forall. exact Hf3. }
    split; [|exact H2]. intros y. rewrite H1. cbn [In]. split.
    + intros (Hy & Hk & Hz). split; [auto|split; [exact Hk|]].
      intros z [<-|Hzl] Ek; [congruence|auto].
    + intros ([<-|Hy] & Hk & Hz); [congruence|]. auto.
  - destruct (IH x Hs1) as (H1 & H2). split.
    + intros y. cbn [In]. rewrite H1. split.
      * intros [<-|(Hy & Hk & Hz)].
        -- split; [now left|split; [exact E|]]. intros z [<-|Hzl] _; [apply dle_refl|now apply Hf2].
        -- split; [now right|split].
           ++ intros Ek. specialize (Hf2 _ Hy).
              destruct Hpx as [Hlt|[Heq _]]; [|congruence].
              destruct Hf2 as [Hlt2|[Heq2 _]]; [|congruence].
              apply (str_lt_irrefl (dc_kouho prev)). rewrite <- Ek at 1.
              eapply str_lt_trans; eauto.
           ++ intros z [<-|Hzl] Ek; [congruence|auto].
      * intros ([<-|Hy] & Hk & Hz); [now left|].
        destruct (str_eqb_spec (dc_kouho y) (dc_kouho x)) as [Ek|Ek].
        -- left. apply dle_antisym; [apply Hz; [now left|congruence]|now apply Hf2].
        -- right. split; [exact Hy|split; [exact Ek|]]. intros z Hzl. apply Hz. now right.
    + cbn. constructor; [|exact H2]. intros Hin. apply in_map_iff in Hin as (y & Ey & Hy).
      apply H1 in Hy as (_ & Hk & _). congruence.
Qed.
Lemma dedup_by_spec l : StronglySorted (fun a b => dle b a) l ->
  (forall y, In y (dedup_by dc_kouho l) <->
     In y l /\ (forall z, In z l -> dc_kouho z = dc_kouho y -> dle z y))
  /\ NoDup (map dc_kouho (dedup_by dc_kouho l)).
Proof.
  destruct l as [|x l]; intros Hs; cbn; [split; [tauto|constructor]|].
  destruct (dedup_from_spec l x Hs) as (H1 & H2).
  inversion Hs as [|? ? Hs1 Hf]; subst. rewrite Forall_forall in Hf. split.
  - intros y. rewrite H1. split.
    + intros [<-|(Hy & Hk & Hz)].
      * split; [now left|]. intros z [<-|Hz] _; [apply dle_refl|auto].
      * split; [now right|]. intros z [<-|Hzl] Ek; [congruence|auto].
    + intros ([<-|Hy] & Hz); [now left|].
      destruct (str_eqb_spec (dc_kouho y) (dc_kouho x)) as [Ek|Ek].
      * left. apply dle_antisym; [apply Hz; [now left|congruence]|now apply Hf].
      * right. split; [exact Hy|split; [exact Ek|]]. intros z Hzl. apply Hz. now right.
  - constructor; [|exact H2]. intros Hin. apply in_map_iff in Hin as (y & Ey & Hy).
    apply H1 in Hy as (_ & Hk & _). congruence.
Qed.

Definition best (l : list dcand) : list dcand := rev (dedup_by dc_kouho (rev (sort_cmp dcand_cmp l))).
Lemma best_spec l :
  (forall y, In y (best l) <-> In y l /\ preferred l y) /\ NoDup (map dc_kouho (best l)).
Proof.
  unfold best.
  destruct (dedup_by_spec _ (sorted_rev _ (sort_sorted l))) as (H1 & H2). split.
  - intros y. rewrite <- in_rev, H1, <- in_rev, sort_in. unfold preferred.
    split; intros (Hy & Hz); (split; [exact Hy|]); intros z Hzl Ek.
    + assert (Hd : dle z y) by (apply Hz; [rewrite <- in_rev, sort_in; exact Hzl|exact Ek]).
      destruct Hd as [Hlt|[_ H]]; [|exact H]. rewrite Ek in Hlt. now apply str_lt_irrefl in Hlt.
    + right. split; [exact Ek|]. apply Hz; [|exact Ek]. now rewrite <- in_rev, sort_in in Hzl.
  - rewrite map_rev. now apply NoDup_rev.
Qed.

(** * Picking them in order *)
Lemma eq_cmp_eq a b : eq_cmp dcand_cmp a b = true <-> a = b.
Proof.
  unfold eq_cmp. rewrite <- dcand_cmp_eq. destruct (dcand_cmp a b); split; congruence.
Qed.
Lemma matches_none x D : ~ In x D -> forall pos acc at_,
  matches dcand_cmp x pos D acc at_ = (acc, at_).
Proof.
  induction D as [|y D IH]; intros Hn pos acc at_; cbn; [reflexivity|].
  destruct (eq_cmp dcand_cmp y x) eqn:E.
  - apply eq_cmp_eq in E. exfalso. apply Hn. now left.
  - apply IH. intros H. apply Hn. now right.
Qed.
Lemma matches_some x D : NoDup D -> In x D -> forall pos acc at_,
  exists a b, D = a ++ x :: b /\ matches dcand_cmp x pos D acc at_ = (acc ++ [x], Some (pos + length a)).
Proof.
  induction 1 as [|y D Hy Hnd IH]; intros Hin pos acc at_; [destruct Hin|]. cbn.
  destruct (eq_cmp dcand_cmp y x) eqn:E.
  - apply eq_cmp_eq in E. subst y. exists [], D. split; [reflexivity|].
    rewrite matches_none by exact Hy. cbn. now rewrite Nat.add_0_r.
  - destruct Hin as [->|Hin].
    { assert (E' : eq_cmp dcand_cmp x x = true) by now apply eq_cmp_eq. congruence. }
    destruct (IH Hin (S pos) acc at_) as (a & b & -> & Hm). exists (y :: a), b.
    split; [reflexivity|]. rewrite Hm. cbn. now rewrite Nat.add_succ_r.
Qed.
Lemma remove_nth_app {A} (a : list A) x b : remove_nth (length a) (a ++ x :: b) = a ++ b.
Proof. induction a as [|y a IH]; cbn; [reflexivity|]. now rewrite IH. Qed.

Lemma filter_filter {A} (f g : A -> bool) l :
  filter f (filter g l) = filter (fun x => f x && g x) l.
Proof.
  induction l as [|x l IH]; cbn; [reflexivity|].
  destruct (g x); cbn; rewrite ?andb_true_r, ?andb_false_r, IH; reflexivity.
Qed.
Lemma fa_filter (t : str) l :
  first_appearances (filter (fun y => negb (str_eqb (dc_kouho y) t)) l)
  = filter (fun y => negb (str_eqb (dc_kouho y) t)) (first_appearances l).
Proof.
  induction l as [|x l IH]; cbn; [reflexivity|].
  destruct (str_eqb_spec (dc_kouho x) t) as [E|E]; cbn.
  - rewrite IH, filter_filter. apply filter_ext. intros y. rewrite E.
    destruct (str_eqb (dc_kouho y) t); reflexivity.
  - rewrite IH, !filter_filter. f_equal. apply filter_ext. intros y. apply andb_comm.
Qed.

(** [pick] when the remaining best copies are those of [B] (a predicate) not of some text. *)
Lemma pick_spec l : forall D P, NoDup (map dc_kouho D) -> (forall y, In y l -> (In y D <-> P y = true)) ->
  (forall y, In y D -> P y = true) ->
  (forall x y, P x = true -> P y = true -> In x l -> In y l -> dc_kouho x = dc_kouho y -> x = y) ->
  pick dcand_cmp l D = first_appearances (filter P l).
Proof.
  induction l as [|x l IH]; intros D P Hnd HD HP HB; cbn [pick filter first_appearances]; [reflexivity|].
  destruct (P x) eqn:Px.
  - assert (Hin : In x D) by (apply HD; [now left|exact Px]).
    assert (HndD : NoDup D) by (eapply NoDup_map_inv; exact Hnd).
    destruct (matches_some x D HndD Hin 0 [] None) as (a & b & -> & ->).
    cbn [app length Nat.add]. rewrite remove_nth_app. cbn [first_appearances].
    f_equal.
    rewrite <- fa_filter. rewrite filter_filter.
    assert (Hx : ~ In (dc_kouho x) (map dc_kouho (a ++ b))).
    { rewrite map_app in Hnd |- *. cbn in Hnd. now apply NoDup_remove_2 in Hnd. }
    apply IH.
    + rewrite map_app in *. cbn in Hnd. now apply NoDup_remove_1 in Hnd.
    + intros y Hy. rewrite andb_true_iff, negb_true_iff, str_eqb_neq. split.
      * intros Hyab. split.
        -- intros E. apply Hx. rewrite <- E. now apply in_map.
        -- apply HP. apply in_app_iff in Hyab. apply in_app_iff. cbn. tauto.
      * intros (E & Py). apply (HD y (or_intror Hy)) in Py.
        apply in_app_iff in Py. apply in_app_iff. cbn in Py.
        destruct Py as [H|[H|H]]; auto. subst. congruence.
    + intros y Hy. rewrite andb_true_iff, negb_true_iff, str_eqb_neq. split.
      * intros E. apply Hx. rewrite <- E. now apply in_map.
      * apply HP. apply in_app_iff in Hy. apply in_app_iff. cbn. tauto.
    + intros u v Hu Hv Hul Hvl. apply andb_true_iff in Hu as [_ Hu], Hv as [_ Hv].
      apply HB; auto; now right.
  - assert (Hn : ~ In x D) by (intros H; apply HD in H; [congruence|now left]).
    rewrite matches_none by exact Hn. cbn [app]. apply IH; auto.
    + intros y Hy. apply HD. now right.
    + intros u v Hu Hv Hul Hvl. apply HB; auto; now right.
Qed.

(** Main characterisation. *)
Theorem C22_exact : forall l,
  dedup_candidates dcand_cmp dc_kouho l = first_appearances (filter (preferredb l) l).
Proof.
  intros l. unfold dedup_candidates. fold (best l).
  destruct (best_spec l) as (H1 & H2).
  apply pick_spec; [exact H2| | |].
  - intros y Hy. rewrite H1, preferredb_spec. tauto.
  - intros y Hy. apply H1 in Hy as (_ & Hy). now apply preferredb_spec.
  - intros x y Hx Hy Hxl Hyl E. apply preferredb_spec in Hx, Hy.
    apply dle_antisym; right; (split; [congruence|]); [apply Hy|apply Hx]; auto.
Qed.

Lemma fa_in l x : In x (first_appearances l) -> In x l.
Proof.
  induction l as [|y l IH]; cbn; [tauto|]. intros [->|H]; [auto|].
  apply filter_In in H as (H & _). auto.
Qed.
Lemma fa_texts l t : In t (map dc_kouho (first_appearances l)) <-> In t (map dc_kouho l).
Proof.
  split.
  - intros H. apply in_map_iff in H as (x & <- & H). apply in_map. now apply fa_in.
  - induction l as [|y l IH]; cbn; [tauto|]. intros [->|H]; [auto|].
    destruct (str_eqb_spec t (dc_kouho y)) as [->|E]; [auto|]. right.
    apply IH in H. apply in_map_iff in H as (x & <- & H). apply in_map.
    apply filter_In. split; [exact H|]. now apply negb_true_iff, str_eqb_neq.
Qed.
Lemma nodup_map_filter (f : dcand -> bool) l :
  NoDup (map dc_kouho l) -> NoDup (map dc_kouho (filter f l)).
Proof.
  induction l as [|x l IH]; cbn; [auto|]. intros H. inversion H; subst.
  destruct (f x); cbn; [|auto]. constructor; [|auto].
  intros Hin. apply H2. apply in_map_iff in Hin as (y & E & Hy). apply filter_In in Hy as (Hy & _).
  rewrite <- E. now apply in_map.
Qed.
Lemma fa_nodup l : NoDup (map dc_kouho (first_appearances l)).
Proof.
  induction l as [|y l IH]; cbn; [constructor|]. constructor; [|now apply nodup_map_filter].
  intros H. apply in_map_iff in H as (x & E & H). apply filter_In in H as (_ & H).
  apply negb_true_iff, str_eqb_neq in H. congruence.
Qed.
Lemma annot_le_total a b : annot_le a b \/ annot_le b a.
Proof.
  destruct a as [x|], b as [y|]; cbn; auto. unfold str_lt. rewrite (str_cmp_antisym x y).
  destruct (str_cmp x y) eqn:E; [apply str_cmp_eq in E|..]; cbn; auto.
Qed.
Lemma annot_max (m : list dcand) : m <> [] ->
  exists y, In y m /\ forall z, In z m -> annot_le (dc_annot z) (dc_annot y).
Proof.
  induction m as [|u m IH]; [congruence|]. intros _. destruct m as [|v m].
  - exists u. split; [now left|]. intros z [<-|[]]. apply annot_le_refl.
  - destruct IH as (y & Hy & Hz); [discriminate|].
    destruct (annot_le_total (dc_annot u) (dc_annot y)) as [H|H].
    + exists y. split; [now right|]. intros z [<-|Hzm]; auto.
    + exists u. split; [now left|]. intros z [<-|Hzm]; [apply annot_le_refl|].
      eapply annot_le_trans; [|exact H]. now apply Hz.
Qed.
Lemma preferred_exists l x : In x l ->
  exists y, In y l /\ dc_kouho y = dc_kouho x /\ preferred l y.
Proof.
  intros Hx.
  destruct (annot_max (filter (fun y => str_eqb (dc_kouho y) (dc_kouho x)) l)) as (y & Hy & Hz).
  { intros E. assert (H : In x []); [|destruct H]. rewrite <- E. apply filter_In.
    split; [exact Hx|apply str_eqb_refl]. }
  apply filter_In in Hy as (Hy & Ey). apply str_eqb_eq in Ey.
  exists y. split; [exact Hy|split; [exact Ey|]]. intros z Hzl Ez. apply Hz.
  apply filter_In. split; [exact Hzl|]. apply str_eqb_eq. congruence.
Qed.

(** * C21 *)
(** Removing duplicates, on any list of dictionary candidates. *)
Theorem C21_dedup : forall l,
  let r := dedup_candidates dcand_cmp dc_kouho l in
  NoDup (map dc_kouho r)
  /\ (forall t, In t (map dc_kouho r) <-> In t (map dc_kouho l))
  /\ (forall x, In x r -> In x l)
  /\ (forall x, In x r -> dc_annot x = None ->
        forall y, In y l -> dc_kouho y = dc_kouho x -> dc_annot y = None).
Proof.
  intros l. cbv zeta. rewrite C22_exact.
  split; [apply fa_nodup|split; [|split]].
  - intros t. rewrite fa_texts. split.
    + intros H. apply in_map_iff in H as (x & <- & H). apply filter_In in H as (H & _). now apply in_map.
    + intros H. apply in_map_iff in H as (x & <- & H).
      destruct (preferred_exists l x H) as (y & Hy & <- & Hp). apply in_map.
      apply filter_In. split; [exact Hy|now apply preferredb_spec].
  - intros x H. apply fa_in in H. now apply filter_In in H as (H & _).
  - intros x H Hn y Hy Ey. apply fa_in, filter_In in H as (_ & H).
    apply preferredb_spec in H. specialize (H y Hy Ey). rewrite Hn in H.
    destruct (dc_annot y); [destruct H|reflexivity].
Qed.

(** The candidate texts the dictionaries hold for a key: strict matches of the okurigana,
    if any, and candidates for any okurigana. *)
Definition holds (ds : list dict) (k : ckey) (t : str) : Prop :=
  exists d e, In d ds /\ lookup d k = Ok (Some e) /\
    ((exists o l, ck_okuri k = Some o /\ bget o (e_map e) = Some l /\ In t (map dc_kouho l))
     \/ (exists l, bget [] (e_map e) = Some l /\ In t (map dc_kouho l))).

Lemma res_map_all {A B} (f : A -> res B) (g : A -> B) l :
  (forall x y, f x = Ok y -> y = g x) -> forall r, res_map f l = Ok r -> r = map g l.
Proof.
  intros H. induction l as [|x l IH]; cbn; intros r; [intros [= <-]; reflexivity|].
  destruct (f x) as [y|] eqn:E; cbn; [|discriminate].
  destruct (res_map f l) as [ys|]; cbn; [|discriminate]. intros [= <-].
  f_equal; [now apply H|now apply IH].
Qed.
(** What a candidate made from a dictionary candidate carries. *)
Definition made_from (k : ckey) (x : dcand) (c : candidate) : Prop :=
  c_kouho c = dc_kouho x /\ c_annot c = dc_annot x /\ c_output c = dc_kouho x
  /\ c_strict c = ck_okuri k /\ c_okuri c = has_okuri k /\ get_dict_key k = Ok (c_midashi c).
Lemma candidate_made k x c : candidate_of_dcand k x = Ok c -> made_from k x c.
Proof.
  unfold candidate_of_dcand, made_from. destruct (get_dict_key k); cbn; [|discriminate].
  intros [= <-]. cbn. repeat split; auto.
Qed.
Lemma res_map_forall2 {A B} (f : A -> res B) (P : A -> B -> Prop) l :
  (forall x y, f x = Ok y -> P x y) -> forall r, res_map f l = Ok r -> Forall2 P l r.
Proof.
  intros H. induction l as [|x l IH]; cbn; intros r; [intros [= <-]; constructor|].
  destruct (f x) as [y|] eqn:E; cbn; [|discriminate].
  destruct (res_map f l) as [ys|]; cbn; [|discriminate]. intros [= <-].
  constructor; [now apply H|now apply IH].
Qed.
Lemma exact_made ds k cs : exact_candidates ds k = Ok cs ->
  exists l, candidates_in_order ds k = Ok l
         /\ Forall2 (made_from k) (dedup_candidates dcand_cmp dc_kouho l) cs.
Proof.
  unfold exact_candidates. destruct (candidates_in_order ds k) as [l|]; cbn; [|discriminate].
  intros H. exists l. split; [reflexivity|]. revert H. apply res_map_forall2. intros x y. apply candidate_made.
Qed.
Lemma made_texts k l cs : Forall2 (made_from k) l cs -> map c_kouho cs = map dc_kouho l.
Proof. induction 1 as [|x c l cs (H & _) _ IH]; cbn; [reflexivity|]. now rewrite H, IH. Qed.
Lemma in_order_holds ds k : forall l, candidates_in_order ds k = Ok l ->
  forall t, In t (map dc_kouho l) <-> holds ds k t.
Proof.
  unfold holds. induction ds as [|d ds IH]; cbn; intros l.
  - intros [= <-] t. cbn. split; [tauto|]. intros (d & e & [] & _).
  - destruct (lookup d k) as [oe|] eqn:El; cbn; [|discriminate].
    destruct (candidates_in_order ds k) as [l'|]; cbn; [|discriminate]. intros [= <-] t.
    rewrite map_app, in_app_iff, (IH l' eq_refl t). clear IH. unfold dict_candidates, entry_candidates.
    split.
    + intros [H|(d' & e & Hd & H)]; [|exists d', e; auto].
      destruct oe as [e|]; [|destruct H]. exists d, e. split; [now left|split; [exact El|]].
      rewrite map_app, in_app_iff in H. destruct H as [H|H].
      * left. unfold has_okuri in H. destruct (ck_okuri k) as [o|] eqn:Eo; [|destruct H].
        destruct (bget o (e_map e)) as [lo|] eqn:Eb; [|destruct H]. exists o, lo. auto.
      * right. destruct (bget [] (e_map e)) as [lo|] eqn:Eb; [|destruct H]. exists lo. auto.
    + intros (d' & e & [<-|Hd] & El' & H); [left|right; exists d', e; auto].
      rewrite El in El'. injection El' as ->. rewrite map_app, in_app_iff.
      destruct H as [(o & lo & Eo & Eb & H)|(lo & Eb & H)].
      * left. unfold has_okuri. rewrite Eo, Eb. exact H.
      * right. rewrite Eb. exact H.
Qed.

(** What conversion offers for the exact reading: every text once, exactly the texts held. *)
Theorem C21_offered : forall ds k cs, exact_candidates ds k = Ok cs ->
  NoDup (map c_kouho cs)
  /\ (forall t, In t (map c_kouho cs) <-> holds ds k t)
  /\ (exists more, forall all, get_all_candidates ds k = Ok all -> all = cs ++ more all)
  /\ Forall (fun c => c_output c = c_kouho c) cs.
Proof.
  intros ds k cs H. destruct (exact_made ds k cs H) as (l & Hl & H2).
  pose proof (made_texts _ _ _ H2) as Ht. rewrite Ht.
  destruct (C21_dedup l) as (Hn & Hin & _). split; [exact Hn|split; [|split]].
  - intros t. rewrite Hin. now apply in_order_holds.
  - exists (skipn (length cs)). intros all. unfold get_all_candidates. rewrite H. cbn [rbind].
    destruct (to_numeric_key k) as [k' ns]. destruct (ckey_eqb k' k).
    + intros [= <-]. now rewrite skipn_all, app_nil_r.
    + destruct (exact_candidates ds k') as [cs'|]; cbn; [|discriminate].
      destruct (res_map _ cs') as [ll|]; cbn; [|discriminate]. intros [= <-].
      rewrite skipn_app, skipn_all, Nat.sub_diag. reflexivity.
  - clear -H2. induction H2 as [|x c ? ? (H & _ & Ho & _) _ IH]; constructor; [congruence|exact IH].
Qed.

(** * C22 *)
(** With one copy of each text (all copies carry the same annotation) the order is the order
    of first appearance. *)
Definition same_copies (l : list dcand) : Prop :=
  forall x y, In x l -> In y l -> dc_kouho x = dc_kouho y -> dc_annot x = dc_annot y.
Lemma same_copies_preferred l : same_copies l -> filter (preferredb l) l = l.
Proof.
  intros H. assert (G : forall m, incl m l -> filter (preferredb l) m = m).
  { induction m as [|x m IH]; intros Hi; cbn; [reflexivity|].
    replace (preferredb l x) with true.
    - f_equal. apply IH. intros y Hy. apply Hi. now right.
    - symmetry. apply preferredb_spec. intros y Hy E.
      rewrite (H y x Hy (Hi x (or_introl eq_refl)) E). apply annot_le_refl. }
  apply G, incl_refl.
Qed.
Theorem C22_order_partial : forall l, same_copies l ->
  dedup_candidates dcand_cmp dc_kouho l = first_appearances l.
Proof. intros l H. now rewrite C22_exact, same_copies_preferred. Qed.

(** In general the order is that of the first appearance of the preferred copies, so that
    the offered list is the list of the dictionaries with some elements left out. *)
Inductive sublist {A} : list A -> list A -> Prop :=
| sub_nil : sublist [] []
| sub_keep x a b : sublist a b -> sublist (x :: a) (x :: b)
| sub_drop x a b : sublist a b -> sublist a (x :: b).
Lemma filter_sublist {A} (f : A -> bool) l : sublist (filter f l) l.
Proof.
  induction l as [|x l IH]; cbn; [constructor|]. destruct (f x); now constructor.
Qed.
Lemma sublist_trans {A} (a b c : list A) : sublist a b -> sublist b c -> sublist a c.
Proof.
  intros H1 H2. revert a H1. induction H2 as [|x b c H2 IH|x b c H2 IH]; intros a H1.
  - exact H1.
  - inversion H1; subst; constructor; auto.
  - constructor. auto.
Qed.
Lemma fa_sublist l : sublist (first_appearances l) l.
Proof.
  induction l as [|x l IH]; cbn; [constructor|]. constructor.
  eapply sublist_trans; [apply filter_sublist|exact IH].
Qed.
Theorem C22_subsequence : forall l, sublist (dedup_candidates dcand_cmp dc_kouho l) l.
Proof.
  intros l. rewrite C22_exact. eapply sublist_trans; [apply fa_sublist|apply filter_sublist].
Qed.

(** The order of first appearance is lost when a later copy is annotated. *)
Theorem C22_refuted :
  let l := [mkDC (U "青") None; mkDC (U "赤") None; mkDC (U "青") (Some (U "色"))] in
  map dc_kouho (dedup_candidates dcand_cmp dc_kouho l) = [U "赤"; U "青"]
  /\ map dc_kouho (first_appearances l) = [U "青"; U "赤"].
Proof. vm_compute. auto. Qed.
Example C22_case :
  let l := [mkDC (U "青") None; mkDC (U "赤") (Some (U "色")); mkDC (U "青") None] in
  same_copies l /\ dedup_candidates dcand_cmp dc_kouho l
                   = [mkDC (U "青") None; mkDC (U "赤") (Some (U "色"))].
Proof.
  cbv zeta. split; [|vm_compute; reflexivity].
  intros x y Hx Hy. cbn in Hx, Hy.
  destruct Hx as [<-|[<-|[<-|[]]]], Hy as [<-|[<-|[<-|[]]]]; cbn; congruence.
Qed.
Example C21_case :
  map c_kouho (match exact_candidates [mkDict true (DStatic (load_text (U "あい /愛/藍;色/哀/")));
                                      mkDict true (DStatic (load_text (U "あい /哀;悲/相/愛/")))]
                 (mkCK (U "あい") None) with Ok l => l | _ => [] end)
  = [U "愛"; U "藍"; U "哀"; U "相"].
Proof. vm_compute. reflexivity. Qed.

(** * C23 *)
(** Without okurigana: the lists of the dictionaries one after the other. *)
Definition texts_without_okuri (k : ckey) (d : dict) : list dcand :=
  match lookup d k with
  | Ok (Some e) => match bget [] (e_map e) with Some l => l | None => [] end
  | _ => []
  end.
Definition strict_texts (k : ckey) (d : dict) : list dcand :=
  match lookup d k, ck_okuri k with
  | Ok (Some e), Some o => match bget o (e_map e) with Some l => l | None => [] end
  | _, _ => []
  end.
Lemma in_order_concat ds k l : candidates_in_order ds k = Ok l ->
  l = flat_map (fun d => strict_texts k d ++ texts_without_okuri k d) ds.
Proof.
  revert l; induction ds as [|d ds IH]; cbn; intros l; [intros [= <-]; reflexivity|].
  destruct (lookup d k) as [oe|] eqn:El; cbn; [|discriminate].
  destruct (candidates_in_order ds k) as [l'|]; cbn; [|discriminate]. intros [= <-].
  rewrite (IH l' eq_refl). f_equal. unfold strict_texts, texts_without_okuri, dict_candidates.
  rewrite El. unfold has_okuri, entry_candidates. destruct oe as [e|].
  - destruct (ck_okuri k); reflexivity.
  - destruct (ck_okuri k); reflexivity.
Qed.
Theorem C23_without_okuri_partial : forall ds k cs, ck_okuri k = None ->
  same_copies (flat_map (texts_without_okuri k) ds) ->
  exact_candidates ds k = Ok cs ->
  map c_kouho cs = map dc_kouho (first_appearances (flat_map (texts_without_okuri k) ds)).
Proof.
  intros ds k cs Ho Hs H. destruct (exact_made ds k cs H) as (l & Hl & H2).
  rewrite (made_texts _ _ _ H2). apply in_order_concat in Hl.
  assert (E : l = flat_map (texts_without_okuri k) ds).
  { rewrite Hl. apply flat_map_ext. intros d. unfold strict_texts. rewrite Ho.
    destruct (lookup d k) as [[e|]|]; reflexivity. }
  rewrite E in *. now rewrite C22_order_partial.
Qed.
(** With okurigana and one dictionary: the strict matches, then the others. *)
Lemma fa_app a b : exists c, first_appearances (a ++ b) = first_appearances a ++ c
  /\ (forall x, In x c -> In x b /\ ~ In (dc_kouho x) (map dc_kouho a)).
Proof.
  induction a as [|x a (c & IH & Hc)]; cbn.
  - exists (first_appearances b). split; [reflexivity|]. intros x Hx. split; [now apply fa_in|tauto].
  - rewrite IH, filter_app. eexists. split; [reflexivity|].
    intros y Hy. apply filter_In in Hy as (Hy & E). destruct (Hc y Hy) as (H1 & H2).
    split; [exact H1|]. intros [H|H]; [|tauto]. apply negb_true_iff, str_eqb_neq in E. congruence.
Qed.
Theorem C23_one_dictionary_partial : forall d k cs,
  same_copies (strict_texts k d ++ texts_without_okuri k d) ->
  exact_candidates [d] k = Ok cs ->
  exists strict others, map c_kouho cs = strict ++ others
    /\ strict = map dc_kouho (first_appearances (strict_texts k d))
    /\ Forall (fun t => ~ In t (map dc_kouho (strict_texts k d))
                        /\ In t (map dc_kouho (texts_without_okuri k d))) others.
Proof.
  intros d k cs Hs H. destruct (exact_made [d] k cs H) as (l & Hl & H2).
  rewrite (made_texts _ _ _ H2). apply in_order_concat in Hl. cbn in Hl. rewrite app_nil_r in Hl.
  rewrite Hl, C22_order_partial by exact Hs.
  destruct (fa_app (strict_texts k d) (texts_without_okuri k d)) as (c & -> & Hc).
  exists (map dc_kouho (first_appearances (strict_texts k d))), (map dc_kouho c).
  rewrite map_app. split; [reflexivity|split; [reflexivity|]].
  apply Forall_map, Forall_forall. intros x Hx. destruct (Hc x Hx) as (H1 & H3).
  split; [exact H3|now apply in_map].
Qed.
(** With two dictionaries a strict match of the second comes after a non-strict candidate of
    the first. *)
Theorem C23_refuted :
  let d1 := mkDict true (DStatic (load_text (U "おくr /奥/"))) in
  let d2 := mkDict true (DStatic (load_text (U "おくr /送/贈/[り/送/]/"))) in
  let k := mkCK (U "おく") (Some (U "り")) in
  rmap (map c_kouho) (exact_candidates [d1; d2] k) = Ok [U "奥"; U "送"; U "贈"]
  /\ strict_texts k d1 = [] /\ map dc_kouho (strict_texts k d2) = [U "送"].
Proof. vm_compute. auto. Qed.
Example C23_case :
  let d2 := mkDict true (DStatic (load_text (U "おくr /贈/送/[り/送/]/"))) in
  let k := mkCK (U "おく") (Some (U "り")) in
  same_copies (strict_texts k d2 ++ texts_without_okuri k d2)
  /\ rmap (map c_kouho) (exact_candidates [d2] k) = Ok [U "送"; U "贈"].
Proof.
  cbv zeta. split; [|vm_compute; reflexivity].
  intros x y Hx Hy. vm_compute in Hx, Hy.
  repeat (destruct Hx as [<-|Hx]; [repeat (destruct Hy as [<-|Hy]; [reflexivity|]); destruct Hy|]).
  destruct Hx.
Qed.
