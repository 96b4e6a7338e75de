(** C86: the memory of a dictionary's map. *)
From Coq Require Import Permutation.
From Verif Require Import Str Keys Modes FormChanger DictTypes Parser Lru LruPtr Dictionary T_Lru LruMem.

(** * Specification *)
(** The addresses in use. *)
Definition allocated {V} (h : heap V) (a : nat) : Prop := h a <> None.
(** Exactly [n] nodes are allocated. *)
Definition in_use {V} (h : heap V) (n : nat) : Prop :=
  exists l, NoDup l /\ length l = n /\ forall a, allocated h a <-> In a l.

(** * Proof *)
Section Mem.
Context {V : Type}.
Implicit Types (h : heap V) (l : lru V).
Definition same_dom h h' : Prop := forall a, allocated h' a <-> allocated h a.
Lemma dom_refl h : same_dom h h. Proof. intros a. reflexivity. Qed.
Lemma dom_trans h1 h2 h3 : same_dom h1 h2 -> same_dom h2 h3 -> same_dom h1 h3.
Proof. intros A B a. rewrite (B a). apply A. Qed.
Lemma dom_set h a n n' : h a = Some n -> same_dom h (hset h a n').
Proof.
  intros E b. unfold allocated, hset. destruct (Nat.eqb_spec b a) as [->|]; [|reflexivity]. rewrite E. split; discriminate.
Qed.
Lemma dom_next a q h h' : set_next a q h = Some h' -> same_dom h h'.
Proof. unfold set_next, obind. destruct (h a) eqn:E; [|discriminate]. intros [= <-]. eapply dom_set; eauto. Qed.
Lemma dom_prev a q h h' : set_prev a q h = Some h' -> same_dom h h'.
Proof. unfold set_prev, obind. destruct (h a) eqn:E; [|discriminate]. intros [= <-]. eapply dom_set; eauto. Qed.
Lemma dom_val a q h h' : set_val a q h = Some h' -> same_dom h h'.
Proof. unfold set_val, obind. destruct (h a) eqn:E; [|discriminate]. intros [= <-]. eapply dom_set; eauto. Qed.
Lemma dom_detach a h h' : detach a h = Some h' -> same_dom h h'.
Proof.
  unfold detach, obind. destruct (h a); [|discriminate]. destruct (set_next _ _ h) as [h1|] eqn:E1; [|discriminate].
  destruct (h1 a); [|discriminate]. intros E2. eapply dom_trans; [eapply dom_next; eauto|eapply dom_prev; eauto].
Qed.
Lemma dom_attach b a h h' : attach b a h = Some h' -> same_dom h h'.
Proof.
  unfold attach, obind. destruct (h b); [|discriminate]. destruct (set_next a _ h) as [h1|] eqn:E1; [|discriminate].
  destruct (set_prev a b h1) as [h2|] eqn:E2; [|discriminate]. destruct (set_next b a h2) as [h3|] eqn:E3; [|discriminate].
  destruct (h3 a); [|discriminate]. intros E4.
  eapply dom_trans; [eapply dom_next; eauto|]. eapply dom_trans; [eapply dom_prev; eauto|].
  eapply dom_trans; [eapply dom_next; eauto|eapply dom_prev; eauto].
Qed.
(** Every node belongs to the map or is a marker. *)
Record owns l : Prop := {
  o_dom : forall a, allocated (l_heap l) a <-> In a (l_head l :: l_tail l :: map snd (l_map l));
  o_nodup : NoDup (l_head l :: l_tail l :: map snd (l_map l));
  o_keys : NoDup (map fst (l_map l));
  o_fresh : forall a, In a (l_head l :: l_tail l :: map snd (l_map l)) -> a < l_fresh l;
}.
Lemma owns_dom h l : owns l -> same_dom (l_heap l) h -> owns (mkLru h (l_fresh l) (l_keys l) (l_head l) (l_tail l) (l_map l)).
Proof. intros [A B C D] H. constructor; cbn [l_heap l_fresh l_head l_tail l_map]; auto. intros a. rewrite (H a). apply A. Qed.
Lemma assoc_in k (m : list (str * nat)) a : assoc_str k m = Some a -> In (k, a) m.
Proof. induction m as [|[k' b] m IH]; cbn; [discriminate|]. destruct (str_eqb_spec k k') as [->|]; [intros [= ->]; auto|auto]. Qed.
Lemma assoc_out k (m : list (str * nat)) : assoc_str k m = None -> ~ In k (map fst m).
Proof. induction m as [|[k' b] m IH]; cbn; [tauto|]. destruct (str_eqb_spec k k') as [->|]; [discriminate|]. intros H [E|E]; [congruence|now apply IH]. Qed.
Lemma owns_new : owns lru_new.
Proof.
  constructor; cbn [l_heap l_fresh l_head l_tail l_map lru_new map].
  - intros a. unfold allocated, hset. cbn [In]. destruct (Nat.eqb_spec a 2) as [->|]; [split; [auto|discriminate]|].
    destruct (Nat.eqb_spec a 1) as [->|]; [split; [auto|discriminate]|]. split; [intros H; now contradiction H|intros [H|[H|[]]]; congruence].
  - repeat constructor; cbn; intuition discriminate.
  - constructor.
  - cbn. intuition lia.
Qed.
Lemma owns_push k v l l' : owns l -> ptr_push k v l = Some l' -> owns l'.
Proof.
  intros H. unfold ptr_push, obind. destruct (assoc_str k (l_map l)) as [a|] eqn:E.
  - destruct (set_val a (Some v) (l_heap l)) as [h1|] eqn:E1; [|discriminate]. destruct (detach a h1) as [h2|] eqn:E2; [|discriminate].
    destruct (attach (l_head l) a h2) as [h3|] eqn:E3; [|discriminate]. intros [= <-]. apply owns_dom; [exact H|].
    eapply dom_trans; [eapply dom_val; eauto|]. eapply dom_trans; [eapply dom_detach; eauto|eapply dom_attach; eauto].
  - destruct (attach _ _ _) as [h1|] eqn:E1; [|discriminate]. intros [= <-]. apply dom_attach in E1.
    assert (Hf : ~ In (l_fresh l) (l_head l :: l_tail l :: map snd (l_map l))).
    { intros Hi. apply (o_fresh l H) in Hi. lia. }
    destruct H as [A B C D]. constructor; cbn [l_heap l_fresh l_head l_tail l_map map fst snd].
    + intros b. rewrite (E1 b). unfold allocated, hset. destruct (Nat.eqb_spec b (l_fresh l)) as [->|N].
      * split; [intros _; cbn; auto|discriminate].
      * specialize (A b). unfold allocated in A. rewrite A. cbn [In]. split; intros G; intuition congruence.
    + eapply (Permutation_NoDup (l := l_fresh l :: l_head l :: l_tail l :: map snd (l_map l))).
      * etransitivity; [apply perm_swap|]. constructor. apply perm_swap.
      * constructor; assumption.
    + constructor; [now apply assoc_out|exact C].
    + intros b [Hb|[Hb|[Hb|Hb]]]; try (assert (b < l_fresh l) by (apply D; cbn; auto); lia). lia.
Qed.
Lemma owns_get k f l v l' : owns l -> ptr_get_mut k f l = Some (v, l') -> owns l'.
Proof.
  intros H. unfold ptr_get_mut, obind. destruct (assoc_str k (l_map l)) as [a|] eqn:E; [|intros [= <- <-]; exact H].
  destruct (detach a (l_heap l)) as [h1|] eqn:E1; [|discriminate]. destruct (attach (l_head l) a h1) as [h2|] eqn:E2; [|discriminate].
  destruct (h2 a) as [n|]; [|discriminate]. destruct (set_val a _ h2) as [h3|] eqn:E3; [|discriminate]. intros [= <- <-].
  apply owns_dom; [exact H|]. eapply dom_trans; [eapply dom_detach; eauto|]. eapply dom_trans; [eapply dom_attach; eauto|eapply dom_val; eauto].
Qed.
Lemma map_remove_out k (m : list (str * nat)) : ~ In k (map fst m) -> map_remove k m = m.
Proof.
  unfold map_remove. induction m as [|[k' b] m IH]; cbn; [reflexivity|]. intros H. destruct (str_eqb_spec k k') as [->|]; cbn; [exfalso; auto|].
  now rewrite IH by tauto.
Qed.
Lemma map_remove_perm k a (m : list (str * nat)) : NoDup (map fst m) -> In (k, a) m -> Permutation m ((k, a) :: map_remove k m).
Proof.
  induction m as [|[k' b] m IH]; cbn [map fst In]; intros N H; [destruct H|]. inversion N as [|? ? N1 N2]; subst.
  unfold map_remove. cbn [filter fst]. destruct H as [H|H].
  - injection H as -> ->. rewrite str_eqb_refl. cbn [negb]. fold (map_remove k m). now rewrite map_remove_out.
  - destruct (str_eqb_spec k k') as [->|]; cbn [negb].
    + exfalso. apply N1. change k' with (fst (k', a)). now apply in_map.
    + fold (map_remove k m). etransitivity; [apply perm_skip, (IH N2 H)|]. apply perm_swap.
Qed.
Lemma owns_remove k l v l' : owns l -> ptr_remove k l = Some (v, l') -> owns l'.
Proof.
  intros H. unfold ptr_remove, obind. destruct (assoc_str k (l_map l)) as [a|] eqn:E; [|intros [= <- <-]; exact H].
  destruct (detach a (l_heap l)) as [h1|] eqn:E1; [|discriminate]. destruct (h1 a) as [n|]; [|discriminate]. intros [= <- <-].
  apply dom_detach in E1. destruct H as [A B C D]. apply assoc_in in E. pose proof (map_remove_perm k a _ C E) as P.
  assert (P2 : Permutation (l_head l :: l_tail l :: map snd (l_map l)) (a :: l_head l :: l_tail l :: map snd (map_remove k (l_map l)))).
  { etransitivity; [do 2 apply perm_skip; apply (Permutation_map snd P)|]. cbn [map snd].
    etransitivity; [apply perm_skip, perm_swap|]. apply perm_swap. }
  pose proof (Permutation_NoDup P2 B) as B2. inversion B2 as [|? ? B3 B4]; subst.
  constructor; cbn [l_heap l_fresh l_head l_tail l_map].
  - intros b. unfold allocated, hfree. destruct (Nat.eqb_spec b a) as [->|N].
    + split; [intros G; now contradiction G|contradiction].
    + specialize (E1 b). unfold allocated in E1. rewrite E1. specialize (A b). unfold allocated in A. rewrite A. split; intros G.
      * apply (Permutation_in _ P2) in G as [G|G]; [congruence|exact G].
      * apply (Permutation_in _ (Permutation_sym P2)). now right.
  - exact B4.
  - pose proof (Permutation_NoDup (Permutation_map fst P) C) as G. now inversion G.
  - intros b G. apply D. apply (Permutation_in _ (Permutation_sym P2)). now right.
Qed.
Lemma owns_op o l out l' : owns l -> ptr_op o l = Some (out, l') -> owns l'.
Proof.
  intros H. destruct o; cbn [ptr_op]; unfold obind.
  - destruct (ptr_push k v l) as [l1|] eqn:E; [|discriminate]. intros [= <- <-]. eapply owns_push; eauto.
  - destruct (ptr_get_mut k _ l) as [[v l1]|] eqn:E; [|discriminate]. intros [= <- <-]. eapply owns_get; eauto.
  - destruct (ptr_get_mut k f l) as [[v l1]|] eqn:E; [|discriminate]. intros [= <- <-]. eapply owns_get; eauto.
  - destruct (ptr_peek k l) as [v|]; [|discriminate]. intros [= <- <-]. exact H.
  - destruct (ptr_remove k l) as [[v l1]|] eqn:E; [|discriminate]. intros [= <- <-]. eapply owns_remove; eauto.
  - destruct (ptr_iter_lru l); [|discriminate]. intros [= <- <-]. exact H.
  - destruct (ptr_iter_sorted l); [|discriminate]. intros [= <- <-]. exact H.
  - intros [= <- <-]. exact H.
Qed.
Lemma owns_run os : forall l outs l', owns l -> ptr_run os l = Some (outs, l') -> owns l'.
Proof.
  induction os as [|o os IH]; intros l outs l' H; cbn [ptr_run]; unfold obind; [intros [= <- <-]; exact H|].
  destruct (ptr_op o l) as [[a l1]|] eqn:E; [|discriminate]. destruct (ptr_run os l1) as [[r l2]|] eqn:E2; [|discriminate].
  intros [= <- <-]. eapply IH; [eapply owns_op; eauto|exact E2].
Qed.
Lemma free_nodes_spec (x : list nat) : forall h, NoDup x -> (forall a, In a x -> allocated h a) ->
  exists h', free_nodes x h = Some h' /\ forall a, allocated h' a <-> allocated h a /\ ~ In a x.
Proof.
  induction x as [|a x IH]; intros h N H; cbn [free_nodes].
  - exists h. split; [reflexivity|]. intros b. cbn. tauto.
  - inversion N as [|? ? N1 N2]; subst. unfold obind, free_node at 1. unfold obind.
    assert (Ha : allocated h a) by (apply H; now left). unfold allocated in Ha. destruct (h a) as [n|] eqn:E; [|now contradiction Ha].
    destruct (IH (hfree h a) N2) as (h' & E' & D).
    { intros b Hb. unfold allocated, hfree. destruct (Nat.eqb_spec b a) as [->|]; [contradiction|]. apply H. now right. }
    exists h'. split; [exact E'|]. intros b. rewrite (D b). unfold allocated, hfree. cbn [In]. destruct (Nat.eqb_spec b a) as [->|].
    + split; [intros [G _]; now contradiction G|intros [_ G]; exfalso; auto].
    + split; [intros [G1 G2]; split; [exact G1|]; intros [->|G]; auto|intros [G1 G2]; auto].
Qed.
(** How many bindings the hash map has. *)
Lemma map_count l m as_ : repr l m as_ -> NoDup (map fst (l_map l)) -> length (l_map l) = length m.
Proof.
  intros R N. rewrite <- (map_length fst (l_map l)), <- (map_length fst m). apply Nat.le_antisymm.
  - apply NoDup_incl_length; [exact N|]. intros k Hk. destruct (assoc_str k (l_map l)) as [a|] eqn:E.
    + rewrite (r_map _ _ _ R) in E. apply assoc_combine_split in E as (k1 & k2 & _ & _ & -> & _). apply in_or_app. right. now left.
    + exfalso. exact (assoc_out k _ E Hk).
  - apply NoDup_incl_length; [apply (r_keys_distinct _ _ _ R)|]. intros k Hk.
    assert (Hl : length as_ = length m) by (eapply Forall2_length; apply (r_nodes _ _ _ R)).
    destruct (assoc_str k (l_map l)) as [a|] eqn:E.
    + apply assoc_in in E. change k with (fst (k, a)). now apply in_map.
    + exfalso. rewrite (r_map _ _ _ R) in E. apply assoc_out in E. apply E. clear - Hk Hl.
      revert as_ Hl. induction m as [|[k' v] m IH]; intros [|a as_] Hl; cbn in *; try discriminate; [destruct Hk|].
      destruct Hk as [Hk|Hk]; auto.
Qed.
End Mem.
(** While it is in use: exactly the bindings and the two markers are allocated - what is removed is given
    back, what is replaced is not allocated anew. *)
Theorem C86_while_used : forall V (os : list (mop V)) outs l, ptr_run os lru_new = Some (outs, l) ->
  in_use (l_heap l) (length (snd (spec_run os [])) + 2).
Proof.
  intros V os outs l E. pose proof (owns_run os lru_new outs l owns_new E) as O.
  destruct (run_refines os (V:=V) lru_new [] [] repr_new) as (l' & as_ & E' & R). rewrite E in E'. injection E' as _ <-.
  exists (l_head l :: l_tail l :: map snd (l_map l)). split; [apply (o_nodup l O)|]. split; [|apply (o_dom l O)].
  cbn [length]. rewrite map_length, (map_count l _ as_ R (o_keys l O)). lia.
Qed.
(** Dropping it frees no node twice and leaves exactly the two markers. *)
Theorem C86_dropped_partial : forall V (os : list (mop V)) outs l, ptr_run os lru_new = Some (outs, l) ->
  exists h, ptr_drop l = Some h /\ in_use h 2 /\ forall a, allocated h a <-> a = l_head l \/ a = l_tail l.
Proof.
  intros V os outs l E. pose proof (owns_run os lru_new outs l owns_new E) as [A B C D].
  inversion B as [|? ? B1 B2]; subst. inversion B2 as [|? ? B3 B4]; subst.
  destruct (free_nodes_spec (map snd (l_map l)) (l_heap l) B4) as (h & Eh & Hh).
  { intros a Ha. apply A. cbn. auto. }
  assert (G : forall a, allocated h a <-> a = l_head l \/ a = l_tail l).
  { intros a. rewrite (Hh a), (A a). cbn [In]. split; [intuition congruence|].
    intros [-> | ->]; (split; [auto|]); [intros X; apply B1; now right|exact B3]. }
  exists h. split; [exact Eh|]. split; [|exact G].
  exists [l_head l; l_tail l]. split.
  - constructor; [|constructor; [intros []|constructor]]. intros [X|[]]. apply B1. left. now symmetry.
  - split; [reflexivity|]. intros a. rewrite (G a). cbn. intuition.
Qed.
(** So the memory of a map is never all given back: not even of an empty one. *)
Theorem C86_refuted : forall V (os : list (mop V)) outs l, ptr_run os lru_new = Some (outs, l) ->
  exists h, ptr_drop l = Some h /\ ~ in_use h 0.
Proof.
  intros V os outs l E. destruct (C86_dropped_partial V os outs l E) as (h & Eh & _ & G). exists h. split; [exact Eh|].
  intros (x & _ & Hl & Hx). destruct x; [|discriminate]. apply (proj1 (Hx (l_head l))). apply (proj2 (G (l_head l))). now left.
Qed.
(** Met: three bindings, one replaced, one removed. *)
Example C86_case : exists outs l h, ptr_run [MPush (U "a") 1; MPush (U "b") 2; MPush (U "a") 3; MPush (U "c") 4; MRemove (U "b")] lru_new = Some (outs, l)
  /\ in_use (l_heap l) 4 /\ ptr_drop l = Some h /\ in_use h 2.
Proof.
  set (os := [MPush (U "a") 1; MPush (U "b") 2; MPush (U "a") 3; MPush (U "c") 4; MRemove (U "b")]).
  destruct (C30_refinement nat os) as (l & E). pose proof (C86_while_used nat os _ l E) as H1.
  destruct (C86_dropped_partial nat os _ l E) as (h & E2 & H2 & _). exists (fst (spec_run os [])), l, h. split; [exact E|].
  split; [exact H1|]. auto.
Qed.
