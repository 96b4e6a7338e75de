(** Properties C30, C31 and C32: the recency map and completion. *)
From Coq Require Import Permutation Sorting.Sorted.
From Verif Require Import Str Keys Modes FormChanger DictTypes Parser Lru LruPtr Dictionary.

(** * Operations on the map and what they answer *)
Inductive mop (V : Type) :=
| MPush (k : str) (v : V) | MGet (k : str) | MGetMut (k : str) (f : V -> V) | MPeek (k : str)
| MRemove (k : str) | MIterLru | MIterSorted | MLen.
Arguments MPush {V} k v. Arguments MGet {V} k. Arguments MGetMut {V} k f. Arguments MPeek {V} k.
Arguments MRemove {V} k. Arguments MIterLru {V}. Arguments MIterSorted {V}. Arguments MLen {V}.
Inductive mout (V : Type) :=
| AUnit | AVal (v : option V) | AList (l : list (option str * option V)) | ANum (n : nat).
Arguments AUnit {V}. Arguments AVal {V} v. Arguments AList {V} l. Arguments ANum {V} n.

Section Refine.
Context {V : Type}.
Implicit Types (m : lmap V) (l : lru V) (h : heap V).

(** The specification: a list of bindings, most recently used first. *)
Definition shown (kvs : list (str * V)) : list (option str * option V) :=
  map (fun '(k, v) => (Some k, Some v)) kvs.
Definition spec_op (o : mop V) m : mout V * lmap V :=
  match o with
  | MPush k v => (AUnit, lpush k v m)
  | MGet k => (AVal (lpeek k m), lupdate k (fun v => v) m)
  | MGetMut k f => (AVal (lpeek k m), lupdate k f m)
  | MPeek k => (AVal (lpeek k m), m)
  | MRemove k => (AVal (lpeek k m), lremove k m)
  | MIterLru => (AList (shown (liter_lru m)), m)
  | MIterSorted => (AList (shown (liter_sorted m)), m)
  | MLen => (ANum (length m), m)
  end.
Fixpoint spec_run (os : list (mop V)) m : list (mout V) * lmap V :=
  match os with
  | [] => ([], m)
  | o :: r => let '(a, m1) := spec_op o m in let '(as_, m2) := spec_run r m1 in (a :: as_, m2)
  end.
(** The implementation: [None] is a wild pointer. *)
Definition ptr_op (o : mop V) l : option (mout V * lru V) :=
  match o with
  | MPush k v => obind (ptr_push k v l) (fun l' => Some (AUnit, l'))
  | MGet k => obind (ptr_get_mut k (fun v => v) l) (fun '(v, l') => Some (AVal v, l'))
  | MGetMut k f => obind (ptr_get_mut k f l) (fun '(v, l') => Some (AVal v, l'))
  | MPeek k => obind (ptr_peek k l) (fun v => Some (AVal v, l))
  | MRemove k => obind (ptr_remove k l) (fun '(v, l') => Some (AVal v, l'))
  | MIterLru => obind (ptr_iter_lru l) (fun r => Some (AList r, l))
  | MIterSorted => obind (ptr_iter_sorted l) (fun r => Some (AList r, l))
  | MLen => Some (ANum (length (l_keys l)), l)
  end.
Fixpoint ptr_run (os : list (mop V)) l : option (list (mout V) * lru V) :=
  match os with
  | [] => Some ([], l)
  | o :: r => obind (ptr_op o l) (fun '(a, l1) =>
              obind (ptr_run r l1) (fun '(as_, l2) => Some (a :: as_, l2)))
  end.

(** * Links *)
Definition nx h a := option_map n_next (h a).
Definition pv h a := option_map n_prev (h a).
Definition kv h a := option_map (fun n => (n_key n, n_val n)) (h a).
Fixpoint links (f g : nat -> option nat) (p : list nat) : Prop :=
  match p with
  | x :: ((y :: _) as r) => f x = Some y /\ g y = Some x /\ links f g r
  | _ => True
  end.
Lemma links_app f g a x b : links f g (a ++ x :: b) <-> links f g (a ++ [x]) /\ links f g (x :: b).
Proof.
  induction a as [|y a IH].
  - cbn [app]. cbn [links]. tauto.
  - destruct a as [|z a]; cbn [app] in *.
    + cbn [links]. tauto.
    + cbn [links]. change (links f g (z :: a ++ x :: b)) with (links f g ((z :: a) ++ x :: b)).
      change (links f g (z :: a ++ [x])) with (links f g ((z :: a) ++ [x])).
      cbn [app]. rewrite IH. tauto.
Qed.
Lemma links_cons f g x y r : links f g (x :: y :: r) <-> f x = Some y /\ g y = Some x /\ links f g (y :: r).
Proof. reflexivity. Qed.
(** Only the next pointers of all but the last and the prev pointers of all but the first
    matter. *)
Lemma links_frame f g f' g' a x : (forall y, In y a -> f' y = f y) ->
  (forall y, In y (tl (a ++ [x])) -> g' y = g y) ->
  links f g (a ++ [x]) -> links f' g' (a ++ [x]).
Proof.
  revert f g. induction a as [|y a IH]; intros f g Hf Hg H; [exact I|].
  destruct a as [|z a]; cbn [app] in *.
  - cbn [links] in *. cbn [tl] in Hg. rewrite (Hf y) by now left. rewrite (Hg x) by now left. tauto.
  - cbn [links] in *. destruct H as (H1 & H2 & H3).
    rewrite (Hf y) by now left. cbn [tl] in Hg. rewrite (Hg z) by now left. split; [exact H1|split; [exact H2|]].
    apply (IH f g); [intros u Hu; apply Hf; now right|intros u Hu; apply Hg; now right|exact H3].
Qed.
Lemma nonempty_last {A} (l : list A) : l <> [] -> exists a x, l = a ++ [x].
Proof. intros H. destruct (exists_last H) as (a & x & E). eauto. Qed.
Lemma links_frame' f g f' g' p : p <> [] -> (forall y, In y (removelast p) -> f' y = f y) ->
  (forall y, In y (tl p) -> g' y = g y) -> links f g p -> links f' g' p.
Proof.
  intros Hp. destruct (nonempty_last p Hp) as (a & x & ->). rewrite removelast_last.
  intros Hf Hg. now apply links_frame.
Qed.

Lemma set_next_views a q h n : h a = Some n -> exists h', set_next a q h = Some h' /\
  (forall b, nx h' b = if Nat.eqb b a then Some q else nx h b) /\
  (forall b, pv h' b = pv h b) /\ (forall b, kv h' b = kv h b).
Proof.
  intros E. unfold set_next. rewrite E. cbn. eexists. split; [reflexivity|].
  unfold nx, pv, kv, hset. repeat split; intros b; destruct (Nat.eqb_spec b a) as [->|]; rewrite ?E; reflexivity.
Qed.
Lemma set_prev_views a q h n : h a = Some n -> exists h', set_prev a q h = Some h' /\
  (forall b, pv h' b = if Nat.eqb b a then Some q else pv h b) /\
  (forall b, nx h' b = nx h b) /\ (forall b, kv h' b = kv h b).
Proof.
  intros E. unfold set_prev. rewrite E. cbn. eexists. split; [reflexivity|].
  unfold nx, pv, kv, hset. repeat split; intros b; destruct (Nat.eqb_spec b a) as [->|]; rewrite ?E; reflexivity.
Qed.
Lemma set_val_views a v h n : h a = Some n -> exists h', set_val a v h = Some h' /\
  (forall b, kv h' b = if Nat.eqb b a then Some (n_key n, v) else kv h b) /\
  (forall b, nx h' b = nx h b) /\ (forall b, pv h' b = pv h b).
Proof.
  intros E. unfold set_val. rewrite E. cbn. eexists. split; [reflexivity|].
  unfold nx, pv, kv, hset. repeat split; intros b; destruct (Nat.eqb_spec b a) as [->|]; rewrite ?E; reflexivity.
Qed.
Lemma alloc_nx h a : (exists n, h a = Some n) <-> nx h a <> None.
Proof. unfold nx. destruct (h a); cbn; split; [discriminate|eauto|intros [? [=]]|congruence]. Qed.
Lemma alloc_kv h a : (exists n, h a = Some n) <-> kv h a <> None.
Proof. unfold kv. destruct (h a); cbn; split; [discriminate|eauto|intros [? [=]]|congruence]. Qed.
Lemma kv_nx h h' : (forall b, kv h' b = kv h b) -> forall b, (exists n, h b = Some n) -> exists n, h' b = Some n.
Proof. intros H b Hb. apply alloc_kv. rewrite H. now apply alloc_kv. Qed.
Lemma nx_node h a n : h a = Some n -> nx h a = Some (n_next n).
Proof. intros E. unfold nx. now rewrite E. Qed.
Lemma pv_node h a n : h a = Some n -> pv h a = Some (n_prev n).
Proof. intros E. unfold pv. now rewrite E. Qed.

(** Taking a node out of the list. *)
Lemma detach_spec h P x a y Q : NoDup (P ++ x :: a :: y :: Q) ->
  (forall b, In b (P ++ x :: a :: y :: Q) -> exists n, h b = Some n) ->
  links (nx h) (pv h) (P ++ x :: a :: y :: Q) ->
  exists h', detach a h = Some h' /\ (forall b, kv h' b = kv h b)
    /\ links (nx h') (pv h') (P ++ x :: y :: Q).
Proof.
  intros Hnd Hal Hl.
  apply links_app in Hl as (HlP & Hl). rewrite !links_cons in Hl. destruct Hl as (Hxa & Hax & Hay & Hya & HlQ).
  destruct (Hal a) as (na & Ea); [apply in_app_iff; right; right; now left|].
  destruct (Hal x) as (nxx & Ex); [apply in_app_iff; right; now left|].
  destruct (Hal y) as (ny & Ey); [apply in_app_iff; right; right; right; now left|].
  rewrite (nx_node _ _ _ Ea) in Hay. injection Hay as Hay.
  rewrite (pv_node _ _ _ Ea) in Hax. injection Hax as Hax.
  unfold detach. rewrite Ea. cbn [obind]. rewrite Hax, Hay.
  destruct (set_next_views x y h nxx Ex) as (h1 & -> & N1 & P1 & K1). cbn [obind].
  destruct (kv_nx h h1 K1 a (ex_intro _ na Ea)) as (na1 & Ea1). rewrite Ea1. cbn [obind].
  assert (En : n_next na1 = y).
  { assert (H : nx h1 a = Some y).
    { rewrite N1. replace (Nat.eqb a x) with false.
      - rewrite (nx_node _ _ _ Ea). now rewrite Hay.
      - symmetry. apply Nat.eqb_neq. intros ->. apply NoDup_remove_2 in Hnd. apply Hnd.
        apply in_app_iff. right. now left. }
    rewrite (nx_node _ _ _ Ea1) in H. now injection H. }
  assert (Ep : n_prev na1 = x).
  { assert (H : pv h1 a = Some x) by (rewrite P1, (pv_node _ _ _ Ea); now rewrite Hax).
    rewrite (pv_node _ _ _ Ea1) in H. now injection H. }
  rewrite En, Ep.
  destruct (kv_nx h h1 K1 y (ex_intro _ ny Ey)) as (ny1 & Ey1).
  destruct (set_prev_views y x h1 ny1 Ey1) as (h2 & -> & P2 & N2 & K2).
  exists h2. split; [reflexivity|split; [intros b; now rewrite K2, K1|]].
  assert (Hxne : ~ In x P /\ ~ In x (a :: y :: Q)).
  { apply NoDup_remove_2 in Hnd. rewrite in_app_iff in Hnd. tauto. }
  assert (Hyne : ~ In y P /\ y <> x /\ ~ In y Q).
  { replace (P ++ x :: a :: y :: Q) with ((P ++ [x; a]) ++ y :: Q) in Hnd by (rewrite <- app_assoc; reflexivity).
    apply NoDup_remove_2 in Hnd. rewrite !in_app_iff in Hnd. cbn in Hnd. intuition. }
  apply links_app. split; [|rewrite links_cons; split; [|split]].
  - apply (links_frame (nx h) (pv h)); [| |exact HlP].
    + intros b Hb. rewrite N2, N1. destruct (Nat.eqb_spec b x) as [->|]; [tauto|reflexivity].
    + intros b Hb. rewrite P2, P1. destruct (Nat.eqb_spec b y) as [->|]; [|reflexivity].
      exfalso. assert (Hin : In y (P ++ [x])) by (destruct (P ++ [x]); [destruct Hb|now right]).
      apply in_app_iff in Hin. cbn in Hin. intuition.
  - rewrite N2, N1, Nat.eqb_refl. reflexivity.
  - rewrite P2, Nat.eqb_refl. reflexivity.
  - apply (links_frame' (nx h) (pv h)); [discriminate| | |exact HlQ].
    + intros b Hb. rewrite N2, N1. destruct (Nat.eqb_spec b x) as [->|]; [|reflexivity].
      exfalso. apply (proj2 Hxne). right. revert Hb. clear. 
      intros Hb. assert (G : forall (l : list nat) z, In z (removelast l) -> In z l).
      { induction l as [|u l IH]; intros z; cbn; [tauto|]. destruct l; [intros []|]. intros [->|H]; [now left|right; auto]. }
      now apply G.
    + intros b Hb. cbn [tl] in Hb. rewrite P2, P1. destruct (Nat.eqb_spec b y) as [->|]; [tauto|reflexivity].
Qed.

(** Putting a node (allocated, not in the list) in front. *)
Lemma attach_spec h hd a y Q : NoDup (hd :: y :: Q) -> ~ In a (hd :: y :: Q) ->
  (forall b, In b (a :: hd :: y :: Q) -> exists n, h b = Some n) ->
  links (nx h) (pv h) (hd :: y :: Q) ->
  exists h', attach hd a h = Some h' /\ (forall b, kv h' b = kv h b)
    /\ links (nx h') (pv h') (hd :: a :: y :: Q).
Proof.
  intros Hnd Ha Hal Hl. rewrite links_cons in Hl. destruct Hl as (Hhy & Hyh & HlQ).
  destruct (Hal hd) as (nh & Eh); [right; now left|].
  destruct (Hal a) as (na & Ea); [now left|].
  destruct (Hal y) as (ny & Ey); [right; right; now left|].
  rewrite (nx_node _ _ _ Eh) in Hhy. injection Hhy as Hhy.
  unfold attach. rewrite Eh. cbn [obind]. rewrite Hhy.
  destruct (set_next_views a y h na Ea) as (h1 & -> & N1 & P1 & K1). cbn [obind].
  destruct (kv_nx h h1 K1 a (ex_intro _ na Ea)) as (na1 & Ea1).
  destruct (set_prev_views a hd h1 na1 Ea1) as (h2 & -> & P2 & N2 & K2). cbn [obind].
  assert (K2' : forall b, kv h2 b = kv h b) by (intros b; now rewrite K2, K1).
  destruct (kv_nx h h2 K2' hd (ex_intro _ nh Eh)) as (nh2 & Eh2).
  destruct (set_next_views hd a h2 nh2 Eh2) as (h3 & -> & N3 & P3 & K3). cbn [obind].
  assert (K3' : forall b, kv h3 b = kv h b) by (intros b; now rewrite K3, K2').
  destruct (kv_nx h h3 K3' a (ex_intro _ na Ea)) as (na3 & Ea3). rewrite Ea3. cbn [obind].
  assert (Hah : a <> hd) by (intros ->; apply Ha; now left).
  assert (Hay : a <> y) by (intros ->; apply Ha; right; now left).
  assert (En : n_next na3 = y).
  { assert (H : nx h3 a = Some y).
    { rewrite N3, N2, N1, Nat.eqb_refl. replace (Nat.eqb a hd) with false; [reflexivity|].
      symmetry. now apply Nat.eqb_neq. }
    rewrite (nx_node _ _ _ Ea3) in H. now injection H. }
  rewrite En.
  destruct (kv_nx h h3 K3' y (ex_intro _ ny Ey)) as (ny3 & Ey3).
  destruct (set_prev_views y a h3 ny3 Ey3) as (h4 & -> & P4 & N4 & K4).
  exists h4. split; [reflexivity|split; [intros b; now rewrite K4, K3'|]].
  apply NoDup_cons_iff in Hnd as (Hh & Hnd'). apply NoDup_cons_iff in Hnd' as (Hy & _).
  assert (Hyh' : y <> hd) by (intros ->; apply Hh; now left).
  rewrite !links_cons. split; [|split; [|split; [|split]]].
  - rewrite N4, N3, Nat.eqb_refl. reflexivity.
  - rewrite P4, P3, P2, Nat.eqb_refl. replace (Nat.eqb a _) with false; [reflexivity|].
    symmetry. now apply Nat.eqb_neq.
  - rewrite N4, N3, N2, N1, Nat.eqb_refl. replace (Nat.eqb a hd) with false; [reflexivity|].
    symmetry. now apply Nat.eqb_neq.
  - rewrite P4, Nat.eqb_refl. reflexivity.
  - apply (links_frame' (nx h) (pv h)); [discriminate| | |exact HlQ].
    + intros b Hb. rewrite N4, N3, N2, N1.
      assert (Hin : In b (y :: Q)).
      { revert Hb. generalize (y :: Q). clear. intros l.
        induction l as [|u l IH]; cbn; [tauto|]. destruct l; [intros []|]. intros [->|H]; [now left|right; auto]. }
      destruct (Nat.eqb_spec b hd) as [->|]; [exfalso; now apply Hh|].
      destruct (Nat.eqb_spec b a) as [->|]; [|reflexivity]. exfalso. apply Ha. now right.
    + intros b Hb. cbn [tl] in Hb. rewrite P4, P3, P2, P1.
      destruct (Nat.eqb_spec b y) as [->|]; [tauto|].
      destruct (Nat.eqb_spec b a) as [->|]; [|reflexivity]. exfalso. apply Ha. right. now right.
Qed.

(** * The representation invariant *)
Definition path l (as_ : list nat) : list nat := l_head l :: as_ ++ [l_tail l].
Record repr l m (as_ : list nat) : Prop := {
  r_links : links (nx (l_heap l)) (pv (l_heap l)) (path l as_);
  r_nodup : NoDup (path l as_);
  r_alloc : forall b, In b (path l as_) -> exists n, l_heap l b = Some n;
  r_fresh : forall b, In b (path l as_) -> b < l_fresh l;
  r_nodes : Forall2 (fun a e => kv (l_heap l) a = Some (Some (fst e), Some (snd e))) as_ m;
  r_keys_distinct : NoDup (map fst m);
  r_map : forall k, assoc_str k (l_map l) = assoc_str k (combine (map fst m) as_);
  r_sorted : StronglySorted str_lt (l_keys l);
  r_keys : forall k, In k (l_keys l) <-> In k (map fst m);
}.

Lemma path_in l as_ b : In b (path l as_) <-> b = l_head l \/ In b as_ \/ b = l_tail l.
Proof. unfold path. cbn. rewrite in_app_iff. cbn. intuition. Qed.

Lemma app_eq_len {A} (a b c d : list A) : length a = length c -> a ++ b = c ++ d -> a = c /\ b = d.
Proof.
  revert c; induction a as [|x a IH]; intros [|y c]; cbn; try discriminate; auto.
  intros [= Hl] [= -> H]. destruct (IH c Hl H) as (-> & ->). auto.
Qed.
(** Where a key is. *)
Lemma assoc_combine_split k (ks : list str) (as_ : list nat) a :
  assoc_str k (combine ks as_) = Some a ->
  exists k1 k2 a1 a2, ks = k1 ++ k :: k2 /\ as_ = a1 ++ a :: a2 /\ length k1 = length a1 /\ ~ In k k1.
Proof.
  revert as_; induction ks as [|k' ks IH]; intros [|a' as_]; cbn; try discriminate.
  destruct (str_eqb_spec k k') as [->|E].
  - intros [= ->]. exists [], ks, [], as_. cbn. repeat split; auto.
  - intros H. destruct (IH _ H) as (k1 & k2 & a1 & a2 & -> & -> & Hl & Hn).
    exists (k' :: k1), k2, (a' :: a1), a2. cbn. repeat split; auto. intros [H'|H']; auto.
Qed.
Lemma lremove_not_in k m : ~ In k (map fst m) -> lremove k m = m.
Proof.
  unfold lremove. induction m as [|[k' v] m IH]; cbn; [reflexivity|]. intros H.
  destruct (str_eqb_spec k k') as [->|]; cbn; [exfalso; apply H; now left|].
  now rewrite IH by (intros H'; apply H; now right).
Qed.
Lemma lremove_split k v m1 m2 : ~ In k (map fst m1) -> ~ In k (map fst m2) ->
  lremove k (m1 ++ (k, v) :: m2) = m1 ++ m2.
Proof.
  intros H1 H2. apply lremove_not_in in H1, H2. unfold lremove in *. rewrite filter_app. cbn.
  rewrite str_eqb_refl. cbn. now rewrite H1, H2.
Qed.
Lemma lpeek_split k v m1 m2 : ~ In k (map fst m1) -> lpeek k (m1 ++ (k, v) :: m2) = Some v.
Proof.
  unfold lpeek. induction m1 as [|[k' v'] m1 IH]; cbn; [now rewrite str_eqb_refl|].
  intros H. destruct (str_eqb_spec k k') as [->|]; [exfalso; apply H; now left|].
  apply IH. intros H'. apply H. now right.
Qed.
Lemma lpeek_none k m : ~ In k (map fst m) -> lpeek k m = None.
Proof.
  unfold lpeek. induction m as [|[k' v'] m IH]; cbn; [reflexivity|].
  intros H. destruct (str_eqb_spec k k') as [->|]; [exfalso; apply H; now left|].
  apply IH. intros H'. apply H. now right.
Qed.
Lemma Forall2_app_split {A B} (R : A -> B -> Prop) a1 a2 ls :
  Forall2 R (a1 ++ a2) ls -> exists b1 b2, ls = b1 ++ b2 /\ Forall2 R a1 b1 /\ Forall2 R a2 b2.
Proof. intros H. apply Forall2_app_inv_l in H as (b1 & b2 & H1 & H2 & ->). eauto. Qed.

Lemma Forall2_length {A B} (R : A -> B -> Prop) a b : Forall2 R a b -> length a = length b.
Proof. induction 1; cbn; congruence. Qed.
(** The two views of a key that is present. *)
Lemma repr_present l m as_ k a : repr l m as_ -> assoc_str k (l_map l) = Some a ->
  exists a1 a2 m1 v m2, as_ = a1 ++ a :: a2 /\ m = m1 ++ (k, v) :: m2
    /\ ~ In k (map fst m1) /\ ~ In k (map fst m2)
    /\ Forall2 (fun a e => kv (l_heap l) a = Some (Some (fst e), Some (snd e))) a1 m1
    /\ Forall2 (fun a e => kv (l_heap l) a = Some (Some (fst e), Some (snd e))) a2 m2
    /\ kv (l_heap l) a = Some (Some k, Some v).
Proof.
  intros R H. rewrite (r_map _ _ _ R) in H.
  apply assoc_combine_split in H as (k1 & k2 & a1 & a2 & Ek & Ea & Hl & Hn).
  pose proof (r_nodes _ _ _ R) as Hnod. rewrite Ea in Hnod.
  apply Forall2_app_split in Hnod as (m1 & m2' & -> & F1 & F2).
  inversion F2 as [|? e ? m2 He F2']; subst.
  rewrite map_app in Ek. cbn in Ek.
  assert (Hlen : length (map fst m1) = length k1) by (rewrite map_length, Hl; symmetry; eapply Forall2_length; exact F1).
  apply app_eq_len in Ek as (E1 & E2); [|exact Hlen]. injection E2 as E2 E3.
  exists a1, a2, m1, (snd e), m2. destruct e as [k' v]. cbn in *. subst k'.
  pose proof (r_keys_distinct _ _ _ R) as Hd. rewrite map_app in Hd. cbn in Hd.
  apply NoDup_remove_2 in Hd. rewrite in_app_iff in Hd.
  repeat split; auto.
Qed.

Lemma assoc_app {A} k (x y : list (str * A)) :
  assoc_str k (x ++ y) = match assoc_str k x with Some v => Some v | None => assoc_str k y end.
Proof.
  induction x as [|[k' v] x IH]; cbn; [reflexivity|]. destruct (str_eqb k k'); [reflexivity|exact IH].
Qed.
Lemma assoc_not_in {A} k (x : list (str * A)) : ~ In k (map fst x) -> assoc_str k x = None.
Proof.
  induction x as [|[k' v] x IH]; cbn; [reflexivity|]. intros H.
  destruct (str_eqb_spec k k') as [->|]; [exfalso; apply H; now left|]. apply IH. tauto.
Qed.
Lemma combine_app_len {A B} (a1 a2 : list A) (b1 b2 : list B) : length a1 = length b1 ->
  combine (a1 ++ a2) (b1 ++ b2) = combine a1 b1 ++ combine a2 b2.
Proof.
  revert b1; induction a1 as [|x a1 IH]; intros [|y b1]; cbn; try discriminate; [reflexivity|].
  intros [= H]. now rewrite IH.
Qed.
Lemma combine_fst {A B} (a : list A) (b : list B) x : In x (map fst (combine a b)) -> In x a.
Proof.
  intros H. apply in_map_iff in H as ([u v] & <- & H). apply in_combine_l in H. exact H.
Qed.
Lemma assoc_moved k k' ks1 ks2 a (a1 a2 : list nat) : length ks1 = length a1 -> length ks2 = length a2 ->
  ~ In k ks1 -> ~ In k ks2 ->
  assoc_str k' (combine (k :: ks1 ++ ks2) (a :: a1 ++ a2)) = assoc_str k' (combine (ks1 ++ k :: ks2) (a1 ++ a :: a2)).
Proof.
  intros H1 H2 N1 N2. cbn [combine]. rewrite !combine_app_len by assumption. cbn [combine]. rewrite assoc_app.
  cbn. rewrite assoc_app. destruct (str_eqb_spec k' k) as [->|]; [|reflexivity].
  rewrite assoc_not_in; [reflexivity|]. intros H. apply N1. now apply combine_fst in H.
Qed.

Definition with_heap h l : lru V := mkLru h (l_fresh l) (l_keys l) (l_head l) (l_tail l) (l_map l).
Lemma split_around l (a1 : list nat) a a2 : exists P x y Q, path l (a1 ++ a :: a2) = P ++ x :: a :: y :: Q
  /\ path l (a1 ++ a2) = P ++ x :: y :: Q.
Proof.
  unfold path. rewrite <- app_assoc.
  destruct (exists_last (l := l_head l :: a1)) as (P & x & E); [discriminate|].
  change (l_head l :: a1 ++ (a :: a2) ++ [l_tail l]) with ((l_head l :: a1) ++ a :: a2 ++ [l_tail l]).
  replace (l_head l :: (a1 ++ a2) ++ [l_tail l]) with ((l_head l :: a1) ++ a2 ++ [l_tail l])
    by (rewrite <- app_assoc; reflexivity).
  rewrite E. destruct (a2 ++ [l_tail l]) as [|y Q] eqn:E2; [destruct a2; discriminate|].
  exists P, x, y, Q. rewrite <- !app_assoc. split; reflexivity.
Qed.

(** Detaching a present key. *)
Lemma detach_repr l m a1 a a2 : repr l m (a1 ++ a :: a2) ->
  exists h1, detach a (l_heap l) = Some h1 /\ (forall b, kv h1 b = kv (l_heap l) b)
    /\ links (nx h1) (pv h1) (path l (a1 ++ a2)).
Proof.
  intros R. destruct (split_around l a1 a a2) as (P & x & y & Q & E1 & E2).
  pose proof (r_links _ _ _ R) as HL. pose proof (r_nodup _ _ _ R) as HN. pose proof (r_alloc _ _ _ R) as HA.
  rewrite E1 in *. rewrite E2. now apply detach_spec.
Qed.
Lemma path_without l a1 a a2 : NoDup (path l (a1 ++ a :: a2)) ->
  NoDup (path l (a1 ++ a2)) /\ ~ In a (path l (a1 ++ a2)).
Proof.
  destruct (split_around l a1 a a2) as (P & x & y & Q & -> & ->). intros H.
  replace (P ++ x :: a :: y :: Q) with ((P ++ [x]) ++ a :: y :: Q) in H by (rewrite <- app_assoc; reflexivity).
  replace (P ++ x :: y :: Q) with ((P ++ [x]) ++ y :: Q) by (rewrite <- app_assoc; reflexivity).
  split; [now apply NoDup_remove_1 in H|now apply NoDup_remove_2 in H].
Qed.
Lemma path_incl l a1 a a2 b : In b (path l (a1 ++ a2)) -> In b (path l (a1 ++ a :: a2)).
Proof. rewrite !path_in, !in_app_iff. cbn. tauto. Qed.

(** Attaching in front of a well-linked rest. *)
Lemma attach_repr l rest a h1 : NoDup (path l rest) -> ~ In a (path l rest) ->
  (forall b, In b (a :: path l rest) -> exists n, h1 b = Some n) ->
  links (nx h1) (pv h1) (path l rest) ->
  exists h2, attach (l_head l) a h1 = Some h2 /\ (forall b, kv h2 b = kv h1 b)
    /\ links (nx h2) (pv h2) (path l (a :: rest)).
Proof.
  unfold path. intros Hnd Ha Hal Hl. destruct (rest ++ [l_tail l]) as [|y Q] eqn:E; [destruct rest; discriminate|].
  change ((a :: rest) ++ [l_tail l]) with (a :: rest ++ [l_tail l]). rewrite E. now apply attach_spec.
Qed.

(** Detach and attach: the node goes to the front. *)
Lemma to_front l m a1 a a2 : repr l m (a1 ++ a :: a2) ->
  exists h1 h2, detach a (l_heap l) = Some h1 /\ attach (l_head l) a h1 = Some h2
    /\ (forall b, kv h2 b = kv (l_heap l) b)
    /\ links (nx h2) (pv h2) (path l (a :: a1 ++ a2))
    /\ NoDup (path l (a :: a1 ++ a2))
    /\ (forall b, In b (path l (a :: a1 ++ a2)) <-> In b (path l (a1 ++ a :: a2))).
Proof.
  intros R. destruct (detach_repr l m a1 a a2 R) as (h1 & E1 & K1 & L1).
  pose proof (r_nodup _ _ _ R) as HN. apply path_without in HN as (HN & Ha).
  destruct (attach_repr l (a1 ++ a2) a h1 HN Ha) as (h2 & E2 & K2 & L2).
  - intros b Hb. apply alloc_kv. rewrite K1. apply alloc_kv. apply (r_alloc _ _ _ R).
    destruct Hb as [<-|Hb]; [rewrite path_in, in_app_iff; cbn; tauto|now apply path_incl].
  - exact L1.
  - exists h1, h2. split; [exact E1|split; [exact E2|split; [intros b; now rewrite K2, K1|split; [exact L2|split]]]].
    + unfold path in *. cbn. apply NoDup_cons_iff in HN as (H1 & H2). cbn in Ha.
      constructor; [|constructor; [|exact H2]].
      * intros [H|H]; [apply Ha; now left|now apply H1].
      * intros H. apply Ha. now right.
    + intros b. rewrite !path_in. cbn. rewrite !in_app_iff. cbn. tauto.
Qed.
Lemma Forall2_kv_ext h h' as_ m : (forall b, In b as_ -> kv h' b = kv h b) ->
  Forall2 (fun a e => kv h a = Some (Some (fst e), Some (snd e))) as_ m ->
  Forall2 (fun a e => kv h' a = Some (Some (fst e), Some (snd e))) as_ m.
Proof.
  intros H F. induction F as [|a e as_ m He F IH]; constructor.
  - rewrite H by now left. exact He.
  - apply IH. intros b Hb. apply H. now right.
Qed.

(** A key present, moved to the front with a new value. *)
Lemma moved_repr l m a1 a a2 m1 k v v' m2 h : repr l m (a1 ++ a :: a2) ->
  m = m1 ++ (k, v) :: m2 -> ~ In k (map fst m1) -> ~ In k (map fst m2) -> length a1 = length m1 ->
  links (nx h) (pv h) (path l (a :: a1 ++ a2)) -> NoDup (path l (a :: a1 ++ a2)) ->
  (forall b, kv h b = if Nat.eqb b a then Some (Some k, Some v') else kv (l_heap l) b) ->
  repr (with_heap h l) ((k, v') :: m1 ++ m2) (a :: a1 ++ a2).
Proof.
  intros R Em H1 H2 Hlen HL HN HK. subst m.
  assert (Hp : forall b, In b (path l (a :: a1 ++ a2)) <-> In b (path l (a1 ++ a :: a2))).
  { intros b. rewrite !path_in. cbn. rewrite !in_app_iff. cbn. tauto. }
  pose proof (r_nodes _ _ _ R) as Hn. apply Forall2_app_split in Hn as (n1 & n2 & En & F1 & F2).
  apply app_eq_len in En as (<- & <-); [|rewrite <- Hlen; eapply Forall2_length; exact F1].
  inversion F2 as [|? ? ? ? Ha F2']; subst. cbn in Ha.
  pose proof (r_keys_distinct _ _ _ R) as Hd. rewrite map_app in Hd. cbn in Hd.
  constructor; cbn [with_heap l_heap l_fresh l_keys l_head l_tail l_map].
  - exact HL.
  - exact HN.
  - intros b Hb. apply alloc_kv. rewrite HK. destruct (Nat.eqb b a); [discriminate|]. apply alloc_kv.
    apply (r_alloc _ _ _ R). now apply Hp.
  - intros b Hb. apply (r_fresh _ _ _ R). now apply Hp.
  - assert (Hna : forall b, In b (a1 ++ a2) -> kv h b = kv (l_heap l) b).
    { intros b Hb. rewrite HK. destruct (Nat.eqb_spec b a) as [->|]; [|reflexivity].
      exfalso. unfold path in HN. cbn in HN. apply NoDup_cons_iff in HN as (_ & HN).
      apply NoDup_cons_iff in HN as (HN & _). apply HN. apply in_app_iff. now left. }
    constructor; [rewrite HK, Nat.eqb_refl; reflexivity|].
    apply Forall2_app; eapply Forall2_kv_ext; try eassumption; intros b Hb; apply Hna, in_app_iff; auto.
  - cbn. rewrite map_app. constructor; [now apply NoDup_remove_2 in Hd|now apply NoDup_remove_1 in Hd].
  - intros k'. rewrite (r_map _ _ _ R). cbn [map fst]. rewrite !map_app. cbn [map fst]. symmetry.
    apply assoc_moved; rewrite ?map_length; auto. symmetry. eapply Forall2_length; exact F2'.
  - exact (r_sorted _ _ _ R).
  - intros k'. rewrite (r_keys _ _ _ R). cbn. rewrite !map_app, !in_app_iff. cbn. tauto.
Qed.

(** Absent keys. *)
Lemma repr_absent l m as_ k : repr l m as_ -> assoc_str k (l_map l) = None -> ~ In k (map fst m).
Proof.
  intros R H Hin. rewrite (r_map _ _ _ R) in H.
  assert (Hlen : length (map fst m) = length as_) by (rewrite map_length; symmetry; eapply Forall2_length; apply (r_nodes _ _ _ R)).
  revert H Hin Hlen. clear R. generalize (map fst m) as ks. intros ks. revert as_.
  induction ks as [|k' ks IH]; intros [|a as_]; cbn; try discriminate; try tauto.
  destruct (str_eqb_spec k k') as [->|E]; [discriminate|].
  intros H [H'|Hin] [= Hl]; [congruence|]. eapply IH; eauto.
Qed.

(** * Sorted keys *)
Lemma str_ltb_spec a b : str_ltb a b = true <-> str_lt a b.
Proof. unfold str_ltb, str_lt. destruct (str_cmp a b); split; congruence. Qed.
Lemma str_lt_total a b : str_lt a b \/ a = b \/ str_lt b a.
Proof.
  unfold str_lt. rewrite (str_cmp_antisym a b). destruct (str_cmp a b) eqn:E; cbn; auto.
  right. left. now apply str_cmp_eq.
Qed.
Lemma insert_at_0 {A} (x : A) ls : insert_at 0 x ls = x :: ls.
Proof. reflexivity. Qed.
Lemma insert_at_S {A} n (x y : A) ls : insert_at (S n) x (y :: ls) = y :: insert_at n x ls.
Proof. reflexivity. Qed.
Lemma insert_point_in k (ks : list str) k' : In k' (insert_at (partition_point k ks) k ks) <-> k' = k \/ In k' ks.
Proof.
  induction ks as [|x ks IH]; [cbn; intuition|]. cbn [partition_point].
  destruct (str_ltb x k).
  - rewrite insert_at_S. cbn. rewrite IH. tauto.
  - rewrite insert_at_0. cbn. intuition.
Qed.
Lemma insert_point_sorted k (ks : list str) : StronglySorted str_lt ks -> ~ In k ks ->
  StronglySorted str_lt (insert_at (partition_point k ks) k ks).
Proof.
  induction 1 as [|x ks Hs IH Hf]; intros Hn; [repeat constructor|]. cbn [partition_point].
  destruct (str_ltb x k) eqn:E.
  - rewrite insert_at_S. constructor; [apply IH; intros H; apply Hn; now right|].
    apply Forall_forall. intros y Hy. apply insert_point_in in Hy as [->|Hy]; [now apply str_ltb_spec|].
    rewrite Forall_forall in Hf. auto.
  - rewrite insert_at_0. assert (Hkx : str_lt k x).
    { destruct (str_lt_total x k) as [H|[H|H]]; [apply str_ltb_spec in H; congruence| |exact H].
      exfalso. apply Hn. left. exact H. }
    constructor; [constructor; assumption|]. constructor; [exact Hkx|].
    eapply Forall_impl; [|exact Hf]. cbn. intros y. now apply str_lt_trans.
Qed.
Lemma sorted_nodup (ks : list str) : StronglySorted str_lt ks -> NoDup ks.
Proof.
  induction 1 as [|x ks Hs IH Hf]; constructor; [|exact IH].
  intros H. rewrite Forall_forall in Hf. apply Hf in H. now apply str_lt_irrefl in H.
Qed.
Lemma remove_position k (ks : list str) : StronglySorted str_lt ks ->
  let r := match position (str_eqb k) ks with Some i => remove_nth i ks | None => ks end in
  StronglySorted str_lt r /\ (forall k', In k' r <-> In k' ks /\ k' <> k).
Proof.
  cbv zeta. induction 1 as [|x ks Hs IH Hf]; cbn; [split; [constructor|tauto]|].
  destruct (str_eqb_spec k x) as [->|E].
  - cbn. split; [exact Hs|]. intros k'. split.
    + intros H. split; [now right|]. intros ->. rewrite Forall_forall in Hf. apply Hf in H.
      now apply str_lt_irrefl in H.
    + intros ([->|H] & Hn); [congruence|exact H].
  - destruct IH as (I1 & I2).
    destruct (position (str_eqb k) ks) as [i|]; cbn.
    + split.
      * constructor; [exact I1|]. apply Forall_forall. intros y Hy. apply I2 in Hy as (Hy & _).
        rewrite Forall_forall in Hf. auto.
      * intros k'. rewrite I2. split; [intros [<-|(H & Hn)]; auto|intros ([H|H] & Hn); auto].
    + split; [constructor; assumption|]. intros k'. rewrite I2. split; [intros [<-|(H & Hn)]; auto|intros ([H|H] & Hn); auto].
Qed.
Lemma sorted_unique (a b : list str) : StronglySorted str_lt a -> StronglySorted str_lt b ->
  (forall k, In k a <-> In k b) -> a = b.
Proof.
  intros Ha. revert b. induction Ha as [|x a Hs IH Hf]; intros b Hb H.
  - destruct b as [|y b]; [reflexivity|]. exfalso. apply (proj2 (H y)). now left.
  - destruct Hb as [|y b Hsb Hfb]; [exfalso; apply (proj1 (H x)); now left|].
    rewrite Forall_forall in Hf, Hfb.
    assert (E : x = y).
    { destruct (proj1 (H x) (or_introl eq_refl)) as [E|E]; [congruence|].
      destruct (proj2 (H y) (or_introl eq_refl)) as [E'|E']; [congruence|].
      exfalso. apply (str_lt_irrefl x). eapply str_lt_trans; [apply Hf, E'|apply Hfb, E]. }
    subst y. f_equal. apply IH; [exact Hsb|]. intros k. split; intros Hk.
    + destruct (proj1 (H k) (or_intror Hk)) as [<-|E]; [|exact E].
      exfalso. apply (str_lt_irrefl x). now apply Hf.
    + destruct (proj2 (H k) (or_intror Hk)) as [<-|E]; [|exact E].
      exfalso. apply (str_lt_irrefl x). now apply Hfb.
Qed.

(** The sorted view of the specification. *)
Lemma linsert_perm (e : str * V) m : Permutation (linsert_sorted e m) (e :: m).
Proof.
  induction m as [|e' m IH]; cbn; [reflexivity|].
  destruct (str_ltb (fst e') (fst e)); [|reflexivity]. rewrite IH. apply perm_swap.
Qed.
Lemma liter_sorted_perm m : Permutation (liter_sorted m) m.
Proof. induction m as [|e m IH]; cbn; [reflexivity|]. rewrite linsert_perm. now constructor. Qed.
Lemma linsert_sorted_sorted (e : str * V) m : StronglySorted (fun a b => str_lt (fst a) (fst b)) m ->
  ~ In (fst e) (map fst m) -> StronglySorted (fun a b => str_lt (fst a) (fst b)) (linsert_sorted e m).
Proof.
  induction 1 as [|x ks Hs IH Hf]; intros Hn; cbn; [repeat constructor|].
  destruct (str_ltb (fst x) (fst e)) eqn:E.
  - constructor; [apply IH; intros H; apply Hn; now right|].
    apply Forall_forall. intros y Hy. apply (Permutation_in _ (linsert_perm e ks)) in Hy as [<-|Hy]; [now apply str_ltb_spec|].
    rewrite Forall_forall in Hf. auto.
  - assert (Hkx : str_lt (fst e) (fst x)).
    { destruct (str_lt_total (fst x) (fst e)) as [H|[H|H]]; [apply str_ltb_spec in H; congruence| |exact H].
      exfalso. apply Hn. left. exact H. }
    constructor; [constructor; assumption|]. constructor; [exact Hkx|].
    eapply Forall_impl; [|exact Hf]. cbn. intros y. now apply str_lt_trans.
Qed.
Lemma liter_sorted_sorted m : NoDup (map fst m) ->
  StronglySorted (fun a b => str_lt (fst a) (fst b)) (liter_sorted m).
Proof.
  induction m as [|e m IH]; cbn; [constructor|]. intros H. apply NoDup_cons_iff in H as (H1 & H2).
  apply linsert_sorted_sorted; [now apply IH|]. intros H. apply H1.
  eapply Permutation_in; [apply Permutation_map, liter_sorted_perm|exact H].
Qed.
Lemma sorted_fst m : StronglySorted (fun a b => str_lt (fst a) (fst b)) m -> StronglySorted str_lt (map fst m).
Proof.
  induction 1 as [|x ks Hs IH Hf]; cbn; constructor; [exact IH|].
  apply Forall_map. exact Hf.
Qed.
Lemma same_bindings (m0 a b : lmap V) : NoDup (map fst m0) -> (forall e, In e a -> In e m0) ->
  (forall e, In e b -> In e m0) -> map fst a = map fst b -> a = b.
Proof.
  intros Hd. revert b. induction a as [|[k v] a IH]; intros [|[k' v'] b] Ha Hb; cbn; try discriminate; [reflexivity|].
  intros [= <- H]. f_equal; [|apply IH; auto; intros e He; [apply Ha|apply Hb]; now right].
  f_equal. assert (H1 : In (k, v) m0) by (apply Ha; now left).
  assert (H2 : In (k, v') m0) by (apply Hb; now left). clear - Hd H1 H2.
  induction m0 as [|[k0 v0] m0 IH]; [destruct H1|]. cbn in Hd. apply NoDup_cons_iff in Hd as (Hn & Hd).
  destruct H1 as [[= <- <-]|H1], H2 as [H2|H2]; auto.
  - congruence.
  - exfalso. apply Hn. now apply (in_map fst) in H2.
  - injection H2 as <- <-. exfalso. apply Hn. now apply (in_map fst) in H1.
Qed.

(** * Operation by operation *)
Lemma set_val_repr l m a1 a a2 m1 k v v' m2 : repr l m (a1 ++ a :: a2) ->
  m = m1 ++ (k, v) :: m2 -> length a1 = length m1 ->
  exists h, set_val a (Some v') (l_heap l) = Some h /\ repr (with_heap h l) (m1 ++ (k, v') :: m2) (a1 ++ a :: a2).
Proof.
  intros R Em Hlen. subst m.
  destruct (r_alloc _ _ _ R a) as (n & En); [rewrite path_in, in_app_iff; cbn; tauto|].
  pose proof (r_nodes _ _ _ R) as Hn. apply Forall2_app_split in Hn as (n1 & n2 & Es & F1 & F2).
  apply app_eq_len in Es as (<- & <-); [|rewrite <- Hlen; eapply Forall2_length; exact F1].
  inversion F2 as [|? ? ? ? Ha F2']; subst. cbn in Ha.
  unfold kv in Ha. rewrite En in Ha. cbn in Ha. injection Ha as Hk Hv.
  destruct (set_val_views a (Some v') (l_heap l) n En) as (h & Eh & HK & HX & HP).
  exists h. split; [exact Eh|]. rewrite Hk in HK.
  pose proof (r_nodup _ _ _ R) as HN.
  assert (Hna : forall b, In b (a1 ++ a2) -> kv h b = kv (l_heap l) b).
  { intros b Hb. rewrite HK. destruct (Nat.eqb_spec b a) as [->|]; [|reflexivity].
    exfalso. apply path_without in HN as (_ & HN). apply HN. rewrite path_in. tauto. }
  constructor; cbn [with_heap l_heap l_fresh l_keys l_head l_tail l_map].
  - change (path (with_heap h l)) with (path l). pose proof (r_links _ _ _ R) as HL.
    eapply links_frame'; [| | |exact HL]; [discriminate|intros; apply HX|intros; apply HP].
  - exact HN.
  - intros b Hb. apply alloc_nx. rewrite HX. apply alloc_nx. now apply (r_alloc _ _ _ R).
  - exact (r_fresh _ _ _ R).
  - apply Forall2_app.
    + eapply Forall2_kv_ext; [|exact F1]. intros b Hb. apply Hna, in_app_iff. auto.
    + constructor; [rewrite HK, Nat.eqb_refl; reflexivity|].
      eapply Forall2_kv_ext; [|exact F2']. intros b Hb. apply Hna, in_app_iff. auto.
  - pose proof (r_keys_distinct _ _ _ R) as Hd. rewrite map_app in *. exact Hd.
  - intros k'. rewrite (r_map _ _ _ R), !map_app. reflexivity.
  - exact (r_sorted _ _ _ R).
  - intros k'. rewrite (r_keys _ _ _ R), !map_app. reflexivity.
Qed.

Lemma push_refines l m as_ k v : repr l m as_ ->
  exists l' as', ptr_push k v l = Some l' /\ repr l' (lpush k v m) as'.
Proof.
  intros R. unfold ptr_push. destruct (assoc_str k (l_map l)) as [a|] eqn:E.
  - destruct (repr_present l m as_ k a R E) as (a1 & a2 & m1 & v0 & m2 & -> & -> & N1 & N2 & F1 & F2 & Hk).
    assert (Hlen : length a1 = length m1) by (eapply Forall2_length; exact F1).
    destruct (set_val_repr l _ a1 a a2 m1 k v0 v m2 R eq_refl Hlen) as (h1 & E1 & R1).
    destruct (to_front _ _ _ _ _ R1) as (h2 & h3 & E2 & E3 & K3 & L3 & ND3 & _).
    rewrite E1. cbn [obind]. change (l_heap (with_heap h1 l)) with h1 in E2. rewrite E2. cbn [obind].
    change (l_head (with_heap h1 l)) with (l_head l) in E3. rewrite E3. cbn [obind].
    eexists _, (a :: a1 ++ a2). split; [reflexivity|].
    unfold lpush. rewrite lremove_split by assumption.
    pose proof (moved_repr _ _ a1 a a2 m1 k v v m2 h3 R1 eq_refl N1 N2 Hlen L3 ND3) as R2.
    assert (HK : forall b, kv h3 b = if Nat.eqb b a then Some (Some k, Some v) else kv (l_heap (with_heap h1 l)) b).
    { intros b. rewrite K3. destruct (Nat.eqb_spec b a) as [->|]; [|reflexivity].
      pose proof (r_nodes _ _ _ R1) as Hn. apply Forall2_app_split in Hn as (n1 & n2 & Es & G1 & G2).
      apply app_eq_len in Es as (<- & <-); [|rewrite <- Hlen; eapply Forall2_length; exact G1].
      inversion G2; subst; assumption. }
    exact (R2 HK).
  - remember (l_fresh l) as a eqn:Hfresh.
    pose proof (repr_absent l m as_ k R E) as Hnk.
    set (h0 := hset (l_heap l) a (mkNode (Some k) (Some v) 0 0)).
    assert (Hfr : ~ In a (path l as_)).
    { intros H. apply (r_fresh _ _ _ R) in H. lia. }
    assert (Hh0 : forall b, b <> a -> h0 b = l_heap l b).
    { intros b Hb. unfold h0, hset. apply Nat.eqb_neq in Hb. now rewrite Hb. }
    assert (Ha0 : h0 a = Some (mkNode (Some k) (Some v) 0 0)) by (unfold h0, hset; now rewrite Nat.eqb_refl).
    assert (Hin : forall b, In b (path l as_) -> h0 b = l_heap l b).
    { intros b Hb. apply Hh0. intros ->. contradiction. }
    clearbody h0.
    destruct (attach_repr l as_ a h0 (r_nodup _ _ _ R) Hfr) as (h1 & E1 & K1 & L1).
    + intros b [<-|Hb]; [eauto|]. rewrite Hin by exact Hb. now apply (r_alloc _ _ _ R).
    + eapply links_frame'; [| | |exact (r_links _ _ _ R)]; [discriminate| |].
      * intros y Hy. unfold nx. rewrite Hin; [reflexivity|].
        assert (Hx : path l as_ <> []) by discriminate.
        rewrite (app_removelast_last 0 Hx). apply in_app_iff. now left.
      * intros y Hy. unfold pv. rewrite Hin; [reflexivity|]. unfold path in *. now right.
    + rewrite E1. cbn [obind]. eexists _, (a :: as_). split; [reflexivity|].
      unfold lpush. rewrite lremove_not_in by exact Hnk.
      constructor; cbn [l_heap l_fresh l_keys l_head l_tail l_map].
      * exact L1.
      * change (path (mkLru h1 _ _ _ _ _)) with (path l). pose proof (r_nodup _ _ _ R) as HN.
        unfold path in *. cbn in *. apply NoDup_cons_iff in HN as (H1 & H2).
        constructor; [|constructor; [|exact H2]].
        -- intros [H|H]; [apply Hfr; now left|now apply H1].
        -- intros H. apply Hfr. now right.
      * intros b Hb. apply alloc_kv. rewrite K1. apply alloc_kv.
        assert (Hb' : b = a \/ In b (path l as_)).
        { rewrite path_in in Hb. rewrite path_in. cbn in Hb. cbn. destruct Hb as [|[[|]|]]; auto. }
        destruct Hb' as [->|Hb']; [eauto|]. rewrite Hin by exact Hb'. now apply (r_alloc _ _ _ R).
      * intros b Hb.
        assert (Hb' : b = a \/ In b (path l as_)).
        { rewrite path_in in Hb. rewrite path_in. cbn in Hb. cbn. destruct Hb as [|[[|]|]]; auto. }
        destruct Hb' as [->|Hb']; [lia|]. apply (r_fresh _ _ _ R) in Hb'.
        lia.
      * constructor; [rewrite K1; unfold kv; now rewrite Ha0|].
        eapply Forall2_kv_ext; [|exact (r_nodes _ _ _ R)]. intros b Hb. rewrite K1. unfold kv.
        rewrite Hin; [reflexivity|]. rewrite path_in. auto.
      * cbn. constructor; [exact Hnk|exact (r_keys_distinct _ _ _ R)].
      * intros k'. cbn. rewrite (r_map _ _ _ R). reflexivity.
      * apply insert_point_sorted; [exact (r_sorted _ _ _ R)|]. now rewrite (r_keys _ _ _ R).
      * intros k'. rewrite insert_point_in, (r_keys _ _ _ R). cbn. intuition.
Qed.

Lemma get_mut_refines l m as_ k f : repr l m as_ ->
  exists l' as', ptr_get_mut k f l = Some (lpeek k m, l') /\ repr l' (lupdate k f m) as'.
Proof.
  intros R. unfold ptr_get_mut. destruct (assoc_str k (l_map l)) as [a|] eqn:E.
  - destruct (repr_present l m as_ k a R E) as (a1 & a2 & m1 & v0 & m2 & -> & -> & N1 & N2 & F1 & F2 & Hk).
    assert (Hlen : length a1 = length m1) by (eapply Forall2_length; exact F1).
    destruct (to_front _ _ _ _ _ R) as (h1 & h2 & E1 & E2 & K2 & L2 & ND2 & _).
    rewrite E1. cbn [obind]. rewrite E2. cbn [obind].
    pose proof Hk as Hk2. rewrite <- K2 in Hk2. unfold kv in Hk2.
    destruct (h2 a) as [n|] eqn:En; [|discriminate]. cbn in Hk2. injection Hk2 as Hnk Hnv.
    cbn [obind].
    destruct (set_val_views a (option_map f (n_val n)) h2 n En) as (h3 & E3 & K3 & X3 & P3).
    rewrite E3. cbn [obind]. unfold lupdate. rewrite lpeek_split by exact N1.
    rewrite lremove_split by assumption. rewrite Hnv in *. cbn in K3. rewrite Hnk in K3.
    eexists _, (a :: a1 ++ a2). split; [reflexivity|].
    refine (moved_repr l _ a1 a a2 m1 k v0 (f v0) m2 h3 R eq_refl N1 N2 Hlen _ ND2 _).
    + eapply links_frame'; [| | |exact L2]; [discriminate|intros; apply X3|intros; apply P3].
    + intros b. rewrite K3, K2. reflexivity.
  - pose proof (repr_absent l m as_ k R E) as Hnk. unfold lupdate. rewrite lpeek_none by exact Hnk.
    exists l, as_. auto.
Qed.

Lemma peek_refines l m as_ k : repr l m as_ -> ptr_peek k l = Some (lpeek k m).
Proof.
  intros R. unfold ptr_peek. destruct (assoc_str k (l_map l)) as [a|] eqn:E.
  - destruct (repr_present l m as_ k a R E) as (a1 & a2 & m1 & v0 & m2 & -> & -> & N1 & N2 & F1 & F2 & Hk).
    rewrite lpeek_split by exact N1. unfold kv in Hk. destruct (l_heap l a) as [n|]; [|discriminate].
    cbn in *. congruence.
  - pose proof (repr_absent l m as_ k R E) as Hnk. now rewrite lpeek_none.
Qed.

Lemma assoc_remove k k' (mp : list (str * nat)) :
  assoc_str k' (map_remove k mp) = if str_eqb k k' then None else assoc_str k' mp.
Proof.
  unfold map_remove. induction mp as [|[x a] mp IH]; cbn; [now destruct (str_eqb k k')|].
  destruct (str_eqb_spec k x) as [->|E]; cbn.
  - rewrite IH. rewrite (str_eqb_sym k' x). now destruct (str_eqb x k').
  - rewrite IH. destruct (str_eqb_spec k' x) as [->|E']; [|reflexivity].
    apply str_eqb_neq in E. now rewrite E.
Qed.
Lemma assoc_combine_without k k' ks1 ks2 a (a1 a2 : list nat) : length ks1 = length a1 ->
  ~ In k ks1 -> ~ In k ks2 ->
  assoc_str k' (combine (ks1 ++ ks2) (a1 ++ a2))
  = if str_eqb k k' then None else assoc_str k' (combine (ks1 ++ k :: ks2) (a1 ++ a :: a2)).
Proof.
  intros H1 N1 N2. rewrite !combine_app_len by assumption. cbn [combine]. rewrite !assoc_app. cbn.
  rewrite (str_eqb_sym k' k). destruct (str_eqb_spec k k') as [<-|]; [|reflexivity].
  rewrite !assoc_not_in; [reflexivity| |]; intros H; apply combine_fst in H; contradiction.
Qed.

Lemma remove_refines l m as_ k : repr l m as_ ->
  exists l' as', ptr_remove k l = Some (lpeek k m, l') /\ repr l' (lremove k m) as'.
Proof.
  intros R. unfold ptr_remove. destruct (assoc_str k (l_map l)) as [a|] eqn:E.
  - destruct (repr_present l m as_ k a R E) as (a1 & a2 & m1 & v0 & m2 & -> & -> & N1 & N2 & F1 & F2 & Hk).
    assert (Hlen : length a1 = length m1) by (eapply Forall2_length; exact F1).
    destruct (detach_repr _ _ _ _ _ R) as (h1 & E1 & K1 & L1).
    rewrite E1. cbn [obind].
    pose proof Hk as Hk2. rewrite <- K1 in Hk2. unfold kv in Hk2.
    destruct (h1 a) as [n|] eqn:En; [|discriminate]. cbn in Hk2. injection Hk2 as Hnk Hnv.
    cbn [obind]. rewrite lpeek_split by exact N1. rewrite lremove_split by assumption. rewrite Hnv.
    eexists _, (a1 ++ a2). split; [reflexivity|].
    pose proof (r_nodup _ _ _ R) as HN. apply path_without in HN as (HN & Ha).
    assert (Hf : forall b, In b (path l (a1 ++ a2)) -> hfree h1 a b = h1 b).
    { intros b Hb. unfold hfree. destruct (Nat.eqb_spec b a) as [->|]; [contradiction|reflexivity]. }
    destruct (remove_position k (l_keys l) (r_sorted _ _ _ R)) as (S1 & S2). cbv zeta in S1, S2.
    pose proof (r_keys_distinct _ _ _ R) as Hd. rewrite map_app in Hd. cbn in Hd.
    constructor; cbn [l_heap l_fresh l_keys l_head l_tail l_map].
    + change (path (mkLru _ _ _ _ _ _)) with (path l).
      eapply links_frame'; [| | |exact L1]; [discriminate| |].
      * intros y Hy. unfold nx. rewrite Hf; [reflexivity|].
        assert (Hx : path l (a1 ++ a2) <> []) by discriminate.
        rewrite (app_removelast_last 0 Hx). apply in_app_iff. now left.
      * intros y Hy. unfold pv. rewrite Hf; [reflexivity|]. unfold path in *. now right.
    + exact HN.
    + intros b Hb. change (In b (path l (a1 ++ a2))) in Hb. rewrite Hf by exact Hb.
      apply alloc_kv. rewrite K1. apply alloc_kv. apply (r_alloc _ _ _ R). now apply path_incl.
    + intros b Hb. change (In b (path l (a1 ++ a2))) in Hb. apply (r_fresh _ _ _ R). now apply path_incl.
    + assert (G : forall b, In b (a1 ++ a2) -> kv (hfree h1 a) b = kv (l_heap l) b).
      { intros b Hb. rewrite <- K1. unfold kv. rewrite Hf; [reflexivity|]. rewrite path_in. auto. }
      apply Forall2_app; eapply Forall2_kv_ext; try eassumption; intros b Hb; apply G, in_app_iff; auto.
    + rewrite map_app. now apply NoDup_remove_1 in Hd.
    + intros k'. rewrite assoc_remove, (r_map _ _ _ R), !map_app. cbn [map fst].
      symmetry. apply assoc_combine_without; rewrite ?map_length; auto.
    + exact S1.
    + intros k'. rewrite S2, (r_keys _ _ _ R), !map_app, !in_app_iff. cbn. split.
      * intros (H & Hn). destruct H as [H|[H|H]]; auto. congruence.
      * intros [H|H]; (split; [auto|]); intros ->; contradiction.
  - pose proof (repr_absent l m as_ k R E) as Hnk. rewrite lpeek_none, lremove_not_in by exact Hnk.
    exists l, as_. auto.
Qed.

Lemma keys_length l m as_ : repr l m as_ -> length (l_keys l) = length m.
Proof.
  intros R. rewrite <- (map_length fst m). apply Permutation_length, NoDup_Permutation.
  - apply sorted_nodup, (r_sorted _ _ _ R).
  - exact (r_keys_distinct _ _ _ R).
  - exact (r_keys _ _ _ R).
Qed.
Lemma walk_refines h as_ m a t : links (nx h) (pv h) (a :: as_ ++ [t]) ->
  Forall2 (fun a e => kv h a = Some (Some (fst e), Some (snd e))) as_ m ->
  forall b, nx h a = Some b -> walk (length m) b h = Some (shown m).
Proof.
  intros HL F. revert a HL. induction F as [|c e as_ m He F IH]; intros a HL b Hb; [reflexivity|].
  cbn in HL. destruct HL as (H1 & _ & H3). rewrite Hb in H1. injection H1 as ->.
  cbn. unfold kv in He. destruct (h c) as [n|] eqn:En; [|discriminate]. cbn in *. injection He as Hk Hv.
  rewrite (IH c H3 (n_next n)) by (unfold nx; now rewrite En). cbn. rewrite Hk, Hv. now destruct e.
Qed.
Lemma iter_lru_refines l m as_ : repr l m as_ -> ptr_iter_lru l = Some (shown m).
Proof.
  intros R. unfold ptr_iter_lru. rewrite (keys_length l m as_ R).
  destruct (r_alloc _ _ _ R (l_head l)) as (n & En); [rewrite path_in; auto|]. rewrite En. cbn.
  eapply walk_refines; [exact (r_links _ _ _ R)|exact (r_nodes _ _ _ R)|]. unfold nx. now rewrite En.
Qed.
Lemma sorted_from_refines l m as_ ks : repr l m as_ -> (forall k, In k ks -> In k (map fst m)) ->
  exists r, sorted_from ks l = Some (shown r) /\ map fst r = ks /\ (forall e, In e r -> In e m).
Proof.
  intros R. induction ks as [|k ks IH]; intros H.
  - exists []. cbn. repeat split; auto. intros e [].
  - destruct IH as (r & E1 & E2 & E3); [intros; apply H; now right|]. cbn [sorted_from].
    destruct (assoc_str k (l_map l)) as [a|] eqn:E.
    + destruct (repr_present l m as_ k a R E) as (a1 & a2 & m1 & v0 & m2 & -> & -> & N1 & N2 & F1 & F2 & Hk).
      unfold kv in Hk. destruct (l_heap l a) as [n|]; [|discriminate]. cbn in Hk. injection Hk as Hk Hv.
      cbn [obind]. rewrite E1. cbn [obind]. rewrite Hk, Hv. exists ((k, v0) :: r). cbn. rewrite E2.
      repeat split; auto. intros e [<-|He]; [apply in_app_iff; right; now left|auto].
    + exfalso. apply (repr_absent l m as_ k R E). apply H. now left.
Qed.
Lemma iter_sorted_refines l m as_ : repr l m as_ -> ptr_iter_sorted l = Some (shown (liter_sorted m)).
Proof.
  intros R. unfold ptr_iter_sorted.
  destruct (sorted_from_refines l m as_ (l_keys l) R) as (r & E1 & E2 & E3); [intros k; apply (r_keys _ _ _ R)|].
  rewrite E1. do 2 f_equal. pose proof (r_keys_distinct _ _ _ R) as Hd.
  apply (same_bindings m); [exact Hd|exact E3| |].
  - intros e. apply Permutation_in, liter_sorted_perm.
  - rewrite E2. apply sorted_unique; [exact (r_sorted _ _ _ R)|now apply sorted_fst, liter_sorted_sorted|].
    intros k. rewrite (r_keys _ _ _ R). split; apply Permutation_in; [symmetry|]; apply Permutation_map, liter_sorted_perm.
Qed.

Lemma op_refines o l m as_ : repr l m as_ ->
  exists l' as', ptr_op o l = Some (fst (spec_op o m), l') /\ repr l' (snd (spec_op o m)) as'.
Proof.
  intros R. destruct o as [k v|k|k f|k|k| | |]; cbn [ptr_op spec_op fst snd].
  - destruct (push_refines l m as_ k v R) as (l' & as' & -> & R'). cbn. eauto.
  - destruct (get_mut_refines l m as_ k (fun v => v) R) as (l' & as' & -> & R'). cbn. eauto.
  - destruct (get_mut_refines l m as_ k f R) as (l' & as' & -> & R'). cbn. eauto.
  - rewrite (peek_refines l m as_ k R). cbn. eauto.
  - destruct (remove_refines l m as_ k R) as (l' & as' & -> & R'). cbn. eauto.
  - rewrite (iter_lru_refines l m as_ R). cbn. eauto.
  - rewrite (iter_sorted_refines l m as_ R). cbn. eauto.
  - rewrite (keys_length l m as_ R). eauto.
Qed.
Lemma repr_new : repr lru_new [] [].
Proof.
  constructor; cbn.
  - auto.
  - repeat constructor; cbn; intuition discriminate.
  - intros b [<-|[<-|[]]]; cbn; eauto.
  - intros b [<-|[<-|[]]]; lia.
  - constructor.
  - constructor.
  - reflexivity.
  - constructor.
  - reflexivity.
Qed.
Lemma run_refines os : forall l m as_, repr l m as_ ->
  exists l' as', ptr_run os l = Some (fst (spec_run os m), l') /\ repr l' (snd (spec_run os m)) as'.
Proof.
  induction os as [|o os IH]; intros l m as_ R; cbn [ptr_run spec_run].
  - exists l, as_. auto.
  - destruct (op_refines o l m as_ R) as (l1 & as1 & E1 & R1). rewrite E1. cbn [obind].
    destruct (spec_op o m) as [a m1]. cbn [fst snd] in *.
    destruct (IH l1 m1 as1 R1) as (l2 & as2 & E2 & R2). rewrite E2. cbn [obind].
    destruct (spec_run os m1) as [as_' m2]. cbn [fst snd] in *. eauto.
Qed.
End Refine.

(** * C30: whatever the sequence of operations on a new map, the linked-list implementation
    answers what a finite map with a most-recently-used-first list answers; in particular it
    never follows a wild pointer. *)
Theorem C30_refinement (V : Type) (os : list (mop V)) :
  exists l, ptr_run os lru_new = Some (fst (spec_run os []), l).
Proof. destruct (run_refines os lru_new [] [] repr_new) as (l & as_ & E & _). eauto. Qed.
(** The specification really is a map: one binding per key. *)
Lemma lremove_fst {V} k (m : lmap V) x : In x (map fst (lremove k m)) <-> In x (map fst m) /\ x <> k.
Proof.
  unfold lremove. induction m as [|[k' v] m IH]; cbn; [tauto|].
  destruct (str_eqb_spec k k') as [->|E]; cbn.
  - rewrite IH. split; [tauto|intros ([H|H] & Hn); [congruence|auto]].
  - rewrite IH. split; [intros [<-|H]; [auto|tauto]|tauto].
Qed.
Lemma lremove_nodup {V} k (m : lmap V) : NoDup (map fst m) -> NoDup (map fst (lremove k m)).
Proof.
  intros H. induction m as [|[k' v] m IH]; [exact H|]. cbn in *. apply NoDup_cons_iff in H as (H1 & H2).
  destruct (str_eqb_spec k k') as [->|E]; cbn; [now apply IH|]. constructor; [|now apply IH].
  intros H. apply (lremove_fst k m) in H. tauto.
Qed.
Lemma lpush_nodup {V} k (v : V) m : NoDup (map fst m) -> NoDup (map fst (lpush k v m)).
Proof.
  intros H. unfold lpush. cbn. constructor; [|now apply lremove_nodup]. rewrite lremove_fst. tauto.
Qed.
Lemma lupdate_nodup {V} k (f : V -> V) m : NoDup (map fst m) -> NoDup (map fst (lupdate k f m)).
Proof. intros H. unfold lupdate. destruct (lpeek k m); [|exact H]. now apply (lpush_nodup k). Qed.
Lemma spec_op_nodup {V} (o : mop V) m : NoDup (map fst m) -> NoDup (map fst (snd (spec_op o m))).
Proof.
  intros H. destruct o; cbn [spec_op snd]; auto using lupdate_nodup, lremove_nodup. now apply lpush_nodup.
Qed.
Theorem C30_one_binding (V : Type) (os : list (mop V)) : NoDup (map fst (snd (spec_run os []))).
Proof.
  assert (G : forall m, NoDup (map fst m) -> NoDup (map fst (snd (spec_run os m)))).
  { induction os as [|o os IH]; intros m H; [exact H|]. cbn.
    pose proof (spec_op_nodup o m H) as H1. destruct (spec_op o m) as [a m1]. cbn in H1.
    specialize (IH m1 H1). destruct (spec_run os m1). exact IH. }
  apply G. constructor.
Qed.
(** ... a lookup answers the last value pushed and not removed, and the most recently pushed,
    fetched or updated key comes first. *)
Theorem C30_most_recent_first (V : Type) (os : list (mop V)) o k :
  (match o with MPush k' _ => k' = k | MGet k' | MGetMut k' _ => k' = k /\ In k (map fst (snd (spec_run os []))) | _ => False end) ->
  hd_error (map fst (snd (spec_run (os ++ [o]) []))) = Some k.
Proof.
  assert (E : forall m, snd (spec_run (os ++ [o]) m) = snd (spec_op o (snd (spec_run os m)))).
  { induction os as [|o' os IH]; intros m; cbn.
    - destruct (spec_op o m). reflexivity.
    - destruct (spec_op o' m) as [a m1]. specialize (IH m1).
      destruct (spec_run (os ++ [o]) m1), (spec_run os m1). exact IH. }
  rewrite E. generalize (snd (spec_run os [])) as m. intros m H.
  assert (G : forall k' (f : V -> V), In k' (map fst m) -> hd_error (map fst (lupdate k' f m)) = Some k').
  { intros k' f Hin. unfold lupdate. destruct (lpeek k' m) eqn:El; [reflexivity|].
    exfalso. clear - Hin El. induction m as [|[k0 v0] m IH]; [destruct Hin|].
    unfold lpeek in El. cbn in El. destruct (str_eqb_spec k' k0) as [|E]; [discriminate|].
    destruct Hin as [Hin|Hin]; [cbn in Hin; congruence|]. now apply IH. }
  destruct o; try contradiction; cbn in *.
  - now subst.
  - destruct H as (-> & H). now apply G.
  - destruct H as (-> & H). now apply G.
Qed.
Theorem C30_lookup (V : Type) (os : list (mop V)) k k' v f :
  let m := snd (spec_run os []) in
  lpeek k' (lpush k v m) = (if str_eqb k' k then Some v else lpeek k' m)
  /\ lpeek k' (lremove k m) = (if str_eqb k' k then None else lpeek k' m)
  /\ lpeek k' (lupdate k f m) = (if str_eqb k' k then option_map f (lpeek k m) else lpeek k' m).
Proof.
  cbv zeta. generalize (snd (spec_run os [])) as m. intros m.
  assert (R : forall m : lmap V, lpeek k' (lremove k m) = if str_eqb k' k then None else lpeek k' m).
  { clear. intros m. unfold lpeek, lremove. induction m as [|[k0 v0] m IH]; cbn; [now destruct (str_eqb k' k)|].
    destruct (str_eqb_spec k k0) as [->|]; cbn.
    - rewrite IH. destruct (str_eqb_spec k' k0); reflexivity.
    - rewrite IH. destruct (str_eqb_spec k' k0) as [->|]; [|reflexivity].
      destruct (str_eqb_spec k0 k); [congruence|reflexivity]. }
  assert (P : forall v, lpeek k' (lpush k v m) = if str_eqb k' k then Some v else lpeek k' m).
  { intros v0. unfold lpush. unfold lpeek at 1. cbn. fold (lpeek k' (lremove k m)). rewrite R.
    destruct (str_eqb k' k); reflexivity. }
  split; [apply P|split; [apply R|]]. unfold lupdate. destruct (lpeek k m) as [v0|] eqn:E; [apply P|].
  destruct (str_eqb_spec k' k) as [->|]; [rewrite E|]; reflexivity.
Qed.
(** No link of a node in use is null, dangling or to itself: walking forward from the head
    marker visits exactly the bindings and ends at the tail marker, and backwards the same. *)
Theorem C30_links (V : Type) (os : list (mop V)) outs l : ptr_run os (V:=V) lru_new = Some (outs, l) ->
  exists as_, let p := l_head l :: as_ ++ [l_tail l] in
    NoDup p /\ length as_ = length (snd (spec_run os []))
    /\ (forall b, In b p -> exists n, l_heap l b = Some n)
    /\ (forall a b, (exists u v, p = u ++ a :: b :: v) ->
          (exists n, l_heap l a = Some n /\ n_next n = b) /\ (exists n, l_heap l b = Some n /\ n_prev n = a)).
Proof.
  destruct (run_refines os (V:=V) lru_new [] [] repr_new) as (l' & as_ & E & R).
  rewrite E. intros [= _ <-]. exists as_. cbv zeta. fold (path l' as_).
  split; [exact (r_nodup _ _ _ R)|split; [|split; [exact (r_alloc _ _ _ R)|]]].
  - eapply Forall2_length; exact (r_nodes _ _ _ R).
  - intros a b (u & v & Ep). pose proof (r_links _ _ _ R) as HL. rewrite Ep in HL.
    apply links_app in HL as (_ & HL). rewrite links_cons in HL. destruct HL as (H1 & H2 & _).
    unfold nx in H1. unfold pv in H2. destruct (l_heap l' a) as [na|]; [|discriminate].
    destruct (l_heap l' b) as [nb|]; [|discriminate]. cbn in *. split; eexists; (split; [reflexivity|congruence]).
Qed.

(** * C31 *)
Theorem C31_sorted (V : Type) (os : list (mop V)) outs l : ptr_run os lru_new = Some (outs, l) ->
  exists kvs, ptr_iter_sorted l = Some (map (fun '(k, v) => (Some k, Some v)) kvs)
    /\ StronglySorted str_lt (map fst kvs)
    /\ Permutation kvs (snd (spec_run os [])).
Proof.
  destruct (run_refines os (V:=V) lru_new [] [] repr_new) as (l' & as_ & E & R).
  rewrite E. intros [= _ <-]. exists (liter_sorted (snd (spec_run os []))).
  split; [exact (iter_sorted_refines _ _ _ R)|split; [|apply liter_sorted_perm]].
  apply sorted_fst, liter_sorted_sorted, (r_keys_distinct _ _ _ R).
Qed.

(** A concrete history with an update, a removal and both iterations. *)
Definition demo_ops : list (mop nat) :=
  [MPush (U "b") 1; MPush (U "a") 2; MPush (U "c") 3; MGetMut (U "b") (plus 10); MRemove (U "a");
   MPush (U "ab") 5; MPeek (U "b"); MPush (U "c") 7; MIterLru; MIterSorted; MLen].
Example demo_run : option_map fst (ptr_run demo_ops lru_new)
  = Some [AUnit; AUnit; AUnit; AVal (Some 1); AVal (Some 2); AUnit; AVal (Some 11); AUnit;
          AList (shown [(U "c", 7); (U "ab", 5); (U "b", 11)]);
          AList (shown [(U "ab", 5); (U "b", 11); (U "c", 7)]); ANum 3].
Proof. vm_compute. reflexivity. Qed.

(** * C56: iterating backwards *)
(** Both iterators also offer [next_back] (DoubleEndedIterator).  The property one would
    expect, that it yields the elements from the other end, is false. *)
Theorem C56_recency_back_refuted : exists (os : list (mop nat)) outs l,
  ptr_run os lru_new = Some (outs, l)
  /\ ptr_iter_lru l = Some (shown [(U "b", 2); (U "a", 1)])
  /\ ptr_iter_lru_back l = Some (shown [(U "b", 2); (U "b", 2)]).
Proof.
  exists [MPush (U "a") 1; MPush (U "b") 2]. eexists _, _. split; [reflexivity|]. split; vm_compute; reflexivity.
Qed.
Theorem C56_sorted_back_refuted (V : Type) (os : list (mop V)) outs l :
  ptr_run os lru_new = Some (outs, l) -> snd (spec_run os []) <> [] ->
  ptr_iter_sorted_back_first l = Panic PanicUnwrap.
Proof.
  destruct (run_refines os (V:=V) lru_new [] [] repr_new) as (l' & as_ & E & R).
  rewrite E. intros [= _ <-] Hne. pose proof (keys_length _ _ _ R) as Hl.
  unfold ptr_iter_sorted_back_first.
  destruct (snd (spec_run os [])) as [|e m]; [congruence|]. cbn in Hl.
  assert (H : Nat.ltb 0 (length (l_keys l')) = true) by (apply Nat.ltb_lt; lia). rewrite H.
  assert (Hn : nth_error (l_keys l') (length (l_keys l')) = None) by (apply nth_error_None; lia).
  now rewrite Hn.
Qed.
