(** C67: the life of dictionaries and contexts handed out by the C API. *)
From Verif Require Import Str Keys Modes KanaBuilder FormChanger DictTypes Dictionary CState Context
  Spec P_Monad P_Frames P_Inv CMem Handles.
From Verif Require Fine P_FineAlone P_Fine T_Fine.

(* ------------------------------------------------------------------ specification *)
(** What the client holds, told from its calls and their answers alone: the dictionary handles and
    the contexts it received and did not free. *)
Definition held := (list N * list N)%type.
Definition now_holds (h : held) (k : ccall) (a : canswer) : held :=
  match k, a with
  | CDictNew _, APtr (Some p) => (p :: fst h, snd h)
  | CContextNew _ _ _ _, APtr (Some p) | CContextFallback _ _ _ _, APtr (Some p) => (fst h, p :: snd h)
  | CFreeDictionary (Some p), _ => (remove N.eq_dec p (fst h), snd h)
  | CFreeContext (Some p), _ => (fst h, remove N.eq_dec p (snd h))
  | _, _ => h
  end.
(** The rules of capi.rs' Safety sections: only pass what you hold; NULL may be freed.  The other
    functions on contexts are the operations of Context.v. *)
Definition context_call (o : op) : Prop :=
  match o with OSetDictionaries _ | OOther _ => False | _ => True end.
(** An array of dictionary handles that may be passed: handles the client holds, or anything that begins
    with NULL. *)
Definition passable (hs : list ptr) (own : list N) : Prop :=
  (exists r, hs = None :: r) \/ exists l, hs = map Some l /\ incl l own.
Definition allowed (h : held) (k : ccall) : Prop :=
  match k with
  | CDictNew _ => True
  | CContextNew _ _ _ hs | CContextFallback _ _ _ hs => passable hs (fst h)
  | CSetDictionaries c hs => In c (snd h) /\ passable hs (fst h)
  | CUse c o => In c (snd h) /\ context_call o
  | CFreeDictionary (Some p) => In p (fst h)
  | CFreeContext (Some p) => In p (snd h)
  | CFreeDictionary None | CFreeContext None => True
  end.
Section S.
Context (X : xkb) (dbg : bool) (junk : dict).
Fixpoint careful (ks : list ccall) (h : held) (s : shared) : Prop :=
  match ks with
  | [] => True
  | k :: r => allowed h k /\
      match ccall_step X dbg junk k s with
      | CDone a s1 => careful r (now_holds h k a) s1
      | _ => True
      end
  end.
Fixpoint finally_holds (ks : list ccall) (l : list canswer) (h : held) : held :=
  match ks, l with
  | k :: r, a :: l' => finally_holds r l' (now_holds h k a)
  | _, _ => h
  end.

(** The same client in a world without memory management: nothing is counted, nothing destroyed,
    dictionary number [i] is simply the [i]-th that was opened. *)
Record kept := mkKept {
  q_store : list dict; q_boxes : list (N * nat); q_ctxs : list (N * ctx); q_next : N }.
Definition find_them (hs : list N) (q : kept) : list nat :=
  flat_map (fun h => match lookup h (q_boxes q) with Some i => [i] | None => [] end) hs.
Definition find_all (hs : list ptr) (q : kept) : list nat :=
  match hs with
  | None :: _ => []
  | _ => find_them (flat_map (fun p : ptr => match p with Some a => [a] | None => [] end) hs) q
  end.
Definition kept_ctx (c : ctx) (q : kept) : res (canswer * kept) :=
  Ok (APtr (Some (q_next q)), mkKept (q_store q) (q_boxes q) ((q_next q, c) :: q_ctxs q) (N.succ (q_next q))).
Definition kept_set (a : N) (c : ctx) (st : list dict) (q : kept) : kept :=
  mkKept st (q_boxes q) (map (fun p => if N.eqb a (fst p) then (a, c) else p) (q_ctxs q)) (q_next q).
Definition kept_step (k : ccall) (q : kept) : res (canswer * kept) :=
  match k with
  | CDictNew None => Ok (APtr None, q)
  | CDictNew (Some d) =>
      Ok (APtr (Some (q_next q)),
          mkKept (q_store q ++ [d]) ((q_next q, length (q_store q)) :: q_boxes q) (q_ctxs q) (N.succ (q_next q)))
  | CContextNew (Some r) kf am hs | CContextFallback (Some r) kf am hs =>
      kept_ctx (ctx_new X r kf am (find_all hs q) Hiragana Direct) q
  | CContextNew None _ _ _ => Ok (APtr None, q)
  | CContextFallback None kf am hs => kept_ctx (ctx_new_empty kf am (find_all hs q) Hiragana Direct) q
  | CSetDictionaries a hs =>
      match lookup a (q_ctxs q) with
      | None => Ok (AUnit, q)
      | Some c => match exec X dbg (OSetDictionaries (find_all hs q)) (mkW (q_store q) c) with
                  | Ok (_, w) => Ok (AUnit, kept_set a (w_ctx w) (w_store w) q)
                  | Panic e => Panic e
                  end
      end
  | CUse a o =>
      match lookup a (q_ctxs q) with
      | None => Ok (AUnit, q)
      | Some c => match exec X dbg o (mkW (q_store q) c) with
                  | Ok (x, w) => Ok (AOut x, kept_set a (w_ctx w) (w_store w) q)
                  | Panic e => Panic e
                  end
      end
  | CFreeDictionary _ | CFreeContext _ => Ok (AUnit, q)
  end.
Fixpoint kept_calls (ks : list ccall) (q : kept) : res (list canswer * kept) :=
  match ks with
  | [] => Ok ([], q)
  | k :: r => match kept_step k q with
              | Ok (a, q1) => match kept_calls r q1 with Ok (l, q2) => Ok (a :: l, q2) | Panic e => Panic e end
              | Panic e => Panic e
              end
  end.
Definition nothing_kept : kept := mkKept [] [] [] 0.

(** How many handles and contexts refer to dictionary [i]. *)
Definition references (i : nat) (s : shared) : nat :=
  length (filter (fun p => Nat.eqb (snd p) i) (g_boxes s))
  + list_sum (map (fun p => count_occ Nat.eq_dec (x_dicts (snd p)) i) (g_ctxs s)).

Local Arguments references : simpl never.
(* ------------------------------------------------------------------------- lists *)
Lemma nth_update_count i f (l : list nat) j : i < length l ->
  nth j (update_nth i f l) 0 = if Nat.eqb i j then f (nth j l 0) else nth j l 0.
Proof.
  revert i j; induction l as [|x l IH]; intros i j Hi; cbn in Hi; [lia|].
  destruct i, j; cbn; auto. apply IH. lia.
Qed.
Lemma update_length {A} i (f : A -> A) l : length (update_nth i f l) = length l.
Proof. revert i; induction l; intros [|i]; cbn; auto. Qed.
Lemma nth_error_upd {A} i (f : A -> A) l j : i <> j -> nth_error (update_nth i f l) j = nth_error l j.
Proof. revert i j; induction l; intros [|i] [|j] H; cbn; auto; lia. Qed.
Lemma count_in s i : arc_count s i <> 0 -> i < length (g_count s).
Proof. unfold arc_count. intros H. destruct (Nat.lt_ge_cases i (length (g_count s))); auto. now rewrite nth_overflow in H. Qed.
Definition occ (i : nat) (l : list nat) := count_occ Nat.eq_dec l i.
Local Arguments occ : simpl never.
Lemma occ_cons i x l : occ i (x :: l) = (if Nat.eqb x i then 1 else 0) + occ i l.
Proof. unfold occ. cbn. destruct (Nat.eq_dec x i), (Nat.eqb_spec x i); lia. Qed.

(* -------------------------------------------------------------------------- Arcs *)
(** Only counts change, and the contents of what is no longer counted. *)
Record counted (s s1 : shared) : Prop := {
  cn_boxes : g_boxes s1 = g_boxes s; cn_ctxs : g_ctxs s1 = g_ctxs s; cn_next : g_next s1 = g_next s;
  cn_len : length (g_store s1) = length (g_store s); cn_lenc : length (g_count s1) = length (g_count s);
  cn_store : forall j, arc_count s1 j <> 0 -> nth_error (g_store s1) j = nth_error (g_store s) j }.
Lemma counted_refl s : counted s s.
Proof. constructor; auto. Qed.
Lemma clone_ok i s : arc_count s i <> 0 -> exists s1, arc_clone i s = Some s1 /\ counted s s1 /\
  g_store s1 = g_store s /\ forall j, arc_count s1 j = (if Nat.eqb i j then 1 else 0) + arc_count s j.
Proof.
  intros H. unfold arc_clone. destruct (Nat.eqb_spec (arc_count s i) 0); [lia|].
  eexists; split; [reflexivity|]. pose proof (count_in _ _ H) as Hi. split; [|split; [reflexivity|]].
  - constructor; cbn; auto. apply update_length.
  - intros j. unfold arc_count; cbn. rewrite nth_update_count by exact Hi. destruct (Nat.eqb i j); lia.
Qed.
Lemma drop_ok i s : arc_count s i <> 0 -> exists s1, arc_drop junk i s = Some s1 /\ counted s s1 /\
  forall j, arc_count s1 j = arc_count s j - (if Nat.eqb i j then 1 else 0).
Proof.
  intros H. pose proof (count_in _ _ H) as Hi.
  assert (Hc : forall j, nth j (update_nth i pred (g_count s)) 0 = arc_count s j - (if Nat.eqb i j then 1 else 0)).
  { intros j. rewrite nth_update_count by exact Hi. unfold arc_count. destruct (Nat.eqb i j); lia. }
  unfold arc_drop. destruct (arc_count s i) as [|[|n]] eqn:E; [congruence| |].
  - eexists; split; [reflexivity|]. split; [|intros j; apply Hc].
    constructor; cbn; auto; try apply update_length.
    intros j Hj. apply nth_error_upd. intros ->. unfold arc_count in Hj; cbn in Hj. rewrite Hc, Nat.eqb_refl, E in Hj. lia.
  - eexists; split; [reflexivity|]. split; [|intros j; apply Hc].
    constructor; cbn; auto; apply update_length.
Qed.
Lemma clones_ok v : forall s, (forall i, In i v -> arc_count s i <> 0) ->
  exists s1, each_arc arc_clone v s = Some s1 /\ counted s s1 /\ g_store s1 = g_store s /\
    forall j, arc_count s1 j = occ j v + arc_count s j.
Proof.
  induction v as [|i v IH]; intros s H; cbn [each_arc].
  - exists s. split; [reflexivity|]. split; [apply counted_refl|]. split; reflexivity.
  - destruct (clone_ok i s) as (s1 & -> & C1 & E1 & N1); [apply H; now left|].
    destruct (IH s1) as (s2 & -> & C2 & E2 & N2).
    { intros j Hj. rewrite N1. specialize (H j (or_intror Hj)). lia. }
    exists s2. split; [reflexivity|]. destruct C1, C2. split; [|split; [congruence|]].
    + constructor; congruence.
    + intros j. rewrite N2, N1, occ_cons. lia.
Qed.
Lemma drops_ok v : forall s, (forall i, occ i v <= arc_count s i) ->
  exists s1, each_arc (arc_drop junk) v s = Some s1 /\ counted s s1 /\
    forall j, arc_count s1 j = arc_count s j - occ j v.
Proof.
  induction v as [|i v IH]; intros s H; cbn [each_arc].
  - exists s. split; [reflexivity|]. split; [apply counted_refl|]. intros j. unfold occ; cbn. lia.
  - destruct (drop_ok i s) as (s1 & -> & C1 & N1).
    { specialize (H i). rewrite occ_cons, Nat.eqb_refl in H. lia. }
    destruct (IH s1) as (s2 & -> & C2 & N2).
    { intros j. rewrite N1. specialize (H j). rewrite occ_cons in H. lia. }
    exists s2. split; [reflexivity|]. destruct C1, C2. split.
    + constructor; try congruence. intros j Hj. rewrite cn_store1 by exact Hj. apply cn_store0. rewrite N2 in Hj. lia.
    + intros j. rewrite N2, N1, occ_cons. lia.
Qed.

(* -------------------------------------------- a call looks only at its dictionaries *)
Definition same_on (P : nat -> Prop) (st st' : list dict) : Prop :=
  length st = length st' /\ forall i, P i -> nth_error st i = nth_error st' i.
Lemma same_on_nth P st st' i : same_on P st st' -> P i -> nth i st empty_dict = nth i st' empty_dict.
Proof.
  intros [_ H] Hp. specialize (H i Hp).
  destruct (nth_error st i) as [d|] eqn:E1; symmetry in H.
  - rewrite (nth_error_nth _ _ _ E1), (nth_error_nth _ _ _ H). reflexivity.
  - apply nth_error_None in E1. apply nth_error_None in H. now rewrite !nth_overflow.
Qed.
Lemma same_on_update P st st' i d : same_on P st st' ->
  same_on P (update_nth i (fun _ => d) st) (update_nth i (fun _ => d) st').
Proof.
  intros [Hl H]. split; [now rewrite !update_length|]. intros j Hj. specialize (H j Hj).
  destruct (Nat.eq_dec i j) as [->|Hn]; [|now rewrite !nth_error_upd].
  clear Hj. revert st st' Hl H; induction j as [|j IH]; intros [|x l] [|x' l'] Hl H; cbn in *; try congruence.
  apply IH; auto.
Qed.
Lemma alone_agree {A} E (V : nat -> Fine.access -> Prop) Q (P : nat -> Prop) (p : Fine.prog A) : P_Fine.pall E V Q p ->
  (forall i a, V i a -> P i) -> forall st st', same_on P st st' ->
  match Fine.alone p st, Fine.alone p st' with
  | Ok (x, s1), Ok (x', s1') => x = x' /\ same_on P s1 s1'
  | Panic e, Panic e' => e = e'
  | _, _ => False
  end.
Proof.
  intros Hp HV. induction p as [a|r|i a k IH]; intros st st' Hs; cbn.
  - auto.
  - auto.
  - destruct Hp as [Hi Hk]. rewrite <- (same_on_nth P st st' i Hs (HV _ _ Hi)).
    destruct (Fine.guarded a (nth i st empty_dict)) as [[x d]|e]; [|auto].
    apply IH; auto using same_on_update.
Qed.
Lemma exec_agree (P : nat -> Prop) o c st st' : context_call o -> x_stack c <> [] ->
  (forall i, In i (x_dicts c) -> P i) -> same_on P st st' ->
  match exec X dbg o (mkW st c), exec X dbg o (mkW st' c) with
  | Ok (x, w), Ok (x', w') => x = x' /\ w_ctx w = w_ctx w' /\ same_on P (w_store w) (w_store w')
  | Panic e, Panic e' => e = e'
  | _, _ => False
  end.
Proof.
  intros Ho Hne HP Hs.
  assert (Hoo : forall st, o <> OOther st) by (intros st0 ->; exact Ho).
  pose proof (P_FineAlone.alone_exec X dbg o (mkW st c) Hoo) as E1.
  pose proof (P_FineAlone.alone_exec X dbg o (mkW st' c) Hoo) as E2. cbn [w_ctx w_store] in E1, E2.
  pose proof (alone_agree _ _ _ P _ (T_Fine.f_exec_step X dbg all_flags o c (op_allowed_all _ _ _) Hne)
    (fun i a H => HP i (proj1 H)) st st' Hs) as H. rewrite E1, E2 in H.
  destruct (exec X dbg o (mkW st c)) as [[x w]|e], (exec X dbg o (mkW st' c)) as [[x' w']|e']; auto.
  destruct H as [He H]. injection He as -> ->. auto.
Qed.
Lemma drel_length ids st st' : drel ids st st' -> length st' = length st.
Proof. induction 1 as [|s1 s2 s3 _ IH H2]; auto. destruct H2; rewrite upd_dicts_length; exact IH. Qed.
Lemma exec_env o w : context_call o -> x_stack (w_ctx w) <> [] ->
  wp not_empty_stack (exec X dbg o) (fun _ w' => x_dicts (w_ctx w') = x_dicts (w_ctx w) /\
     length (w_store w') = length (w_store w)) w.
Proof.
  intros Ho Hw.
  assert (H : forall A (m : M A) (f : A -> out), reaches all_flags dbg (x_kb (w_ctx w)) (x_cmd (w_ctx w)) m ->
    wp not_empty_stack (bind m (fun x => ret (f x))) (fun _ w' => x_dicts (w_ctx w') = x_dicts (w_ctx w) /\
     length (w_store w') = length (w_store w)) w).
  { intros A m f Hm. apply wp_bind. eapply wp_mono; [apply Hm; [split|]; auto|].
    intros a w' Hr. split; [apply (wr_env _ _ _ _ Hr)|eapply drel_length, Hr]. }
  pose proof (op_allowed_all dbg o w) as Ha.
  destruct o; try contradiction; cbn [exec]; cbn in Ha; try (apply H); try (split; reflexivity).
  - apply r_key, Ha.
  - apply r_poll, Ha.
  - apply r_reset, Ha.
  - apply r_set_cmode.
  - apply r_set_imode, Ha.
  - apply r_select_at.
  - apply r_confirm_at.
Qed.
Lemma exec_dicts o w x w' : context_call o -> x_stack (w_ctx w) <> [] -> exec X dbg o w = Ok (x, w') ->
  x_dicts (w_ctx w') = x_dicts (w_ctx w) /\ x_stack (w_ctx w') <> [] /\ length (w_store w') = length (w_store w).
Proof.
  intros Ho Hne E. pose proof (exec_step X dbg o w Hne) as H. pose proof (exec_env o w Ho Hne) as H1.
  unfold wp in H, H1. rewrite E in H, H1. destruct H1 as [H1 H2].
  split; [exact H1|split; [|exact H2]]. eapply step_nonempty; eauto.
Qed.

(* ------------------------------------------------------------- handles and their sums *)
Fixpoint wsum {A} (f : A -> nat) (l : list (N * A)) : nat :=
  match l with [] => 0 | p :: r => f (snd p) + wsum f r end.
Lemma wsum_list_sum {A} (f : A -> nat) l : list_sum (map (fun p => f (snd p)) l) = wsum f l.
Proof. induction l; cbn; auto. Qed.
Lemma lookup_cons {A} a b (x : A) l : lookup a ((b, x) :: l) = if N.eqb a b then Some x else lookup a l.
Proof. unfold lookup. cbn. now destruct (N.eqb a b). Qed.
Lemma lookup_not {A} a (l : list (N * A)) : ~ In a (map fst l) -> lookup a l = None.
Proof.
  induction l as [|[b x] l IH]; intros H; [reflexivity|]. rewrite lookup_cons. cbn in H.
  destruct (N.eqb_spec a b) as [->|Hn]; [destruct H; auto|]. apply IH. auto.
Qed.
Lemma lookup_held {A} a (l : list (N * A)) : In a (map fst l) <-> exists x, lookup a l = Some x.
Proof.
  split.
  - induction l as [|[b x] l IH]; intros H; [destruct H|]. rewrite lookup_cons.
    destruct (N.eqb_spec a b) as [->|Hn]; [eauto|]. apply IH. cbn in H. destruct H as [H|H]; [congruence|exact H].
  - intros [x H]. destruct (in_dec N.eq_dec a (map fst l)) as [|Hn]; auto. rewrite lookup_not in H by exact Hn. discriminate.
Qed.
Lemma lookup_member {A} a (x : A) l : lookup a l = Some x -> In (a, x) l.
Proof.
  induction l as [|[b y] l IH]; [discriminate|]. rewrite lookup_cons.
  destruct (N.eqb_spec a b) as [->|Hn]; [intros [= ->]; now left|right; auto].
Qed.
Lemma without_names {A} a (l : list (N * A)) b : In b (map fst (without a l)) <-> In b (map fst l) /\ b <> a.
Proof.
  unfold without. rewrite !in_map_iff. split.
  - intros ([c x] & <- & H). apply filter_In in H as [H1 H2]. cbn in *. destruct (N.eqb_spec a c); [discriminate|].
    split; [exists (c, x); auto|congruence].
  - intros [([c x] & <- & H) Hn]. exists (c, x). split; [reflexivity|]. apply filter_In. split; [exact H|].
    cbn in *. destruct (N.eqb_spec a c); [congruence|reflexivity].
Qed.
Lemma nodup_without {A} a (l : list (N * A)) : NoDup (map fst l) -> NoDup (map fst (without a l)).
Proof.
  induction l as [|[b x] l IH]; [auto|]. cbn. intros H; inversion H; subst. fold (without a l).
  destruct (N.eqb a b); cbn; auto. constructor; auto. intros Hi. apply without_names in Hi as [Hi _]; auto.
Qed.
Lemma without_absent {A} a (l : list (N * A)) : ~ In a (map fst l) -> without a l = l.
Proof.
  induction l as [|[b x] l IH]; [auto|]. cbn. intros H. fold (without a l).
  destruct (N.eqb_spec a b); [subst; destruct H; auto|]. cbn. rewrite IH; auto.
Qed.
Lemma lookup_without {A} a b (l : list (N * A)) : lookup b (without a l) = if N.eqb b a then None else lookup b l.
Proof.
  induction l as [|[c x] l IH]; [cbn; now destruct (N.eqb b a)|]. cbn. fold (without a l).
  destruct (N.eqb_spec a c) as [->|Hn]; cbn [negb].
  - rewrite IH, lookup_cons. now destruct (N.eqb b c).
  - rewrite !lookup_cons, IH. destruct (N.eqb_spec b c); [|reflexivity]. destruct (N.eqb_spec b a); congruence.
Qed.
Lemma wsum_without {A} (f : A -> nat) a x l : NoDup (map fst l) -> lookup a l = Some x ->
  wsum f l = f x + wsum f (without a l).
Proof.
  induction l as [|[b y] l IH]; [discriminate|]. intros Hd. inversion Hd as [|? ? Hb Hl]; subst.
  rewrite lookup_cons. cbn. fold (without a l). destruct (N.eqb_spec a b) as [->|Hn]; cbn.
  - intros [= ->]. now rewrite without_absent.
  - intros H. rewrite (IH Hl H). lia.
Qed.
Definition replaced {A} (a : N) (c : A) (l : list (N * A)) := map (fun p => if N.eqb a (fst p) then (a, c) else p) l.
Lemma replaced_names {A} a (c : A) l : map fst (replaced a c l) = map fst l.
Proof.
  unfold replaced. rewrite map_map. apply map_ext. intros [b x]; cbn. now destruct (N.eqb_spec a b).
Qed.
Lemma lookup_replaced {A} a (c : A) l b : lookup b (replaced a c l) =
  match lookup b l with Some x => Some (if N.eqb b a then c else x) | None => None end.
Proof.
  induction l as [|[d x] l IH]; [reflexivity|]. cbn [replaced map fst]. fold (replaced a c l).
  destruct (N.eqb_spec a d) as [->|Hn]; rewrite !lookup_cons, IH.
  - destruct (N.eqb_spec b d); reflexivity.
  - destruct (N.eqb_spec b d) as [->|]; [|reflexivity]. destruct (N.eqb_spec d a); congruence.
Qed.
Lemma replaced_absent {A} a (c : A) l : ~ In a (map fst l) -> replaced a c l = l.
Proof.
  induction l as [|[b x] l IH]; [auto|]. cbn. intros H. fold (replaced a c l).
  destruct (N.eqb_spec a b); [subst; destruct H; auto|]. rewrite IH; auto.
Qed.
Lemma wsum_replaced {A} (f : A -> nat) a x c l : NoDup (map fst l) -> lookup a l = Some x ->
  wsum f (replaced a c l) + f x = wsum f l + f c.
Proof.
  induction l as [|[b y] l IH]; [discriminate|]. intros Hd. inversion Hd as [|? ? Hb Hl]; subst.
  rewrite lookup_cons. cbn. fold (replaced a c l). destruct (N.eqb_spec a b) as [->|Hn]; cbn.
  - intros [= ->]. rewrite replaced_absent by exact Hb. lia.
  - intros H. specialize (IH Hl H). lia.
Qed.
Definition here (i : nat) (k : nat) : nat := if Nat.eqb k i then 1 else 0.
Lemma references_sums i s : references i s = wsum (here i) (g_boxes s) + wsum (fun c => occ i (x_dicts c)) (g_ctxs s).
Proof.
  unfold references, occ. rewrite (wsum_list_sum (fun c => count_occ Nat.eq_dec (x_dicts c) i)). f_equal. induction (g_boxes s) as [|[a k] l IH]; [reflexivity|].
  cbn. unfold here at 1. destruct (Nat.eqb k i); cbn; now rewrite IH.
Qed.
Lemma wsum_in {A} (f : A -> nat) a x l : lookup a l = Some x -> f x <= wsum f l.
Proof.
  induction l as [|[b y] l IH]; [discriminate|]. rewrite lookup_cons. cbn.
  destruct (N.eqb a b); [intros [= ->]; lia|]. intros H. specialize (IH H). lia.
Qed.

(* ----------------------------------------------------------------------- the invariant *)
Record inv (h : held) (s : shared) (q : kept) : Prop := {
  in_len : length (g_count s) = length (g_store s);
  in_count : forall i, arc_count s i = references i s;
  in_boxes : NoDup (map fst (g_boxes s)); in_ctxs : NoDup (map fst (g_ctxs s));
  in_newb : forall a, In a (map fst (g_boxes s)) -> (a < g_next s)%N;
  in_newc : forall a, In a (map fst (g_ctxs s)) -> (a < g_next s)%N;
  in_stack : forall a c, lookup a (g_ctxs s) = Some c -> x_stack c <> [];
  in_hb : forall a, In a (fst h) <-> In a (map fst (g_boxes s));
  in_hc : forall a, In a (snd h) <-> In a (map fst (g_ctxs s));
  in_next : q_next q = g_next s;
  in_same : same_on (fun i => arc_count s i <> 0) (g_store s) (q_store q);
  in_qb : forall a i, lookup a (g_boxes s) = Some i -> lookup a (q_boxes q) = Some i;
  in_qc : forall a c, lookup a (g_ctxs s) = Some c -> lookup a (q_ctxs q) = Some c }.

Lemma box_alive h s q a i : inv h s q -> lookup a (g_boxes s) = Some i -> arc_count s i <> 0.
Proof.
  intros I H. rewrite (in_count _ _ _ I), references_sums.
  pose proof (wsum_in (here i) a i _ H) as Hw. unfold here in Hw at 1. rewrite Nat.eqb_refl in Hw. lia.
Qed.
Lemma ctx_alive h s q a c i : inv h s q -> lookup a (g_ctxs s) = Some c -> occ i (x_dicts c) <= arc_count s i.
Proof.
  intros I H. rewrite (in_count _ _ _ I), references_sums.
  pose proof (wsum_in (fun c => occ i (x_dicts c)) a c _ H) as Hw. cbn in Hw. lia.
Qed.
Lemma occ_in i l : In i l <-> occ i l <> 0.
Proof. unfold occ. rewrite (count_occ_In Nat.eq_dec). lia. Qed.
Lemma counted_refs s s1 i : counted s s1 -> references i s1 = references i s.
Proof. intros []. unfold references. congruence. Qed.

Lemma from_c_ok hs : forall s, (forall a i, lookup a (g_boxes s) = Some i -> arc_count s i <> 0) ->
  (forall a, In a hs -> In a (map fst (g_boxes s))) ->
  exists v s1, clone_boxes hs s = Some (v, s1) /\ counted s s1 /\ g_store s1 = g_store s /\
    (forall j, arc_count s1 j = occ j v + arc_count s j) /\
    v = flat_map (fun h => match lookup h (g_boxes s) with Some i => [i] | None => [] end) hs.
Proof.
  induction hs as [|a hs IH]; intros s Hl Hin; cbn [clone_boxes flat_map].
  - exists [], s. split; [reflexivity|]. split; [apply counted_refl|]. split; [reflexivity|]. split; reflexivity.
  - destruct (proj1 (lookup_held a (g_boxes s)) (Hin a (or_introl eq_refl))) as [i Hi]. rewrite Hi.
    destruct (clone_ok i s (Hl _ _ Hi)) as (s1 & -> & C1 & E1 & N1).
    destruct (IH s1) as (v & s2 & -> & C2 & E2 & N2 & ->).
    { intros b j. rewrite (cn_boxes _ _ C1). intros Hj. rewrite N1. specialize (Hl _ _ Hj). lia. }
    { intros b Hb. rewrite (cn_boxes _ _ C1). apply Hin. now right. }
    exists (i :: flat_map (fun h => match lookup h (g_boxes s1) with Some i => [i] | None => [] end) hs), s2.
    split; [reflexivity|]. rewrite (cn_boxes _ _ C1). destruct C1, C2. split; [|split; [congruence|split; [|reflexivity]]].
    + constructor; congruence.
    + intros j. rewrite N2, N1, occ_cons, cn_boxes0. lia.
Qed.
Lemma find_them_same h s q hs : inv h s q -> (forall a, In a hs -> In a (map fst (g_boxes s))) ->
  find_them hs q = flat_map (fun h => match lookup h (g_boxes s) with Some i => [i] | None => [] end) hs.
Proof.
  intros I. unfold find_them. induction hs as [|a hs IH]; intros H; [reflexivity|]. cbn.
  destruct (proj1 (lookup_held a (g_boxes s)) (H a (or_introl eq_refl))) as [i Hi].
  rewrite Hi, (in_qb _ _ _ I _ _ Hi). cbn. f_equal. apply IH. intros b Hb. apply H. now right.
Qed.
Lemma no_nulls_some l : no_nulls (map Some l) = Some l.
Proof. induction l as [|a l IH]; [reflexivity|]. cbn. now rewrite IH. Qed.
Lemma from_c_some l s : dictionaries_from_c_repr (map Some l) s = clone_boxes l s.
Proof. destruct l as [|a l]; [reflexivity|]. cbn [map dictionaries_from_c_repr]. change (Some a :: map Some l) with (map (@Some N) (a :: l)). now rewrite no_nulls_some. Qed.
Lemma flat_some (l : list N) : flat_map (fun p : ptr => match p with Some a => [a] | None => [] end) (map Some l) = l.
Proof. induction l; cbn; congruence. Qed.
Lemma find_all_some l q : find_all (map Some l) q = find_them l q.
Proof. destruct l as [|a l]; [reflexivity|]. unfold find_all. cbn [map]. change (Some a :: map Some l) with (map (@Some N) (a :: l)). now rewrite flat_some. Qed.
Lemma remove_in a l b : In b (remove N.eq_dec a l) <-> In b l /\ b <> a.
Proof. split; [apply in_remove|intros []; now apply in_in_remove]. Qed.

Lemma inv_new_ctx h s q s1 c v : inv h s q -> counted s s1 -> (forall j, arc_count s1 j = occ j v + arc_count s j) ->
  (forall j, arc_count s1 j <> 0 -> arc_count s j <> 0) ->
  x_dicts c = v -> x_stack c <> [] ->
  inv (fst h, g_next s1 :: snd h) (mkShared (g_store s1) (g_count s1) (g_boxes s1) ((g_next s1, c) :: g_ctxs s1) (N.succ (g_next s1)))
      (mkKept (q_store q) (q_boxes q) ((q_next q, c) :: q_ctxs q) (N.succ (q_next q))).
Proof.
  intros I C Hn Hpos Hv Hs. destruct I, C. constructor; cbn.
  - congruence.
  - intros i. unfold arc_count in *; cbn in *. rewrite Hn. rewrite in_count0, !references_sums; cbn.
    rewrite cn_boxes0, cn_ctxs0, Hv. lia.
  - now rewrite cn_boxes0.
  - constructor; [|now rewrite cn_ctxs0]. rewrite cn_ctxs0, cn_next0. intros Hx. apply in_newc0 in Hx. lia.
  - rewrite cn_boxes0, cn_next0. intros a Ha. apply in_newb0 in Ha. lia.
  - rewrite cn_ctxs0, cn_next0. intros a [<-|Ha]; [lia|]. apply in_newc0 in Ha. lia.
  - intros a d. rewrite lookup_cons, cn_ctxs0. destruct (N.eqb a (g_next s1)); [intros [= <-]; exact Hs|apply in_stack0].
  - intros a. rewrite cn_boxes0. apply in_hb0.
  - intros a. rewrite cn_ctxs0, <- in_hc0. reflexivity.
  - congruence.
  - destruct in_same0 as [Hl Hsame]. split; [congruence|]. intros i Hi.
    unfold arc_count in Hi; cbn in Hi. rewrite (cn_store0 i Hi). apply Hsame. now apply Hpos.
  - rewrite cn_boxes0. exact in_qb0.
  - intros a d. rewrite !lookup_cons, cn_ctxs0, in_next0, cn_next0.
    destruct (N.eqb a (g_next s)); [auto|apply in_qc0].
Qed.
Lemma ctx_new_dicts r kf am v i c : x_dicts (ctx_new X r kf am v i c) = v /\ x_stack (ctx_new X r kf am v i c) <> [].
Proof. split; [reflexivity|discriminate]. Qed.
Lemma ctx_empty_dicts kf am v i c : x_dicts (ctx_new_empty kf am v i c) = v /\ x_stack (ctx_new_empty kf am v i c) <> [].
Proof. split; [reflexivity|discriminate]. Qed.
Lemma alive_ok h s q a c : inv h s q -> lookup a (g_ctxs s) = Some c -> alive s (x_dicts c) = true.
Proof.
  intros I H. apply forallb_forall. intros i Hi. apply occ_in in Hi. pose proof (ctx_alive _ _ _ _ _ i I H).
  destruct (Nat.eqb_spec (arc_count s i) 0); [lia|reflexivity].
Qed.
Lemma inv_counted h s q s1 : inv h s q -> counted s s1 -> (forall j, arc_count s1 j = arc_count s j) -> inv h s1 q.
Proof.
  intros I C Hn. pose proof (fun i => counted_refs _ _ i C) as Hr. destruct I, C.
  constructor; rewrite ?cn_boxes0, ?cn_ctxs0, ?cn_next0; auto; try congruence.
  destruct in_same0 as [Hl Hsame]. split; [congruence|]. intros i Hi. rewrite cn_store0 by exact Hi. apply Hsame. congruence.
Qed.

Lemma found_alive h s q hs v : inv h s q ->
  v = flat_map (fun h => match lookup h (g_boxes s) with Some i => [i] | None => [] end) hs ->
  forall j, occ j v <> 0 -> arc_count s j <> 0.
Proof.
  intros I -> j Hj. apply occ_in, in_flat_map in Hj as (a & _ & Ha).
  destruct (lookup a (g_boxes s)) as [i|] eqn:E; [|destruct Ha]. destruct Ha as [->|[]]. eapply box_alive; eauto.
Qed.
Lemma step_ok h s q k : inv h s q -> allowed h k ->
  match ccall_step X dbg junk k s with
  | CDone a s1 => exists q1, kept_step k q = Ok (a, q1) /\ inv (now_holds h k a) s1 q1
  | CPanics => exists e, kept_step k q = Panic e
  | CUndefined => False
  end.
Proof.
  intros I Ha.
  assert (Hfc : forall hs, passable hs (fst h) -> exists v s1, dictionaries_from_c_repr hs s = Some (v, s1) /\
    counted s s1 /\ g_store s1 = g_store s /\ (forall j, arc_count s1 j = occ j v + arc_count s j) /\
    v = find_all hs q /\ (forall j, arc_count s1 j <> 0 -> arc_count s j <> 0)).
  { intros hs [(r0 & ->)|(l & -> & Hi)].
    { exists [], s. repeat (split; [first [reflexivity|apply counted_refl]|]). auto. }
    rewrite from_c_some, find_all_some. rename l into hs.
    assert (Hb : forall a, In a hs -> In a (map fst (g_boxes s))) by (intros a Hx; apply (in_hb _ _ _ I), Hi, Hx).
    destruct (from_c_ok hs s (fun a i => box_alive _ _ _ a i I) Hb) as (v & s1 & E & C & Es & N & Hv).
    exists v, s1. repeat (split; [assumption|]). split; [rewrite (find_them_same _ _ _ _ I Hb); exact Hv|].
    intros j. rewrite N. intros Hj. destruct (Nat.eq_dec (occ j v) 0) as [E0|E0]; [lia|].
    eapply found_alive; eauto. }
  destruct k as [[d|]|r kf am hs|r kf am hs|a hs|a o|[a|]|[a|]]; cbn [ccall_step kept_step]; cbn in Ha.
  - (* a new dictionary *)
    unfold give_box. cbn. eexists. rewrite (in_next _ _ _ I). split; [reflexivity|].
    destruct I. destruct in_same0 as [Hl Hsame]. constructor; cbn.
    + rewrite !app_length; cbn; lia.
    + intros i. unfold arc_count; cbn. rewrite references_sums; cbn.
      specialize (in_count0 i). rewrite references_sums in in_count0. unfold arc_count in in_count0. unfold here at 1.
      destruct (Nat.eqb_spec (length (g_store s)) i) as [<-|Hn].
      * rewrite app_nth2 by lia. rewrite in_len0, Nat.sub_diag. cbn. rewrite nth_overflow in in_count0 by lia. lia.
      * destruct (Nat.lt_ge_cases i (length (g_count s))) as [Hi|Hi].
        -- rewrite app_nth1 by exact Hi. lia.
        -- rewrite nth_overflow in in_count0 by exact Hi. rewrite nth_overflow; [lia|]. rewrite app_length; cbn; lia.
    + constructor; [|exact in_boxes0]. intros H. apply in_newb0 in H. lia.
    + exact in_ctxs0.
    + intros a [<-|H]; [lia|]. apply in_newb0 in H. lia.
    + intros a H. apply in_newc0 in H. lia.
    + exact in_stack0.
    + intros a. rewrite <- in_hb0. reflexivity.
    + exact in_hc0.
    + reflexivity.
    + split; [rewrite !app_length; cbn; lia|]. intros i. unfold arc_count; cbn. intros Hi.
      destruct (Nat.lt_ge_cases i (length (g_store s))) as [Hlt|Hge].
      * rewrite !nth_error_app1 by lia. apply Hsame. unfold arc_count. rewrite app_nth1 in Hi by lia. exact Hi.
      * rewrite !nth_error_app2 by lia. now rewrite Hl.
    + intros a i. rewrite !lookup_cons. rewrite Hl. destruct (N.eqb a (g_next s)); auto.
    + exact in_qc0.
  - exists q. split; [reflexivity|exact I].
  - (* a new context *)
    destruct (Hfc hs Ha) as (v & s1 & -> & C & Es & N & Hv & Hpos). destruct r as [r|].
    + set (c := ctx_new X r kf am v Hiragana Direct).
      exists (mkKept (q_store q) (q_boxes q) ((q_next q, c) :: q_ctxs q) (N.succ (q_next q))). split.
      * unfold kept_ctx. rewrite <- Hv. fold c. rewrite (in_next _ _ _ I), (cn_next _ _ C). reflexivity.
      * cbn [now_holds]. apply (inv_new_ctx h s q s1 c v I C N Hpos); [reflexivity|discriminate].
    + destruct (drops_ok v s1) as (s2 & -> & C2 & N2); [intros i; rewrite N; lia|].
      exists q. split; [reflexivity|]. cbn. eapply inv_counted; [exact I| |].
      * destruct C, C2. constructor; try congruence. intros j Hj. rewrite cn_store1 by exact Hj. now rewrite Es.
      * intros j. rewrite N2, N. lia.
  - (* a new context with fallback *)
    destruct (Hfc hs Ha) as (v & s1 & -> & C & Es & N & Hv & Hpos).
    destruct (clones_ok v s1) as (s2 & -> & C2 & Es2 & N2).
    { intros i Hi. apply occ_in in Hi. rewrite N. lia. }
    destruct (drops_ok v s2) as (s3 & -> & C3 & N3); [intros i; rewrite N2; lia|].
    assert (C13 : counted s s3).
    { destruct C, C2, C3. constructor; try congruence. intros j Hj. rewrite cn_store2 by exact Hj. now rewrite Es2, Es. }
    assert (N13 : forall j, arc_count s3 j = occ j v + arc_count s j) by (intros j; rewrite N3, N2, N; lia).
    assert (Hpos3 : forall j, arc_count s3 j <> 0 -> arc_count s j <> 0).
    { intros j Hj. apply Hpos. rewrite N3, N2 in Hj. lia. }
    set (c := match r with Some r => ctx_new X r kf am v Hiragana Direct | None => ctx_new_empty kf am v Hiragana Direct end).
    exists (mkKept (q_store q) (q_boxes q) ((q_next q, c) :: q_ctxs q) (N.succ (q_next q))). split.
    + unfold kept_ctx, c. rewrite <- Hv, (in_next _ _ _ I), (cn_next _ _ C13). destruct r; reflexivity.
    + cbn [now_holds]. apply (inv_new_ctx h s q s3 c v I C13 N13 Hpos3); destruct r; (reflexivity || discriminate).
  - (* set_dictionaries *)
    destruct Ha as [Hc Hs]. apply (in_hc _ _ _ I) in Hc. destruct (proj1 (lookup_held _ _) Hc) as [c Ec]. rewrite Ec.
    rewrite (in_qc _ _ _ I _ _ Ec).
    destruct (Hfc hs Hs) as (v & s1 & -> & C & Es & N & Hv & Hpos). rewrite <- Hv. cbn [exec w_ctx w_store].
    set (c1 := mkCtx (x_stack c) (x_cmd c) (x_kb c) (x_kf c) (x_am c) v (x_cfg c)).
    pose proof (fun i => ctx_alive _ _ _ _ _ i I Ec) as Hocc.
    destruct (drops_ok (x_dicts c) (set_ctx a c1 (g_store s1) s1)) as (s2 & -> & C2 & N2).
    { intros i. change (arc_count (set_ctx a c1 (g_store s1) s1) i) with (arc_count s1 i). rewrite N. specialize (Hocc i). lia. }
    assert (N3 : forall j, arc_count s2 j = occ j v + arc_count s j - occ j (x_dicts c)).
    { intros j. rewrite N2. change (arc_count (set_ctx a c1 (g_store s1) s1) j) with (arc_count s1 j). now rewrite N. }
    eexists; split; [reflexivity|]. cbn [now_holds]. destruct I, C, C2.
    cbn [set_ctx g_store g_count g_boxes g_ctxs g_next] in *. fold (replaced a c1 (g_ctxs s1)) in *.
    assert (Hk : kept_set a c1 (q_store q) q = mkKept (q_store q) (q_boxes q) (replaced a c1 (q_ctxs q)) (q_next q)) by reflexivity.
    rewrite Hk. rewrite cn_ctxs0 in cn_ctxs1. constructor; cbn; rewrite ?cn_boxes1, ?cn_ctxs1, ?cn_next1, ?cn_boxes0, ?cn_next0, ?replaced_names; auto.
    + congruence.
    + intros i. rewrite N3, in_count0. rewrite !references_sums, cn_boxes1, cn_boxes0, cn_ctxs1.
      pose proof (wsum_replaced (fun c => occ i (x_dicts c)) a c c1 _ in_ctxs0 Ec) as Hw. cbn in Hw.
      specialize (Hocc i). rewrite in_count0, references_sums in Hocc. lia.
    + intros b d. rewrite lookup_replaced. destruct (lookup b (g_ctxs s)) as [d0|] eqn:Ed; [|discriminate].
      intros [= <-]. destruct (N.eqb b a); [exact (in_stack0 _ _ Ec)|eauto].
    + destruct in_same0 as [Hl Hsame]. split; [congruence|]. intros i Hi. rewrite cn_store1 by exact Hi. rewrite Es.
      apply Hsame. apply Hpos. rewrite N. rewrite N3 in Hi. lia.
    + intros b d. rewrite !lookup_replaced. destruct (lookup b (g_ctxs s)) as [d0|] eqn:Ed; [|discriminate].
      rewrite (in_qc0 _ _ Ed). auto.
  - (* a call on a context *)
    destruct Ha as [Hc Ho]. apply (in_hc _ _ _ I) in Hc. destruct (proj1 (lookup_held _ _) Hc) as [c Ec]. rewrite Ec.
    rewrite (in_qc _ _ _ I _ _ Ec), (alive_ok _ _ _ _ _ I Ec).
    pose proof (in_stack _ _ _ I _ _ Ec) as Hne.
    assert (HP : forall i, In i (x_dicts c) -> arc_count s i <> 0).
    { intros i Hi. apply occ_in in Hi. pose proof (ctx_alive _ _ _ _ _ i I Ec). lia. }
    pose proof (exec_agree _ o c (g_store s) (q_store q) Ho Hne HP (in_same _ _ _ I)) as Hag.
    destruct (exec X dbg o (mkW (g_store s) c)) as [[x w]|e] eqn:E1;
      destruct (exec X dbg o (mkW (q_store q) c)) as [[x' w']|e'] eqn:E2; try contradiction; [|eauto].
    destruct Hag as (<- & Hcc & Hst). destruct (exec_dicts o (mkW (g_store s) c) x w Ho Hne E1) as (Hd & Hn & Hlen). cbn in Hd, Hlen.
    eexists; split; [reflexivity|]. cbn [now_holds]. rewrite <- Hcc. destruct I.
    assert (Hk : kept_set a (w_ctx w) (w_store w') q = mkKept (w_store w') (q_boxes q) (replaced a (w_ctx w) (q_ctxs q)) (q_next q)) by reflexivity.
    rewrite Hk. unfold set_ctx. fold (replaced a (w_ctx w) (g_ctxs s)). constructor; cbn; rewrite ?replaced_names; auto.
    + congruence.
    + intros i. transitivity (arc_count s i); [reflexivity|]. rewrite in_count0, !references_sums; cbn.
      pose proof (wsum_replaced (fun c => occ i (x_dicts c)) a c (w_ctx w) _ in_ctxs0 Ec) as Hw. cbn in Hw. rewrite Hd in Hw. lia.
    + intros b d. rewrite lookup_replaced. destruct (lookup b (g_ctxs s)) as [d0|] eqn:Ed; [|discriminate].
      intros [= <-]. destruct (N.eqb b a); [exact Hn|eauto].
    + intros b d. rewrite !lookup_replaced. destruct (lookup b (g_ctxs s)) as [d0|] eqn:Ed; [|discriminate].
      rewrite (in_qc0 _ _ Ed). auto.
  - (* freeing a dictionary handle *)
    apply (in_hb _ _ _ I) in Ha. destruct (proj1 (lookup_held _ _) Ha) as [i Ei]. rewrite Ei.
    set (s0 := mkShared (g_store s) (g_count s) (without a (g_boxes s)) (g_ctxs s) (g_next s)).
    pose proof (box_alive _ _ _ _ _ I Ei) as Hi.
    destruct (drop_ok i s0 Hi) as (s1 & -> & C & N).
    exists q. split; [reflexivity|]. cbn [now_holds]. destruct I, C.
    unfold s0 in *; cbn [g_store g_count g_boxes g_ctxs g_next] in *.
    assert (N1 : forall j, arc_count s1 j = arc_count s j - here j i) by exact N.
    constructor; cbn [fst snd]; rewrite ?cn_boxes0, ?cn_ctxs0, ?cn_next0; auto using nodup_without.
    + congruence.
    + intros j. rewrite N1, in_count0, !references_sums, cn_boxes0, cn_ctxs0.
      rewrite (wsum_without (here j) a i _ in_boxes0 Ei). lia.
    + intros b Hb. apply without_names in Hb as [Hb _]. auto.
    + intros b. rewrite remove_in, without_names, in_hb0. reflexivity.
    + destruct in_same0 as [Hl Hsame]. split; [congruence|]. intros j Hj. rewrite cn_store0 by exact Hj.
      apply Hsame. rewrite N1 in Hj. lia.
    + intros b j. rewrite lookup_without. destruct (N.eqb b a); [discriminate|auto].
  - exists q. split; [reflexivity|exact I].
  - (* freeing a context *)
    apply (in_hc _ _ _ I) in Ha. destruct (proj1 (lookup_held _ _) Ha) as [c Ec]. rewrite Ec.
    set (s0 := mkShared (g_store s) (g_count s) (g_boxes s) (without a (g_ctxs s)) (g_next s)).
    pose proof (fun i => ctx_alive _ _ _ _ _ i I Ec) as Hocc.
    destruct (drops_ok (x_dicts c) s0 Hocc) as (s1 & -> & C & N).
    exists q. split; [reflexivity|]. cbn [now_holds]. destruct I, C.
    unfold s0 in *; cbn [g_store g_count g_boxes g_ctxs g_next] in *.
    assert (N1 : forall j, arc_count s1 j = arc_count s j - occ j (x_dicts c)) by exact N.
    constructor; cbn [fst snd]; rewrite ?cn_boxes0, ?cn_ctxs0, ?cn_next0; auto using nodup_without.
    + congruence.
    + intros j. rewrite N1, in_count0, !references_sums, cn_boxes0, cn_ctxs0.
      rewrite (wsum_without (fun c => occ j (x_dicts c)) a c _ in_ctxs0 Ec). lia.
    + intros b Hb. apply without_names in Hb as [Hb _]. auto.
    + intros b d. rewrite lookup_without. destruct (N.eqb b a); [discriminate|apply in_stack0].
    + intros b. rewrite remove_in, without_names, in_hc0. reflexivity.
    + destruct in_same0 as [Hl Hsame]. split; [congruence|]. intros j Hj. rewrite cn_store0 by exact Hj.
      apply Hsame. rewrite N1 in Hj. lia.
    + intros b d. rewrite lookup_without. destruct (N.eqb b a); [discriminate|apply in_qc0].
  - exists q. split; [reflexivity|exact I].
Qed.

Lemma run_ok ks : forall h s q, inv h s q -> careful ks h s ->
  match ccalls X dbg junk ks s with
  | RDone l s1 => exists q1, kept_calls ks q = Ok (l, q1) /\ inv (finally_holds ks l h) s1 q1
  | RPanics => exists e, kept_calls ks q = Panic e
  | RUndefined => False
  end.
Proof.
  induction ks as [|k ks IH]; intros h s q I Hc; cbn [ccalls kept_calls].
  - exists q. split; [reflexivity|exact I].
  - destruct Hc as [Ha Hc]. pose proof (step_ok h s q k I Ha) as Hs.
    destruct (ccall_step X dbg junk k s) as [a s1| |]; [|destruct Hs as [e ->]; eauto|destruct Hs].
    destruct Hs as (q1 & -> & I1). specialize (IH _ _ _ I1 Hc).
    destruct (ccalls X dbg junk ks s1) as [l s2| |]; [|destruct IH as [e ->]; eauto|destruct IH].
    destruct IH as (q2 & -> & I2). exists q2. split; [reflexivity|]. exact I2.
Qed.
Lemma inv_start : inv ([], []) no_handles nothing_kept.
Proof.
  constructor; cbn; try (intros; contradiction); try reflexivity; try constructor; auto; try discriminate.
  - intros i. unfold arc_count; cbn. destruct i; reflexivity.
Qed.
End S.

(* ---------------------------------------------------------------------- theorems *)
(** A client that only passes what it holds never causes undefined behaviour: no dictionary is
    used after it was destroyed and nothing is freed twice. *)
Theorem C67_safe : forall X dbg junk ks, careful X dbg junk ks ([], []) no_handles ->
  ccalls X dbg junk ks no_handles <> RUndefined.
Proof.
  intros X dbg junk ks Hc. pose proof (run_ok X dbg junk ks _ _ _ inv_start Hc) as H.
  destruct (ccalls X dbg junk ks no_handles); [discriminate|discriminate|destruct H].
Qed.
(** A dictionary is kept exactly as long as some handle or some context refers to it. *)
Theorem C67_counted : forall X dbg junk ks l s, careful X dbg junk ks ([], []) no_handles ->
  ccalls X dbg junk ks no_handles = RDone l s -> forall i, arc_count s i = references i s.
Proof.
  intros X dbg junk ks l s Hc E. pose proof (run_ok X dbg junk ks _ _ _ inv_start Hc) as H. rewrite E in H.
  destruct H as (q & _ & I). apply (in_count _ _ _ I).
Qed.
(** A client that has freed everything it received leaves nothing behind. *)
Theorem C67_all_returned : forall X dbg junk ks l s, careful X dbg junk ks ([], []) no_handles ->
  ccalls X dbg junk ks no_handles = RDone l s -> finally_holds ks l ([], []) = ([], []) ->
  g_boxes s = [] /\ g_ctxs s = [] /\ forall i, arc_count s i = 0.
Proof.
  intros X dbg junk ks l s Hc E Hf. pose proof (run_ok X dbg junk ks _ _ _ inv_start Hc) as H. rewrite E in H.
  destruct H as (q & _ & I). rewrite Hf in I.
  assert (Hb : g_boxes s = []).
  { destruct (g_boxes s) as [|[a i] r] eqn:Eb; auto. exfalso.
    apply (proj2 (in_hb _ _ _ I a)). rewrite Eb. now left. }
  assert (Hx : g_ctxs s = []).
  { destruct (g_ctxs s) as [|[a i] r] eqn:Eb; auto. exfalso.
    apply (proj2 (in_hc _ _ _ I a)). rewrite Eb. now left. }
  split; [exact Hb|]. split; [exact Hx|]. intros i. rewrite (in_count _ _ _ I). unfold references. rewrite Hb, Hx. reflexivity.
Qed.
(** Freeing is invisible: the answers are those of a world where nothing is ever freed, whatever
    the memory of destroyed dictionaries is used for afterwards. *)
Theorem C67_invisible : forall X dbg junk ks, careful X dbg junk ks ([], []) no_handles ->
  match ccalls X dbg junk ks no_handles with
  | RDone l s => exists q, kept_calls X dbg ks nothing_kept = Ok (l, q) /\
      (forall a c i, lookup a (g_ctxs s) = Some c -> In i (x_dicts c) ->
         exists d, nth_error (g_store s) i = Some d /\ nth_error (q_store q) i = Some d)
  | RPanics => exists e, kept_calls X dbg ks nothing_kept = Panic e
  | RUndefined => False
  end.
Proof.
  intros X dbg junk ks Hc. pose proof (run_ok X dbg junk ks _ _ _ inv_start Hc) as H.
  destruct (ccalls X dbg junk ks no_handles) as [l s| |]; auto.
  destruct H as (q & E & I). exists q. split; [exact E|]. intros a c i Ec Hi.
  apply occ_in in Hi. pose proof (ctx_alive _ _ _ _ _ i I Ec) as Ho.
  assert (Hn : arc_count s i <> 0) by lia. pose proof (count_in _ _ Hn) as Hl. rewrite (in_len _ _ _ I) in Hl.
  destruct (nth_error (g_store s) i) as [d|] eqn:Ed; [|apply nth_error_None in Ed; lia].
  exists d. split; [reflexivity|]. rewrite <- Ed. symmetry. now apply (proj2 (in_same _ _ _ I)).
Qed.

(* -------------------------------------------------------------------------- cases *)
From Verif Require Import DefaultRule Demo.
Definition mem (a : N) (l : list N) : bool := existsb (N.eqb a) l.
Definition passable_b (hs : list ptr) (own : list N) : bool :=
  match hs with None :: _ => true | _ => forallb (fun p : ptr => match p with Some a => mem a own | None => false end) hs end.
Definition allowed_b (h : held) (k : ccall) : bool :=
  match k with
  | CDictNew _ => true
  | CContextNew _ _ _ hs | CContextFallback _ _ _ hs => passable_b hs (fst h)
  | CSetDictionaries c hs => mem c (snd h) && passable_b hs (fst h)
  | CUse c o => mem c (snd h) && match o with OSetDictionaries _ | OOther _ => false | _ => true end
  | CFreeDictionary (Some p) => mem p (fst h)
  | CFreeContext (Some p) => mem p (snd h)
  | CFreeDictionary None | CFreeContext None => true
  end.
Fixpoint careful_b X dbg junk (ks : list ccall) (h : held) (s : shared) : bool :=
  match ks with
  | [] => true
  | k :: r => allowed_b h k &&
      match ccall_step X dbg junk k s with
      | CDone a s1 => careful_b X dbg junk r (now_holds h k a) s1
      | _ => true
      end
  end.
Lemma mem_in a l : mem a l = true -> In a l.
Proof. unfold mem. intros H. apply existsb_exists in H as (b & Hb & E). apply N.eqb_eq in E. now subst. Qed.
Lemma allowed_b_ok h k : allowed_b h k = true -> allowed h k.
Proof.
  assert (Hi : forall hs, passable_b hs (fst h) = true -> passable hs (fst h)).
  { intros [|[a|] hs]; cbn; [right; exists []; split; [reflexivity|easy]| |left; eauto].
    intros H. right. assert (G : forall l, forallb (fun p : ptr => match p with Some a => mem a (fst h) | None => false end) l = true ->
      exists l', l = map Some l' /\ incl l' (fst h)).
    { induction l as [|[b|] l IH]; cbn; [exists []; split; [reflexivity|easy]| |discriminate].
      intros E. apply andb_prop in E as [E1 E2]. destruct (IH E2) as (l' & -> & Hl). exists (b :: l'). split; [reflexivity|].
      intros c [<-|Hc]; [now apply mem_in|auto]. }
    apply (G (Some a :: hs)). exact H. }
  destruct k as [d|r kf am hs|r kf am hs|a hs|a o|[a|]|[a|]]; cbn; auto using mem_in.
  - intros H. apply andb_prop in H as [H1 H2]. auto using mem_in.
  - intros H. apply andb_prop in H as [H1 H2]. split; [now apply mem_in|]. destruct o; cbn; auto; discriminate.
Qed.
Lemma careful_b_ok X dbg junk ks : forall h s, careful_b X dbg junk ks h s = true -> careful X dbg junk ks h s.
Proof.
  induction ks as [|k ks IH]; intros h s H; cbn in *; auto. apply andb_prop in H as [H1 H2].
  split; [now apply allowed_b_ok|]. destruct (ccall_step X dbg junk k s); auto.
Qed.
(** Two contexts over one user dictionary whose handle is freed at once, a third one that could not
    be made; a word learnt in the first context, which is then freed, is offered first by the second. *)
Definition keys_of (c : N) (t : str) : list ccall := map (fun k => CUse c (OKey k)) (dkeys t).
Definition story : list ccall :=
  [CDictNew (Some (user_dict dic_small)); CDictNew None;
   CContextNew (Some default_rule) default_kana_form default_ascii_map [Some 0%N];
   CContextFallback (Some default_rule) default_kana_form default_ascii_map [Some 0%N; Some 0%N];
   CContextNew None default_kana_form default_ascii_map [Some 0%N];
   CFreeDictionary (Some 0%N); CFreeDictionary None]
  ++ keys_of 1 (U "A i space space Return") ++ [CUse 1 OPoll; CFreeContext (Some 1%N)]
  ++ keys_of 2 (U "A i space Return") ++ [CUse 2 OPoll].
Definition story_end (r : cresult) : option (list canswer * list nat * list N) :=
  match r with
  | RDone l s => Some (firstn 6 l ++ skipn (length l - 1) l, g_count s, map fst (g_ctxs s))
  | _ => None
  end.
Example C67_case : careful ascii_xkb true empty_dict story ([], []) no_handles /\
  story_end (ccalls ascii_xkb true empty_dict story no_handles)
  = Some ([APtr (Some 0%N); APtr None; APtr (Some 1%N); APtr (Some 2%N); APtr None; AUnit; AOut (OutText (Some (U "哀")))],
          [2], [2%N]).
Proof.
  split; [apply careful_b_ok; vm_compute; reflexivity|]. vm_compute. reflexivity.
Qed.
Example C67_case_returned :
  match ccalls ascii_xkb true empty_dict (story ++ [CFreeContext (Some 2%N)]) no_handles with
  | RDone l s => finally_holds (story ++ [CFreeContext (Some 2%N)]) l ([], []) = ([], []) /\ g_count s = [0]
  | _ => False
  end.
Proof. vm_compute. auto. Qed.
(** a handle passed after it was freed is what the condition excludes *)
Example C67_case_careless :
  ccalls ascii_xkb true empty_dict
    [CDictNew (Some empty_dict); CFreeDictionary (Some 0%N); CContextNew None default_kana_form default_ascii_map [Some 0%N]]
    no_handles = RUndefined.
Proof. vm_compute. reflexivity. Qed.
