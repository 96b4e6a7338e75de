(** The kana conversion table. *)
From Verif Require Import Str Keys Modes KanaBuilder FormChanger DictTypes Parser Lru
  Dictionary CState Context Spec P_Monad P_Frames P_Inv.

Lemma assoc_set_N {A} k (v : A) l k' :
  assoc_N k' (set_N k v l) = if N.eqb k' k then Some v else assoc_N k' l.
Proof.
  induction l as [|[k1 v1] l IH]; cbn.
  - destruct (N.eqb k' k); reflexivity.
  - destruct (N.eqb_spec k k1) as [->|Hk]; cbn.
    + destruct (N.eqb_spec k' k1); reflexivity.
    + destruct (N.eqb_spec k' k1) as [->|Hk']; [|exact IH].
      destruct (N.eqb_spec k1 k); [congruence|reflexivity].
Qed.
Lemma get_node_empty {V} k : k <> [] -> get_node (@tempty V) k = None.
Proof. destruct k; [congruence|reflexivity]. Qed.
Lemma tget_empty {V} k : tget (@tempty V) k = None.
Proof. destruct k; reflexivity. Qed.
Lemma tget_insert {V} (k : list N) (v : V) : forall t k',
  tget (tinsert k v t) k' = if str_eqb k k' then Some v else tget t k'.
Proof.
  induction k as [|x k IH]; intros t [|y k']; cbn; try reflexivity.
  unfold tget in *; cbn. rewrite assoc_set_N.
  destruct (N.eqb_spec y x) as [->|Hy].
  - rewrite N.eqb_refl. cbn. rewrite IH. destruct (str_eqb k k'); [reflexivity|].
    destruct (assoc_N x (tchildren t)); [reflexivity|].
    apply (@tget_empty V).
  - destruct (N.eqb_spec x y); [congruence|reflexivity].
Qed.
Definition has_node {V} (t : trie V) (k : list N) : Prop := get_node t k <> None.
Lemma has_node_insert {V} (k : list N) (v : V) : forall t k',
  has_node (tinsert k v t) k' <-> (has_node t k' \/ exists r, k = k' ++ r).
Proof.
  unfold has_node. induction k as [|x k IH]; intros t k'.
  - destruct k' as [|y k']; cbn; [split; [left|]; congruence|].
    split; [intros H; left; exact H|]. intros [H|[r Hr]]; [exact H|discriminate].
  - destruct k' as [|y k']; cbn; [split; [left|]; congruence|].
    rewrite assoc_set_N. destruct (N.eqb_spec y x) as [->|Hy].
    + rewrite IH. split.
      * intros [H|[r ->]]; [|right; exists r; reflexivity].
        destruct (assoc_N x (tchildren t)) as [c|] eqn:E; [left; exact H|].
        destruct k'; [right; exists k; reflexivity|]. cbn in H; congruence.
      * intros [H|[r Hr]].
        -- destruct (assoc_N x (tchildren t)); [left; exact H|congruence].
        -- right. exists r. congruence.
    + split; [intros H; left; exact H|]. intros [H|[r Hr]]; [exact H|congruence].
Qed.
Lemma get_node_app {V} (k : list N) : forall (t : trie V) k',
  get_node t (k ++ k') = match get_node t k with Some n => get_node n k' | None => None end.
Proof.
  induction k as [|x k IH]; intros t k'; cbn; auto.
  destruct (assoc_N x (tchildren t)); auto.
Qed.
Lemma has_node_prefix {V} (t : trie V) k k' : has_node t (k ++ k') -> has_node t k.
Proof. unfold has_node. rewrite get_node_app. destruct (get_node t k); congruence. Qed.
Lemma tget_has_node {V} (t : trie V) k v : tget t k = Some v -> has_node t k.
Proof. unfold tget, has_node. destruct (get_node t k); congruence. Qed.

(** The children of a node are keyed without dead bindings. *)
Lemma not_leaf_child {V} (n : trie V) : is_leaf n = false <-> exists x, has_node n [x].
Proof.
  unfold is_leaf, has_node. destruct n as [v ch]; cbn. split.
  - destruct ch as [|[x c] ch]; [discriminate|]. intros _. exists x. cbn. rewrite N.eqb_refl. congruence.
  - intros [x H]. destruct ch; [cbn in H; congruence|reflexivity].
Qed.

Section Table.
Context (X : xkb).
Notation table := (list (str * (str * str))).
Definition keyseq (e : str * (str * str)) : list N := keysyms_from_str X (fst e).
Definition val (e : str * (str * str)) : str * list N := (snd (snd e), keysyms_from_str X (fst (snd e))).
Lemma converter_fold (m : table) : forall t,
  fold_left (fun t '(k, (carry, conv)) =>
     tinsert (keysyms_from_str X k) (conv, keysyms_from_str X carry) t) m t
  = fold_left (fun t e => tinsert (keyseq e) (val e) t) m t.
Proof.
  induction m as [|[k [carry conv]] m IH]; intros t; cbn; auto.
Qed.
Lemma fold_has_node (m : table) : forall t k,
  has_node (fold_left (fun t e => tinsert (keyseq e) (val e) t) m t) k <->
  (has_node t k \/ exists e r, In e m /\ keyseq e = k ++ r).
Proof.
  induction m as [|e m IH]; intros t k; cbn.
  - split; [auto|intros [H|(e & r & [] & _)]; exact H].
  - rewrite IH, has_node_insert. split.
    + intros [[H|[r Hr]]|(e' & r & Hin & Hr)]; eauto 6.
    + intros [H|(e' & r & [<-|Hin] & Hr)]; eauto 6.
Qed.
Lemma fold_tget_out (m : table) : forall t k, ~ In k (map keyseq m) ->
  tget (fold_left (fun t e => tinsert (keyseq e) (val e) t) m t) k = tget t k.
Proof.
  induction m as [|e m IH]; intros t k H; cbn in *; auto.
  rewrite IH by tauto. rewrite tget_insert.
  destruct (str_eqb (keyseq e) k) eqn:E; auto. apply str_eqb_eq in E. tauto.
Qed.
Lemma fold_tget (m : table) : NoDup (map keyseq m) -> forall t e, In e m ->
  tget (fold_left (fun t e => tinsert (keyseq e) (val e) t) m t) (keyseq e) = Some (val e).
Proof.
  induction m as [|e0 m IH]; intros Hn t e Hin; cbn in *; [tauto|].
  inversion Hn as [|? ? Hx Hn']; subst. destruct Hin as [->|Hin]; auto.
  rewrite fold_tget_out by exact Hx. rewrite tget_insert, str_eqb_refl. reflexivity.
Qed.
Lemma kb_tget (r : rule) k v : NoDup (map keyseq (r_conversion r)) ->
  tget (kb_new X r) k = Some v <-> exists e, In e (r_conversion r) /\ keyseq e = k /\ val e = v.
Proof.
  intros Hn. unfold kb_new, converter_from_map. rewrite converter_fold. split.
  - intros H. destruct (in_dec (list_eq_dec N.eq_dec) k (map keyseq (r_conversion r))) as [Hi|Hi].
    + apply in_map_iff in Hi as (e & He & Hin). exists e. repeat split; auto.
      rewrite <- He in H. rewrite (fold_tget _ Hn tempty e Hin) in H. congruence.
    + rewrite fold_tget_out, tget_empty in H by exact Hi. discriminate.
  - intros (e & Hin & <- & <-). apply fold_tget; auto.
Qed.
Lemma kb_has_node (r : rule) k : has_node (kb_new X r) k <->
  (k = [] \/ exists e rest, In e (r_conversion r) /\ keyseq e = k ++ rest).
Proof.
  unfold kb_new, converter_from_map. rewrite converter_fold, fold_has_node.
  destruct k as [|x k]; [|unfold has_node at 1; rewrite get_node_empty by congruence].
  - split; [auto|]. intros _. left. cbv. discriminate.
  - split; intros [H|H]; auto; congruence.
Qed.
(** C11 *)
Lemma kb_non_partial (r : rule) k v : NoDup (map keyseq (r_conversion r)) ->
  convert_non_partial (kb_new X r) k = Some v <->
  (exists e, In e (r_conversion r) /\ keyseq e = k /\ val e = v) /\
  (forall e rest, In e (r_conversion r) -> keyseq e = k ++ rest -> rest = []).
Proof.
  intros Hn. rewrite <- (kb_tget r k v Hn). unfold convert_non_partial.
  assert (Hleaf : forall n, get_node (kb_new X r) k = Some n -> is_leaf n = true <->
     (forall e rest, In e (r_conversion r) -> keyseq e = k ++ rest -> rest = [])).
  { intros n Hg. split.
    - intros Hl e rest Hin He. destruct rest as [|x rest]; [reflexivity|exfalso].
      assert (Hh : has_node (kb_new X r) (k ++ [x])).
      { apply kb_has_node. right. exists e, rest. rewrite <- app_assoc. auto. }
      unfold has_node in Hh. rewrite get_node_app, Hg in Hh.
      assert (is_leaf n = false) by (apply not_leaf_child; exists x; exact Hh). congruence.
    - intros H. destruct (is_leaf n) eqn:El; [reflexivity|exfalso].
      apply not_leaf_child in El as [x Hx].
      assert (Hh : has_node (kb_new X r) (k ++ [x])) by (unfold has_node; rewrite get_node_app, Hg; exact Hx).
      apply kb_has_node in Hh as [Hh|(e & rest & Hin & He)]; [destruct k; discriminate|].
      rewrite <- app_assoc in He. apply H in He; [discriminate|exact Hin]. }
  unfold tget. destruct (get_node (kb_new X r) k) as [n|] eqn:Eg; [|split; [discriminate|intros [H _]; discriminate]].
  specialize (Hleaf n eq_refl). destruct (is_leaf n).
  - split; [intros H; split; [exact H|now apply Hleaf]|tauto].
  - split; [discriminate|]. intros [_ H]. apply Hleaf in H. discriminate.
Qed.
Lemma kb_continue (r : rule) k u : can_continue (kb_new X r) k u = true <->
  exists e rest, In e (r_conversion r) /\ keyseq e = (u ++ [ksym k]) ++ rest.
Proof.
  unfold can_continue. pose proof (kb_has_node r (combine_raw k u)) as H.
  unfold has_node, combine_raw in *. destruct (get_node (kb_new X r) (u ++ [ksym k])).
  - split; [|auto]. intros _. destruct H as [H _]. destruct H as [H|H]; [congruence|destruct u; discriminate|exact H].
  - split; [discriminate|]. intros Hx. destruct H as [_ H]. specialize (H (or_intror Hx)). congruence.
Qed.

(* ------------------------------------------------ C12: pending input *)
Definition pend_ok (b : kb) (s : cstate) : Prop := has_node b (s_pre s).
Lemma has_node_nil (b : kb) : has_node b [].
Proof. cbv. discriminate. Qed.
Lemma str_pop_prefix (l : list N) : exists r, l = str_pop l ++ r.
Proof.
  unfold str_pop. destruct l as [|x l]; [exists []; reflexivity|].
  exists [last (x :: l) x]. apply app_removelast_last. discriminate.
Qed.
Lemma has_node_pop (b : kb) l : has_node b l -> has_node b (str_pop l).
Proof. intros H. destruct (str_pop_prefix l) as [r Hr]. rewrite Hr in H. eapply has_node_prefix, H. Qed.
Lemma can_continue_node (b : kb) k u : can_continue b k u = true <-> has_node b (combine_raw k u).
Proof. unfold can_continue, has_node. destruct (get_node b (combine_raw k u)); split; congruence. Qed.
Lemma can_continue_lower_node (b : kb) k u : can_continue_lower b k u = true <-> has_node b (combine_lower k u).
Proof. unfold can_continue_lower, has_node. destruct (get_node b (combine_lower k u)); split; congruence. Qed.
Lemma pend_delete (b : kb) s : has_node b (s_pre s) -> has_node b (s_pre (snd (st_delete s))).
Proof.
  intros Hs. unfold st_delete. destruct (s_cmode s); cbn; auto;
      destruct (negb (is_nil (s_pre s))) eqn:E; cbn; auto using has_node_pop;
      repeat match goal with |- context [if ?x then _ else _] => destruct x end; cbn; auto using has_node_pop.
Qed.
Lemma pend_iter (b : kb) n s : has_node b (s_pre s) ->
  has_node b (s_pre (Nat.iter n (fun s => snd (st_delete s)) s)).
Proof. intros H; induction n; cbn; auto. apply pend_delete; auto. Qed.
Lemma pend_astep fl d b s s' : (forall u, is_carry b u -> has_node b u) ->
  astep fl d b s s' -> pend_ok b s -> pend_ok b s'.
Proof.
  intros Hc H Hs; unfold pend_ok in *; destruct H; cbn; auto using has_node_nil.
  - unfold abort_to_previous_mode. destruct (last_opt (s_hist s)) as [[]|]; cbn; auto.
  - destruct c; cbn; auto.
  - unfold next_unprocessed_state.
    destruct (can_continue b k (s_pre s)) eqn:E1; [now apply can_continue_node|].
    destruct (can_continue_lower b k (s_pre s)) eqn:E2; [now apply can_continue_lower_node|].
    destruct (can_continue b k []) eqn:E3; [|apply has_node_nil].
    now apply can_continue_node in E3.
  - apply pend_delete; auto.
  - apply pend_iter; auto.
  - unfold set_candidate_pointer. destruct (cl_set_pointer i (s_list s)); cbn; auto.
  - unfold st_forward in H. destruct (cl_forward d (s_list s)); cbn in H; [|discriminate].
    injection H as <-. cbn; auto.
Qed.
Lemma run_pend dbg ops w outs w' : (forall u, is_carry (x_kb (w_ctx w)) u -> has_node (x_kb (w_ctx w)) u) ->
  Forall (fun o => changes_rule o = false) ops ->
  x_stack (w_ctx w) <> [] -> Forall (pend_ok (x_kb (w_ctx w))) (x_stack (w_ctx w)) ->
  run X dbg ops w = Ok (outs, w') ->
  Forall (pend_ok (x_kb (w_ctx w))) (x_stack (w_ctx w')).
Proof.
  intros Hc Hops Hne Hp Hr. set (b := x_kb (w_ctx w)) in *.
  assert (H : x_kb (w_ctx w') = b /\ x_stack (w_ctx w') <> [] /\ Forall (pend_ok b) (x_stack (w_ctx w'))).
  { eapply (run_inv X dbg (fun w => x_kb (w_ctx w) = b /\ x_stack (w_ctx w) <> [] /\ Forall (pend_ok b) (x_stack (w_ctx w)))
      (fun o => changes_rule o = false)); [| |exact Hops| |exact Hr]; auto.
    - tauto.
    - intros o w1 w2 Ho (H1 & H2 & H3) Hst. split; [|split].
      + destruct Hst as [[(_ & H & _) _ _]|(_ & _ & H)]; [congruence|]. destruct (H Ho). congruence.
      + eapply step_nonempty; eauto.
      + destruct Hst as [Hst|(-> & _)]; [|exact H3].
        destruct Hst as [_ Hs _]. rewrite H1 in Hs.
        eapply srel_forall; [| | |exact Hs|exact H3].
        * intros; eapply pend_astep; eauto.
        * apply has_node_nil.
        * auto. }
  apply H.
Qed.
End Table.
