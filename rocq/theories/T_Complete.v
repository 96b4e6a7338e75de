(** Property C32: completion. *)
From Coq Require Import Permutation Sorting.Sorted.
From Verif Require Import Str Keys Modes KanaBuilder FormChanger DictTypes Parser Lru Dictionary
  CState Context Demo Spec LruPtr T_Lru T_Dedup T_Entry P_Dict.

Definition starts_with (p s : str) : Prop := exists r, s = p ++ r.

(** Texts with a common prefix are contiguous in the order. *)
Lemma prefix_lt_below p : forall a b, starts_with p b -> str_lt a b -> ~ starts_with p a ->
  forall c, starts_with p c -> str_lt a c.
Proof.
  induction p as [|x p IH]; intros a b (rb & ->) Hlt Hn c (rc & ->).
  - exfalso. apply Hn. now exists a.
  - destruct a as [|y a]; [reflexivity|]. unfold str_lt in *. cbn in *.
    destruct (N.compare y x) eqn:E; [|reflexivity|discriminate].
    apply N.compare_eq in E. subst y. apply (IH a (p ++ rb)); [now exists rb|exact Hlt| |now exists rc].
    intros (r & ->). apply Hn. now exists r.
Qed.
Lemma prefix_between p a b c : starts_with p a -> starts_with p c -> str_lt a b -> str_lt b c -> starts_with p b.
Proof.
  intros Ha Hc Hab Hbc. destruct (is_prefixb p b) eqn:E.
  - apply is_prefixb_spec in E. exact E.
  - exfalso. assert (Hn : ~ starts_with p b).
    { intros (r & ->). assert (H : is_prefixb p (p ++ r) = true) by (apply is_prefixb_spec; now exists r). congruence. }
    pose proof (prefix_lt_below p b c Hc Hbc Hn a Ha) as H.
    apply (str_lt_irrefl a). eapply str_lt_trans; eauto.
Qed.
Lemma is_prefixb_starts p s : is_prefixb p s = true <-> starts_with p s.
Proof. rewrite is_prefixb_spec. reflexivity. Qed.

Lemma skip_take_filter p (l : list (str * entry)) : StronglySorted str_lt (map fst l) ->
  take_while (fun kv => is_prefixb p (fst kv)) (skip_while (fun kv => negb (is_prefixb p (fst kv))) l)
  = filter (fun kv => is_prefixb p (fst kv)) l.
Proof.
  intros H. induction l as [|[k e] l IH]; [reflexivity|]. cbn [skip_while filter fst].
  cbn in H. inversion H as [|? ? Hs Hf]; subst.
  destruct (is_prefixb p k) eqn:E; cbn [negb]; [|now apply IH].
  cbn [take_while fst]. rewrite E. f_equal. clear IH.
  apply is_prefixb_starts in E. revert Hs Hf. clear H. revert E. revert k.
  induction l as [|[k' e'] l IH]; intros k E Hs Hf; [reflexivity|]. cbn [take_while filter fst].
  cbn in Hs, Hf. inversion Hs as [|? ? Hs' Hf']; subst. apply Forall_inv_tail in Hf as Hf2. apply Forall_inv in Hf as Hkk.
  destruct (is_prefixb p k') eqn:E'.
  - f_equal. apply is_prefixb_starts in E'. now apply (IH k').
  - symmetry. clear IH Hs Hf. induction l as [|[k2 e2] l IH]; [reflexivity|]. cbn [filter fst].
    cbn in Hs', Hf', Hf2. apply Forall_inv_tail in Hf2 as Hf3. apply Forall_inv in Hf' as Hk2.
    apply Forall_inv_tail in Hf' as Hf''. inversion Hs' as [|? ? Hs'' _]; subst.
    destruct (is_prefixb p k2) eqn:E2; [|apply IH; auto].
    exfalso. apply is_prefixb_starts in E2.
    assert (H : starts_with p k') by (eapply prefix_between; [exact E|exact E2|exact Hkk|exact Hk2]).
    apply is_prefixb_starts in H. congruence.
Qed.
Lemma map_snd_sorted (l : list (str * entry)) : (forall k e, In (k, e) l -> e_midashi e = k) ->
  map e_midashi (map snd l) = map fst l.
Proof.
  intros H. rewrite map_map. apply map_ext_in. intros [k e] Hin. cbn. now apply H.
Qed.
Lemma filter_sorted p (l : list (str * entry)) : StronglySorted str_lt (map fst l) ->
  StronglySorted str_lt (map fst (filter (fun kv => is_prefixb p (fst kv)) l)).
Proof.
  induction l as [|[k e] l IH]; cbn; intros H; [constructor|]. inversion H as [|? ? Hs Hf]; subst.
  destruct (is_prefixb p k); [|now apply IH]. cbn. constructor; [now apply IH|].
  apply Forall_forall. intros x Hx. rewrite Forall_forall in Hf. apply Hf.
  apply in_map_iff in Hx as (y & <- & Hy). apply filter_In in Hy as (Hy & _). now apply in_map.
Qed.

(** C32: in a dictionary built by loading, confirming and purging, asking to complete a text
    [k] (with or without okurigana) yields, by increasing midashi, exactly the entries of the
    section whose midashi starts with the dictionary key [p] of [k]. *)
Theorem C32_complete d k p : built d -> get_dict_key k = Ok p ->
  exists es, complete d k = Ok es
    /\ StronglySorted str_lt (map e_midashi es)
    /\ (forall e, In e es <-> starts_with p (e_midashi e)
                            /\ lpeek (e_midashi e) (section (has_okuri k) d) = Some e).
Proof.
  intros Hb Hp. pose proof (built_section d (has_okuri k) Hb) as (Hnd & Hmid).
  unfold complete. fold (section (has_okuri k) d). set (m := section (has_okuri k) d) in *. clearbody m.
  set (s := liter_sorted m).
  assert (Hs : StronglySorted str_lt (map fst s)) by now apply sorted_fst, liter_sorted_sorted.
  assert (Hin : forall x, In x s <-> In x m)
    by (intros x; split; apply Permutation_in; [|symmetry]; apply liter_sorted_perm).
  exists (map snd (filter (fun kv => is_prefixb p (fst kv)) s)). split; [|split].
  - destruct s as [|x s']; [reflexivity|]. rewrite Hp. cbn [rmap rbind]. now rewrite skip_take_filter.
  - rewrite map_snd_sorted; [now apply filter_sorted|].
    intros k' e' H. apply filter_In in H as (H & _). apply Hmid, Hin, H.
  - intros e. rewrite in_map_iff. split.
    + intros ([k' e'] & E & H). cbn in E. subst e'. apply filter_In in H as (H & Hpre).
      apply Hin in H. cbn in Hpre. rewrite (Hmid _ _ H). split; [now apply is_prefixb_starts|now apply in_lpeek].
    + intros (Hpre & Hl). exists (e_midashi e, e). split; [reflexivity|]. apply filter_In. split.
      * apply Hin. now apply lpeek_in.
      * now apply is_prefixb_starts.
Qed.
(** The key of a text without okurigana is the text itself. *)
Theorem C32_without_okuri d t : built d ->
  exists es, complete d (mkCK t None) = Ok es
    /\ StronglySorted str_lt (map e_midashi es)
    /\ (forall e, In e es <-> starts_with t (e_midashi e)
                            /\ lpeek (e_midashi e) (d_nashi (dict_ents d)) = Some e).
Proof. intros Hb. now apply (C32_complete d (mkCK t None) t Hb). Qed.

(** Every dictionary of every reachable world qualifies, when the ones it started with were
    loaded from files. *)
Theorem C32_reachable X dbg w ops outs w' i d : started X w -> Forall built (w_store w) ->
  Forall (fun o => match o with OOther st => Forall built st | _ => True end) ops ->
  run X dbg ops w = Ok (outs, w') -> dict_at i w' = Some d ->
  forall t, exists es, complete d (mkCK t None) = Ok es
    /\ StronglySorted str_lt (map e_midashi es)
    /\ (forall e, In e es <-> starts_with t (e_midashi e)
                            /\ lpeek (e_midashi e) (d_nashi (dict_ents d)) = Some e).
Proof.
  intros Hst Hb Hops Hr Hd t. apply C32_without_okuri.
  assert (Hst' : x_stack (w_ctx w) <> []).
  { destruct Hst as (st & kf & am & ds & i0 & c & [(r & ->)| ->]); discriminate. }
  assert (HB : Forall built (w_store w')).
  { eapply P_Dict.run_built; eauto. }
  rewrite Forall_forall in HB. apply HB. eapply nth_error_In; exact Hd.
Qed.

Example C32_example :
  let d := mkDict true (DStatic (load_lines [U ";; okuri-nasi entries."; U "かい /会/"; U "あい /愛/"; U "かいぎ /会議/"; U "か /蚊/"; U "き /木/"])) in
  built d /\ option_map (map e_midashi) (match complete d (mkCK (U "かい") None) with Ok l => Some l | _ => None end)
  = Some [U "かい"; U "かいぎ"].
Proof. split; [apply built_static|]. vm_compute. reflexivity. Qed.
