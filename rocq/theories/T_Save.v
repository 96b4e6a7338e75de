(** Properties C35 to C38 and C57: saving and reloading a user dictionary. *)
From Coq Require Import Permutation Sorting.Sorted.
From Verif Require Import Str Keys Modes KanaBuilder FormChanger DictTypes Parser Lru Dictionary
  CState Context Demo Spec LruPtr T_Lru T_Dedup T_Entry P_Dict T_Escape T_ExactEscape T_Line T_Load SaveFs.
From Verif Require T_Frames.

(** * Specification: contents the file can carry *)
Definition one_line (e : entry) : Prop :=
  ~ In 10%N (e_midashi e)
  /\ forall o l d, In (o, l) (e_map e) -> In d l ->
       ~ In 10%N (dc_kouho d) /\ match dc_annot d with Some a => ~ In 10%N a | None => True end.
Record keepable (enc : str -> bool) (d : dents) : Prop := {
  kp_entries : forall k e, In (k, e) (d_ari d ++ d_nashi d) ->
    savable e /\ one_line e /\ enc (entry_to_string e) = true;
  kp_letter : forall k e, In (k, e) (d_ari d) -> okuri_midashi (e_midashi e);
}.
(** Nothing a user can ask distinguishes the two dictionaries, among any other dictionaries. *)
Definition same_answers (d d' : dict) : Prop := forall before after k,
  get_all_candidates (before ++ d :: after) k = get_all_candidates (before ++ d' :: after) k
  /\ get_all_complete (before ++ d :: after) k = get_all_complete (before ++ d' :: after) k.
(** Midashi of a section, most recently used first. *)
Definition recency (ari : bool) (d : dents) : list str := map fst (liter_lru (loaded ari d)).

(** * Lines of a text *)
Lemma split_on_line l t : ~ In 10%N l -> split_on 10 (l ++ 10%N :: t) = l :: split_on 10 t.
Proof.
  intros H. unfold split_on. assert (G : forall acc, split_aux 10 acc (l ++ 10%N :: t) = (rev acc ++ l) :: split_aux 10 [] t).
  { induction l as [|c l IH]; intros acc; cbn [app split_aux].
    - now rewrite N.eqb_refl, app_nil_r.
    - destruct (N.eqb_spec c 10) as [->|]; [exfalso; apply H; now left|].
      rewrite IH by (intros H'; apply H; now right). cbn. now rewrite <- app_assoc. }
  apply G.
Qed.
Lemma split_on_nonempty c s : split_on c s <> [].
Proof.
  unfold split_on. generalize (@nil N). induction s as [|x s IH]; intros acc; cbn; [discriminate|].
  destruct (N.eqb x c); [discriminate|apply IH].
Qed.
Lemma text_lines_flat ls : Forall (fun l => ~ In 10%N l) ls ->
  text_lines (flat_map (fun l => l ++ [10%N]) ls) = map strip_cr ls.
Proof.
  intros H. unfold text_lines. induction H as [|l ls Hl H IH]; [reflexivity|].
  cbn [flat_map map]. rewrite <- app_assoc. cbn [app]. rewrite split_on_line by exact Hl.
  destruct (split_on 10 _) as [|x r] eqn:E; [now apply split_on_nonempty in E|].
  rewrite <- IH. reflexivity.
Qed.
Lemma strip_cr_slash s : strip_cr (s ++ [47%N]) = s ++ [47%N].
Proof.
  unfold strip_cr, strip_suffix_char. rewrite rev_app_distr. cbn.
  now rewrite rev_involutive.
Qed.
Lemma strip_cr_line e : strip_cr (entry_to_string e) = entry_to_string e.
Proof.
  unfold entry_to_string. change (U "/") with [47%N].
  rewrite !app_assoc. apply strip_cr_slash.
Qed.
Lemma escape_newline s : ~ In 10%N s -> ~ In 10%N (escape_dictionary_string s).
Proof.
  intros H. destruct (existsb (fun c => N.eqb c 47 || N.eqb c 59) s) eqn:E.
  - rewrite escape_quoted.
    + unfold quoted. rewrite !in_app_iff, in_flat_map. intros [Hin|[Hin|[(c & Hc & Hin)|[Hin|Hin]]]];
        [vm_compute in Hin; intuition discriminate|cbn in Hin; intuition discriminate| |cbn in Hin; intuition discriminate|cbn in Hin; intuition discriminate].
      unfold T_Escape.enc in Hin. repeat destruct (N.eqb _ _); cbn in Hin; intuition (try discriminate). now subst c.
    + apply existsb_exists in E as (c & Hc & E). exists c. split; [exact Hc|].
      apply orb_true_iff in E as [E|E]; apply N.eqb_eq in E; [now left|now right].
  - rewrite escape_id; [exact H|]. intros c Hc Hs.
    assert (E' : existsb (fun c => N.eqb c 47 || N.eqb c 59) s = true).
    { apply existsb_exists. exists c. split; [exact Hc|]. destruct Hs as [-> | ->]; reflexivity. }
    congruence.
Qed.
Lemma line_newline e : savable e -> one_line e -> ~ In 10%N (entry_to_string e).
Proof.
  intros (_ & S) (Hm & Hc). unfold entry_to_string. rewrite !in_app_iff.
  intros [H|[H|[H|H]]]; [now apply escape_newline in H|cbn in H; intuition discriminate| |cbn in H; intuition discriminate].
  apply in_flat_map in H as ([o l] & Hol & H).
  assert (Hl : ~ In 10%N (cands_to_string l)).
  { unfold cands_to_string. rewrite in_flat_map. intros (d & Hd & [H'|H']); [discriminate|].
    destruct (Hc o l d Hol Hd) as (H1 & H2). unfold dcand_to_string in H'.
    destruct (dc_annot d) as [a|]; [|now apply escape_newline in H'].
    rewrite !in_app_iff in H'. destruct H' as [H'|[H'|H']]; [now apply escape_newline in H'|cbn in H'; intuition discriminate|now apply escape_newline in H']. }
  unfold block_to_string in H. destruct (is_nil o) eqn:Eo; [tauto|].
  rewrite !in_app_iff in H. destruct H as [H|[H|[H|H]]]; [cbn in H; intuition discriminate| |tauto|cbn in H; intuition discriminate].
  apply (sv_lists _ S) in Hol as (_ & _ & [->|Ho]); [destruct H|].
  rewrite Forall_forall in Ho. specialize (Ho _ H). unfold okuri_char in Ho. lia.
Qed.
Lemma line_no_comment e : savable e -> ~ comment (entry_to_string e).
Proof.
  intros (Hm & _) (r & E). unfold entry_to_string in E.
  rewrite escape_id in E by (intros c Hc [-> | ->]; apply Hm in Hc; exact Hc).
  destruct (e_midashi e) as [|c m] eqn:Em; [now destruct Hm|]. injection E as -> _.
  apply (proj2 (proj2 (proj2 Hm))). now left.
Qed.

(** * Reloading what was written *)
(** The entry as the parser builds it: the mark is recomputed from the midashi. *)
Definition remade (e : entry) : entry := mkEntry (e_midashi e) (looks_okuri_ari (e_midashi e)) (e_map e).
Definition remade_map (m : lmap entry) : lmap entry := rev (map (fun kv => (fst kv, remade (snd kv))) m).
Lemma load_pushes (ari : bool) (es : lmap entry) d : 
  (forall k e, In (k, e) es -> savable e /\ (ari = true -> okuri_midashi (e_midashi e))) ->
  fold_left load_line (map (fun kv => entry_to_string (snd kv)) es) (ari, d)
  = (ari, fold_left (fun d kv => if ari then mkDents (lpush (e_midashi (snd kv)) (remade (snd kv)) (d_ari d)) (d_nashi d)
                                 else mkDents (d_ari d) (lpush (e_midashi (snd kv)) (remade (snd kv)) (d_nashi d))) es d).
Proof.
  revert d. induction es as [|[k e] es IH]; intros d H; [reflexivity|].
  cbn [map fold_left snd]. destruct (H k e (or_introl eq_refl)) as (Hs & Ho).
  assert (E : load_line (ari, d) (entry_to_string e)
    = (ari, if ari then mkDents (lpush (e_midashi e) (remade e) (d_ari d)) (d_nashi d)
            else mkDents (d_ari d) (lpush (e_midashi e) (remade e) (d_nashi d)))).
  { unfold load_line. destruct (is_prefixb (U ";") (entry_to_string e)) eqn:Ec;
      [apply comment_spec in Ec; now apply line_no_comment in Ec|].
    rewrite C33_line by exact Hs. cbn [e_okuri e_midashi]. destruct ari; [unfold remade; rewrite (proj2 (okuri_midashi_spec _) (Ho eq_refl))|]; reflexivity. }
  rewrite E. apply IH. intros k' e' Hin. apply (H k' e'). now right.
Qed.
Lemma lpush_fresh {V} k (v : V) m : ~ In k (map fst m) -> lpush k v m = (k, v) :: m.
Proof. intros H. unfold lpush. now rewrite lremove_not_in. Qed.
Lemma push_all (es : lmap entry) m : NoDup (map fst es ++ map fst m) ->
  (forall k e, In (k, e) es -> e_midashi e = k) ->
  fold_left (fun m kv => lpush (e_midashi (snd kv)) (remade (snd kv)) m) es m = remade_map es ++ m.
Proof.
  revert m. induction es as [|[k e] es IH]; intros m Hn Hk; [reflexivity|].
  cbn [fold_left snd map fst] in *. rewrite (Hk k e (or_introl eq_refl)).
  cbn [app] in Hn. apply NoDup_cons_iff in Hn as (Hn1 & Hn2).
  rewrite lpush_fresh by (intros H; apply Hn1, in_or_app; now right).
  rewrite IH.
  - unfold remade_map. cbn [map rev]. now rewrite <- app_assoc.
  - cbn [map fst]. apply NoDup_Add with (a := k) (l := map fst es ++ map fst m); [apply Add_app|]. now split.
  - intros k' e' H. apply Hk. now right.
Qed.
Lemma fold_ari es d : fold_left (fun d kv => mkDents (lpush (e_midashi (snd kv)) (remade (snd kv)) (d_ari d)) (d_nashi d)) es d
  = mkDents (fold_left (fun m (kv : str * entry) => lpush (e_midashi (snd kv)) (remade (snd kv)) m) es (d_ari d)) (d_nashi d).
Proof. revert d. induction es as [|x es IH]; intros d; cbn; [now destruct d|]. now rewrite IH. Qed.
Lemma fold_nashi es d : fold_left (fun d kv => mkDents (d_ari d) (lpush (e_midashi (snd kv)) (remade (snd kv)) (d_nashi d))) es d
  = mkDents (d_ari d) (fold_left (fun m (kv : str * entry) => lpush (e_midashi (snd kv)) (remade (snd kv)) m) es (d_nashi d)).
Proof. revert d. induction es as [|x es IH]; intros d; cbn; [now destruct d|]. now rewrite IH. Qed.
Lemma filter_all {A} (f : A -> bool) l : Forall (fun x => f x = true) l -> filter f l = l.
Proof. induction 1 as [|x l Hx H IH]; cbn; [reflexivity|]. now rewrite Hx, IH. Qed.

Lemma reload_exact enc d : sound_dents d -> keepable enc d ->
  load_text (save_text enc d) = mkDents (remade_map (d_ari d)) (remade_map (d_nashi d)).
Proof.
  intros ((Na & Ma) & (Nn & Mn)) [Hk Hl].
  assert (Hka : forall k e, In (k, e) (d_ari d) -> savable e /\ one_line e /\ enc (entry_to_string e) = true)
    by (intros k e H; apply (Hk k), in_or_app; now left).
  assert (Hkn : forall k e, In (k, e) (d_nashi d) -> savable e /\ one_line e /\ enc (entry_to_string e) = true)
    by (intros k e H; apply (Hk k), in_or_app; now right).
  assert (El : forall m, (forall k e, In (k, e) m -> savable e /\ one_line e /\ enc (entry_to_string e) = true) ->
    entry_lines enc m = map (fun kv => entry_to_string (snd kv)) m).
  { intros m H. unfold entry_lines, liter_lru. apply filter_all, Forall_map, Forall_forall. intros [k e] Hin. now apply (H k e). }
  unfold load_text, save_text, save_lines. rewrite !El by assumption.
  rewrite text_lines_flat.
  - cbn [map]. rewrite !map_app. cbn [map].
    assert (Es : forall m : lmap entry, map strip_cr (map (fun kv => entry_to_string (snd kv)) m) = map (fun kv => entry_to_string (snd kv)) m).
    { intros m. rewrite map_map. apply map_ext. intros kv. apply strip_cr_line. }
    rewrite !Es. change (strip_cr ari_header) with ari_header. change (strip_cr nasi_header) with nasi_header.
    unfold load_lines. cbn [fold_left]. rewrite fold_left_app. cbn [fold_left].
    change (load_line (true, dents_empty) ari_header) with (true, dents_empty).
    rewrite (load_pushes true) by (intros k e H; split; [now apply (Hka k)|intros _; now apply (Hl k)]).
    rewrite fold_ari. cbn [d_ari d_nashi dents_empty].
    rewrite push_all by (first [exact Ma|cbn [map]; now rewrite app_nil_r]). rewrite app_nil_r.
    change (load_line (true, ?d0) nasi_header) with (false, d0).
    rewrite (load_pushes false) by (intros k e H; split; [now apply (Hkn k)|discriminate]).
    rewrite fold_nashi. cbn [snd d_ari d_nashi].
    rewrite push_all by (first [exact Mn|cbn [map]; now rewrite app_nil_r]). now rewrite app_nil_r.
  - assert (Hn : forall m, (forall k e, In (k, e) m -> savable e /\ one_line e /\ enc (entry_to_string e) = true) ->
      Forall (fun l => ~ In 10%N l) (map (fun kv : str * entry => entry_to_string (snd kv)) m)).
    { intros m H. apply Forall_map, Forall_forall. intros [k e] Hin. apply H in Hin as (H1 & H2 & _). now apply line_newline. }
    constructor; [apply notin_b; vm_compute; reflexivity|]. apply Forall_app. split; [now apply Hn|].
    constructor; [apply notin_b; vm_compute; reflexivity|]. now apply Hn.
Qed.
Lemma remade_keys m : map fst (remade_map m) = rev (map fst m).
Proof. unfold remade_map. rewrite map_rev, map_map. reflexivity. Qed.
Lemma remade_peek m k : NoDup (map fst m) -> lpeek k (remade_map m) = option_map remade (lpeek k m).
Proof.
  intros H. assert (H' : NoDup (map fst (remade_map m))) by (rewrite remade_keys; now apply NoDup_rev).
  destruct (lpeek k m) as [e|] eqn:E; cbn.
  - apply in_lpeek; [exact H'|]. unfold remade_map. apply in_rev. rewrite rev_involutive.
    apply lpeek_in in E. apply (in_map (fun kv => (fst kv, remade (snd kv)))) in E. exact E.
  - destruct (lpeek k (remade_map m)) as [e|] eqn:E'; [|reflexivity]. exfalso.
    apply lpeek_in in E'. unfold remade_map in E'. apply in_rev in E'. apply in_map_iff in E' as ([k' e'] & [= <- <-] & Hin).
    apply in_lpeek in Hin; [|exact H]. cbn in Hin. congruence.
Qed.
Lemma pairs_unique {V} (a b : list (str * V)) :
  StronglySorted (fun x y => str_lt (fst x) (fst y)) a -> StronglySorted (fun x y => str_lt (fst x) (fst y)) b ->
  Permutation a b -> a = b.
Proof.
  intros Ha. revert b. induction Ha as [|x a Hs IH Hf]; intros b Hb Hp.
  - now apply Permutation_nil in Hp.
  - destruct Hb as [|y b Hs' Hf']; [now apply Permutation_sym, Permutation_nil in Hp|].
    assert (E : x = y).
    { assert (Hx : In x (y :: b)) by (apply (Permutation_in _ Hp); now left).
      assert (Hy : In y (x :: a)) by (apply (Permutation_in _ (Permutation_sym Hp)); now left).
      destruct Hx as [->|Hx]; [reflexivity|]. destruct Hy as [->|Hy]; [reflexivity|].
      rewrite Forall_forall in Hf, Hf'. exfalso. apply (str_lt_irrefl (fst x)).
      eapply str_lt_trans; [apply Hf, Hy|apply Hf', Hx]. }
    subst y. f_equal. apply IH; [exact Hs'|]. now apply Permutation_cons_inv in Hp.
Qed.
Lemma remade_sorted m : NoDup (map fst m) ->
  liter_sorted (remade_map m) = map (fun kv => (fst kv, remade (snd kv))) (liter_sorted m).
Proof.
  intros H. assert (H' : NoDup (map fst (remade_map m))) by (rewrite remade_keys; now apply NoDup_rev).
  apply pairs_unique.
  - now apply liter_sorted_sorted.
  - pose proof (liter_sorted_sorted m H) as Hs. induction Hs as [|x l Hs IH Hf]; cbn; constructor; [exact IH|].
    apply Forall_map. eapply Forall_impl; [|exact Hf]. auto.
  - rewrite liter_sorted_perm. unfold remade_map. rewrite <- Permutation_rev. apply Permutation_map.
    symmetry. apply liter_sorted_perm.
Qed.

(** * The answers only depend on the entries, not on their recency or marks *)
Lemma all_candidates_ext ds ds' : (forall k, exact_candidates ds k = exact_candidates ds' k) ->
  forall k, get_all_candidates ds k = get_all_candidates ds' k.
Proof.
  intros H.
  assert (Ht : forall t n, template_texts ds t n = template_texts ds' t n)
    by (intros; unfold template_texts; now rewrite H).
  assert (Hr : forall ts ns cur, replace_templates ds ts ns cur = replace_templates ds' ts ns cur).
  { induction ts as [|t ts IH]; intros [|n ns] cur; cbn; try reflexivity.
    destruct cur; [reflexivity|]. rewrite Ht. destruct (template_texts ds' t n); cbn; [apply IH|reflexivity]. }
  assert (Hm : forall ns c, replace_numeric_match ds ns c = replace_numeric_match ds' ns c)
    by (intros; unfold replace_numeric_match, replace_numeric_string; now rewrite Hr).
  assert (Hl : forall ns cs, res_map (replace_numeric_match ds ns) cs = res_map (replace_numeric_match ds' ns) cs).
  { intros ns. induction cs as [|c cs IH]; cbn; [reflexivity|]. now rewrite Hm, IH. }
  intros k. unfold get_all_candidates. rewrite H. destruct (exact_candidates ds' k); cbn [rbind]; [|reflexivity].
  destruct (to_numeric_key k) as [k' ns]. destruct (ckey_eqb k' k); [reflexivity|].
  rewrite H. destruct (exact_candidates ds' k'); cbn [rbind]; [|reflexivity]. now rewrite Hl.
Qed.
Lemma order_ext before d d' after k :
  rmap (dict_candidates k) (lookup d k) = rmap (dict_candidates k) (lookup d' k) ->
  candidates_in_order (before ++ d :: after) k = candidates_in_order (before ++ d' :: after) k.
Proof.
  intros H. induction before as [|b r IH]; cbn [app candidates_in_order].
  - destruct (lookup d k), (lookup d' k); cbn in *; try discriminate; [|now injection H as ->].
    injection H as ->. reflexivity.
  - now rewrite IH.
Qed.
Definition completions_of (k : ckey) (e : entry) : list ccand :=
  match entry_candidates (ck_okuri k) e with
  | Some cs => map (fun c => mkCC (e_midashi e) (ck_okuri k) (dc_kouho c) (dc_annot c)) cs
  | None => []
  end.
Lemma complete_ext before d d' after k : d_completable d = d_completable d' ->
  rmap (flat_map (completions_of k)) (complete d k) = rmap (flat_map (completions_of k)) (complete d' k) ->
  complete_in_order (before ++ d :: after) k = complete_in_order (before ++ d' :: after) k.
Proof.
  intros Hc H. induction before as [|b r IH]; cbn [app complete_in_order].
  - rewrite <- Hc. destruct (d_completable d); [|reflexivity].
    destruct (complete d k), (complete d' k); cbn in *; try discriminate; [|now injection H as ->].
    injection H as H. fold (completions_of k). now rewrite H.
  - now rewrite IH.
Qed.
Lemma same_answers_intro d d' : d_completable d = d_completable d' ->
  (forall k, rmap (dict_candidates k) (lookup d k) = rmap (dict_candidates k) (lookup d' k)) ->
  (forall k, rmap (flat_map (completions_of k)) (complete d k) = rmap (flat_map (completions_of k)) (complete d' k)) ->
  same_answers d d'.
Proof.
  intros Hc H1 H2 before after k. split.
  - apply all_candidates_ext. intros k'. unfold exact_candidates. now rewrite (order_ext _ d d').
  - unfold get_all_complete. now rewrite (complete_ext _ d d').
Qed.
Lemma take_while_map {A B} (f : B -> bool) (g : A -> B) l :
  take_while f (map g l) = map g (take_while (fun x => f (g x)) l).
Proof. induction l as [|x l IH]; cbn; [reflexivity|]. destruct (f (g x)); cbn; [now rewrite IH|reflexivity]. Qed.
Lemma skip_while_map {A B} (f : B -> bool) (g : A -> B) l :
  skip_while f (map g l) = map g (skip_while (fun x => f (g x)) l).
Proof. induction l as [|x l IH]; cbn; [reflexivity|]. destruct (f (g x)); cbn; [exact IH|reflexivity]. Qed.
Lemma remade_answers c e b b' : sound_dents e ->
  same_answers (mkDict c (DUser e b)) (mkDict c (DUser (mkDents (remade_map (d_ari e)) (remade_map (d_nashi e))) b')).
Proof.
  intros ((Na & _) & (Nn & _)). apply same_answers_intro; [reflexivity| |]; intros k.
  - unfold lookup. cbn [d_kind dict_ents d_ari d_nashi]. destruct (get_dict_key k) as [key|]; cbn; [|reflexivity].
    f_equal. destruct (has_okuri k) eqn:Ho; rewrite remade_peek by assumption;
      destruct (lpeek key _); reflexivity.
  - unfold complete. cbn [d_kind dict_ents d_ari d_nashi].
    assert (G : forall m, NoDup (map fst m) ->
      rmap (flat_map (completions_of k)) (match liter_sorted m with [] => Ok [] | _ => rmap (fun key =>
           map snd (take_while (fun kv => is_prefixb key (fst kv))
                     (skip_while (fun kv => negb (is_prefixb key (fst kv))) (liter_sorted m)))) (get_dict_key k) end)
      = rmap (flat_map (completions_of k)) (match liter_sorted (remade_map m) with [] => Ok [] | _ => rmap (fun key =>
           map snd (take_while (fun kv => is_prefixb key (fst kv))
                     (skip_while (fun kv => negb (is_prefixb key (fst kv))) (liter_sorted (remade_map m))))) (get_dict_key k) end)).
    { intros m Hm. rewrite remade_sorted by exact Hm. destruct (liter_sorted m) as [|x s]; [reflexivity|].
      destruct (get_dict_key k) as [key|]; cbn [rmap rbind map]; [|reflexivity].
      change ((fst x, remade (snd x)) :: map (fun kv => (fst kv, remade (snd kv))) s)
        with (map (fun kv => (fst kv, remade (snd kv))) (x :: s)).
      rewrite skip_while_map, take_while_map. cbn [fst]. f_equal. rewrite map_map. cbn [snd].
      generalize (take_while (fun kv : str * entry => is_prefixb key (fst kv))
        (skip_while (fun kv : str * entry => negb (is_prefixb key (fst kv))) (x :: s))).
      intros l. induction l as [|y l IH]; cbn [map flat_map]; [reflexivity|]. now rewrite IH. }
    destruct (has_okuri k); now apply G.
Qed.

(** C35 (partial): for contents the file can carry, saving and then reloading changes no
    answer. *)
Theorem C35_partial enc c e f old : sound_dents e -> keepable enc e -> f_main f = Some old ->
  exists u f', save_working enc (mkU e true) f = (Some true, (u, f'))
    /\ u_ents u = e
    /\ same_answers (mkDict c (DUser e true)) (mkDict c (DUser (u_ents (reload u f')) (u_change (reload u f')))).
Proof.
  intros Hs Hk Hf. unfold save_working. cbn [u_change u_ents]. rewrite Hf. eexists _, _. split; [reflexivity|].
  split; [reflexivity|]. unfold reload. cbn [f_main u_ents u_change].
  rewrite (reload_exact enc e Hs Hk). now apply remade_answers.
Qed.
(** The sections hold exactly the same lists. *)
Theorem C35_lists_partial enc c e f old : sound_dents e -> keepable enc e -> f_main f = Some old ->
  forall u f', save_working enc (mkU e true) f = (Some true, (u, f')) ->
  forall ari m o, listed (mkDict c (DUser (u_ents (reload u f')) false)) ari m o = listed (mkDict c (DUser e true)) ari m o.
Proof.
  intros Hs Hk Hf u f'. unfold save_working. cbn [u_change u_ents]. rewrite Hf. intros [= <- <-] ari m o.
  unfold reload. cbn [f_main u_ents u_change]. rewrite (reload_exact enc e Hs Hk).
  destruct Hs as ((Na & _) & (Nn & _)).
  unfold listed, section. cbn [dict_ents d_kind]. destruct ari; cbn [d_ari d_nashi]; rewrite remade_peek by assumption;
    destruct (lpeek m _); reflexivity.
Qed.
(** C36: the recency order is exactly reversed, so after two rounds it is the original one. *)
Theorem C36_reversed enc d : sound_dents d -> keepable enc d ->
  forall ari, recency ari (load_text (save_text enc d)) = rev (recency ari d).
Proof.
  intros Hs Hk ari. rewrite (reload_exact enc d Hs Hk). unfold recency, liter_lru. destruct ari; cbn [loaded d_ari d_nashi]; apply remade_keys.
Qed.
Lemma keepable_reload enc d : sound_dents d -> keepable enc d ->
  sound_dents (load_text (save_text enc d)) /\ keepable enc (load_text (save_text enc d)).
Proof.
  intros Hs Hk. split; [apply sound_load|]. rewrite (reload_exact enc d Hs Hk).
  assert (Hin : forall k e m, In (k, e) (remade_map m) -> exists e', In (k, e') m /\ e = remade e').
  { intros k e m H. unfold remade_map in H. apply in_rev in H. apply in_map_iff in H as ([k' e'] & [= <- <-] & H). eauto. }
  split; cbn [d_ari d_nashi].
  - intros k e H. assert (H' : exists e', In (k, e') (d_ari d ++ d_nashi d) /\ e = remade e').
    { apply in_app_iff in H as [H|H]; apply Hin in H as (e' & H & ->); exists e'; (split; [apply in_or_app; auto|reflexivity]). }
    destruct H' as (e' & H' & ->). apply (kp_entries _ _ Hk) in H'. destruct e'; exact H'.
  - intros k e H. apply Hin in H as (e' & H & ->). exact (kp_letter _ _ Hk _ _ H).
Qed.
Theorem C36_two_rounds_partial enc d : sound_dents d -> keepable enc d ->
  forall ari, recency ari (load_text (save_text enc (load_text (save_text enc d)))) = recency ari d.
Proof.
  intros Hs Hk ari. destruct (keepable_reload enc d Hs Hk) as (Hs' & Hk').
  rewrite (C36_reversed enc _ Hs' Hk'), (C36_reversed enc d Hs Hk). apply rev_involutive.
Qed.

(** * Refutations, through the keyboard *)
(** The candidate texts offered for a reading, before and after saving and reloading the first
    dictionary of a world. *)
Definition offered (k : ckey) (d : dict) : res (list str) := rmap (map c_output) (get_all_candidates [d] k).
Definition saved_and_reloaded (enc : str -> bool) (d : dict) : dict :=
  mkDict (d_completable d) (DUser (load_text (save_text enc (dict_ents d))) false).
Definition around (enc : str -> bool) (k : ckey) (w : world) : option (res (list str) * res (list str)) :=
  option_map (fun d => (offered k d, offered k (saved_and_reloaded enc d))) (nth_error (w_store w) 0).
Lemma refute_save dbg keys ds enc k a b :
  rmap (fun x => around enc k (snd x)) (typed dbg keys (demo ds)) = Ok (Some (a, b)) ->
  exists w d, reachable ascii_xkb dbg w /\ dict_at 0 w = Some d
    /\ offered k d = a /\ offered k (saved_and_reloaded enc d) = b.
Proof.
  intros E. apply run_case in E as (outs & w & Hr & E). unfold around in E.
  destruct (nth_error (w_store w) 0) as [d|] eqn:Ed; [|discriminate]. cbn [option_map] in E. injection E as E1 E2.
  exists w, d. split; [eapply T_Frames.typed_reachable; exact Hr|]. repeat split; assumption.
Qed.
Definition sushi : str := [127843%N].
(** C35 as stated is false: a registered bracket is lost on reload; a word registered with
    okurigana moves to the section without; a word the file's encoding cannot represent is
    silently left out. *)
Theorem C35_refuted :
  (exists w d, reachable ascii_xkb false w /\ dict_at 0 w = Some d
     /\ offered (mkCK (U "あい") None) d = Ok [U "["]
     /\ offered (mkCK (U "あい") None) (saved_and_reloaded (fun _ => true) d) = Ok [])
  /\ (exists w d, reachable ascii_xkb false w /\ dict_at 0 w = Some d
     /\ offered (mkCK (U "か") None) d = Ok []
     /\ offered (mkCK (U "か") None) (saved_and_reloaded (fun _ => true) d) = Ok [U "x"])
  /\ (exists w d, reachable ascii_xkb false w /\ dict_at 0 w = Some d
     /\ offered (mkCK (U "あい") None) d = Ok [sushi]
     /\ offered (mkCK (U "あい") None) (saved_and_reloaded (fun l => negb (existsb (N.eqb 127843) l)) d) = Ok []).
Proof.
  split; [|split].
  - apply (refute_save false (U "A i space l bracketleft Return") [user_dict []]). vm_compute. reflexivity.
  - apply (refute_save false (U "K a K u l x Return") [user_dict []]). vm_compute. reflexivity.
  - apply (refute_save false (U "A i space Return") [user_dict []; static_dict [U "あい /" ++ sushi ++ U "/"]]). vm_compute. reflexivity.
Qed.
(** C36 as stated is false: the reading confirmed last is the last one after a reload. *)
Theorem C36_refuted : exists w d, reachable ascii_xkb false w /\ dict_at 0 w = Some d
  /\ recency false (dict_ents d) = [U "かな"; U "あい"]
  /\ recency false (load_text (save_text (fun _ => true) (dict_ents d))) = [U "あい"; U "かな"].
Proof.
  destruct (run_case (typed false (U "A i space Return K a n a space Return")
     (demo [user_dict []; static_dict [U "あい /愛/"; U "かな /仮名/"]]))
     (fun w => option_map (fun d => (recency false (dict_ents d), recency false (load_text (save_text (fun _ => true) (dict_ents d))))) (nth_error (w_store w) 0))
     (Some ([U "かな"; U "あい"], [U "あい"; U "かな"]))) as (outs & w & Hr & E); [vm_compute; reflexivity|].
  destruct (nth_error (w_store w) 0) as [d|] eqn:Ed; [|discriminate]. cbn [option_map] in E. injection E as E1 E2.
  exists w, d. split; [eapply T_Frames.typed_reachable; exact Hr|]. repeat split; assumption.
Qed.
(** Contents that meet the hypotheses of C35 and C36, with both sections, annotations, escapes
    and strict okurigana. *)
Definition kept_entries : lmap entry :=
  [(U "おおk", mkEntry (U "おおk") true
    [([], [mkDC (U "大") None; mkDC (U "多/い") (Some (U "a;b[]"))]); (U "い", [mkDC (U "多") (Some (U "数"))]); (U "き", [mkDC (U "大") None])])].
Example C35_example : sound_dents (mkDents kept_entries [(U "か", mkEntry (U "か") false [([], [mkDC (U "蚊") None])])])
  /\ keepable (fun _ => true) (mkDents kept_entries [(U "か", mkEntry (U "か") false [([], [mkDC (U "蚊") None])])]).
Proof.
  assert (S2 : savable (mkEntry (U "か") false [([], [mkDC (U "蚊") None])])).
  { split.
    - cbn [e_midashi]. split; [discriminate|]. repeat split; apply notin_b; vm_compute; reflexivity.
    - constructor; cbn [e_map].
      + cbn. repeat constructor.
      + discriminate.
      + intros o l [[= <- <-]|[]]. split; [discriminate|split; [|now left]]. constructor; [|constructor].
        split; [|exact I]. cbn [dc_kouho]. split; [discriminate|split; [apply escapable_carried, escapableb_spec; vm_compute; reflexivity|split; apply notin_b; vm_compute; reflexivity]].
      + intros l d rest [= _ <-] H. congruence. }
  split.
  - split; split; cbn; try (repeat constructor; cbn; tauto); intros k e [[= <- <-]|[]]; reflexivity.
  - split.
    + intros k e H. cbn in H. destruct H as [[= <- <-]|[[= <- <-]|[]]]; (split; [first [exact C33_example|exact S2]|split; [|reflexivity]]).
      * split; [apply notin_b; vm_compute; reflexivity|]. intros o l d H Hd. cbn [e_map] in H.
        destruct H as [[= <- <-]|[[= <- <-]|[[= <- <-]|[]]]]; cbn in Hd;
          repeat (destruct Hd as [<-|Hd]; [split; [apply notin_b; vm_compute; reflexivity|first [exact I|apply notin_b; vm_compute; reflexivity]]|]); destruct Hd.
      * split; [apply notin_b; vm_compute; reflexivity|]. intros o l d H Hd. cbn [e_map] in H.
        destruct H as [[= <- <-]|[]]; cbn in Hd;
          repeat (destruct Hd as [<-|Hd]; [split; [apply notin_b; vm_compute; reflexivity|first [exact I|apply notin_b; vm_compute; reflexivity]]|]); destruct Hd.
    + intros k e H. cbn in H. destruct H as [[= <- <-]|[]]; apply okuri_midashi_spec; vm_compute; reflexivity.
Qed.

(** * Files *)
Definition saving_inv (old text : str) (x : fs * saver) : Prop :=
  match snd x with
  | AtRename => f_main (fst x) = Some old
  | AtCreate => fst x = mkFs None (Some old)
  | Writing rest => exists done, fst x = mkFs (Some done) (Some old) /\ done ++ rest = text
  | Saved => fst x = mkFs (Some text) (Some old)
  | Failed => f_main (fst x) = Some old \/ f_bak (fst x) = Some old
  end.
Lemma saving_keeps old bak text x : save_steps text (mkFs (Some old) bak, AtRename) x -> saving_inv old text x.
Proof.
  intros H. remember (mkFs (Some old) bak, AtRename) as x0 eqn:E0. induction H as [x|x y z Hs IH Hst]; [subst; reflexivity|].
  specialize (IH E0). clear Hs E0. destruct Hst; unfold saving_inv in *; cbn [fst snd f_main f_bak] in *.
  - now injection IH as ->.
  - now left.
  - injection IH as ->. exists []. split; reflexivity.
  - right. subst f. reflexivity.
  - destruct IH as (d & E & Et). injection E as E1 E2. subst. exists (d ++ chunk). split; [reflexivity|]. now rewrite <- app_assoc.
  - destruct IH as (d & -> & _). right. reflexivity.
  - destruct IH as (d & -> & <-). now rewrite app_nil_r.
Qed.
(** C37: wherever the process dies while saving over a file with contents [old], the file or
    its .BAK holds [old] completely, or the file holds the complete new text. *)
Theorem C37_crash enc d old bak f p :
  save_steps (save_text enc d) (mkFs (Some old) bak, AtRename) (f, p) ->
  f_main f = Some old \/ f_bak f = Some old \/ f_main f = Some (save_text enc d).
Proof.
  intros H. apply saving_keeps in H. unfold saving_inv in H. cbn [fst snd] in H. destruct p.
  - now left.
  - subst f. right. now left.
  - destruct H as (x & -> & _). right. now left.
  - subst f. right. now left.
  - tauto.
Qed.
(** A save that reports success wrote everything. *)
Theorem C37_success enc u old bak u' f' : u_change u = true ->
  save_dictionary enc (u, mkFs (Some old) bak) (Some true) (u', f') ->
  f' = mkFs (Some (save_text enc (u_ents u))) (Some old) /\ u_change u' = false.
Proof.
  intros Hc H. inversion H; subst. cbn [u_ents u_change]. split; [|reflexivity].
  match goal with Hs : save_steps _ _ _ |- _ => apply saving_keeps in Hs; exact Hs end.
Qed.
(** Every point named in the property exists: a crash inside the writing, with part of the new
    text on disk. *)
Example C37_example : exists f p,
  save_steps (save_text (fun _ => true) dents_empty) (mkFs (Some (U "old")) None, AtRename) (f, p)
  /\ f_main f = Some (U ";; okuri") /\ f_bak f = Some (U "old").
Proof.
  set (t := save_text _ _).
  exists (mkFs (Some (U ";; okuri")) (Some (U "old"))), (Writing (skipn 8 t)). split; [|split; reflexivity].
  eapply ss_step; [eapply ss_step; [eapply ss_step; [apply ss_refl|apply st_rename]|apply st_create]|].
  replace t with (U ";; okuri" ++ skipn 8 t) at 2 by (vm_compute; reflexivity).
  apply (st_write t [] (U ";; okuri")). discriminate.
Qed.

(** C57: over several interrupted saves (each time the library is started again, reads what is
    in the file, gets a change and saves) neither file need hold any complete contents. *)
Inductive sessions (enc : str -> bool) : fs -> fs -> Prop :=
| sn_refl f : sessions enc f f
| sn_crash f f1 d f2 p : sessions enc f f1 -> f_main f1 <> None ->
    save_steps (save_text enc d) (f1, AtRename) (f2, p) -> sessions enc f f2.
Theorem C57_refuted : forall enc old, exists f,
  sessions enc (mkFs (Some old) None) f
  /\ f_main f = Some [] /\ f_bak f = Some [].
Proof.
  intros enc old. exists (mkFs (Some []) (Some [])). split; [|split; reflexivity].
  apply sn_crash with (f1 := mkFs (Some []) (Some old)) (d := dents_empty) (p := Writing (save_text enc dents_empty)).
  - apply sn_crash with (f1 := mkFs (Some old) None) (d := dents_empty) (p := Writing (save_text enc dents_empty));
      [constructor|discriminate|].
    eapply ss_step; [eapply ss_step; [apply ss_refl|apply st_rename]|apply st_create].
  - discriminate.
  - eapply ss_step; [eapply ss_step; [apply ss_refl|apply st_rename]|apply st_create].
Qed.
(** It does hold when no save is interrupted between creating and completing the file. *)
Definition complete_contents (old : str) (enc : str -> bool) (t : str) : Prop :=
  t = old \/ exists d, t = save_text enc d.
Inductive lucky_sessions (enc : str -> bool) : fs -> fs -> Prop :=
| lk_refl f : lucky_sessions enc f f
| lk_crash f f1 d f2 p : lucky_sessions enc f f1 -> f_main f1 <> None ->
    save_steps (save_text enc d) (f1, AtRename) (f2, p) ->
    (forall t, f_main f2 = Some t -> f_main f2 = f_main f1 \/ t = save_text enc d) ->
    lucky_sessions enc f f2.
Theorem C57_partial enc old bak f : lucky_sessions enc (mkFs (Some old) bak) f ->
  (exists t, f_main f = Some t /\ complete_contents old enc t)
  \/ (f_main f = None /\ exists t, f_bak f = Some t /\ complete_contents old enc t).
Proof.
  intros H. remember (mkFs (Some old) bak) as f0 eqn:E0. induction H as [f|f f1 d f2 p Hl IH Hne Hs Hok].
  - subst. left. exists old. split; [reflexivity|now left].
  - specialize (IH E0). destruct IH as [(t & Em & Hc)|(Em & _)]; [|congruence].
    destruct f1 as [m1 b1]. cbn [f_main] in *. subst m1.
    pose proof (saving_keeps t b1 _ _ Hs) as Hi.
    destruct (f_main f2) as [t2|] eqn:E2.
    + left. exists t2. split; [reflexivity|]. destruct (Hok t2 eq_refl) as [[= ->]| ->]; [exact Hc|right; eauto].
    + right. split; [reflexivity|]. exists t. split; [|exact Hc]. unfold saving_inv in Hi. cbn [fst snd] in Hi.
      destruct p as [| |rest| |].
      * congruence.
      * subst f2. reflexivity.
      * destruct Hi as (x & -> & _). discriminate.
      * subst f2. discriminate.
      * destruct Hi as [Hi|Hi]; [congruence|exact Hi].
Qed.

(** * Failed saves *)
Lemma working_is_a_save enc u f : 
  save_dictionary enc (u, f) (fst (save_working enc u f)) (snd (save_working enc u f)).
Proof.
  destruct u as [d [|]]; unfold save_working; cbn [u_change u_ents]; [|apply sd_unchanged].
  destruct f as [[old|] bak]; cbn [f_main fst snd].
  - apply sd_saved. eapply ss_step; [|apply st_flushed].
    replace (Some (save_text enc d)) with (Some ([] ++ save_text enc d)) by reflexivity.
    eapply ss_step; [eapply ss_step; [eapply ss_step; [apply ss_refl|apply st_rename]|apply st_create]|].
    replace (Writing (save_text enc d)) with (Writing (save_text enc d ++ [])) by now rewrite app_nil_r.
    apply st_write. discriminate.
  - apply sd_failed. eapply ss_step; [apply ss_refl|apply st_rename_fails].
Qed.
(** C38 (partial): if a save fails but leaves the file in place (a failed rename, or an error
    while writing), the next save on a working file system writes everything. *)
Theorem C38_retry_partial enc u f u' f' old : save_dictionary enc (u, f) None (u', f') ->
  f_main f' = Some old ->
  u_ents u' = u_ents u
  /\ save_working enc u' f' = (Some true, (mkU (u_ents u) false, mkFs (Some (save_text enc (u_ents u))) (Some old))).
Proof.
  intros H Hm. inversion H; subst. cbn [u_ents]. split; [reflexivity|]. unfold save_working. cbn [u_change u_ents]. now rewrite Hm.
Qed.
(** The file is missing after a failure exactly when creating the new one failed. *)
Theorem C38_missing_partial text old bak f : save_steps text (mkFs (Some old) bak, AtRename) (f, Failed) ->
  f_main f = None -> f = mkFs None (Some old).
Proof.
  intros H. remember (mkFs (Some old) bak, AtRename) as x0 eqn:E0. remember (f, Failed) as x1 eqn:E1.
  destruct H as [x|x y z Hs Hst]; [congruence|]. subst z x.
  pose proof (saving_keeps _ _ _ _ Hs) as Hi. inversion Hst; subst; cbn [fst snd] in Hi; unfold saving_inv in Hi; cbn in Hi; intros Hm.
  - congruence.
  - exact Hi.
  - destruct Hi as (d & -> & _). discriminate.
Qed.
(** C38 as stated is false: after a failure to create the new file, every later save fails, and
    changes nothing, however well the file system works. *)
Theorem C38_refuted : forall enc d old bak, exists f',
  save_dictionary enc (mkU d true, mkFs (Some old) bak) None (mkU d true, f')
  /\ (forall u r u' f'', u_change u = true -> save_dictionary enc (u, f') r (u', f'') -> r = None /\ u' = u /\ f'' = f')
  /\ (forall u, u_change u = true -> save_working enc u f' = (None, (u, f'))).
Proof.
  intros enc d old bak. exists (mkFs None (Some old)). split; [|split].
  - apply sd_failed. eapply ss_step; [eapply ss_step; [apply ss_refl|apply st_rename]|apply st_create_fails].
  - intros u r u' f'' Hc H.
    assert (G : forall text x, save_steps text (mkFs None (Some old), AtRename) x ->
      x = (mkFs None (Some old), AtRename) \/ x = (mkFs None (Some old), Failed)).
    { intros text x Hs. remember (mkFs None (Some old), AtRename) as x0 eqn:E0.
      induction Hs as [|x y z Hs IH Hst]; [left; reflexivity|]. destruct (IH E0) as [-> | ->]; subst; inversion Hst; subst; now right. }
    inversion H; subst; [discriminate| |].
    + match goal with Hs : save_steps _ _ _ |- _ => apply G in Hs as [Hs|Hs]; discriminate Hs end.
    + match goal with Hs : save_steps _ _ _ |- _ => apply G in Hs as [Hs|Hs]; [discriminate Hs|injection Hs as ->] end. auto.
  - intros [d' [|]] Hc; [reflexivity|discriminate].
Qed.
