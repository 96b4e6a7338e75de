(** C81: the word chosen last is offered first. *)
From Verif Require Import Str Keys Modes KanaBuilder FormChanger DictTypes Parser Lru
  Dictionary CState Context DefaultRule Demo Spec P_Monad P_Frames P_Inv P_Step
  T_Num T_Dedup T_Entry T_ExactDict T_Predict T_Offered T_Convert T_Saved.
From Verif Require T_Encoding.

(* ------------------------------------------------------------ vocabulary *)
(** The candidate was offered for the key: a reading, with its okurigana if it has one. *)
Definition offered_for (key : ckey) (c : candidate) : Prop :=
  c_strict c = ck_okuri key /\ c_okuri c = has_okuri key /\ get_dict_key key = Ok (c_midashi c).
(** The two dictionaries list the same for the headword. *)
Definition same_entry (ari : bool) (headword : str) (d d' : dict) : Prop :=
  forall o, listed d' ari headword o = listed d ari headword o.
(** No copy of the text is annotated more highly than the one first in the list. *)
Definition no_better_copy (key : ckey) (t : str) (ds : list dict) : Prop :=
  forall x y, hd_error (listed_for key ds) = Some x -> In y (listed_for key ds) -> dc_kouho y = t -> annot_le (dc_annot y) (dc_annot x).
(** The candidates are shown, from the first on, which would output the text. *)
Definition offers_first (w : world) (t : str) : Prop :=
  exists s rest c cs, frames w = s :: rest /\ s_cmode s = CompositionSelection /\ cursor s = 0%N
    /\ cl_list (s_list s) = c :: cs /\ c_output c = t.
(** What users teach a dictionary: a candidate is chosen, a candidate is purged. *)
Inductive lesson := Chosen (c : candidate) | Purged (k : ckey) (c : candidate).
Definition teach (d : dict) (l : lesson) : dict :=
  match l with Chosen c => select_candidate d c | Purged k c => purge_candidate d k c end.
(** The lesson is about the headword. *)
Definition about (ari : bool) (headword : str) (l : lesson) : Prop :=
  match l with Chosen c | Purged _ c => c_okuri c = ari /\ c_midashi c = headword end.

(* ------------------------------------------------------------ proofs *)
Lemma strict_listed k d o m : d_kind d <> DEmpty -> get_dict_key k = Ok m -> ck_okuri k = Some o -> strict_texts k d = listed d true m o.
Proof.
  intros Hd Hm Ho. unfold strict_texts, listed. rewrite lookup_section by exact Hd. rewrite Hm. cbn [rmap rbind]. rewrite Ho.
  unfold has_okuri. rewrite Ho. destruct (lpeek m (section true d)); reflexivity.
Qed.
Lemma without_listed k d m : d_kind d <> DEmpty -> get_dict_key k = Ok m -> texts_without_okuri k d = listed d (has_okuri k) m [].
Proof.
  intros Hd Hm. unfold texts_without_okuri, listed. rewrite lookup_section by exact Hd. rewrite Hm. cbn [rmap rbind].
  destruct (lpeek m (section (has_okuri k) d)); reflexivity.
Qed.
Lemma user_kind d : user d -> d_kind d <> DEmpty.
Proof. unfold user. destruct (d_kind d); [discriminate| |]; try discriminate; tauto. Qed.
Lemma lookup_total d k m : get_dict_key k = Ok m -> exists oe, lookup d k = Ok oe.
Proof. intros H. unfold lookup. destruct (d_kind d); rewrite ?H; cbn; eauto. Qed.
Lemma exact_total ds k m : get_dict_key k = Ok m -> exists cs, exact_candidates ds k = Ok cs.
Proof.
  intros H. unfold exact_candidates. assert (E : exists l, candidates_in_order ds k = Ok l).
  { induction ds as [|d ds (l & IH)]; cbn; [eauto|]. destruct (lookup_total d k m H) as (oe & ->). cbn. rewrite IH. cbn. eauto. }
  destruct E as (l & ->). cbn [rbind]. induction (dedup_candidates dcand_cmp dc_kouho l) as [|x l' (cs & IH)]; cbn; [eauto|].
  unfold candidate_of_dcand at 1. rewrite H. cbn [rbind rmap]. rewrite IH. cbn. eauto.
Qed.
Lemma taught_head d c o : user d -> o = [] \/ c_strict c = Some o ->
  exists x r, listed (select_candidate d c) (c_okuri c) (c_midashi c) o = x :: r /\ dc_kouho x = c_kouho c.
Proof.
  intros Hu Ho. destruct (C24_confirm d c Hu o Ho) as (H & _). cbv zeta in H.
  destruct (listed (select_candidate d c) (c_okuri c) (c_midashi c) o) as [|x r]; [discriminate|].
  exists x, r. split; [reflexivity|]. cbn in H. now injection H.
Qed.
(** What the first dictionary lists first. *)
Lemma taught_first d d2 rest key c : user d -> user d2 -> offered_for key c ->
  same_entry (c_okuri c) (c_midashi c) (select_candidate d c) d2 ->
  exists x r, listed_for key (d2 :: rest) = x :: r /\ dc_kouho x = c_kouho c.
Proof.
  intros Hu Hu2 (Hs & Ho & Hm) He. unfold listed_for. cbn [flat_map]. apply user_kind in Hu2.
  destruct (ck_okuri key) as [o|] eqn:Eo.
  - rewrite (strict_listed key d2 o (c_midashi c) Hu2 Hm Eo).
    assert (Et : c_okuri c = true) by (rewrite Ho; unfold has_okuri; now rewrite Eo).
    pose proof (He o) as E. rewrite Et in E. rewrite E.
    destruct (taught_head d c o Hu (or_intror Hs)) as (x & r & Ex & Hx). rewrite Et in Ex. rewrite Ex. cbn [app]. eauto.
  - assert (Es : strict_texts key d2 = []). { unfold strict_texts. rewrite Eo. destruct (lookup d2 key) as [[e|]|]; reflexivity. }
    rewrite Es, (without_listed key d2 (c_midashi c) Hu2 Hm), <- Ho, (He []). cbn [app].
    destruct (taught_head d c [] Hu (or_introl eq_refl)) as (x & r & Ex & Hx). rewrite Ex. cbn [app]. eauto.
Qed.
Lemma exact_first d d2 rest key c : user d -> user d2 -> offered_for key c ->
  same_entry (c_okuri c) (c_midashi c) (select_candidate d c) d2 -> no_better_copy key (c_kouho c) (d2 :: rest) ->
  exists c' cs, exact_candidates (d2 :: rest) key = Ok (c' :: cs) /\ c_kouho c' = c_kouho c /\ c_output c' = c_kouho c /\ offered_for key c'.
Proof.
  intros Hu Hu2 Hof He Hb.
  destruct (taught_first d d2 rest key c Hu Hu2 Hof He) as (x & r & Ex & Hx).
  destruct Hof as (_ & _ & Hm). destruct (exact_total (d2 :: rest) key _ Hm) as (cs & Ecs). rewrite Ecs.
  destruct (exact_made _ _ _ Ecs) as (l & Hl & H2). apply in_order_concat in Hl. fold (listed_for key (d2 :: rest)) in Hl. subst l.
  rewrite C22_exact in H2.
  assert (Hp : preferredb (listed_for key (d2 :: rest)) x = true).
  { apply preferredb_spec. unfold preferred. unfold no_better_copy in Hb. rewrite Ex in Hb |- *.
    intros y Hy E. apply (Hb x y); [reflexivity|exact Hy|congruence]. }
  rewrite Ex in H2. cbn [filter] in H2. rewrite <- Ex, Hp in H2. cbn [first_appearances] in H2. inversion H2 as [|x' c' l' cs' Hc' _ E1 E2]. subst.
  destruct Hc' as (K1 & K2 & K3 & K4 & K5 & K6). exists c', cs'. split; [reflexivity|]. unfold offered_for. rewrite K1, K3, Hx. auto 10.
Qed.
(** A dictionary that has just been taught a candidate, or has been taught nothing about that headword
    since, and is asked first. *)
Theorem C81_dictionary_partial : forall d d2 rest key c offered, user d -> user d2 -> offered_for key c ->
  same_entry (c_okuri c) (c_midashi c) (select_candidate d c) d2 -> no_better_copy key (c_kouho c) (d2 :: rest) ->
  get_all_candidates (d2 :: rest) key = Ok offered ->
  exists c' cs, offered = c' :: cs /\ c_kouho c' = c_kouho c /\ c_output c' = c_kouho c /\ offered_for key c'.
Proof.
  intros d d2 rest key c offered Hu Hu2 Hof He Hb H.
  destruct (exact_first d d2 rest key c Hu Hu2 Hof He Hb) as (c' & cs & Ecs & K).
  destruct (get_all_exact _ _ _ H) as (ex & more & Eex & ->). rewrite Ecs in Eex. injection Eex as <-. exists c', (cs ++ more). auto.
Qed.
(** Readings without digits are always converted. *)
Theorem C81_converted : forall ds key c, no_digit (ck_to key) -> offered_for key c -> exists cs, get_all_candidates ds key = Ok cs.
Proof. intros ds key c Hd (_ & _ & Hm). rewrite C23_no_digits by exact Hd. eapply exact_total; eauto. Qed.
(** A word with templates for the numbers in the reading: with any numbers, when nothing is listed for the
    reading with these very numbers, its first text comes first. *)
Theorem C81_number_partial : forall d d2 rest key nkey ns c o os offered, user d -> user d2 ->
  to_numeric_key key = (nkey, ns) -> nkey <> key -> offered_for nkey c ->
  same_entry (c_okuri c) (c_midashi c) (select_candidate d c) d2 -> no_better_copy nkey (c_kouho c) (d2 :: rest) ->
  exact_candidates (d2 :: rest) key = Ok [] ->
  replace_numeric_string (d2 :: rest) (c_kouho c) ns = Ok (o :: os) ->
  get_all_candidates (d2 :: rest) key = Ok offered ->
  exists c' cs, offered = c' :: cs /\ c_kouho c' = c_kouho c /\ c_output c' = o /\ offered_for nkey c'.
Proof.
  intros d d2 rest key nkey ns c o os offered Hu Hu2 Hn Hne Hof He Hb Hex Hr H.
  destruct (exact_first d d2 rest nkey c Hu Hu2 Hof He Hb) as (c' & cs & Ecs & K1 & K2 & K3).
  unfold get_all_candidates in H. rewrite Hex, Hn in H. cbn [rbind] in H.
  destruct (ckey_eqb nkey key) eqn:Ek.
  { exfalso. apply Hne. unfold ckey_eqb in Ek. destruct nkey as [t1 o1], key as [t2 o2]. cbn in Ek. apply andb_prop in Ek as [E1 E2].
    apply str_eqb_eq in E1. f_equal; [exact E1|]. destruct o1, o2; cbn in E2; try discriminate; [|reflexivity]. apply str_eqb_eq in E2. now f_equal. }
  rewrite Ecs in H. cbn [rbind res_map] in H. unfold replace_numeric_match at 1 in H. rewrite K1, Hr in H. cbn [rmap rbind map] in H.
  destruct (res_map (replace_numeric_match (d2 :: rest) ns) cs) as [ll|]; [|discriminate]. cbn [rmap rbind app concat] in H. injection H as <-.
  eexists _, _. split; [reflexivity|]. cbn [with_output c_kouho c_output]. split; [exact K1|]. split; [reflexivity|]. exact K3.
Qed.

Lemma teach_user d l : user d -> user (teach d l).
Proof. destruct l; cbn [teach]; [apply user_select|]. unfold user, purge_candidate. destruct (d_kind d) eqn:E; try rewrite E; cbn; tauto. Qed.
Lemma teach_other d l ari m o : user d -> ~ about ari m l -> listed (teach d l) ari m o = listed d ari m o.
Proof.
  intros Hu Ha. destruct l as [c|k c]; cbn [teach about] in *.
  - rewrite listed_select by exact Hu. destruct (Bool.eqb ari (c_okuri c) && str_eqb m (c_midashi c)) eqn:E; [|reflexivity].
    apply andb_prop in E as [E1 E2]. apply Bool.eqb_prop in E1. apply str_eqb_eq in E2. exfalso. auto.
  - unfold user, listed, section, purge_candidate, dict_ents in *. destruct (d_kind d) as [|e h|] eqn:Ek; try (now rewrite Ek). cbn [d_kind].
    assert (G : forall mp : lmap entry, c_midashi c <> m -> lpeek m (purge_in_map k c mp) = lpeek m mp).
    { intros mp Hm. unfold purge_in_map. rewrite lpeek_update. destruct (str_eqb_spec m (c_midashi c)); [congruence|reflexivity]. }
    destruct ari, (c_okuri c) eqn:Eo; cbn [d_ari d_nashi]; try reflexivity; rewrite G; auto.
Qed.
Lemma teach_all_user ls d : user d -> user (fold_left teach ls d).
Proof. revert d; induction ls as [|l ls IH]; intros d Hu; [exact Hu|]. cbn. apply IH. now apply teach_user. Qed.
Lemma teach_all_other ls ari m : forall d, user d -> Forall (fun l => ~ about ari m l) ls -> same_entry ari m d (fold_left teach ls d).
Proof.
  induction ls as [|l ls IH]; intros d Hu Hl o; [reflexivity|]. inversion Hl as [|? ? H1 H2]; subst. cbn [fold_left].
  rewrite (IH (teach d l) (teach_user d l Hu) H2 o). now apply teach_other.
Qed.
(** Everything that happens to a dictionary while text is typed are lessons. *)
Theorem C81_lessons : forall X dbg ops w outs w' i d, reachable X dbg w ->
  Forall (fun o => changes_store o = false) ops -> run X dbg ops w = Ok (outs, w') -> dict_at i w = Some d ->
  exists ls, dict_at i w' = Some (fold_left teach ls d).
Proof.
  intros X dbg ops w outs w' i d Hr Hops Hrun Hd.
  destruct (run_at X dbg (fun d' => exists ls, d' = fold_left teach ls d) ops w outs w' i d Hr) as (d' & Hd' & ls & ->); auto.
  - intros d1 c (ls & ->). exists (ls ++ [Chosen c]). now rewrite fold_left_app.
  - intros d1 k c (ls & ->). exists (ls ++ [Purged k c]). now rewrite fold_left_app.
  - exists []. reflexivity.
  - exists ls. exact Hd'.
Qed.
Lemma start_panics X dbg k w s rest e : frames w = s :: rest -> settled w s -> runs w k [ITryNextCandidate] ->
  get_all_candidates (ctx_dicts w) (get_composite_key s) = Panic e -> forall b w', process_key_event X dbg k w <> Ok (b, w').
Proof.
  intros Hf (Hm & Hg) Hr Hcs b w'. unfold frames in Hf. rewrite (runs_process X dbg k w _ s rest Hr Hf).
  assert (Ec : cmode_eqb (s_cmode s) CompositionSelection = false) by (destruct Hm as [ -> | [ -> | -> ] ]; reflexivity).
  unfold process_instructions. cbn [is_nil negb run_instrs run_instr]. unfold try_next_candidate. rewrite Ec. cbn [negb].
  unfold bind at 1. unfold bind at 1. unfold bind at 1.
  assert (Eo : output_converted_kana_if_any (s_imode s) (s_cmode s) w = Ok (false, w)).
  { unfold output_converted_kana_if_any, bind, cur, get. rewrite Hf. cbn iota. rewrite Hg. reflexivity. }
  rewrite Eo. unfold bind at 1. unfold update_candidate_list. unfold bind at 1, cur at 1. rewrite Hf. unfold bind at 1, get at 1. unfold bind at 1, lift at 1.
  rewrite Hcs. discriminate.
Qed.
Lemma start_offers X dbg k w s rest b w' : frames w = s :: rest -> settled w s -> runs w k [ITryNextCandidate] ->
  process_key_event X dbg k w = Ok (b, w') ->
  exists cs, get_all_candidates (ctx_dicts w) (get_composite_key s) = Ok cs
    /\ forall c r, cs = c :: r -> b = true /\ offers_first w' (c_output c).
Proof.
  intros Hf Hs Hk Hp. destruct (get_all_candidates (ctx_dicts w) (get_composite_key s)) as [cs|e] eqn:Ec.
  - exists cs. split; [reflexivity|]. intros c r ->.
    destruct (C65_start X dbg k w s rest _ Hf Hs Hk Ec) as (s3 & E3 & M3 & L3 & C3 & _); [discriminate|].
    rewrite E3 in Hp. injection Hp as <- <-. split; [reflexivity|]. exists s3, rest, c, r. auto.
  - exfalso. eapply start_panics; eauto.
Qed.
(** Through the API.  A candidate of the reading [key] is confirmed with a key; later, when the user
    dictionary asked first has been taught nothing else about the headword, the same reading is
    converted: the text is the first candidate. *)
Theorem C81_first_partial : forall X dbg w s rest cs j c key k b w1 i others d d1 ls w2 others2 s2 rest2 k2 b3 w3,
  frames w = s :: rest -> choosing s cs j -> nth_error cs j = Some c -> offered_for key c ->
  runs w k [IConfirmComposition] -> process_key_event X dbg k w = Ok (b, w1) ->
  x_dicts (w_ctx w) = i :: others -> NoDup (i :: others) -> dict_at i w = Some d -> user d ->
  dict_at i w1 = Some d1 -> dict_at i w2 = Some (fold_left teach ls d1) ->
  Forall (fun l => ~ about (c_okuri c) (c_midashi c) l) ls -> x_dicts (w_ctx w2) = i :: others2 ->
  frames w2 = s2 :: rest2 -> settled w2 s2 -> get_composite_key s2 = key ->
  no_better_copy key (c_kouho c) (ctx_dicts w2) ->
  runs w2 k2 [ITryNextCandidate] -> process_key_event X dbg k2 w2 = Ok (b3, w3) ->
  b3 = true /\ offers_first w3 (c_kouho c).
Proof.
  intros X dbg w s rest cs j c key k b w1 i others d d1 ls w2 others2 s2 rest2 k2 b3 w3 Hf Hc Hn Hof Hk Hp Hi Hnd Hd Hu
    Hd1 Hd2 Hab Hi2 Hf2 Hse2 Hkey Hbet Hk2 Hp2.
  destruct (C65_confirm X dbg k w s rest cs j c Hf Hc Hn Hk) as (s' & E & _). rewrite E in Hp. injection Hp as <- <-.
  assert (H1 : dict_at i (with_frames (s' :: rest) (set_store (upd_dicts (x_dicts (w_ctx w)) (fun d => select_candidate d c) (w_store w)) w))
    = Some (select_candidate d c)).
  { unfold dict_at, with_frames. cbn [w_store set_store]. rewrite Hi, upd_dicts_nth by exact Hnd. cbn [existsb]. rewrite Nat.eqb_refl. cbn [orb].
    unfold dict_at in Hd. now rewrite Hd. }
  rewrite H1 in Hd1. injection Hd1 as <-.
  assert (Hc2 : ctx_dicts w2 = fold_left teach ls (select_candidate d c) :: map (fun i => nth i (w_store w2) empty_dict) others2).
  { unfold ctx_dicts. rewrite Hi2. cbn [map]. f_equal. unfold dict_at in Hd2. now apply nth_error_nth. }
  rewrite Hc2 in Hbet.
  destruct (start_offers X dbg k2 w2 s2 rest2 b3 w3 Hf2 Hse2 Hk2 Hp2) as (cs2 & Ec & Ho). rewrite Hkey, Hc2 in Ec.
  destruct (C81_dictionary_partial d (fold_left teach ls (select_candidate d c)) (map (fun i => nth i (w_store w2) empty_dict) others2) key c cs2 Hu) as (c' & cs' & Ec' & Kc & Oc & _); auto.
  { apply teach_all_user. now apply user_select. }
  { apply teach_all_other; [now apply user_select|exact Hab]. }
  rewrite <- Oc. now apply (Ho c' cs').
Qed.
(** The same over a whole history: there are lessons the dictionary was taught in it, and unless one is
    about the headword the text comes first. *)
Theorem C81_history_partial : forall X dbg w s rest cs j c key k w1 i others d ops outs w2 others2,
  reachable X dbg w ->
  frames w = s :: rest -> choosing s cs j -> nth_error cs j = Some c -> offered_for key c ->
  runs w k [IConfirmComposition] -> exec X dbg (OKey k) w = Ok (OutBool true, w1) ->
  x_dicts (w_ctx w) = i :: others -> NoDup (i :: others) -> dict_at i w = Some d -> user d ->
  Forall (fun o => changes_store o = false) ops -> run X dbg ops w1 = Ok (outs, w2) ->
  x_dicts (w_ctx w2) = i :: others2 ->
  exists ls d1, dict_at i w1 = Some d1 /\ dict_at i w2 = Some (fold_left teach ls d1)
    /\ (Forall (fun l => ~ about (c_okuri c) (c_midashi c) l) ls ->
        forall s2 rest2 k2 o3 w3, frames w2 = s2 :: rest2 -> settled w2 s2 -> get_composite_key s2 = key ->
          no_better_copy key (c_kouho c) (ctx_dicts w2) -> runs w2 k2 [ITryNextCandidate] ->
          exec X dbg (OKey k2) w2 = Ok (o3, w3) -> o3 = OutBool true /\ offers_first w3 (c_kouho c)).
Proof.
  intros X dbg w s rest cs j c key k w1 i others d ops outs w2 others2 Hr Hf Hc Hn Hof Hk Hp Hi Hnd Hd Hu Hops Hrun Hi2.
  assert (Hr1 : reachable X dbg w1).
  { apply (reachable_step X dbg w [OKey k] [OutBool true] w1 Hr). unfold run, bind. rewrite Hp. reflexivity. }
  assert (Hp' : exists b, process_key_event X dbg k w = Ok (b, w1)).
  { unfold exec, bind, ret in Hp. destruct (process_key_event X dbg k w) as [(b & w1')|]; [|discriminate]. injection Hp as -> <-. eauto. }
  destruct Hp' as (b & Hp').
  destruct (C65_confirm X dbg k w s rest cs j c Hf Hc Hn Hk) as (s' & E & _). 
  assert (H1 : dict_at i w1 = Some (select_candidate d c)).
  { rewrite E in Hp'. injection Hp' as _ <-. unfold dict_at, with_frames. cbn [w_store set_store]. rewrite Hi, upd_dicts_nth by exact Hnd. cbn [existsb]. rewrite Nat.eqb_refl. cbn [orb].
    unfold dict_at in Hd. now rewrite Hd. }
  destruct (C81_lessons X dbg ops w1 outs w2 i _ Hr1 Hops Hrun H1) as (ls & Hls).
  exists ls, (select_candidate d c). split; [exact H1|]. split; [exact Hls|]. intros Hab s2 rest2 k2 o3 w3 Hf2 Hse2 Hkey Hbet Hk2 Hp2.
  unfold exec, bind, ret in Hp2. destruct (process_key_event X dbg k2 w2) as [(b3 & w3')|] eqn:E2; [|discriminate]. injection Hp2 as <- <-.
  destruct (C81_first_partial X dbg w s rest cs j c key k b w1 i others d (select_candidate d c) ls w2 others2 s2 rest2 k2 b3 w3') as (-> & H3); auto.
Qed.
(** What is offered when a reading without digits is converted is offered for its key. *)
Theorem C81_offered : forall ds key cs, no_digit (ck_to key) -> get_all_candidates ds key = Ok cs -> Forall (offered_for key) cs.
Proof.
  intros ds key cs Hd H. rewrite C23_no_digits in H by exact Hd. destruct (exact_made _ _ _ H) as (l & _ & H2).
  clear H. induction H2 as [|x c l' cs' (_ & _ & _ & K1 & K2 & K3) _ IH]; constructor; [|exact IH]. unfold offered_for. auto.
Qed.

(** Met by typing: the third of the candidates for あい is confirmed, another word is typed and converted, and
    あい is typed again.  The word typed in between is the only lesson. *)
Definition aikana := U "A i space space space Return K a n a space Return A i".
Definition shown (w : world) : list str * N :=
  match frames w with s :: _ => (map c_kouho (cl_list (s_list s)), cl_cur (s_list s)) | [] => ([], 0%N) end.
Example C81_shown : exists o1 w1 o2 w2,
  typed false (U "A i space space space") (demo [user_dict dic_small]) = Ok (o1, w1)
  /\ shown w1 = ([U "愛"; U "哀"; U "相"], 2%N)
  /\ typed false (aikana ++ U " space") (demo [user_dict dic_small]) = Ok (o2, w2)
  /\ shown w2 = ([U "相"; U "哀"; U "愛"], 0%N).
Proof.
  destruct (run_case (typed false (U "A i space space space") (demo [user_dict dic_small])) shown ([U "愛"; U "哀"; U "相"], 2%N)) as (o1 & w1 & E1 & F1); [vm_compute; reflexivity|].
  destruct (run_case (typed false (aikana ++ U " space") (demo [user_dict dic_small])) shown ([U "相"; U "哀"; U "愛"], 0%N)) as (o2 & w2 & E2 & F2); [vm_compute; reflexivity|].
  exists o1, w1, o2, w2. auto.
Qed.

(** The hypotheses of C81_first_partial are met there. *)
Definition final (r : res (list out * world)) : world := match r with Ok (_, w) => w | Panic _ => demo [] end.
Definition w_choosing := final (typed false (U "A i space space space") (demo [user_dict dic_small])).
Definition w_chosen := final (run ascii_xkb false [OKey return_key] w_choosing).
Definition w_later := final (typed false (U "K a n a space Return A i") w_chosen).
Definition kana_lesson := Chosen (mkCand (U "かな") None false (U "仮名") None (U "仮名")).
Definition key_ai := mkCK (U "あい") None.
Definition cand_ai := mkCand (U "あい") None false (U "相") None (U "相").
Definition no_better_b (key : ckey) (t : str) (ds : list dict) : bool :=
  match listed_for key ds with
  | x :: _ => forallb (fun y => negb (str_eqb (dc_kouho y) t) || annot_leb (dc_annot y) (dc_annot x)) (listed_for key ds)
  | [] => true
  end.
Lemma no_better_b_spec key t ds : no_better_b key t ds = true -> no_better_copy key t ds.
Proof.
  unfold no_better_b, no_better_copy. destruct (listed_for key ds) as [|x0 l] eqn:E; [intros _ x y H; discriminate|].
  intros H x y Hx Hy Ht. cbn in Hx. injection Hx as <-. rewrite forallb_forall in H. specialize (H y Hy). apply orb_prop in H as [H|H].
  - apply negb_true_iff in H. apply str_eqb_neq in H. congruence.
  - now apply annot_leb_spec.
Qed.
Example C81_case : exists s cs, frames w_choosing = [s] /\ choosing s cs 2 /\ nth_error cs 2 = Some cand_ai
  /\ offered_for key_ai cand_ai /\ runs w_choosing return_key [IConfirmComposition]
  /\ exec ascii_xkb false (OKey return_key) w_choosing = Ok (OutBool true, w_chosen)
  /\ x_dicts (w_ctx w_choosing) = [0] /\ NoDup [0]
  /\ (exists d d1, dict_at 0 w_choosing = Some d /\ user d /\ dict_at 0 w_chosen = Some d1
        /\ dict_at 0 w_later = Some (fold_left teach [kana_lesson] d1))
  /\ Forall (fun l => ~ about (c_okuri cand_ai) (c_midashi cand_ai) l) [kana_lesson]
  /\ x_dicts (w_ctx w_later) = [0]
  /\ (exists s2 rest2, frames w_later = s2 :: rest2 /\ settled w_later s2 /\ get_composite_key s2 = key_ai)
  /\ no_digit (ck_to key_ai) /\ no_better_copy key_ai (c_kouho cand_ai) (ctx_dicts w_later)
  /\ runs w_later space_key [ITryNextCandidate].
Proof.
  assert (Hch : choosing_b w_choosing 3 2 = true) by (vm_compute; reflexivity).
  assert (Hone : length (frames w_choosing) = 1) by (vm_compute; reflexivity).
  assert (Hnth : option_map (fun s => nth_error (cl_list (s_list s)) 2) (hd_error (frames w_choosing)) = Some (Some cand_ai)) by (vm_compute; reflexivity).
  apply choosing_b_spec in Hch as (s & r & Hf & Hc & Hl). rewrite Hf in Hone, Hnth. destruct r; [|discriminate]. apply T_Encoding.some_inj in Hnth.
  assert (Hset : settled_b w_later = Some 3) by (vm_compute; reflexivity).
  assert (Hk : option_map get_composite_key (hd_error (frames w_later)) = Some key_ai) by (vm_compute; reflexivity).
  apply settled_b_spec in Hset as (s2 & r2 & cs2 & Hf2 & Hs2 & _). rewrite Hf2 in Hk. apply T_Encoding.some_inj in Hk.
  exists s, (cl_list (s_list s)). split; [exact Hf|]. split; [exact Hc|]. split; [exact Hnth|].
  split; [vm_compute; auto|]. split; [apply runs_b_spec; vm_compute; reflexivity|]. split; [vm_compute; reflexivity|].
  split; [vm_compute; reflexivity|]. split; [repeat constructor; auto|].
  split. { do 2 eexists. split; [vm_compute; reflexivity|]. split; [exact I|]. split; [vm_compute; reflexivity|]. vm_compute. reflexivity. }
  split. { constructor; [|constructor]. cbn [about kana_lesson cand_ai c_okuri c_midashi]. intros (_ & E). vm_compute in E. discriminate. }
  split; [vm_compute; reflexivity|]. split. { exists s2, r2. split; [exact Hf2|]. split; [exact Hs2|]. exact Hk. }
  split; [repeat constructor|]. split; [apply no_better_b_spec; vm_compute; reflexivity|]. apply runs_b_spec. vm_compute. reflexivity.
Qed.
(** With okurigana the conversion starts by itself. *)
Example C81_okuri_case : exists o1 w1 o2 w2,
  typed false (U "K a K u") (demo [user_dict dic_small]) = Ok (o1, w1) /\ shown w1 = ([U "書"; U "掛"], 0%N)
  /\ typed false (U "K a K u space Return K a K u") (demo [user_dict dic_small]) = Ok (o2, w2) /\ shown w2 = ([U "掛"; U "書"], 0%N).
Proof.
  destruct (run_case (typed false (U "K a K u") (demo [user_dict dic_small])) shown ([U "書"; U "掛"], 0%N)) as (o1 & w1 & E1 & F1); [vm_compute; reflexivity|].
  destruct (run_case (typed false (U "K a K u space Return K a K u") (demo [user_dict dic_small])) shown ([U "掛"; U "書"], 0%N)) as (o2 & w2 & E2 & F2); [vm_compute; reflexivity|].
  exists o1, w1, o2, w2. auto.
Qed.

(** Numbers: the second template is chosen for one number and comes first for the next. *)
Definition outputs (w : world) : list str := match frames w with s :: _ => map c_output (cl_list (s_list s)) | [] => [] end.
Example C81_number_case : exists o1 w1 o2 w2,
  typed false (U "D a i 1 2 space") (demo [user_dict dic_small]) = Ok (o1, w1) /\ outputs w1 = [U "第１２"; U "第十二"]
  /\ typed false (U "D a i 1 2 space space Return D a i 3 4 space") (demo [user_dict dic_small]) = Ok (o2, w2) /\ outputs w2 = [U "第三十四"; U "第３４"].
Proof.
  destruct (run_case (typed false (U "D a i 1 2 space") (demo [user_dict dic_small])) outputs [U "第１２"; U "第十二"]) as (o1 & w1 & E1 & F1); [vm_compute; reflexivity|].
  destruct (run_case (typed false (U "D a i 1 2 space space Return D a i 3 4 space") (demo [user_dict dic_small])) outputs [U "第三十四"; U "第３４"]) as (o2 & w2 & E2 & F2); [vm_compute; reflexivity|].
  exists o1, w1, o2, w2. auto.
Qed.
Example C81_number_hypotheses :
  let d := user_dict dic_small in let c := mkCand (U "だい#") None false (U "第#3") None (U "第十二") in
  let d2 := select_candidate d c in let key := mkCK (U "だい34") None in let nkey := mkCK (U "だい#") None in
  user d /\ user d2 /\ to_numeric_key key = (nkey, [U "34"]) /\ nkey <> key /\ offered_for nkey c
  /\ same_entry (c_okuri c) (c_midashi c) (select_candidate d c) d2 /\ no_better_copy nkey (c_kouho c) [d2]
  /\ exact_candidates [d2] key = Ok [] /\ replace_numeric_string [d2] (c_kouho c) [U "34"] = Ok [U "第三十四"]
  /\ rmap (map c_output) (get_all_candidates [d2] key) = Ok [U "第三十四"; U "第３４"].
Proof.
  cbv zeta. split; [exact I|]. split; [exact I|]. split; [vm_compute; reflexivity|]. split; [intros E; vm_compute in E; discriminate|].
  split; [vm_compute; auto|]. split; [intros o; reflexivity|]. split; [apply no_better_b_spec; vm_compute; reflexivity|].
  repeat split; vm_compute; reflexivity.
Qed.

(** * The claim is false as it stands *)
(** A system dictionary has the word with an annotation, the user dictionary without.  The annotated copy is
    the one that is kept, in its later place: however often the word is confirmed, the other one comes first. *)
Definition two_dicts := [user_dict [U ";; okuri-nasi entries."; U "あい /哀/愛/"]; static_dict [U ";; okuri-nasi entries."; U "あい /愛;love/"]].
Definition choose_love := U "A i space space Return".
Theorem C81_refuted : exists o w o1 w1 o2 w2,
  (* typing the word and confirming the second candidate outputs it, ... *)
  typed false choose_love (demo two_dicts) = Ok (o, w) /\ option_map s_conf (outermost w) = Some (U "愛")
  (* ... twice ... *)
  /\ typed false choose_love w = Ok (o1, w1) /\ option_map s_conf (outermost w1) = Some (U "愛愛")
  (* ... and the other word is still offered first; the state of the dictionaries is the same as after
     the first time, so it always will be. *)
  /\ typed false (U "A i space") w1 = Ok (o2, w2) /\ shown w2 = ([U "哀"; U "愛"], 0%N)
  /\ dict_at 0 w1 = dict_at 0 w /\ dict_at 1 w1 = dict_at 1 w.
Proof.
  destruct (run_case (typed false choose_love (demo two_dicts))
    (fun w => (option_map s_conf (outermost w),
       match typed false choose_love w with
       | Ok (_, w1) => Some (option_map s_conf (outermost w1), dict_at 0 w1, dict_at 1 w1,
            match typed false (U "A i space") w1 with Ok (_, w2) => Some (shown w2) | Panic _ => None end)
       | Panic _ => None end, dict_at 0 w, dict_at 1 w))
    (Some (U "愛"), Some (Some (U "愛愛"), dict_at 0 (final (typed false choose_love (demo two_dicts))), dict_at 1 (final (typed false choose_love (demo two_dicts))),
       Some ([U "哀"; U "愛"], 0%N)), dict_at 0 (final (typed false choose_love (demo two_dicts))), dict_at 1 (final (typed false choose_love (demo two_dicts)))))
    as (o & w & E & F); [vm_compute; reflexivity|].
  revert F. generalize (dict_at 0 (final (typed false choose_love (demo two_dicts)))) as D0, (dict_at 1 (final (typed false choose_love (demo two_dicts)))) as D1. intros D0 D1 F.
  pose proof (f_equal (fun x => fst (fst (fst x))) F) as F1. pose proof (f_equal (fun x => snd (fst (fst x))) F) as F2.
  pose proof (f_equal (fun x => snd (fst x)) F) as F3. pose proof (f_equal snd F) as F4. cbn [fst snd] in F1, F2, F3, F4. clear F.
  destruct (typed false choose_love w) as [(o1 & w1)|] eqn:E1; [|discriminate]. apply T_Encoding.some_inj in F2.
  pose proof (f_equal (fun x => fst (fst (fst x))) F2) as G1. pose proof (f_equal (fun x => snd (fst (fst x))) F2) as G2.
  pose proof (f_equal (fun x => snd (fst x)) F2) as G3. pose proof (f_equal snd F2) as G4. cbn [fst snd] in G1, G2, G3, G4. clear F2.
  destruct (typed false (U "A i space") w1) as [(o2 & w2)|] eqn:E2; [|discriminate]. apply T_Encoding.some_inj in G4.
  exists o, w, o1, w1, o2, w2. split; [exact E|]. split; [exact F1|]. split; [exact E1|]. split; [exact G1|]. split; [exact E2|]. split; [exact G4|].
  split; congruence.
Qed.
(** Nor when the system dictionary is asked first: what the user chose is learnt, but comes after. *)
Definition system_first := [static_dict [U ";; okuri-nasi entries."; U "あい /愛/哀/"]; user_dict []].
Theorem C81_order_refuted : exists o w o2 w2,
  typed false choose_love (demo system_first) = Ok (o, w) /\ option_map s_conf (outermost w) = Some (U "哀")
  /\ option_map (fun d => texts (listed d false (U "あい") [])) (dict_at 1 w) = Some [U "哀"]
  /\ typed false (U "A i space") w = Ok (o2, w2) /\ shown w2 = ([U "愛"; U "哀"], 0%N).
Proof.
  destruct (run_case (typed false choose_love (demo system_first))
    (fun w => (option_map s_conf (outermost w), option_map (fun d => texts (listed d false (U "あい") [])) (dict_at 1 w),
       match typed false (U "A i space") w with Ok (_, w2) => Some (shown w2) | Panic _ => None end))
    (Some (U "哀"), Some [U "哀"], Some ([U "愛"; U "哀"], 0%N))) as (o & w & E & F); [vm_compute; reflexivity|].
  pose proof (f_equal (fun x => fst (fst x)) F) as F1. pose proof (f_equal (fun x => snd (fst x)) F) as F2. pose proof (f_equal snd F) as F3. cbn [fst snd] in F1, F2, F3.
  destruct (typed false (U "A i space") w) as [(o2 & w2)|] eqn:E2; [|discriminate]. apply T_Encoding.some_inj in F3.
  exists o, w, o2, w2. auto 10.
Qed.
