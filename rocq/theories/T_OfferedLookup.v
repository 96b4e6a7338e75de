(** C26 for words with number templates of every form, #4 (looked up) included. *)
From Coq Require Import Lia.
From Verif Require Import Str Keys Modes KanaBuilder FormChanger DictTypes Parser Lru
  Dictionary CState Context DefaultRule Demo Spec P_Monad P_Frames P_Inv P_Keeps P_Register P_Step
  P_Cands T_Keys T_Dedup T_Entry T_Predict T_Num T_Offered T_OfferedForm.
From Verif Require T_Frames T_Remembered T_Encoding T_Escape.
(* ------------------------------------------------------------- numbers looked up (#4) *)
(** The dictionaries list the text [p] for the number [n]. *)
Definition listed_for (ds : list dict) (n p : str) : Prop := holds ds (mkCK n None) p.
(** What takes the place of a template: the text picked if it is #4, the number written in the form otherwise. *)
Definition put (legal : bool) (t : N) (n p x : str) : Prop :=
  (t = C "4" /\ x = p) \/ (t <> C "4" /\ written legal t n x).
Lemma looked_up ds n : exists cs, template_texts ds (C "4") n = Ok (map c_kouho cs) /\ exact_candidates ds (mkCK n None) = Ok cs.
Proof.
  destruct (T_Remembered.exact_total ds (mkCK n None) n eq_refl) as (cs & E). exists cs. split; [|exact E].
  change (template_texts ds (C "4") n) with (rmap (map c_kouho) (exact_candidates ds (mkCK n None))). now rewrite E.
Qed.
Lemma all_put ds legal (ts : list (N * str)) ns : Forall number ns ->
  Forall (fun tp => is_form (fst tp) /\ plain_piece (snd tp)) ts -> length ts = length ns ->
  (forall n p, In n ns -> listed_for ds n p -> ~ In 35%N p) ->
  forall picks, length picks = length ns ->
  Forall2 (fun tn p => fst tn = C "4" -> listed_for ds (snd tn) p) (combine (map fst ts) ns) picks ->
  exists texts xs, Forall2 (fun tn xs => template_texts ds (fst tn) (snd tn) = Ok xs) (combine (map fst ts) ns) texts
    /\ Forall (Forall no_hash) texts
    /\ Forall2 (fun tnp x => put legal (fst (fst tnp)) (snd (fst tnp)) (snd tnp) x) (combine (combine (map fst ts) ns) picks) xs
    /\ In (concat (map (fun tx => snd tx ++ snd (fst tx)) (combine ts xs))) (filled ts texts).
Proof.
  intros Hns. revert ts. induction Hns as [|n ns Hn Hns IH]; intros [|[t p] ts] Hts Hlen Hno picks Hpl Hp; try discriminate.
  - exists [], []. destruct picks; [|discriminate]. cbn. auto.
  - inversion Hts as [|? ? (Hf & _) Hts']; subst. cbn [fst] in Hf. injection Hlen as Hlen.
    destruct picks as [|k picks]; [discriminate|]. injection Hpl as Hpl. cbn [map combine fst snd] in Hp.
    inversion Hp as [|? ? ? ? Hk Hp']; subst. cbn [fst snd] in Hk.
    destruct (IH ts Hts' Hlen ltac:(intros m q Hm; apply Hno; now right) picks Hpl Hp') as (texts & xs & E1 & E2 & E3 & E4).
    assert (G : exists ys y, template_texts ds t n = Ok ys /\ In y ys /\ put legal t n k y /\ Forall no_hash ys).
    { destruct (N.eq_dec t (C "4")) as [->|H4].
      - destruct (looked_up ds n) as (cs & L & Ex). exists (map c_kouho cs), k. destruct (C21_offered _ _ _ Ex) as (_ & Hin & _).
        split; [exact L|]. split; [apply Hin, Hk; reflexivity|]. split; [left; split; reflexivity|].
        apply Forall_forall. intros q Hq. apply Hin in Hq. apply (Hno n q (or_introl eq_refl)) in Hq.
        apply Forall_forall. intros c Hc ->. contradiction.
      - destruct (texts_written ds legal t n Hn Hf H4) as (ys & y & G1 & G2 & G3). exists ys, y.
        split; [exact G1|]. split; [exact G2|]. split; [right; split; assumption|]. destruct Hn as [Hn Hl]. eapply C43_no_hash; eauto. }
    destruct G as (ys & y & G1 & G2 & G3 & G4).
    exists (ys :: texts), (y :: xs). cbn [map combine fst snd]. repeat split.
    + constructor; [exact G1|exact E1].
    + constructor; [exact G4|exact E2].
    + constructor; [exact G3|exact E3].
    + cbn [filled tl]. apply in_flat_map. exists y. split; [exact G2|]. cbn [concat]. rewrite <- app_assoc.
      apply (in_map (fun z => y ++ p ++ z)). exact E4.
Qed.
(** There is something to register if every number to look up is found. *)
Lemma some_text ds : forall ts ns cur, cur <> [] -> Forall number ns -> Forall is_form ts -> length ts = length ns ->
  Forall (fun tn => fst tn = C "4" -> exists p, listed_for ds (snd tn) p) (combine ts ns) -> replace_templates ds ts ns cur <> Ok [].
Proof.
  induction ts as [|t ts IH]; intros [|n ns] cur Hc Hn Hf Hl Hq; try discriminate.
  { cbn. congruence. }
  cbn [replace_templates]. destruct cur as [|c cur]; [congruence|]. cbn [combine] in Hq.
  inversion Hn as [|? ? N1 N2]; inversion Hf as [|? ? F1 F2]; inversion Hq as [|? ? Q1 Q2]; subst. cbn [fst snd] in Q1. injection Hl as Hl.
  assert (G : exists y ys, template_texts ds t n = Ok (y :: ys)).
  { destruct (N.eq_dec t (C "4")) as [->|H4].
    - destruct (looked_up ds n) as (cs & -> & Ex). destruct (Q1 eq_refl) as (p & Hp). apply (proj1 (proj2 (C21_offered _ _ _ Ex)) p) in Hp.
      destruct cs as [|x cs]; [destruct Hp|]. cbn [map]. eauto.
    - destruct (texts_written ds false t n N1 F1 H4) as (ys & y & -> & Hin & _). destruct ys; [destruct Hin|eauto]. }
  destruct G as (y & ys & ->). cbn [rbind flat_map map app]. apply IH; auto. discriminate.
Qed.
(** C26 for a word with a template for each number of the reading, of all forms: those of the form #4 give way to
    any text that the dictionaries then list for the number, the others are written. *)
Theorem C26_lookup_partial : forall X dbg K legal j d k l w p0 nums q0 ts b w1 ops outs w2 nums2 picks k2 b2 w3,
  let reading := unpieces p0 nums in let word := with_templates q0 ts in
  let reading2 := unpieces p0 nums2 in let headword := unpieces p0 (map (fun np => (U "#", snd np)) nums) in
  digit_pieces reading p0 nums -> digit_pieces reading2 p0 nums2 -> map snd nums2 = map snd nums ->
  Forall number (map fst nums) -> Forall number (map fst nums2) ->
  plain_piece q0 -> Forall (fun tp => is_form (fst tp) /\ plain_piece (snd tp)) ts ->
  length ts = length nums -> ts <> [] ->
  registering w (mkCK reading None) [] word ->
  Forall (fun tn => fst tn = C "4" -> exists p, listed_for (ctx_dicts w) (snd tn) p) (combine (map fst ts) (map fst nums)) ->
  dict_at j w = Some d -> user d -> In j (x_dicts (w_ctx w)) ->
  runs w k (IConfirmDirect :: l) -> process_key_event X dbg k w = Ok (b, w1) ->
  quiet_rule K (x_cmd (w_ctx w)) -> Forall (quiet_op K j headword word) ops ->
  run X dbg ops w1 = Ok (outs, w2) -> In j (x_dicts (w_ctx w2)) ->
  (forall n p, In n (map fst nums2) -> listed_for (ctx_dicts w2) n p -> ~ In 35%N p) ->
  length picks = length nums2 ->
  Forall2 (fun tn p => fst tn = C "4" -> listed_for (ctx_dicts w2) (snd tn) p) (combine (map fst ts) (map fst nums2)) picks ->
  about_to_convert w2 reading2 -> runs w2 k2 [ITryNextCandidate] ->
  process_key_event X dbg k2 w2 = Ok (b2, w3) ->
  b2 = true /\ exists xs, Forall2 (fun tnp x => put legal (fst (fst tnp)) (snd (fst tnp)) (snd tnp) x)
                                  (combine (combine (map fst ts) (map fst nums2)) picks) xs
    /\ shows_word w3 (with_texts q0 ts xs).
Proof.
  intros X dbg K legal j d k l w p0 nums q0 ts b w1 ops outs w2 nums2 picks k2 b2 w3 reading word reading2 headword
    Hp Hp2 Hsame Hn Hn2 Hq Hts Hlen Hne Hreg Hfound Hd Hu Hj Hk Hpr Hqr Hops Hrun Hj2 Hno Hpl Hpk Hc Hk2 Hpr2.
  assert (L2 : length nums2 = length nums) by (rewrite <- (map_length snd nums2), Hsame; apply map_length).
  pose proof (key_of _ _ _ Hp) as K1. pose proof (key_of _ _ _ Hp2) as K2.
  assert (Hh : unpieces p0 (map (fun np => (U "#", snd np)) nums2) = headword).
  { unfold headword, unpieces. do 2 f_equal. rewrite !map_map. cbn [fst snd].
    rewrite <- (map_map snd (fun x : str => U "#" ++ x) nums2), <- (map_map snd (fun x : str => U "#" ++ x) nums). now rewrite Hsame. }
  rewrite Hh in K2.
  assert (Hq' : plain q0) by now apply plain_piece_iff.
  assert (Hts' : Forall (fun tp => is_form (fst tp) /\ plain (snd tp)) ts).
  { eapply Forall_impl; [|exact Hts]. cbn. intros tp (A & B). split; [exact A|now apply plain_piece_iff]. }
  assert (T : templates word = map fst ts) by (apply templates_of; assumption).
  assert (N1 : numeric_entry_count word = length ts) by (unfold numeric_entry_count; rewrite T; apply map_length).
  destruct (all_put (ctx_dicts w2) legal ts (map fst nums2) Hn2 Hts) with (picks := picks) as (texts & xs & E1 & E2 & E3 & E4);
    [now rewrite map_length, L2|exact Hno|now rewrite map_length|exact Hpk|].
  assert (Hdiff : headword <> reading2).
  { rewrite <- Hh. apply headword_differs.
    - intros ->. destruct nums; [|discriminate]. destruct ts; [congruence|discriminate].
    - rewrite Forall_map in Hn2. eapply Forall_impl; [|exact Hn2]. intros np [A _]. exact A. }
  assert (Hword : word <> []).
  { unfold word, with_templates. destruct ts as [|[t p] ts]; [congruence|]. destruct q0; discriminate. }
  assert (R : b2 = true /\ shows_word w3 (with_texts q0 ts xs)).
  { eapply (C26_number_partial X dbg K j d k l w reading headword (map fst nums) word b w1 ops outs w2 reading2 (map fst nums2)
      (map (app q0) (filled ts texts)) k2 b2 w3); eauto.
    - rewrite N1. destruct ts; [congruence|discriminate].
    - rewrite N1, (count_of _ _ _ Hp). exact Hlen.
    - unfold replace_numeric_string. fold word. rewrite T. apply some_text; [discriminate|exact Hn| |now rewrite !map_length|exact Hfound].
      rewrite Forall_map. eapply Forall_impl; [|exact Hts]. intros tp [A _]. exact A.
    - apply C43_templates_partial; auto.
    - unfold with_texts. now apply in_map. }
  destruct R as [-> R]. split; [reflexivity|]. exists xs. split; assumption.
Qed.
(** か1 registered as #4か, with another dictionary that lists 壱 for 1 and 廿五 and 弐五 for 25: か25 offers both. *)
Example C26_lookup_case : exists o1 w o2 w1 b o3 w2,
  let nums := [(U "1", [])] in let nums2 := [(U "25", [])] in let ts := [(C "4", U "か")] in
  typed false (U "K a 1 space numbersign 4 k a") (demo [user_dict []; static_dict [U "1 /壱/"; U "25 /廿五/弐五/"]]) = Ok (o1, w)
  /\ digit_pieces (unpieces (U "か") nums) (U "か") nums /\ digit_pieces (unpieces (U "か") nums2) (U "か") nums2
  /\ Forall number (map fst nums) /\ Forall number (map fst nums2)
  /\ plain_piece [] /\ Forall (fun tp => is_form (fst tp) /\ plain_piece (snd tp)) ts
  /\ registering w (mkCK (unpieces (U "か") nums) None) [] (with_templates [] ts)
  /\ Forall (fun tn => fst tn = C "4" -> exists p, listed_for (ctx_dicts w) (snd tn) p) (combine (map fst ts) (map fst nums))
  /\ runs w (mkKey 65293 M_NONE) [IConfirmDirect]
  /\ process_key_event ascii_xkb false (mkKey 65293 M_NONE) w = Ok (b, w1)
  /\ typed false (U "K a 2 5") w1 = Ok (o2, w2)
  /\ (forall n p, In n (map fst nums2) -> listed_for (ctx_dicts w2) n p -> ~ In 35%N p)
  /\ Forall2 (fun tn p => fst tn = C "4" -> listed_for (ctx_dicts w2) (snd tn) p) (combine (map fst ts) (map fst nums2)) [U "弐五"]
  /\ about_to_convert w2 (unpieces (U "か") nums2) /\ runs w2 (mkKey 32 M_NONE) [ITryNextCandidate]
  /\ o3 = match process_key_event ascii_xkb false (mkKey 32 M_NONE) w2 with
          | Ok (_, w3) => option_map (fun s => map c_output (cl_list (s_list s))) (current w3) | _ => None end
  /\ o3 = Some [U "廿五か"; with_texts [] ts [U "弐五"]] /\ put false (C "4") (U "25") (U "弐五") (U "弐五").
Proof.
  assert (L : forall ds n cs, exact_candidates ds (mkCK n None) = Ok cs -> forall p, listed_for ds n p <-> In p (map c_kouho cs)).
  { intros ds n cs E p. destruct (C21_offered _ _ _ E) as (_ & H & _). symmetry. apply H. }
  destruct (run_case (typed false (U "K a 1 space numbersign 4 k a") (demo [user_dict []; static_dict [U "1 /壱/"; U "25 /廿五/弐五/"]]))
    (fun w => (registering_b w (mkCK (U "か1") None) [] (U "#4か"), runs_b w (mkKey 65293 M_NONE),
       rmap (map c_kouho) (exact_candidates (ctx_dicts w) (mkCK (U "1") None)),
       match process_key_event ascii_xkb false (mkKey 65293 M_NONE) w with
       | Ok (b, w1) => match typed false (U "K a 2 5") w1 with
            | Ok (_, w2) => Some (converting_b w2 (U "か25"), runs_b w2 (mkKey 32 M_NONE),
                 rmap (map c_kouho) (exact_candidates (ctx_dicts w2) (mkCK (U "25") None)),
                 match process_key_event ascii_xkb false (mkKey 32 M_NONE) w2 with
                 | Ok (_, w3) => option_map (fun s => map c_output (cl_list (s_list s))) (current w3) | _ => None end)
            | Panic _ => None end
       | Panic _ => None end))
    (true, Some [IConfirmDirect], Ok [U "壱"], Some (true, Some [ITryNextCandidate], Ok [U "廿五"; U "弐五"], Some [U "廿五か"; U "弐五か"])))
    as (o1 & w & E & F); [vm_compute; reflexivity|].
  pose proof (f_equal (fun x => fst (fst (fst x))) F) as F1. pose proof (f_equal (fun x => snd (fst (fst x))) F) as F2.
  pose proof (f_equal (fun x => snd (fst x)) F) as F0. pose proof (f_equal snd F) as F3. clear F. cbn [fst snd] in F1, F2, F0, F3.
  destruct (process_key_event ascii_xkb false (mkKey 65293 M_NONE) w) as [[b w1]|] eqn:E1; [|discriminate].
  destruct (typed false (U "K a 2 5") w1) as [[o2 w2]|] eqn:E2; [|discriminate].
  apply T_Encoding.some_inj in F3.
  pose proof (f_equal (fun x => fst (fst (fst x))) F3) as F4. pose proof (f_equal (fun x => snd (fst (fst x))) F3) as F5.
  pose proof (f_equal (fun x => snd (fst x)) F3) as F7. pose proof (f_equal snd F3) as F6. clear F3. cbn [fst snd] in F4, F5, F6, F7.
  assert (A1 : exists cs, exact_candidates (ctx_dicts w) (mkCK (U "1") None) = Ok cs /\ map c_kouho cs = [U "壱"]).
  { destruct (exact_candidates (ctx_dicts w) (mkCK (U "1") None)) as [cs|]; [|discriminate F0]. exists cs. split; [reflexivity|]. cbn [rmap] in F0. exact (f_equal (fun r => match r with Ok x => x | _ => [] end) F0). }
  assert (A2 : exists cs, exact_candidates (ctx_dicts w2) (mkCK (U "25") None) = Ok cs /\ map c_kouho cs = [U "廿五"; U "弐五"]).
  { destruct (exact_candidates (ctx_dicts w2) (mkCK (U "25") None)) as [cs|]; [|discriminate F7]. exists cs. split; [reflexivity|]. cbn [rmap] in F7. exact (f_equal (fun r => match r with Ok x => x | _ => [] end) F7). }
  destruct A1 as (c1 & X1 & Y1). destruct A2 as (c2 & X2 & Y2).
  exists o1, w, o2, w1, b. eexists. exists w2. cbv zeta.
  split; [exact E|]. split; [repeat split; repeat constructor; try (vm_compute; reflexivity); vm_compute; discriminate|].
  split; [repeat split; repeat constructor; try (vm_compute; reflexivity); vm_compute; discriminate|].
  split; [constructor; [|constructor]; split; [split; [discriminate|repeat constructor; vm_compute; discriminate]|vm_compute; reflexivity]|].
  split; [constructor; [|constructor]; split; [split; [discriminate|repeat constructor; vm_compute; discriminate]|vm_compute; reflexivity]|].
  split; [apply plain_piece_iff; split; [reflexivity|discriminate]|].
  split; [constructor; [|constructor]; split; [vm_compute; tauto|apply plain_piece_iff; split; [reflexivity|discriminate]]|].
  split; [now apply registering_b_spec|].
  split; [constructor; [|constructor]; intros _; exists (U "壱"); apply (L _ _ _ X1); rewrite Y1; now left|].
  split; [now apply runs_b_spec|]. split; [exact E1|]. split; [exact E2|].
  split; [intros n p [<-|[]] Hp; apply (L _ _ _ X2) in Hp; rewrite Y2 in Hp; destruct Hp as [<-|[<-|[]]]; apply T_Escape.notin_b; vm_compute; reflexivity|].
  split; [constructor; [|constructor]; intros _; apply (L _ _ _ X2); rewrite Y2; right; now left|].
  split; [now apply converting_b_spec|]. split; [now apply runs_b_spec|]. split; [reflexivity|]. split; [exact F6|].
  left. split; reflexivity.
Qed.
