(** C26 for words with and without number templates, in terms of the texts only. *)
From Coq Require Import Lia.
From Verif Require Import Str Keys Modes KanaBuilder FormChanger DictTypes Parser Lru
  Dictionary CState Context DefaultRule Demo Spec P_Monad P_Frames P_Inv P_Keeps P_Register P_Step
  P_Cands T_Keys T_Dedup T_Entry T_Predict T_Num T_Offered.
From Verif Require T_Frames.

(* ------------------------------------------------------------- specification *)
(** No number sign followed by the digit of a form. *)
Definition no_template (p : str) : Prop := forall a t b, p = a ++ 35%N :: t :: b -> ~ is_form t.
Definition plain_piece (p : str) : Prop := no_template p /\ forall a, p <> a ++ [35%N].
(** A number written in one of the forms (#5 has two variants; #4 is left out: it is looked up). *)
Definition written (legal : bool) (t : N) (n x : str) : Prop :=
  (t = C "0" /\ x = n) \/ (t = C "1" /\ x = map full_width_digit n) \/ (t = C "2" /\ x = map kanji_digit n)
  \/ (t = C "3" /\ reads_as kanji_numerals x = Some (decimal n))
  \/ (t = C "5" /\ reads_as (if legal then legal_daiji_numerals else daiji_numerals) x = Some (decimal n))
  \/ (t = C "8" /\ separated n x).
(** The numbers of a reading: those the forms can be written for. *)
Definition number (n : str) : Prop := ascii_digits n /\ (decimal n < 10 ^ 19)%N.
(** The pieces of a word with the texts between them. *)
Definition with_texts (q0 : str) (ts : list (N * str)) (xs : list str) : str :=
  q0 ++ concat (map (fun tx => snd tx ++ snd (fst tx)) (combine ts xs)).

(* -------------------------------------------------------------------- proofs *)
Lemma template_is_form t : is_template t = true -> is_form t.
Proof. unfold is_template. intros H. apply existsb_exists in H as (x & Hx & E). apply N.eqb_eq in E. now subst. Qed.
Lemma no_template_iff p : no_template p <-> templates p = [].
Proof.
  split.
  - induction p as [|c [|d r] IH]; intros H; try reflexivity. rewrite templates_cons.
    destruct (N.eqb_spec c 35) as [->|]; cbn [andb].
    + destruct (is_template d) eqn:E; [destruct (H [] d r eq_refl (template_is_form _ E))|].
      apply IH. intros a t b F. apply (H (35%N :: a) t b). now rewrite F.
    + apply IH. intros a t b F. apply (H (c :: a) t b). now rewrite F.
  - intros H a t b -> Hf. apply is_form_template in Hf. revert H. induction a as [|c a IH]; cbn [app].
    + rewrite templates_cons, Hf. cbn. discriminate.
    + destruct a as [|d a]; cbn [app] in *; rewrite templates_cons.
      * destruct (N.eqb c 35 && is_template 35) eqn:E; [discriminate|exact IH].
      * destruct (N.eqb c 35 && is_template d); [discriminate|exact IH].
Qed.
Lemma last_opt_some {A} (x : A) l : last_opt l = Some x -> exists a, l = a ++ [x].
Proof.
  induction l as [|y [|z l] IH]; cbn [last_opt]; intros H; [discriminate| |].
  - injection H as ->. now exists [].
  - destruct (IH H) as (a & E). exists (y :: a). cbn [app]. now rewrite <- E.
Qed.
Lemma last_opt_snoc {A} (x : A) l : last_opt (l ++ [x]) = Some x.
Proof. induction l as [|y [|z l] IH]; [reflexivity|reflexivity|]. exact IH. Qed.
Lemma plain_piece_iff p : plain_piece p <-> plain p.
Proof.
  unfold plain_piece, plain. rewrite no_template_iff. split; intros [H1 H2]; split; auto.
  - intros E. apply last_opt_some in E as (a & E). now apply (H2 a).
  - intros a ->. apply H2. apply last_opt_snoc.
Qed.
(** The texts the library writes for a template are written as the form says, and are some. *)
Lemma texts_written ds legal t n : number n -> is_form t -> t <> C "4" ->
  exists xs x, template_texts ds t n = Ok xs /\ In x xs /\ written legal t n x.
Proof.
  intros [Hn Hl] Hf H4. destruct (C43_forms ds n Hn Hl) as (F0 & F1 & F2 & (t3 & F3 & R3) & (t5 & t5' & F5 & R5 & R5') & (t8 & F8 & S8) & _).
  unfold written. cbn in Hf. destruct Hf as [<-|[<-|[<-|[<-|[<-|[<-|[<-|[]]]]]]]].
  - eexists _, _. split; [exact F0|]. split; [now left|]. left. split; reflexivity.
  - eexists _, _. split; [exact F1|]. split; [now left|]. right; left. split; reflexivity.
  - eexists _, _. split; [exact F2|]. split; [now left|]. right; right; left. split; reflexivity.
  - eexists _, _. split; [exact F3|]. split; [now left|]. right; right; right; left. split; [reflexivity|exact R3].
  - exfalso. now apply H4.
  - exists [t5; t5'], (if legal then t5' else t5). split; [exact F5|]. split; [destruct legal; cbn; auto|].
    right; right; right; right; left. split; [reflexivity|]. destruct legal; assumption.
  - eexists _, _. split; [exact F8|]. split; [now left|]. right; right; right; right; right. split; [reflexivity|exact S8].
Qed.
Lemma all_written ds legal (ts : list (N * str)) ns : Forall number ns ->
  Forall (fun tp => is_form (fst tp) /\ fst tp <> C "4" /\ plain_piece (snd tp)) ts -> length ts = length ns ->
  exists texts xs, Forall2 (fun tn xs => template_texts ds (fst tn) (snd tn) = Ok xs) (combine (map fst ts) ns) texts
    /\ Forall (Forall no_hash) texts /\ Forall2 (fun tn x => written legal (fst tn) (snd tn) x) (combine (map fst ts) ns) xs
    /\ In (concat (map (fun tx => snd tx ++ snd (fst tx)) (combine ts xs))) (filled ts texts).
Proof.
  intros Hns. revert ts. induction Hns as [|n ns Hn Hns IH]; intros [|[t p] ts] Hts Hlen; try discriminate.
  - exists [], []. cbn. auto.
  - inversion Hts as [|? ? (Hf & H4 & _) Hts']; subst. cbn [fst] in Hf, H4. injection Hlen as Hlen.
    destruct (IH ts Hts' Hlen) as (texts & xs & E1 & E2 & E3 & E4).
    destruct (texts_written ds legal t n Hn Hf H4) as (ys & y & G1 & G2 & G3).
    exists (ys :: texts), (y :: xs). cbn [map combine fst snd]. repeat split.
    + constructor; [exact G1|exact E1].
    + constructor; [|exact E2]. destruct Hn as [Hn Hl]. eapply C43_no_hash; eauto.
    + constructor; [exact G3|exact E3].
    + cbn [filled tl]. apply in_flat_map. exists y. split; [exact G2|]. cbn [concat]. rewrite <- app_assoc.
      apply (in_map (fun z => y ++ p ++ z)). exact E4.
Qed.
Lemma plain_row (ts : list (N * str)) : Forall (fun tp => is_form (fst tp) /\ fst tp <> C "4" /\ plain_piece (snd tp)) ts ->
  Forall (fun tp => is_form (fst tp) /\ plain (snd tp)) ts.
Proof. intros H. eapply Forall_impl; [|exact H]. cbn. intros tp (A & _ & B). split; [exact A|now apply plain_piece_iff]. Qed.
(** What is written for a word with as many templates as there are numbers. *)
Lemma written_texts ds legal q0 ts ns : plain_piece q0 ->
  Forall (fun tp => is_form (fst tp) /\ fst tp <> C "4" /\ plain_piece (snd tp)) ts ->
  Forall number ns -> length ts = length ns ->
  exists os xs, replace_numeric_string ds (with_templates q0 ts) ns = Ok os
    /\ Forall2 (fun tn x => written legal (fst tn) (snd tn) x) (combine (map fst ts) ns) xs /\ In (with_texts q0 ts xs) os.
Proof.
  intros Hq Hts Hns Hlen. destruct (all_written ds legal ts ns Hns Hts Hlen) as (texts & xs & E1 & E2 & E3 & E4).
  exists (map (app q0) (filled ts texts)), xs. split; [|split; [exact E3|]].
  - apply C43_templates_partial; auto; [now apply plain_piece_iff|now apply plain_row].
  - unfold with_texts. now apply in_map.
Qed.
Lemma key_of reading p0 nums : digit_pieces reading p0 nums ->
  to_numeric_key (mkCK reading None) = (mkCK (unpieces p0 (map (fun np => (U "#", snd np)) nums)) None, map fst nums).
Proof.
  intros H. destruct (C42_numeric_key (mkCK reading None)) as (p1 & nums1 & H1 & E). cbn [ck_to ck_okuri] in *.
  destruct (C42_pieces_unique _ _ _ _ _ H H1) as [-> ->]. exact E.
Qed.
Lemma count_of reading p0 nums : digit_pieces reading p0 nums -> numeric_string_count reading = length nums.
Proof.
  intros H. pose proof (key_of _ _ _ H) as E. unfold to_numeric_key in E. cbn [ck_to ck_okuri] in E. injection E as _ E.
  unfold numeric_string_count. rewrite E. apply map_length.
Qed.
Lemma headword_differs p0 (nums : list (str * str)) : nums <> [] -> Forall (fun np => ascii_digits (fst np)) nums ->
  unpieces p0 (map (fun np => (U "#", snd np)) nums) <> unpieces p0 nums.
Proof.
  intros Hne Hd E. unfold unpieces in E. apply app_inv_head in E. destruct nums as [|[n p] nums]; [congruence|].
  inversion Hd as [|? ? [Hn Hf] _]; subst. cbn [fst] in *. destruct n as [|c n]; [congruence|]. inversion Hf; subst.
  cbn in E. injection E as E _. lia.
Qed.
(** C26 for a word without templates. *)
Theorem C26_word_partial : forall X dbg K j d k l w reading word b w1 ops outs w2 k2 b2 w3,
  registering w (mkCK reading None) [] word -> word <> [] -> no_template word ->
  dict_at j w = Some d -> user d -> In j (x_dicts (w_ctx w)) ->
  runs w k (IConfirmDirect :: l) -> process_key_event X dbg k w = Ok (b, w1) ->
  quiet_rule K (x_cmd (w_ctx w)) -> Forall (quiet_op K j reading word) ops ->
  run X dbg ops w1 = Ok (outs, w2) -> In j (x_dicts (w_ctx w2)) ->
  about_to_convert w2 reading -> runs w2 k2 [ITryNextCandidate] ->
  process_key_event X dbg k2 w2 = Ok (b2, w3) ->
  b2 = true /\ shows_word w3 word.
Proof.
  intros X dbg K j d k l w reading word b w1 ops outs w2 k2 b2 w3 Hreg Hw Hn.
  apply (C26_partial X dbg K j d k l w reading word b w1 ops outs w2 k2 b2 w3 Hreg Hw). left.
  apply no_template_iff in Hn. unfold numeric_entry_count. now rewrite Hn.
Qed.
(** C26 for a word with a template for each number of the reading: it is offered for every reading
    that differs in the numbers only, with those written in the forms the word asks for. *)
Theorem C26_form_partial : forall X dbg K legal j d k l w p0 nums q0 ts b w1 ops outs w2 nums2 k2 b2 w3,
  let reading := unpieces p0 nums in let word := with_templates q0 ts in
  let reading2 := unpieces p0 nums2 in let headword := unpieces p0 (map (fun np => (U "#", snd np)) nums) in
  digit_pieces reading p0 nums -> digit_pieces reading2 p0 nums2 -> map snd nums2 = map snd nums ->
  Forall number (map fst nums) -> Forall number (map fst nums2) ->
  plain_piece q0 -> Forall (fun tp => is_form (fst tp) /\ fst tp <> C "4" /\ plain_piece (snd tp)) ts ->
  length ts = length nums -> ts <> [] ->
  registering w (mkCK reading None) [] word ->
  dict_at j w = Some d -> user d -> In j (x_dicts (w_ctx w)) ->
  runs w k (IConfirmDirect :: l) -> process_key_event X dbg k w = Ok (b, w1) ->
  quiet_rule K (x_cmd (w_ctx w)) -> Forall (quiet_op K j headword word) ops ->
  run X dbg ops w1 = Ok (outs, w2) -> In j (x_dicts (w_ctx w2)) ->
  about_to_convert w2 reading2 -> runs w2 k2 [ITryNextCandidate] ->
  process_key_event X dbg k2 w2 = Ok (b2, w3) ->
  b2 = true /\ exists xs, Forall2 (fun tn x => written legal (fst tn) (snd tn) x) (combine (map fst ts) (map fst nums2)) xs
    /\ shows_word w3 (with_texts q0 ts xs).
Proof.
  intros X dbg K legal j d k l w p0 nums q0 ts b w1 ops outs w2 nums2 k2 b2 w3 reading word reading2 headword
    Hp Hp2 Hsame Hn Hn2 Hq Hts Hlen Hne Hreg Hd Hu Hj Hk Hpr Hqr Hops Hrun Hj2 Hc Hk2 Hpr2.
  assert (L2 : length nums2 = length nums) by (rewrite <- (map_length snd nums2), Hsame; apply map_length).
  pose proof (key_of _ _ _ Hp) as K1. pose proof (key_of _ _ _ Hp2) as K2.
  assert (Hh : unpieces p0 (map (fun np => (U "#", snd np)) nums2) = headword).
  { unfold headword, unpieces. do 2 f_equal. rewrite !map_map. cbn [fst snd]. 
    rewrite <- (map_map snd (fun x : str => U "#" ++ x) nums2), <- (map_map snd (fun x : str => U "#" ++ x) nums). now rewrite Hsame. }
  rewrite Hh in K2.
  assert (T : templates word = map fst ts) by (apply templates_of; [now apply plain_piece_iff|now apply plain_row]).
  assert (N1 : numeric_entry_count word = length ts) by (unfold numeric_entry_count; rewrite T; apply map_length).
  destruct (written_texts (ctx_dicts w) legal q0 ts (map fst nums) Hq Hts Hn) as (os1 & xs1 & W1 & _ & I1); [now rewrite map_length|].
  destruct (written_texts (ctx_dicts w2) legal q0 ts (map fst nums2) Hq Hts Hn2) as (os & xs & W2 & F2 & I2); [now rewrite map_length, L2|].
  assert (Hdiff : headword <> reading2).
  { rewrite <- Hh. apply headword_differs.
    - intros ->. destruct nums; [|discriminate]. destruct ts; [congruence|discriminate].
    - rewrite Forall_map in Hn2. eapply Forall_impl; [|exact Hn2]. intros np [A _]. exact A. }
  assert (Hword : word <> []).
  { unfold word, with_templates. destruct ts as [|[t p] ts]; [congruence|]. destruct q0; discriminate. }
  assert (R : b2 = true /\ shows_word w3 (with_texts q0 ts xs)).
  { eapply (C26_number_partial X dbg K j d k l w reading headword (map fst nums) word b w1 ops outs w2 reading2 (map fst nums2) os k2 b2 w3); eauto.
    - rewrite N1. destruct ts; [congruence|discriminate].
    - rewrite N1, (count_of _ _ _ Hp). exact Hlen.
    - fold word in W1. rewrite W1. intros [= ->]. destruct I1. }
  destruct R as [-> R]. split; [reflexivity|]. exists xs. split; assumption.
Qed.
(** か1 registered as #1か, then か25: the hypotheses are met and the word is offered as ２５か. *)
Example C26_form_case : exists o1 w o2 w1 b o3 w2,
  let nums := [(U "1", [])] in let nums2 := [(U "25", [])] in let ts := [(C "1", U "か")] in
  typed false (U "K a 1 space numbersign 1 k a") (demo [user_dict []]) = Ok (o1, w)
  /\ digit_pieces (unpieces (U "か") nums) (U "か") nums /\ digit_pieces (unpieces (U "か") nums2) (U "か") nums2
  /\ Forall number (map fst nums) /\ Forall number (map fst nums2)
  /\ plain_piece [] /\ Forall (fun tp => is_form (fst tp) /\ fst tp <> C "4" /\ plain_piece (snd tp)) ts
  /\ registering w (mkCK (unpieces (U "か") nums) None) [] (with_templates [] ts)
  /\ runs w (mkKey 65293 M_NONE) [IConfirmDirect]
  /\ process_key_event ascii_xkb false (mkKey 65293 M_NONE) w = Ok (b, w1)
  /\ typed false (U "K a 2 5") w1 = Ok (o2, w2)
  /\ about_to_convert w2 (unpieces (U "か") nums2) /\ runs w2 (mkKey 32 M_NONE) [ITryNextCandidate]
  /\ o3 = match process_key_event ascii_xkb false (mkKey 32 M_NONE) w2 with
          | Ok (_, w3) => option_map (fun s => map c_output (cl_list (s_list s))) (current w3) | _ => None end
  /\ o3 = Some [with_texts [] ts [U "２５"]] /\ written false (C "1") (U "25") (U "２５").
Proof.
  destruct (run_case (typed false (U "K a 1 space numbersign 1 k a") (demo [user_dict []]))
    (fun w => (registering_b w (mkCK (U "か1") None) [] (U "#1か"), runs_b w (mkKey 65293 M_NONE),
       match process_key_event ascii_xkb false (mkKey 65293 M_NONE) w with
       | Ok (b, w1) => match typed false (U "K a 2 5") w1 with
            | Ok (_, w2) => Some (converting_b w2 (U "か25"), runs_b w2 (mkKey 32 M_NONE),
                 match process_key_event ascii_xkb false (mkKey 32 M_NONE) w2 with
                 | Ok (_, w3) => option_map (fun s => map c_output (cl_list (s_list s))) (current w3) | _ => None end)
            | Panic _ => None end
       | Panic _ => None end))
    (true, Some [IConfirmDirect], Some (true, Some [ITryNextCandidate], Some [U "２５か"]))) as (o1 & w & E & F); [vm_compute; reflexivity|].
  injection F as F1 F2 F3.
  destruct (process_key_event ascii_xkb false (mkKey 65293 M_NONE) w) as [[b w1]|] eqn:E1; [|discriminate].
  destruct (typed false (U "K a 2 5") w1) as [[o2 w2]|] eqn:E2; [|discriminate].
  injection F3 as F4 F5 F6.
  exists o1, w, o2, w1, b. eexists. exists w2. cbv zeta.
  split; [exact E|]. split; [repeat split; repeat constructor; try (vm_compute; reflexivity); vm_compute; discriminate|].
  split; [repeat split; repeat constructor; try (vm_compute; reflexivity); vm_compute; discriminate|].
  split; [constructor; [|constructor]; split; [split; [discriminate|repeat constructor; vm_compute; discriminate]|vm_compute; reflexivity]|].
  split; [constructor; [|constructor]; split; [split; [discriminate|repeat constructor; vm_compute; discriminate]|vm_compute; reflexivity]|].
  split; [apply plain_piece_iff; split; [reflexivity|discriminate]|].
  split; [constructor; [|constructor]; split; [vm_compute; tauto|]; split; [discriminate|apply plain_piece_iff; split; [reflexivity|discriminate]]|].
  split; [now apply registering_b_spec|]. split; [now apply runs_b_spec|]. split; [exact E1|]. split; [exact E2|].
  split; [now apply converting_b_spec|]. split; [now apply runs_b_spec|]. split; [reflexivity|]. split; [exact F6|].
  right; left. split; [reflexivity|vm_compute; reflexivity].
Qed.
