(** Exact answers to claims about dictionaries that are false as stated (C23, C27). *)
From Verif Require Import Str Keys Modes FormChanger DictTypes Parser Lru Dictionary CState Context Demo Spec T_Num T_Dedup T_Entry.

(** * C23: the order of the candidates, for every key and any dictionaries *)
(** What the dictionaries list for the key, in the order of the dictionaries, the strict
    matches of each before its other candidates.  Of the copies of a text only those with the
    greatest annotation count, and of these the first gives the place. *)
Definition listed_for (k : ckey) (ds : list dict) : list dcand :=
  flat_map (fun d => strict_texts k d ++ texts_without_okuri k d) ds.
Theorem C23_exact : forall ds k cs, exact_candidates ds k = Ok cs ->
  map (fun c => (c_kouho c, c_annot c)) cs
  = map (fun x => (dc_kouho x, dc_annot x)) (first_appearances (filter (preferredb (listed_for k ds)) (listed_for k ds))).
Proof.
  intros ds k cs H. destruct (exact_made ds k cs H) as (l & Hl & H2). apply in_order_concat in Hl. subst l.
  unfold listed_for. rewrite <- C22_exact. clear H. revert H2. generalize (dedup_candidates dcand_cmp dc_kouho (flat_map (fun d => strict_texts k d ++ texts_without_okuri k d) ds)).
  intros l0 H2. induction H2 as [|x c l cs' (E1 & E2 & _) _ IH]; cbn [map]; [reflexivity|]. now rewrite E1, E2, IH.
Qed.
(** Without digits in the reading nothing else is offered. *)
Theorem C23_no_digits : forall ds k, no_digit (ck_to k) -> get_all_candidates ds k = exact_candidates ds k.
Proof.
  intros ds k Hd. unfold get_all_candidates. destruct (exact_candidates ds k) as [cs|]; cbn [rbind]; [|reflexivity].
  destruct (C42_numeric_key k) as (p0 & rest & Hp & ->).
  assert (Hu : digit_pieces (ck_to k) (ck_to k) []).
  { split; [unfold unpieces; cbn; now rewrite app_nil_r|]. split; [exact Hd|split; constructor]. }
  destruct (C42_pieces_unique _ _ _ _ _ Hu Hp) as (<- & <-). cbn [map].
  assert (E : mkCK (unpieces (ck_to k) []) (ck_okuri k) = k) by (unfold unpieces; cbn; rewrite app_nil_r; now destruct k).
  rewrite E. assert (Ek : ckey_eqb k k = true).
  { unfold ckey_eqb. rewrite str_eqb_refl. destruct (ck_okuri k); cbn; [apply str_eqb_refl|reflexivity]. }
  now rewrite Ek.
Qed.
Example C23_exact_case :
  let d1 := mkDict true (DStatic (load_text (U "おくr /奥/送/[り/送;strict/]/"))) in
  let d2 := mkDict true (DStatic (load_text (U "おくr /送/贈/[り/贈/]/"))) in
  let k := mkCK (U "おく") (Some (U "り")) in
  no_digit (ck_to k)
  /\ map dc_kouho (listed_for k [d1; d2]) = [U "送"; U "奥"; U "送"; U "贈"; U "送"; U "贈"]
  /\ rmap (map c_kouho) (get_all_candidates [d1; d2] k) = Ok [U "送"; U "奥"; U "贈"].
Proof. cbv zeta. split; [|split; vm_compute; reflexivity]. cbn [ck_to]. repeat constructor. Qed.

(** * C27: what is left after purging *)
Definition copies (t : str) (l : list dcand) : nat := length (filter (fun x => str_eqb (dc_kouho x) t) l).
Lemma copies_in t l : In t (texts l) <-> 1 <= copies t l.
Proof.
  unfold copies, texts. induction l as [|x l IH]; cbn; [lia|]. destruct (str_eqb_spec (dc_kouho x) t) as [E|E]; cbn.
  - split; [lia|auto].
  - rewrite <- IH. split; [intros [H|H]; [congruence|exact H]|auto].
Qed.
Lemma remove_list_copies t l : copies t (remove_list t l) = copies t l - 1.
Proof.
  unfold remove_list. pose proof (position_spec (fun d => str_eqb (dc_kouho d) t) l) as H.
  destruct (position _ l) as [i|].
  - destruct H as (a & x & b & -> & <- & Hx & _). rewrite remove_nth_app. unfold copies. rewrite !filter_app, !app_length. cbn [filter].
    rewrite Hx. cbn [length]. lia.
  - assert (E : copies t l = 0); [|lia]. unfold copies. induction H as [|x l Hx _ IH]; cbn; [reflexivity|]. now rewrite Hx.
Qed.
(** The concerned lists lose one copy of the text, the other lists and texts keep all copies. *)
Theorem C27_copies : forall d k c ari m o t, user d -> ck_okuri k <> Some [] ->
  copies t (listed (purge_candidate d k c) ari m o)
  = if Bool.eqb ari (c_okuri c) && str_eqb m (c_midashi c) && str_eqb t (c_kouho c)
       && (str_eqb o [] || match ck_okuri k with Some s => str_eqb o s | None => false end)
    then copies t (listed d ari m o) - 1 else copies t (listed d ari m o).
Proof.
  intros d k c ari m o t Hu Hk. rewrite listed_purge by assumption.
  assert (Ec : (str_eqb o [] || match ck_okuri k with Some s => str_eqb o s | None => false end) = concerns (ck_okuri k) o)
    by (unfold concerns; destruct o; reflexivity).
  rewrite Ec. destruct (Bool.eqb ari (c_okuri c)), (str_eqb m (c_midashi c)), (concerns (ck_okuri k) o); cbn [andb]; rewrite ?andb_false_r, ?andb_true_r;
    try reflexivity; [|destruct (str_eqb t (c_kouho c)); reflexivity..].
  destruct (str_eqb_spec t (c_kouho c)) as [->|E]; [apply remove_list_copies|].
  unfold remove_list. pose proof (position_spec (fun d => str_eqb (dc_kouho d) (c_kouho c)) (listed d ari m o)) as H.
  destruct (position _ _) as [i|]; [|reflexivity].
  destruct H as (a & x & b & -> & <- & Hx & _). rewrite remove_nth_app. unfold copies. rewrite !filter_app. cbn [filter].
  apply str_eqb_eq in Hx. destruct (str_eqb_spec (dc_kouho x) t) as [E2|_]; [congruence|reflexivity].
Qed.
(** So the purged text is still offered exactly when a concerned list held it twice. *)
Theorem C27_exact : forall d k c, user d -> ck_okuri k <> Some [] ->
  get_dict_key k = Ok (c_midashi c) -> c_okuri c = has_okuri k ->
  (holds [purge_candidate d k c] k (c_kouho c)
   <-> exists o, (o = [] \/ ck_okuri k = Some o) /\ 2 <= copies (c_kouho c) (listed d (c_okuri c) (c_midashi c) o)).
Proof.
  intros d k c Hu Hk Hm Hok.
  assert (G : forall o, o = [] \/ ck_okuri k = Some o ->
     copies (c_kouho c) (listed (purge_candidate d k c) (c_okuri c) (c_midashi c) o) = copies (c_kouho c) (listed d (c_okuri c) (c_midashi c) o) - 1).
  { intros o Ho. rewrite listed_purge by assumption. apply concerns_iff in Ho. rewrite eqb_reflx, str_eqb_refl, Ho. cbn [andb]. apply remove_list_copies. }
  assert (Hd : d_kind (purge_candidate d k c) <> DEmpty).
  { unfold user in Hu. unfold purge_candidate. destruct (d_kind d); try tauto. cbn. discriminate. }
  assert (Hl : lookup (purge_candidate d k c) k = Ok (lpeek (c_midashi c) (section (c_okuri c) (purge_candidate d k c)))).
  { rewrite lookup_section by exact Hd. rewrite Hm, <- Hok. reflexivity. }
  assert (B : forall o, In (c_kouho c) (texts (listed (purge_candidate d k c) (c_okuri c) (c_midashi c) o))
     <-> exists e l, lookup (purge_candidate d k c) k = Ok (Some e) /\ bget o (e_map e) = Some l /\ In (c_kouho c) (map dc_kouho l)).
  { intros o. rewrite Hl. unfold listed, texts. destruct (lpeek _ _) as [e|].
    - split.
      + destruct (bget o (e_map e)) as [l|] eqn:E; [|intros []]. exists e, l. auto.
      + intros (e' & l & He & Hb & Hin). injection He as <-. now rewrite Hb.
    - split; [intros []|]. intros (e' & l & He & _). discriminate. }
  split.
  - intros (d' & e & [<-|[]] & He & Hh).
    assert (exists o l, (o = [] \/ ck_okuri k = Some o) /\ bget o (e_map e) = Some l /\ In (c_kouho c) (map dc_kouho l)) as (o & l & Ho & Hb & Hin).
    { destruct Hh as [(o & l & Eo & Hb & Hin)|(l & Hb & Hin)]; [exists o, l|exists [], l]; auto. }
    exists o. split; [exact Ho|]. assert (Hx : In (c_kouho c) (texts (listed (purge_candidate d k c) (c_okuri c) (c_midashi c) o))) by (apply B; eauto).
    apply copies_in in Hx. rewrite (G o Ho) in Hx. lia.
  - intros (o & Ho & H2). assert (Hx : In (c_kouho c) (texts (listed (purge_candidate d k c) (c_okuri c) (c_midashi c) o))).
    { apply copies_in. rewrite (G o Ho). lia. }
    apply B in Hx as (e & l & He & Hb & Hin). exists (purge_candidate d k c), e. split; [now left|split; [exact He|]].
    destruct Ho as [->|Ho]; [right|left]; eauto.
Qed.
Example C27_exact_case :
  let d := mkDict true (DUser (load_text (U "あい /愛/藍/愛/")) false) in
  let k := mkCK (U "あい") None in
  let c := mkCand (U "あい") None false (U "愛") None (U "愛") in
  user d /\ get_dict_key k = Ok (c_midashi c) /\ c_okuri c = has_okuri k
  /\ copies (U "愛") (listed d false (U "あい") []) = 2.
Proof. vm_compute. auto. Qed.
