(** Dictionaries a user can have: loaded from lines, then confirmed into and purged from. *)
From Coq Require Import Permutation Sorting.Sorted.
From Verif Require Import Str Keys Modes KanaBuilder FormChanger DictTypes Parser Lru Dictionary
  CState Context Spec P_Monad P_Frames P_Inv LruPtr T_Lru T_Dedup T_Entry.

Inductive built : dict -> Prop :=
| built_empty c : built (mkDict c DEmpty)
| built_static c ls : built (mkDict c (DStatic (load_lines ls)))
| built_user c ls b : built (mkDict c (DUser (load_lines ls) b))
| built_select d c : built d -> built (select_candidate d c)
| built_purge d k c : built d -> built (purge_candidate d k c).

(** An invariant of every section: one entry per midashi, filed under its own midashi. *)
Definition sound_map (m : lmap entry) : Prop :=
  NoDup (map fst m) /\ forall k e, In (k, e) m -> e_midashi e = k.
Lemma sound_push k e m : sound_map m -> e_midashi e = k -> sound_map (lpush k e m).
Proof.
  intros (H1 & H2) He. split; [now apply lpush_nodup|]. intros k' e' [[= <- <-]|H]; [exact He|].
  apply filter_In in H as (H & _). now apply H2.
Qed.
Lemma lpeek_in {V} k (m : lmap V) v : lpeek k m = Some v -> In (k, v) m.
Proof.
  unfold lpeek. induction m as [|[k' v'] m IH]; cbn; [discriminate|].
  destruct (str_eqb_spec k k') as [->|]; [intros [= ->]; now left|auto].
Qed.
Lemma in_lpeek {V} k (m : lmap V) v : NoDup (map fst m) -> In (k, v) m -> lpeek k m = Some v.
Proof.
  unfold lpeek. induction m as [|[k' v'] m IH]; cbn; [tauto|]. intros H. apply NoDup_cons_iff in H as (H1 & H2).
  intros [[= -> ->]|H]; [now rewrite str_eqb_refl|].
  destruct (str_eqb_spec k k') as [->|]; [|auto]. exfalso. apply H1. now apply (in_map fst) in H.
Qed.
Lemma sound_update k f m : sound_map m -> (forall e, e_midashi (f e) = e_midashi e) -> sound_map (lupdate k f m).
Proof.
  intros H Hf. unfold lupdate. destruct (lpeek k m) as [e|] eqn:E; [|exact H].
  apply (sound_push k); [exact H|]. rewrite Hf. apply (proj2 H). now apply lpeek_in.
Qed.
Definition sound_dents (d : dents) : Prop := sound_map (d_ari d) /\ sound_map (d_nashi d).
Lemma sound_empty : sound_dents dents_empty.
Proof. split; split; cbn; try constructor; intros k e []. Qed.
Lemma sound_load_line st ln : sound_dents (snd st) -> sound_dents (snd (load_line st ln)).
Proof.
  destruct st as [b d]. intros H. unfold load_line.
  destruct (is_prefixb (U ";") ln); [destruct (contains _ _); [exact H|destruct (contains _ _); exact H]|].
  destruct (from_skkjisyo_line ln) as [e|]; [|exact H].
  destruct (b && e_okuri e); cbn; split; cbn; try apply H; apply sound_push; auto; apply H.
Qed.
Lemma sound_load ls : sound_dents (load_lines ls).
Proof.
  unfold load_lines. assert (G : forall st, sound_dents (snd st) -> sound_dents (snd (fold_left load_line ls st))).
  { induction ls as [|l ls IH]; intros st H; cbn; [exact H|]. apply IH. now apply sound_load_line. }
  apply G. exact sound_empty.
Qed.
Lemma sound_select c m : sound_map m -> sound_map (select_in_map c m).
Proof.
  intros H. unfold select_in_map. destruct (lpeek (c_midashi c) m) as [e|].
  - apply sound_update; [exact H|reflexivity].
  - apply sound_push; [exact H|reflexivity].
Qed.
Lemma sound_purge k c m : sound_map m -> sound_map (purge_in_map k c m).
Proof. intros H. apply sound_update; [exact H|reflexivity]. Qed.
Lemma built_sound d : built d -> sound_dents (dict_ents d).
Proof.
  induction 1 as [c|c ls|c ls b|d c Hb IH|d k c Hb IH].
  - exact sound_empty.
  - apply sound_load.
  - apply sound_load.
  - unfold select_candidate. destruct (d_kind d) as [e|e h|] eqn:E; [exact IH| |exact IH].
    unfold dict_ents in IH. rewrite E in IH. destruct IH as (I1 & I2).
    unfold dict_ents. cbn [d_kind]. destruct (c_okuri c); split; cbn; auto using sound_select.
  - unfold purge_candidate. destruct (d_kind d) as [e|e h|] eqn:E; [exact IH| |exact IH].
    unfold dict_ents in IH. rewrite E in IH. destruct IH as (I1 & I2).
    unfold dict_ents. cbn [d_kind]. destruct (c_okuri c); split; cbn; auto using sound_purge.
Qed.
Lemma built_section d ari : built d -> sound_map (section ari d).
Proof. intros H. apply built_sound in H. unfold section. destruct ari; apply H. Qed.

(** Properties of dictionaries kept by confirming and purging are kept by every history that
    does not replace dictionaries. *)
Lemma upd_dicts_forall (P : dict -> Prop) ids f st : (forall d, P d -> P (f d)) ->
  Forall P st -> Forall P (upd_dicts ids f st).
Proof.
  intros Hf. unfold upd_dicts. revert st. induction ids as [|i ids IH]; intros st H; cbn; [exact H|].
  apply IH. clear IH. revert i. induction H as [|d st Hd H IH]; intros [|i]; cbn; auto.
Qed.
Lemma drel_forall (P : dict -> Prop) ids st st' :
  (forall d c, P d -> P (select_candidate d c)) -> (forall d k c, P d -> P (purge_candidate d k c)) ->
  drel ids st st' -> Forall P st -> Forall P st'.
Proof.
  intros H1 H2. induction 1 as [|s1 s2 s3 _ IH Hs]; intros H; [exact H|]. apply IH in H.
  destruct Hs; apply upd_dicts_forall; auto.
Qed.
Definition others_keep (P : dict -> Prop) (o : op) : Prop :=
  match o with OOther st => Forall P st | _ => True end.
Lemma run_store_inv X dbg (P : dict -> Prop) ops w outs w' : x_stack (w_ctx w) <> [] ->
  (forall d c, P d -> P (select_candidate d c)) -> (forall d k c, P d -> P (purge_candidate d k c)) ->
  Forall (others_keep P) ops ->
  run X dbg ops w = Ok (outs, w') -> Forall P (w_store w) -> Forall P (w_store w').
Proof.
  intros Hw H1 H2 Hops Hr HP.
  eapply (run_inv_fl X dbg all_flags (fun w => x_stack (w_ctx w) <> [] /\ Forall P (w_store w)) (others_keep P));
    [..|exact Hr]; auto.
  - tauto.
  - intros; apply op_allowed_all.
  - intros o w1 w2 out Ho [Hne H] He Hst. split; [eapply step_nonempty; eauto|].
    destruct o; try (destruct Hst as [Hst|(_ & Hst & _)];
      [eapply drel_forall; [exact H1|exact H2|apply Hst|exact H]|now rewrite (Hst eq_refl)]).
    cbn in He. injection He as <- <-. exact Ho.
Qed.
Lemma run_built X dbg ops w outs w' : x_stack (w_ctx w) <> [] ->
  Forall (others_keep built) ops ->
  run X dbg ops w = Ok (outs, w') -> Forall built (w_store w) -> Forall built (w_store w').
Proof. intros. eapply (run_store_inv X dbg built); eauto using built. Qed.
