(** C75: saving, reloading and starting again are invisible. *)
From Coq Require Import Permutation Sorting.Sorted.
From Verif Require Import Str Keys Modes KanaBuilder FormChanger DictTypes Parser Lru LruPtr
  Dictionary CState Context DefaultRule Demo Spec P_Monad P_Frames P_Inv T_Lru T_Dedup T_Entry P_Dict T_Escape T_Line SaveFs T_Load T_Save T_Saved P_Alike Life.

(** * Specification *)
(** Something has been learnt that the next save would write. *)
Definition unsaved (d : dict) : bool := match d_kind d with DUser _ b => b | _ => false end.
(** Saving is only done with contents the file can carry (C35); the dictionaries are only read again when
    nothing is unsaved. *)
Definition careful (enc : nat -> str -> bool) (a : deed) (w : world) : Prop :=
  match a with
  | Do _ => True
  | Save => forall i d, In i (x_dicts (w_ctx w)) -> dict_at i w = Some d -> unsaved d = true -> keepable (enc i) (dict_ents d)
  | Reload => forall i d, In i (x_dicts (w_ctx w)) -> dict_at i w = Some d -> unsaved d = false
  | Restart _ => forall i d, dict_at i w = Some d -> unsaved d = false
  end.
Inductive careful_life X dbg enc : living -> list deed -> list out -> living -> Prop :=
| cl_nil l : careful_life X dbg enc l [] [] l
| cl_cons a l r l1 deeds outs l2 : careful enc a (l_world l) -> live X dbg enc a l r l1 ->
    careful_life X dbg enc l1 deeds outs l2 -> careful_life X dbg enc l (a :: deeds) (r ++ outs) l2.
(** The program that never touches its files: it neither saves nor reloads, and when the other starts
    again it makes the new context over the dictionaries it has. *)
Fixpoint undisturbed X dbg (deeds : list deed) (w : world) : res (list out * world) :=
  match deeds with
  | [] => Ok ([], w)
  | Do o :: rest => match exec X dbg o w with
                    | Ok (r, w1) => rmap (fun p => (r :: fst p, snd p)) (undisturbed X dbg rest w1)
                    | Panic e => Panic e
                    end
  | (Save | Reload) :: rest => undisturbed X dbg rest w
  | Restart x :: rest => undisturbed X dbg rest (mkW (w_store w) x)
  end.
(** Two programs answer alike: the same answer to the next call, or the same panic. *)
Definition answer_alike X dbg (w w' : world) : Prop := forall o, (forall st, o <> OOther st) ->
  match exec X dbg o w, exec X dbg o w' with
  | Ok (r, _), Ok (r', _) => r = r'
  | Panic e, Panic e' => e = e'
  | _, _ => False
  end.

(** * Proof *)
Lemma alike_map_refl m : NoDup (map fst m) -> alike_map m m.
Proof. intros H. repeat split; auto. Qed.
Lemma alike_map_sym m m' : alike_map m m' -> alike_map m' m.
Proof. intros (H & H' & P). repeat split; auto. now apply Permutation_sym. Qed.
Lemma alike_map_trans a b c : alike_map a b -> alike_map b c -> alike_map a c.
Proof. intros (H & H' & P) (_ & H2 & P2). repeat split; auto. now transitivity (bare_map b). Qed.
Lemma alike_dents_trans a b c : alike_dents a b -> alike_dents b c -> alike_dents a c.
Proof. intros [H1 H2] [G1 G2]. split; eapply alike_map_trans; eassumption. Qed.
Lemma alike_dents_sym a b : alike_dents a b -> alike_dents b a.
Proof. intros [H1 H2]. split; now apply alike_map_sym. Qed.
Lemma alike_dents_refl a : sound_dents a -> alike_dents a a.
Proof. intros [[H1 _] [H2 _]]. split; now apply alike_map_refl. Qed.
Lemma alike_remade m : NoDup (map fst m) -> alike_map (remade_map m) m.
Proof.
  intros H. split; [rewrite remade_keys; now apply NoDup_rev|]. split; [exact H|].
  unfold remade_map, bare_map. rewrite map_rev, map_map. apply Permutation_sym. etransitivity; [|apply Permutation_rev]. apply Permutation_refl'.
  apply map_ext. intros [k e]. reflexivity.
Qed.
Lemma alike_written enc d : sound_dents d -> keepable enc d -> alike_dents (load_text (save_text enc d)) d.
Proof.
  intros H K. rewrite (reload_exact enc d H K). destruct H as [[H1 _] [H2 _]]. split; cbn [d_ari d_nashi]; now apply alike_remade.
Qed.

(** One dictionary, its file and the same dictionary in the undisturbed program. *)
Definition in_step (d : dict) (f : fs) : Prop :=
  sound_dents (dict_ents d)
  /\ (d_kind d <> DEmpty -> unsaved d = false -> exists t, f_main f = Some t /\ alike_dents (load_text t) (dict_ents d)).
Lemma in_step_select c d f : in_step d f -> in_step (select_candidate d c) f.
Proof.
  intros [H1 H2]. split; [now apply sound_selected|]. intros Hk Hu. unfold select_candidate in *.
  destruct (d_kind d) eqn:E; [| |congruence].
  - apply H2; [congruence|unfold unsaved; now rewrite E].
  - discriminate.
Qed.
Lemma in_step_purge k c d f : in_step d f -> in_step (purge_candidate d k c) f.
Proof.
  intros [H1 H2]. split; [now apply sound_purged|]. intros Hk Hu. unfold purge_candidate in *.
  destruct (d_kind d) eqn:E; [| |congruence].
  - apply H2; [congruence|unfold unsaved; now rewrite E].
  - discriminate.
Qed.
(** Without a file nothing can be saved. *)
Lemma no_file text bak x : save_steps text (mkFs None bak, AtRename) x -> snd x = AtRename /\ fst x = mkFs None bak \/ snd x = Failed.
Proof.
  intros H. remember (mkFs None bak, AtRename) as x0 eqn:E. induction H as [x|x y z H IH Hs]; [subst; now left|].
  specialize (IH E). subst x. destruct IH as [[IH1 IH2]|IH]; destruct Hs; cbn in *; try discriminate; auto.
Qed.
Lemma written enc d f f' : save_steps (save_text enc d) (f, AtRename) (f', Saved) -> f_main f' = Some (save_text enc d).
Proof.
  intros H. destruct f as [[old|] bak].
  - apply saving_keeps in H. cbn in H. now subst f'.
  - apply no_file in H as [[H _]|H]; discriminate.
Qed.
Lemma saved_in_step enc d f d' f' : save_one enc d f d' f' -> in_step d f ->
  (unsaved d = true -> keepable enc (dict_ents d)) ->
  in_step d' f' /\ (forall d2, alike d d2 -> alike d' d2) /\ (unsaved d' = false \/ unsaved d = true).
Proof.
  intros Hs [H1 H2] Hk. destruct Hs as [c e b f r u f' Hs|c e f|c f].
  - inversion Hs as [? ? E1|? ? ? Hss|? ? ? Hss]; subst; cbn [u_ents u_change]; unfold dict_ents, unsaved in *; cbn [d_kind d_completable] in *.
    + split; [split; [exact H1|exact H2]|]. split; [|now left]. intros [c2 [e2|e2 b2|]] [A1 A2]; cbn in *; try contradiction. now split.
    + split; [split; [exact H1|]|].
      * intros _ _. exists (save_text enc e). split; [eapply written; exact Hss|]. apply alike_written; auto.
      * split; [|now left]. intros [c2 [e2|e2 b2|]] [A1 A2]; cbn in *; try contradiction. now split.
    + split; [split; [exact H1|intros _; discriminate]|]. split; [|now right]. intros [c2 [e2|e2 b2|]] [A1 A2]; cbn in *; try contradiction. now split.
  - split; [now split|]. split; [auto|now left].
  - split; [now split|]. split; [auto|now left].
Qed.
Lemma opened_in_step d f d' : open_one d f d' -> in_step d f -> unsaved d = false ->
  in_step d' f /\ (forall d2, alike d d2 -> alike d' d2).
Proof.
  intros Ho [H1 H2] Hu. destruct Ho as [c e b f t Ht|c e f t Ht|c f].
  - destruct (H2 ltac:(discriminate) Hu) as (t' & E & A). rewrite Ht in E. injection E as <-. cbn [dict_ents d_kind] in *. split.
    + split; [apply sound_load|]. intros _ _. exists t. split; [exact Ht|]. apply alike_dents_refl, sound_load.
    + intros [c2 [e2|e2 b2|]] [A1 A2]; cbn in *; try contradiction. split; [exact A1|]. cbn. eapply alike_dents_trans; eassumption.
  - destruct (H2 ltac:(discriminate) Hu) as (t' & E & A). rewrite Ht in E. injection E as <-. cbn [dict_ents d_kind] in *. split.
    + split; [apply sound_load|]. intros _ _. exists t. split; [exact Ht|]. apply alike_dents_refl, sound_load.
    + intros [c2 [e2|e2 b2|]] [A1 A2]; cbn in *; try contradiction. split; [exact A1|]. cbn. eapply alike_dents_trans; eassumption.
  - split; [now split|auto].
Qed.
Lemma reloaded_in_step d f d' : reload_one d f d' -> in_step d f -> unsaved d = false ->
  in_step d' f /\ (forall d2, alike d d2 -> alike d' d2).
Proof.
  intros Ho H Hu. destruct Ho as [d f t Ht|d f]; [|now split].
  destruct d as [c [e|e b|]]; unfold with_contents; cbn [d_kind d_completable].
  - eapply opened_in_step; [|exact H|exact Hu]. now apply (oo_static c e).
  - cbn in Hu. subst b. eapply opened_in_step; [|exact H|reflexivity]. now apply (oo_user c e false).
  - now split.
Qed.

(** The whole store. *)
Definition all_in_step (ds : list dict) (fl : list fs) : Prop := Forall2 in_step ds fl.
Lemma forall2_nth {A B} (P : A -> B -> Prop) l l' : Forall2 P l l' -> forall i a, nth_error l i = Some a -> exists b, nth_error l' i = Some b /\ P a b.
Proof. induction 1 as [|a b l l' H H' IH]; intros [|i] x E; cbn in *; try discriminate; eauto. injection E as <-. eauto. Qed.
Lemma forall2_set {A B} (P : A -> B -> Prop) l l' : Forall2 P l l' -> forall i a b, P a b -> Forall2 P (update_nth i (fun _ => a) l) (update_nth i (fun _ => b) l').
Proof. induction 1 as [|a b l l' H H' IH]; intros [|i] x y E; cbn; constructor; auto. Qed.
Lemma forall2_set_l {A B} (P : A -> B -> Prop) l l' : Forall2 P l l' -> forall i a, (forall b, nth_error l' i = Some b -> P a b) -> Forall2 P (update_nth i (fun _ => a) l) l'.
Proof. induction 1 as [|a b l l' H H' IH]; intros [|i] x E; cbn in *; constructor; auto. Qed.
Lemma drel_in_step ids ds ds' : drel ids ds ds' -> forall fl, all_in_step ds fl -> all_in_step ds' fl.
Proof.
  assert (Hu : forall (f : dict -> dict), (forall d x, in_step d x -> in_step (f d) x) -> forall ids ds fl, all_in_step ds fl -> all_in_step (upd_dicts ids f ds) fl).
  { intros f Hf. unfold upd_dicts. induction ids0 as [|i ids0 IH]; intros l fl H; cbn; [exact H|]. apply IH. clear IH.
    revert l fl H. induction i as [|i IHi]; intros l fl H; destruct H; cbn; constructor; auto. now apply IHi. }
  induction 1 as [|s1 s2 s3 _ IH Hs]; intros fl H; [exact H|]. specialize (IH fl H).
  destruct Hs; (apply Hu; [|exact IH]); auto using in_step_select, in_step_purge.
Qed.
Lemma do_in_step X dbg o w r w' fl : (forall st, o <> OOther st) -> x_stack (w_ctx w) <> [] -> exec X dbg o w = Ok (r, w') ->
  all_in_step (w_store w) fl -> all_in_step (w_store w') fl /\ x_stack (w_ctx w') <> [].
Proof.
  intros Ho Hne E H. pose proof (exec_step X dbg o w Hne) as He. unfold wp in He. rewrite E in He.
  split; [|eapply step_nonempty; eauto]. destruct He as [Hst|(_ & Hst & _)].
  - eapply drel_in_step; [apply Hst|exact H].
  - rewrite Hst; [exact H|]. destruct o; try reflexivity. exfalso. now apply (Ho st).
Qed.
Lemma save_all_in_step enc ids ds fl ds' fl' : save_all enc ids ds fl ds' fl' -> forall ds2,
  all_in_step ds fl -> Forall2 alike ds ds2 ->
  (forall i d, In i ids -> nth_error ds i = Some d -> unsaved d = true -> keepable (enc i) (dict_ents d)) ->
  all_in_step ds' fl' /\ Forall2 alike ds' ds2.
Proof.
  induction 1 as [ds fl|i ids ds fl ds' fl' Hi Hs IH|i ids ds fl d f d' f' ds' fl' Hd Hf Ho Hs IH]; intros ds2 H A K.
  - now split.
  - apply IH; auto. intros; eapply K; eauto. now right.
  - destruct (forall2_nth _ _ _ H _ _ Hd) as (f2 & E & Hin). rewrite Hf in E. injection E as <-.
    destruct (saved_in_step _ _ _ _ _ Ho Hin) as (Hin' & Ha & Hu); [now apply (K i); [left|]|].
    apply IH.
    + now apply forall2_set.
    + apply forall2_set_l; [exact A|]. intros b Hb. apply Ha. destruct (forall2_nth _ _ _ A _ _ Hd) as (b' & E & Hb'). congruence.
    + intros j x Hj Hx Hux. rewrite nth_error_update_nth in Hx. destruct (Nat.eqb i j) eqn:Eij.
      * apply Nat.eqb_eq in Eij. subst j. rewrite Hd in Hx. cbn in Hx. injection Hx as <-.
        destruct Hu as [Hu|Hu]; [congruence|]. specialize (K i d (or_introl eq_refl) Hd Hu).
        clear - Ho K. destruct Ho as [c e b f r u f' Hs|c e f|c f]; auto. inversion Hs; subst; exact K.
      * eapply K; eauto. now right.
Qed.
Lemma reload_all_in_step ids ds fl ds' : reload_all ids ds fl ds' -> forall ds2,
  all_in_step ds fl -> Forall2 alike ds ds2 -> (forall i d, In i ids -> nth_error ds i = Some d -> unsaved d = false) ->
  all_in_step ds' fl /\ Forall2 alike ds' ds2.
Proof.
  induction 1 as [ds fl|i ids ds fl ds' Hi Hs IH|i ids ds fl d f d' ds' Hd Hf Ho Hs IH]; intros ds2 H A K.
  - now split.
  - apply IH; auto. intros; eapply K; eauto. now right.
  - destruct (forall2_nth _ _ _ H _ _ Hd) as (f2 & E & Hin). rewrite Hf in E. injection E as <-.
    pose proof (K i d (or_introl eq_refl) Hd) as Hu. destruct (reloaded_in_step _ _ _ Ho Hin Hu) as [Hin' Ha].
    assert (Hu' : unsaved d' = false) by (clear - Ho Hu; destruct Ho as [[c [e|e b|]] f t Ht|d f]; auto).
    apply IH.
    + apply forall2_set_l; [exact H|]. intros b Hb. rewrite Hf in Hb. now injection Hb as <-.
    + apply forall2_set_l; [exact A|]. intros b Hb. apply Ha. destruct (forall2_nth _ _ _ A _ _ Hd) as (b' & E & Hb'). congruence.
    + intros j x Hj Hx. rewrite nth_error_update_nth in Hx. destruct (Nat.eqb i j) eqn:Eij.
      * apply Nat.eqb_eq in Eij. subst j. rewrite Hd in Hx. cbn in Hx. now injection Hx as <-.
      * eapply K; eauto. now right.
Qed.
Lemma open_all_in_step ds fl ds' : open_all ds fl ds' -> forall ds2, all_in_step ds fl -> Forall2 alike ds ds2 ->
  (forall i d, nth_error ds i = Some d -> unsaved d = false) -> all_in_step ds' fl /\ Forall2 alike ds' ds2.
Proof.
  induction 1 as [|d f d' ds fl ds' Ho Hs IH]; intros ds2 H A K; [now split|].
  inversion H; subst. inversion A; subst.
  destruct (opened_in_step _ _ _ Ho ltac:(eassumption) (K 0 d eq_refl)) as [Hi Ha].
  edestruct (IH _ ltac:(eassumption) ltac:(eassumption)) as [G1 G2]; [intros i x Hx; exact (K (S i) x Hx)|].
  split; constructor; auto.
Qed.
Lemma just_opened ds fl : open_all ds fl ds -> all_in_step ds fl /\ Forall2 alike ds ds.
Proof.
  intros H. remember ds as ds' in H at 2. revert Heqds'. induction H as [|d f d' ds fl ds' Ho Hs IH]; intros E; [split; constructor|].
  injection E as E1 E2. destruct (IH E2) as [G1 G2]. subst d'. clear IH E2.
  assert (G : in_step d f /\ alike d d).
  { remember d as d' in Ho at 2. inversion Ho; subst; match goal with H : _ = mkDict _ _ |- _ => try injection H as ? end; subst.
    - split; [split; [apply sound_load|intros _ _; eexists; split; [eassumption|apply alike_dents_refl, sound_load]]|split; cbn; auto; apply alike_dents_refl, sound_load].
    - split; [split; [apply sound_load|intros _ _; eexists; split; [eassumption|apply alike_dents_refl, sound_load]]|split; cbn; auto; apply alike_dents_refl, sound_load].
    - split; [split; [exact (sound_load [])|intros G; now contradiction G]|split; cbn; auto]. }
  split; constructor; tauto.
Qed.

Lemma life_alike X dbg enc l deeds outs l' : careful_life X dbg enc l deeds outs l' -> forall w2,
  x_stack (w_ctx (l_world l)) <> [] -> all_in_step (w_store (l_world l)) (l_files l) -> alike_w (l_world l) w2 ->
  exists w2', undisturbed X dbg deeds w2 = Ok (outs, w2') /\ alike_w (l_world l') w2'
    /\ all_in_step (w_store (l_world l')) (l_files l') /\ x_stack (w_ctx (l_world l')) <> [].
Proof.
  induction 1 as [l|a l r l1 deeds outs l2 Hc Hl Hcl IH]; intros w2 Hne Hin Ha; [exists w2; auto|].
  destruct Hl as [o w fl r w' Ho E|w fl ds' fl' Hs|w fl ds' Hs|x w fl ds' Hs Hst]; cbn [l_world l_files careful undisturbed app] in *.
  - pose proof (sim_exec X dbg o Ho _ _ Ha) as R. rewrite E in R. destruct (exec X dbg o w2) as [[r2 w2']|e]; [|contradiction].
    destruct R as [<- Ha']. destruct (do_in_step X dbg o w r w' fl Ho Hne E Hin) as [Hin' Hne'].
    destruct (IH w2' Hne' Hin' Ha') as (w3 & E3 & H3). exists w3. rewrite E3. cbn. split; [reflexivity|exact H3].
  - destruct Ha as [A1 A2]. destruct (save_all_in_step _ _ _ _ _ _ Hs _ Hin A2 Hc) as [G1 G2]. apply IH; auto. split; [exact A1|exact G2].
  - destruct Ha as [A1 A2]. destruct (reload_all_in_step _ _ _ _ Hs _ Hin A2 Hc) as [G1 G2]. apply IH; auto. split; [exact A1|exact G2].
  - destruct Ha as [A1 A2]. destruct (open_all_in_step _ _ _ Hs _ Hin A2 Hc) as [G1 G2]. apply IH; auto; [|split; [reflexivity|exact G2]].
    destruct Hst as (st & kf & am & ds & i & c & [(rr & Hst)|Hst]); injection Hst as _ ->; discriminate.
Qed.
Lemma started_nonempty X w : started X w -> x_stack (w_ctx w) <> [].
Proof. intros (st & kf & am & ds & i & c & [(rr & ->)| ->]); discriminate. Qed.
(** A program that starts with dictionaries read from their files, and types, saves, reloads and starts
    again carefully: every answer it gets, and its whole visible state, is what it would have had without
    ever touching the files. *)
Theorem C75_invisible : forall X dbg enc w fl deeds outs w' fl', started X w -> open_all (w_store w) fl (w_store w) ->
  careful_life X dbg enc (mkL w fl) deeds outs (mkL w' fl') ->
  exists w'', undisturbed X dbg deeds w = Ok (outs, w'') /\ w_ctx w' = w_ctx w'' /\ answer_alike X dbg w' w''.
Proof.
  intros X dbg enc w fl deeds outs w' fl' Hst Ho Hl. destruct (just_opened _ _ Ho) as [G1 G2].
  destruct (life_alike X dbg enc _ _ _ _ Hl w (started_nonempty _ _ Hst) G1 (conj eq_refl G2)) as (w'' & E & A & _).
  exists w''. split; [exact E|]. split; [apply A|]. intros o Hop. pose proof (sim_exec X dbg o Hop _ _ A) as R. unfold rel in R.
  cbn [l_world] in R. destruct (exec X dbg o w') as [[r w1]|e], (exec X dbg o w'') as [[r2 w2]|e2]; try contradiction; [apply R|exact R].
Qed.
(** After any such life, when nothing is unsaved: every dictionary still has its file, so the program
    can be started again. *)
Theorem C75_startable : forall X dbg enc w fl deeds outs w' fl' x, started X w -> open_all (w_store w) fl (w_store w) ->
  careful_life X dbg enc (mkL w fl) deeds outs (mkL w' fl') -> (forall i d, dict_at i w' = Some d -> unsaved d = false) ->
  (forall ds, started X (mkW ds x)) ->
  exists ds', live X dbg enc (Restart x) (mkL w' fl') [] (mkL (mkW ds' x) fl').
Proof.
  intros X dbg enc w fl deeds outs w' fl' x Hst Ho Hl Hu Hx. destruct (just_opened _ _ Ho) as [G1 G2].
  destruct (life_alike X dbg enc _ _ _ _ Hl w (started_nonempty _ _ Hst) G1 (conj eq_refl G2)) as (w'' & _ & _ & H & _).
  cbn [l_world l_files] in H. assert (G : exists ds', open_all (w_store w') fl' ds').
  { assert (Hu' : forall i d, nth_error (w_store w') i = Some d -> unsaved d = false) by exact Hu. clear - H Hu'.
    induction H as [|d f ds fl H Hs IH]; [exists []; constructor|].
    destruct IH as (ds' & IH); [intros i x Hi; exact (Hu' (S i) x Hi)|]. pose proof (Hu' 0 d eq_refl) as Hd. destruct H as [_ H].
    destruct d as [c [e|e b|]].
    - destruct (H ltac:(discriminate) Hd) as (t & Ht & _). eexists. constructor; [apply oo_static; exact Ht|exact IH].
    - destruct (H ltac:(discriminate) Hd) as (t & Ht & _). eexists. constructor; [apply oo_user; exact Ht|exact IH].
    - eexists. constructor; [apply oo_empty|exact IH]. }
  destruct G as (ds' & G). exists ds'. constructor; [exact G|apply Hx].
Qed.
(** And saving is enough for that: as long as the files are there, a save in which no system call fails
    leaves nothing unsaved in the context's dictionaries. *)
Theorem C75_saved : forall X dbg enc w fl, length fl = length (w_store w) ->
  (forall i f, nth_error fl i = Some f -> f_main f <> None) ->
  exists w' fl', live X dbg enc Save (mkL w fl) [] (mkL w' fl')
    /\ (forall i d, In i (x_dicts (w_ctx w')) -> dict_at i w' = Some d -> unsaved d = false)
    /\ w_ctx w' = w_ctx w /\ (forall i f, nth_error fl' i = Some f -> f_main f <> None).
Proof.
  intros X dbg enc w fl Hlen Hf.
  assert (G : forall ids ds fl, length fl = length ds -> (forall i f, nth_error fl i = Some f -> f_main f <> None) ->
    exists ds' fl', save_all enc ids ds fl ds' fl' /\ (forall i d, nth_error ds' i = Some d -> In i ids \/ (exists d0, nth_error ds i = Some d0 /\ unsaved d0 = false) -> unsaved d = false)
      /\ (forall i f, nth_error fl' i = Some f -> f_main f <> None)).
  { clear. induction ids as [|i ids IH]; intros ds fl Hlen Hf.
    - exists ds, fl. split; [constructor|]. split; [|exact Hf]. intros i d E [[]|(d0 & E0 & H)]. congruence.
    - destruct (nth_error ds i) as [d|] eqn:Ed.
      + assert (Ef : exists f, nth_error fl i = Some f).
        { destruct (nth_error fl i) eqn:E; [eauto|]. apply nth_error_None in E. assert (nth_error ds i <> None) by congruence. apply nth_error_Some in H. lia. }
        destruct Ef as (f & Ef).
        assert (S : exists d' f', save_one (enc i) d f d' f' /\ unsaved d' = false /\ f_main f' <> None).
        { pose proof (Hf i f Ef) as Hm. destruct d as [c [e|e b|]].
          - eexists _, _. split; [apply so_static|]. now split.
          - pose proof (working_is_a_save (enc i) (mkU e b) f) as Hw. destruct f as [[old|] bak]; [|now contradiction Hm].
            destruct (save_working (enc i) (mkU e b) (mkFs (Some old) bak)) as [r [u f']] eqn:Ew. cbn [fst snd] in Hw.
            eexists _, _. split; [eapply so_user; exact Hw|]. unfold save_working in Ew. cbn [u_change f_main u_ents] in Ew.
            destruct b; injection Ew as _ <- <-; cbn; split; try reflexivity; discriminate.
          - eexists _, _. split; [apply so_empty|]. now split. }
        destruct S as (d' & f' & Hs & Hu & Hm).
        assert (Hul : forall A (g : A -> A) j (l : list A), length (update_nth j g l) = length l).
        { intros A g. induction j as [|j IHj]; intros [|y l]; cbn; auto. }
        destruct (IH (update_nth i (fun _ => d') ds) (update_nth i (fun _ => f') fl)) as (ds' & fl' & H1 & H2 & H3).
        { now rewrite !Hul. }
        { intros j x Hj. rewrite nth_error_update_nth in Hj. destruct (Nat.eqb i j) eqn:E; [|eapply Hf; exact Hj].
          apply Nat.eqb_eq in E. subst j. rewrite Ef in Hj. cbn in Hj. injection Hj as <-. exact Hm. }
        exists ds', fl'. split; [eapply sa_next; eauto|]. split; [|exact H3].
        intros j x Hx Hor. apply (H2 j x Hx). destruct (Nat.eq_dec i j) as [<-|Hij].
        * right. exists d'. rewrite nth_error_update_nth, Nat.eqb_refl, Ed. now split.
        * destruct Hor as [[Hor|Hor]|(d0 & E0 & Hd0)]; [congruence|now left|]. right. exists d0. rewrite nth_error_update_nth.
          apply Nat.eqb_neq in Hij. rewrite Hij. now split.
      + destruct (IH ds fl Hlen Hf) as (ds' & fl' & H1 & H2 & H3). exists ds', fl'. split; [now apply sa_none|]. split; [|exact H3].
        intros j x Hx [[<-|Hor]|Hor]; [|apply (H2 j x Hx); auto|apply (H2 j x Hx); auto].
        assert (Hlen' : length ds' = length ds).
        { clear - H1. induction H1 as [| |? ? ? ? ? ? ? ? ? ? ? ? ? ? IH]; [reflexivity|assumption|]. rewrite IH.
          assert (Hul : forall A (g : A -> A) j (l : list A), length (update_nth j g l) = length l).
          { intros A g. induction j as [|j IHj]; intros [|y l]; cbn; auto. }
          apply Hul. }
        apply nth_error_None in Ed. assert (Hx' : nth_error ds' i <> None) by congruence. apply nth_error_Some in Hx'. lia. }
  destruct (G (x_dicts (w_ctx w)) (w_store w) fl Hlen Hf) as (ds' & fl' & H1 & H2 & H3).
  exists (set_store ds' w), fl'. split; [now constructor|]. split; [|split; [reflexivity|exact H3]].
  intros i d Hi Hd. apply (H2 i d Hd). now left.
Qed.

(** * Met by a concrete life *)
Lemma life_app X dbg enc l a o1 l1 : careful_life X dbg enc l a o1 l1 -> forall b o2 l2, careful_life X dbg enc l1 b o2 l2 -> careful_life X dbg enc l (a ++ b) (o1 ++ o2) l2.
Proof. induction 1 as [l|x l r l1 deeds outs l2 Hc Hl Hcl IH]; intros b o2 l3 H; cbn [app]; [exact H|]. rewrite <- app_assoc. econstructor; eauto. Qed.
Lemma typing_life X dbg enc fl ks : forall w outs w', run X dbg (map OKey ks) w = Ok (outs, w') ->
  careful_life X dbg enc (mkL w fl) (map (fun k => Do (OKey k)) ks) outs (mkL w' fl).
Proof.
  induction ks as [|k ks IH]; intros w outs w' H; cbn [map run] in *; [injection H as <- <-; constructor|].
  unfold bind at 1 in H. destruct (exec X dbg (OKey k) w) as [[r w1]|e] eqn:E; [|discriminate].
  unfold bind in H. destruct (run X dbg (map OKey ks) w1) as [[rs w2]|e] eqn:E2; [|discriminate]. injection H as <- <-.
  change (r :: rs) with ([r] ++ rs). econstructor; [exact I|constructor; [discriminate|exact E]|now apply IH].
Qed.
Definition typing (s : str) : list deed := map (fun k => Do (OKey k)) (dkeys s).
Definition all_text : nat -> str -> bool := fun _ _ => true.
Lemma learn_case X dbg enc ks1 ks2 ks3 w fl c d old o1 w1 o2 w2 o3 w3 x :
  fl = [mkFs (Some old) None] ->
  run X dbg (map OKey ks1) w = Ok (o1, w1) -> (w_store w1, x_dicts (w_ctx w1)) = ([mkDict c (DUser d true)], [0]) ->
  keepable (enc 0) d ->
  run X dbg (map OKey ks2) (set_store [mkDict c (DUser (load_text (save_text (enc 0) d)) false)] w1) = Ok (o2, w2) ->
  (w_store w2, x_dicts (w_ctx w2)) = ([mkDict c (DUser (load_text (save_text (enc 0) d)) false)], [0]) ->
  (forall ds, started X (mkW ds x)) ->
  run X dbg (map OKey ks3) (mkW [mkDict c (DUser (load_text (save_text (enc 0) d)) false)] x) = Ok (o3, w3) ->
  careful_life X dbg enc (mkL w fl)
    (map (fun k => Do (OKey k)) ks1 ++ [Save; Reload] ++ map (fun k => Do (OKey k)) ks2 ++ [Restart x] ++ map (fun k => Do (OKey k)) ks3)
    (o1 ++ o2 ++ o3) (mkL w3 [mkFs (Some (save_text (enc 0) d)) (Some old)]).
Proof.
  intros -> E1 F1 K E2 F2 Hx E3. pose proof (f_equal fst F1) as S1. pose proof (f_equal snd F1) as D1.
  pose proof (f_equal fst F2) as S2. pose proof (f_equal snd F2) as D2. cbn [fst snd] in *.
  eapply life_app; [apply typing_life; exact E1|]. cbn [app].
  change (o2 ++ o3) with ([] ++ [] ++ (o2 ++ o3)). econstructor.
  - cbn [careful l_world]. intros i d0 _ Hd _. unfold dict_at in Hd. rewrite S1 in Hd. destruct i as [|[|i]]; cbn in Hd; try discriminate.
    injection Hd as <-. exact K.
  - apply lv_save. rewrite S1, D1. eapply sa_next; [reflexivity|reflexivity| |cbn [update_nth]; apply sa_done].
    eapply so_user. pose proof (working_is_a_save (enc 0) (mkU d true) (mkFs (Some old) None)) as Hw. cbn in Hw. exact Hw.
  - cbn [u_ents u_change]. econstructor.
    + cbn [careful l_world]. intros i d0 _ Hd. unfold dict_at, set_store in Hd. cbn [w_store] in Hd. destruct i as [|[|i]]; cbn in Hd; try discriminate.
      injection Hd as <-. reflexivity.
    + apply lv_reload. unfold set_store at 1. cbn [w_ctx w_store]. rewrite D1. eapply ra_next; [reflexivity|reflexivity| |cbn [update_nth]; apply ra_done].
      apply ro_read. reflexivity.
    + unfold with_contents. cbn [d_completable d_kind]. change (set_store ?a (set_store ?b w1)) with (set_store a w1).
      eapply life_app; [apply typing_life; exact E2|]. change o3 with ([] ++ o3). econstructor.
      * cbn [careful l_world]. intros i d0 Hd. unfold dict_at in Hd. rewrite S2 in Hd. destruct i as [|[|i]]; cbn in Hd; try discriminate.
        injection Hd as <-. reflexivity.
      * apply lv_restart; [|apply Hx]. rewrite S2. constructor; [|constructor]. apply oo_user. reflexivity.
      * apply typing_life. exact E3.
Qed.
Lemma learn_typed enc k1 k2 k3 w c d old o1 w1 o2 w2 o3 w3 x again :
  again = [mkDict c (DUser (load_text (save_text (enc 0) d)) false)] ->
  typed false k1 w = Ok (o1, w1) -> (w_store w1, x_dicts (w_ctx w1)) = ([mkDict c (DUser d true)], [0]) ->
  keepable (enc 0) d -> typed false k2 (set_store again w1) = Ok (o2, w2) -> (w_store w2, x_dicts (w_ctx w2)) = (again, [0]) ->
  (forall ds, started ascii_xkb (mkW ds x)) -> typed false k3 (mkW again x) = Ok (o3, w3) ->
  exists fl', careful_life ascii_xkb false enc (mkL w [mkFs (Some old) None])
    (typing k1 ++ [Save; Reload] ++ typing k2 ++ [Restart x] ++ typing k3) (o1 ++ o2 ++ o3) (mkL w3 fl').
Proof. intros -> E1 F1 K E2 F2 Hx E3. eexists. eapply learn_case; eauto. Qed.
Lemma demo_started ids ds : started ascii_xkb (mkW ds (demo_ctx ids)).
Proof. exists ds, default_kana_form, default_ascii_map, ids, Hiragana, Direct. left. exists default_rule. reflexivity. Qed.
Lemma learnt_keepable : keepable (all_text 0) learnt.
Proof. exact (let '(ex_intro _ _ (ex_intro _ _ (conj _ (conj _ H)))) := C64_case in H). Qed.
Definition mosquitos : dict := mkDict true (DUser (load_text mosquito) false).
(** The second candidate of か is confirmed; the dictionary is saved and reloaded; か is converted and
    the conversion left open; the program is started again and か converted once more: 香 is offered first
    both times. *)
Example C75_case : exists outs w' fl',
  open_all [mosquitos] [mkFs (Some mosquito) None] [mosquitos]
  /\ careful_life ascii_xkb false all_text (mkL (demo [mosquitos]) [mkFs (Some mosquito) None])
      (typing (U "K a space space Return") ++ [Save; Reload] ++ typing (U "K a space") ++ [Restart (demo_ctx [0])] ++ typing (U "K a space"))
      outs (mkL w' fl')
  /\ get_preedit ascii_xkb (w_ctx w') = U "▼香".
Proof.
  destruct (run_case (typed false (U "K a space space Return") (demo [mosquitos])) (fun w => (w_store w, x_dicts (w_ctx w)))
    ([mkDict true (DUser learnt true)], [0])) as (o1 & w1 & E1 & F1); [vm_compute; reflexivity|].
  set (again := [mkDict true (DUser (load_text (save_text (all_text 0) learnt)) false)]).
  destruct (run_case (match typed false (U "K a space space Return") (demo [mosquitos]) with
      Ok (_, w1) => typed false (U "K a space") (set_store again w1) | Panic e => Panic e end) (fun w => (w_store w, x_dicts (w_ctx w)))
    (again, [0])) as (o2 & w2 & E2 & F2); [vm_compute; reflexivity|]. rewrite E1 in E2.
  destruct (run_case (typed false (U "K a space") (mkW again (demo_ctx [0]))) (fun w => get_preedit ascii_xkb (w_ctx w)) (U "▼香")) as (o3 & w3 & E3 & F3);
    [vm_compute; reflexivity|].
  destruct (learn_typed all_text _ _ _ _ _ _ mosquito _ _ _ _ _ _ _ again eq_refl E1 F1 learnt_keepable E2 F2 (demo_started [0]) E3) as (fl' & H).
  exists (o1 ++ o2 ++ o3), w3, fl'.
  split; [constructor; [apply oo_user; reflexivity|constructor]|]. split; [exact H|exact F3].
Qed.
(** The care is needed: reloading while something is unsaved forgets it. *)
Example C75_forgets : exists outs w1 w2 w3 outs3,
  typed false (U "K a space space Return") (demo [mosquitos]) = Ok (outs, w1)
  /\ live ascii_xkb false all_text Reload (mkL w1 [mkFs (Some mosquito) None]) [] (mkL w2 [mkFs (Some mosquito) None])
  /\ typed false (U "K a space") w2 = Ok (outs3, w3) /\ get_preedit ascii_xkb (w_ctx w3) = U "香▼蚊".
Proof.
  destruct (run_case (typed false (U "K a space space Return") (demo [mosquitos])) (fun w => (w_store w, x_dicts (w_ctx w)))
    ([mkDict true (DUser learnt true)], [0])) as (o1 & w1 & E1 & F1); [vm_compute; reflexivity|].
  set (again := [mkDict true (DUser (load_text mosquito) true)]).
  destruct (run_case (match typed false (U "K a space space Return") (demo [mosquitos]) with
      Ok (_, w1) => typed false (U "K a space") (set_store again w1) | Panic e => Panic e end) (fun w => get_preedit ascii_xkb (w_ctx w))
    (U "香▼蚊")) as (o2 & w2 & E2 & F2); [vm_compute; reflexivity|]. rewrite E1 in E2.
  exists o1, w1, (set_store again w1), w2, o2. split; [exact E1|]. split; [|now split].
  apply lv_reload. pose proof (f_equal fst F1) as S1. pose proof (f_equal snd F1) as D1. cbn [fst snd] in *. rewrite S1, D1.
  eapply ra_next; [reflexivity|reflexivity|apply ro_read; reflexivity|]. apply ra_done.
Qed.
