(** C85: what the user taught a dictionary lasts through saves, reloads and restarts. *)
From Coq Require Import Permutation.
From Verif Require Import Str Keys Modes KanaBuilder FormChanger DictTypes Parser Lru
  Dictionary CState Context DefaultRule Demo Spec P_Monad P_Frames P_Inv P_Step
  T_Num T_Dedup T_Entry T_ExactDict T_Shipped T_Predict T_Offered T_Convert SaveFs T_Save T_Saved T_Remembered P_Learn T_Learn P_Alike Life T_Life.
From Verif Require T_Encoding.

(* ------------------------------------------------------------ vocabulary *)
(** The rules in force during a life. *)
Definition life_rules (w : world) (deeds : list deed) : Prop :=
  teaches_first (x_cmd (w_ctx w)) /\ (forall r, In (Do (OSetRule r)) deeds -> teaches_first (r_command r))
  /\ (forall x, In (Restart x) deeds -> teaches_first (x_cmd x)).
(** During the life [deeds] from [l] there is a call, made when the world is [l_world l1], asking for a
    lesson of which [relevant] holds, of a context using dictionary [i]. *)
Definition asked_in_life X dbg enc (deeds : list deed) (l : living) (i : nat) (relevant : lesson -> Prop) : Prop :=
  exists before o after outs1 l1 le, deeds = before ++ Do o :: after /\ careful_life X dbg enc l before outs1 l1
    /\ asks (l_world l1) o le /\ relevant le /\ In i (x_dicts (w_ctx (l_world l1))).
(** A program that has been started on its files and has lived until now. *)
Definition lived X dbg enc (l : living) : Prop :=
  exists w fl deeds outs, started X w /\ open_all (w_store w) fl (w_store w) /\ careful_life X dbg enc (mkL w fl) deeds outs l.

(* ------------------------------------------------------------ proofs *)
Lemma teach_any d l ari m o : ~ about ari m l -> listed (teach d l) ari m o = listed d ari m o.
Proof.
  intros H. destruct (d_kind d) as [e|e b|] eqn:E.
  - destruct l; cbn [teach]; unfold select_candidate, purge_candidate; now rewrite E.
  - apply teach_other; [unfold user; now rewrite E|exact H].
  - destruct l; cbn [teach]; unfold select_candidate, purge_candidate; now rewrite E.
Qed.
Lemma about_dec ari m l : about ari m l \/ ~ about ari m l.
Proof.
  destruct l as [c|k c]; cbn [about]; destruct (Bool.bool_dec (c_okuri c) ari), (str_eqb_spec (c_midashi c) m); tauto.
Qed.
(** Dictionaries that are alike list the same. *)
Lemma alike_listed d d' : alike d d' -> forall ari m o, listed d ari m o = listed d' ari m o.
Proof.
  intros A ari m o. unfold listed, section. pose proof (alike_peek m _ _ (alike_ents ari d d' A)) as E.
  destruct (lpeek m (if ari then d_ari (dict_ents d) else d_nashi (dict_ents d))) as [e|],
    (lpeek m (if ari then d_ari (dict_ents d') else d_nashi (dict_ents d'))) as [e'|]; cbn in E; try discriminate; [|reflexivity].
  assert (E' : bare e = bare e') by congruence. apply bare_eq in E' as (_ & E'). now rewrite E'.
Qed.
Lemma in_step_alike d f : in_step d f -> alike d d.
Proof.
  intros [H _]. destruct d as [c [e|e b|]]; split; cbn in *; auto; now apply alike_dents_refl.
Qed.
Lemma all_in_step_alike ds fl : all_in_step ds fl -> Forall2 alike ds ds.
Proof. induction 1; constructor; auto. eapply in_step_alike; eauto. Qed.
(** It lists the same and, if it was, it still is a user dictionary. *)
Definition still (ari : bool) (m : str) (d d' : dict) : Prop := same_entry ari m d d' /\ (user d -> user d').
Lemma still_refl ari m d : still ari m d d.
Proof. split; [intros o; reflexivity|auto]. Qed.
Lemma still_trans ari m a b c : still ari m a b -> still ari m b c -> still ari m a c.
Proof. intros [H1 H2] [G1 G2]. split; [intros o; rewrite (G1 o); apply H1|auto]. Qed.
Lemma still_taught ari m d l : ~ about ari m l -> still ari m d (teach d l).
Proof. intros H. split; [intros o; now apply teach_any|apply teach_user]. Qed.
Lemma alike_user d d' : alike d d' -> user d' -> user d.
Proof. intros [_ H]. unfold user. destruct d as [ca [ea|ea ba|]], d' as [cd [ed|ed bd|]]; cbn in *; auto. Qed.
Lemma still_alike ari m d d' d2 : alike d2 d' -> still ari m d d' -> still ari m d d2.
Proof. intros A H. eapply still_trans; [exact H|]. split; [intros o; now apply alike_listed|now apply alike_user]. Qed.
Lemma alike_at (P : dict -> Prop) ds ds' i : (forall d d', alike d' d -> P d -> P d') -> Forall2 alike ds' ds ->
  (exists d, nth_error ds i = Some d /\ P d) -> exists d', nth_error ds' i = Some d' /\ P d'.
Proof.
  intros HP A. revert i. induction A as [|a b l l' H A IH]; intros [|i] (d & E & Hd); cbn in *; try discriminate; [|eauto].
  injection E as ->. exists a. split; [reflexivity|]. now apply (HP d).
Qed.
Section Life.
Context (X : xkb) (dbg : bool) (enc : nat -> str -> bool) (P : dict -> Prop) (relevant : lesson -> Prop).
Context (Hrel : forall l, (forall d, P d -> P (teach d l)) \/ relevant l) (Halike : forall d d', alike d' d -> P d -> P d').
Lemma life_lesson i l deeds outs l' : careful_life X dbg enc l deeds outs l' ->
  x_stack (w_ctx (l_world l)) <> [] -> all_in_step (w_store (l_world l)) (l_files l) ->
  life_rules (l_world l) deeds -> (exists d, dict_at i (l_world l) = Some d /\ P d) ->
  (exists d', dict_at i (l_world l') = Some d' /\ P d')
  \/ asked_in_life X dbg enc deeds l i relevant.
Proof.
  induction 1 as [l|a l r l1 deeds outs l2 Hc Hl Hcl IH]; intros Hne Hin Hr Hd.
  { left. exact Hd. }
  assert (S : ((exists d1, dict_at i (l_world l1) = Some d1 /\ P d1)
      \/ exists o le, a = Do o /\ asks (l_world l) o le /\ relevant le /\ In i (x_dicts (w_ctx (l_world l))))
    /\ x_stack (w_ctx (l_world l1)) <> [] /\ all_in_step (w_store (l_world l1)) (l_files l1) /\ life_rules (l_world l1) deeds).
  { destruct Hr as (R1 & R2 & R3).
    destruct Hl as [o w fl r w' Ho E|w fl ds' fl' Hs|w fl ds' Hs|x w fl ds' Hs Hst]; cbn [l_world l_files careful] in *.
    - assert (Hcs : changes_store o = false) by (destruct o; try reflexivity; exfalso; now apply (Ho st)).
      destruct (do_in_step X dbg o w r w' fl Ho Hne E Hin) as [Hin' Hne'].
      pose proof (exec_step X dbg o w Hne) as Hst. unfold wp in Hst. rewrite E in Hst.
      split; [|split; [exact Hne'|split; [exact Hin'|]]].
      + destruct (exec_lesson X dbg o w r w' R1 Hcs E) as [Es|(le & Hle & Es)].
        * left. unfold dict_at in *. now rewrite Es.
        * destruct (in_dec Nat.eq_dec i (x_dicts (w_ctx w))) as [Hi|Hi].
          -- destruct (Hrel le) as [Ha|Ha]; [|right; eauto 8]. left. unfold dict_at, taught in *. rewrite Es. now apply upd_at.
          -- left. unfold dict_at, taught in *. rewrite Es. now rewrite upd_dicts_out.
      + split; [|split; intros y Hy; [apply R2|apply R3]; now right].
        destruct (changes_rule o) eqn:Ec.
        * destruct o as [| | | | | | | | | |rr| |]; try discriminate. cbn [exec] in E. injection E as _ <-. cbn [w_ctx x_cmd]. apply R2. now left.
        * destruct Hst as [Hst|(_ & _ & Hst)].
          -- destruct Hst as [(Ecmd & _) _ _]. now rewrite Ecmd.
          -- destruct (Hst Ec) as (_ & Ecmd). now rewrite Ecmd.
    - destruct (save_all_in_step _ _ _ _ _ _ Hs _ Hin (all_in_step_alike _ _ Hin) Hc) as [G1 G2].
      split; [left; exact (alike_at P _ _ i Halike G2 Hd)|]. split; [exact Hne|]. split; [exact G1|].
      split; [exact R1|]. split; intros y Hy; [apply R2|apply R3]; now right.
    - destruct (reload_all_in_step _ _ _ _ Hs _ Hin (all_in_step_alike _ _ Hin) Hc) as [G1 G2].
      split; [left; exact (alike_at P _ _ i Halike G2 Hd)|]. split; [exact Hne|]. split; [exact G1|].
      split; [exact R1|]. split; intros y Hy; [apply R2|apply R3]; now right.
    - destruct (open_all_in_step _ _ _ Hs _ Hin (all_in_step_alike _ _ Hin) Hc) as [G1 G2].
      split; [left; exact (alike_at P _ _ i Halike G2 Hd)|]. split; [exact (started_nonempty _ _ Hst)|]. split; [exact G1|].
      split; [apply R3; now left|]. split; intros y Hy; [apply R2|apply R3]; now right. }
  destruct S as ([E1|(o & le & -> & A1 & A2 & A3)] & Hne1 & Hin1 & Hr1).
  - destruct (IH Hne1 Hin1 Hr1 E1) as [E2|(bf & o & af & os & v & le & -> & G)]; [now left|right].
    destruct G as (G1 & G2). exists (a :: bf), o, af, (r ++ os), v, le. split; [reflexivity|]. split; [|exact G2]. econstructor; eauto.
  - right. exists [], o, deeds, [], l, le. split; [reflexivity|]. split; [constructor|]. auto.
Qed.
End Life.
Lemma lived_in_step X dbg enc l : lived X dbg enc l -> x_stack (w_ctx (l_world l)) <> [] /\ all_in_step (w_store (l_world l)) (l_files l).
Proof.
  intros (w & fl & deeds & outs & Hst & Ho & Hl). destruct (just_opened _ _ Ho) as [G1 G2].
  destruct (life_alike X dbg enc _ _ _ _ Hl w (started_nonempty _ _ Hst) G1 (conj eq_refl G2)) as (w'' & _ & _ & H & H'). now split.
Qed.
Lemma life_lasts X dbg enc i ari m l deeds outs l' d : lived X dbg enc l -> careful_life X dbg enc l deeds outs l' ->
  life_rules (l_world l) deeds -> dict_at i (l_world l) = Some d ->
  (exists d', dict_at i (l_world l') = Some d' /\ still ari m d d') \/ asked_in_life X dbg enc deeds l i (about ari m).
Proof.
  intros Hl Hc Hr Hd. destruct (lived_in_step _ _ _ _ Hl) as [G1 G2].
  eapply (life_lesson X dbg enc (still ari m d) (about ari m)); eauto using still_refl.
  - intros le. destruct (about_dec ari m le) as [H|H]; [now right|left]. intros d1 H1. eapply still_trans; [exact H1|]. now apply still_taught.
  - intros d1 d2 A H. eapply still_alike; eauto.
Qed.
(** What a dictionary lists for a headword, and in which order, stays the same whatever is typed, saved,
    reloaded and started again, until a call asks to choose, register or purge something for that headword. *)
Theorem C85_lasts : forall X dbg enc l deeds outs l' i d ari headword, lived X dbg enc l ->
  careful_life X dbg enc l deeds outs l' -> life_rules (l_world l) deeds -> dict_at i (l_world l) = Some d ->
  (exists d', dict_at i (l_world l') = Some d' /\ forall okuri, listed d' ari headword okuri = listed d ari headword okuri)
  \/ asked_in_life X dbg enc deeds l i (about ari headword).
Proof.
  intros X dbg enc l deeds outs l' i d ari m Hl Hc Hr Hd.
  destruct (life_lasts X dbg enc i ari m l deeds outs l' d Hl Hc Hr Hd) as [(d' & E & S & _)|A]; [left; eauto|now right].
Qed.
(** A text that it newly lists was asked to be learnt for the headword, and one that it no longer lists was
    asked to be purged for it, by a call of this life: saving, reloading and starting again add and lose
    nothing. *)
Theorem C85_gained : forall X dbg enc l deeds outs l' i d d' ari headword okuri t, lived X dbg enc l ->
  careful_life X dbg enc l deeds outs l' -> life_rules (l_world l) deeds ->
  dict_at i (l_world l) = Some d -> dict_at i (l_world l') = Some d' ->
  In t (texts (listed d' ari headword okuri)) -> ~ In t (texts (listed d ari headword okuri)) ->
  asked_in_life X dbg enc deeds l i (choose ari headword okuri t).
Proof.
  intros X dbg enc l deeds outs l' i d d' ari m o t Hl Hc Hr Hd Hd' Hin Hno. destruct (lived_in_step _ _ _ _ Hl) as [G1 G2].
  destruct (life_lesson X dbg enc (fun d => ~ In t (texts (listed d ari m o))) (choose ari m o t)) with (i := i) (l := l) (deeds := deeds) (outs := outs) (l' := l')
    as [(d2 & E & G)|G]; auto.
  - intros le. destruct (choose_dec ari m o t le) as [H|H]; [now right|left]. intros d1 H1 H2. apply listed_gained in H2. tauto.
  - intros d1 d2 A. now rewrite (alike_listed _ _ A ari m o).
  - eauto.
  - exfalso. apply G. rewrite Hd' in E. apply T_Encoding.some_inj in E. now subst d2.
Qed.
Theorem C85_lost : forall X dbg enc l deeds outs l' i d d' ari headword okuri t, lived X dbg enc l ->
  careful_life X dbg enc l deeds outs l' -> life_rules (l_world l) deeds ->
  dict_at i (l_world l) = Some d -> dict_at i (l_world l') = Some d' ->
  In t (texts (listed d ari headword okuri)) -> ~ In t (texts (listed d' ari headword okuri)) ->
  asked_in_life X dbg enc deeds l i (purge ari headword okuri t).
Proof.
  intros X dbg enc l deeds outs l' i d d' ari m o t Hl Hc Hr Hd Hd' Hin Hno. destruct (lived_in_step _ _ _ _ Hl) as [G1 G2].
  destruct (life_lesson X dbg enc (fun d => In t (texts (listed d ari m o))) (purge ari m o t)) with (i := i) (l := l) (deeds := deeds) (outs := outs) (l' := l')
    as [(d2 & E & G)|G]; auto.
  - intros le. destruct (purge_dec ari m o t le) as [H|H]; [now right|left]. intros d1 H1. destruct (listed_lost d1 le ari m o t H1); tauto.
  - intros d1 d2 A. now rewrite (alike_listed _ _ A ari m o).
  - eauto.
  - exfalso. apply Hno. rewrite Hd' in E. apply T_Encoding.some_inj in E. now subst d2.
Qed.
(** So the candidate confirmed last for a reading is the first one offered when the reading is converted
    again, however often the dictionaries were saved, reloaded and the program started again in between. *)
Theorem C85_first : forall X dbg enc w fl s rest cs j c key k w1 i others d deeds outs w2 fl2 others2 s2 rest2 k2 o3 w3,
  lived X dbg enc (mkL w fl) ->
  frames w = s :: rest -> choosing s cs j -> nth_error cs j = Some c -> offered_for key c ->
  runs w k [IConfirmComposition] -> exec X dbg (OKey k) w = Ok (OutBool true, w1) ->
  x_dicts (w_ctx w) = i :: others -> NoDup (i :: others) -> dict_at i w = Some d -> user d ->
  careful_life X dbg enc (mkL w1 fl) deeds outs (mkL w2 fl2) -> life_rules w1 deeds ->
  ~ asked_in_life X dbg enc deeds (mkL w1 fl) i (about (c_okuri c) (c_midashi c)) ->
  x_dicts (w_ctx w2) = i :: others2 ->
  frames w2 = s2 :: rest2 -> settled w2 s2 -> get_composite_key s2 = key -> no_better_copy key (c_kouho c) (ctx_dicts w2) ->
  runs w2 k2 [ITryNextCandidate] -> exec X dbg (OKey k2) w2 = Ok (o3, w3) ->
  o3 = OutBool true /\ offers_first w3 (c_kouho c).
Proof.
  intros X dbg enc w fl s rest cs j c key k w1 i others d deeds outs w2 fl2 others2 s2 rest2 k2 o3 w3
    Hl Hf Hc Hn Hof Hk Hp Hi Hnd Hd Hu Hcl Hr Hno Hi2 Hf2 Hse2 Hkey Hbet Hk2 Hp2.
  assert (Hl1 : lived X dbg enc (mkL w1 fl)).
  { destruct Hl as (w0 & fl0 & ds0 & os0 & H1 & H2 & H3). exists w0, fl0, (ds0 ++ [Do (OKey k)]), (os0 ++ [OutBool true]).
    split; [exact H1|]. split; [exact H2|]. eapply life_app; [exact H3|]. change [OutBool true] with ([OutBool true] ++ []).
    econstructor; [exact I|constructor; [discriminate|exact Hp]|constructor]. }
  destruct (C65_confirm X dbg k w s rest cs j c Hf Hc Hn Hk) as (s' & E & _).
  assert (H1 : dict_at i w1 = Some (select_candidate d c)).
  { unfold exec, bind, ret in Hp. rewrite E in Hp. injection Hp as <-. unfold dict_at, with_frames. cbn [w_store set_store]. rewrite Hi, upd_dicts_nth by exact Hnd. cbn [existsb]. rewrite Nat.eqb_refl. cbn [orb].
    unfold dict_at in Hd. now rewrite Hd. }
  destruct (life_lasts X dbg enc i (c_okuri c) (c_midashi c) _ _ _ _ _ Hl1 Hcl Hr H1) as [(d2 & Hd2 & Hs & Hu2)|Ha]; [|contradiction].
  cbn [l_world] in Hd2. specialize (Hu2 (user_select d c Hu)).
  assert (Hc2 : ctx_dicts w2 = d2 :: map (fun i => nth i (w_store w2) empty_dict) others2).
  { unfold ctx_dicts. rewrite Hi2. cbn [map]. f_equal. unfold dict_at in Hd2. now apply nth_error_nth. }
  rewrite Hc2 in Hbet. unfold exec, bind, ret in Hp2. destruct (process_key_event X dbg k2 w2) as [(b3 & w3')|] eqn:E2; [|discriminate].
  injection Hp2 as <- <-.
  destruct (start_offers X dbg k2 w2 s2 rest2 b3 w3' Hf2 Hse2 Hk2 E2) as (cs2 & Ec & Ho). rewrite Hkey, Hc2 in Ec.
  destruct (C81_dictionary_partial d d2 (map (fun i => nth i (w_store w2) empty_dict) others2) key c cs2 Hu Hu2 Hof Hs Hbet Ec) as (c' & cs' & Ec' & Kc & Oc & _).
  destruct (Ho c' cs' Ec') as (-> & Hof'). rewrite Oc in Hof'. auto.
Qed.

(* ------------------------------------------------------------ cases *)
(** What is asked depends on the context only, so the lives may be followed without the files. *)
Lemma asks_ctx w w' o le : w_ctx w = w_ctx w' -> asks w o le -> asks w' o le.
Proof.
  intros E. unfold asks, on_display, entered, numbered, commands, types_on, frames. now rewrite E.
Qed.
Lemma asked_undisturbed X dbg enc deeds w fl i R : lived X dbg enc (mkL w fl) ->
  asked_in_life X dbg enc deeds (mkL w fl) i R ->
  exists before o after outs w1 le, deeds = before ++ Do o :: after /\ undisturbed X dbg before w = Ok (outs, w1) /\ asks w1 o le /\ R le.
Proof.
  intros Hl (bf & o & af & os & l1 & le & -> & Hc & Ha & Hr & _). destruct (lived_in_step _ _ _ _ Hl) as [G1 G2].
  destruct (life_alike X dbg enc _ _ _ _ Hc w G1 G2 (conj eq_refl (all_in_step_alike _ _ G2))) as (w2 & E & (A & _) & _).
  exists bf, o, af, os, w2, le. split; [reflexivity|]. split; [exact E|]. split; [|exact Hr]. eapply asks_ctx; eauto.
Qed.
(** No call of the life is made where a candidate of the headword is on display or a word is registered. *)
Definition elsewhere_b (m : str) (w : world) : bool :=
  match frames w with
  | [s] => match nth_error (cl_list (s_list s)) (N.to_nat (cursor s)) with
           | Some c => negb (str_eqb (c_midashi c) m) || negb (cmode_eqb (s_cmode s) CompositionSelection || cmode_eqb (s_cmode s) Completion)
           | None => true
           end
  | _ => false
  end.
Fixpoint keeps_off X dbg (m : str) (deeds : list deed) (w : world) : bool :=
  match deeds with
  | [] => true
  | Do (OKey k) :: rest => elsewhere_b m w && match exec X dbg (OKey k) w with Ok (_, w1) => keeps_off X dbg m rest w1 | Panic _ => true end
  | Do _ :: _ => false
  | (Save | Reload) :: rest => keeps_off X dbg m rest w
  | Restart x :: rest => keeps_off X dbg m rest (mkW (w_store w) x)
  end.
Lemma elsewhere_spec m w k le ari : elsewhere_b m w = true -> asks w (OKey k) le -> about ari m le -> False.
Proof.
  unfold elsewhere_b. destruct (frames w) as [|s [|s2 fr]] eqn:Ef; try discriminate. intros H Ha Hab.
  assert (D : forall c, on_display w c -> c_midashi c = m -> False).
  { intros c (s' & r' & Hf & Hm & Hc) E. rewrite Ef in Hf. injection Hf as <- <-. rewrite Hc in H. apply orb_prop in H as [H|H].
    - apply negb_true_iff, str_eqb_neq in H. congruence.
    - destruct Hm as [Hm|Hm]; rewrite Hm in H; discriminate. }
  destruct le as [c|key c]; cbn [asks about] in *.
  - destruct Ha as (_ & [(Hd & _)|((s' & o' & r' & Hf & _) & _)]); [eapply D; [exact Hd|apply Hab]|]. rewrite Ef in Hf. discriminate.
  - destruct Ha as (_ & Hd & _). eapply D; [exact Hd|apply Hab].
Qed.
Lemma keeps_off_spec X dbg m ari : forall deeds w before o after outs w1 le, keeps_off X dbg m deeds w = true ->
  deeds = before ++ Do o :: after -> undisturbed X dbg before w = Ok (outs, w1) -> asks w1 o le -> about ari m le -> False.
Proof.
  induction deeds as [|a deeds IH]; intros w bf o af outs w1 le Hk E Hu Ha Hab; [destruct bf; discriminate|].
  destruct bf as [|b bf]; cbn [app] in E.
  - injection E as -> ->. cbn [undisturbed] in Hu. injection Hu as <- <-. cbn [keeps_off] in Hk. destruct o; try discriminate.
    apply andb_prop in Hk as [Hk _]. exact (elsewhere_spec m w k le ari Hk Ha Hab).
  - injection E as <- E. destruct a as [o1| | |x]; cbn [undisturbed keeps_off] in *.
    + destruct o1 as [k| | | | | | | | | | | |]; try discriminate. apply andb_prop in Hk as [_ Hk].
      destruct (exec X dbg (OKey k) w) as [[r w2]|e]; [|discriminate].
      destruct (undisturbed X dbg bf w2) as [[os v]|e] eqn:E2; [|discriminate]. cbn in Hu. injection Hu as _ <-.
      eapply IH; eauto.
    + eapply IH; eauto.
    + eapply IH; eauto.
    + eapply IH; eauto.
Qed.
Lemma keeps_off_asked X dbg enc deeds w fl i ari m : lived X dbg enc (mkL w fl) -> keeps_off X dbg m deeds w = true ->
  ~ asked_in_life X dbg enc deeds (mkL w fl) i (about ari m).
Proof.
  intros Hl Hk Ha. destruct (asked_undisturbed X dbg enc deeds w fl i _ Hl Ha) as (bf & o & af & os & w1 & le & E & Hu & A & R).
  exact (keeps_off_spec X dbg m ari deeds w bf o af os w1 le Hk E Hu A R).
Qed.
(** The second candidate of か is confirmed; the dictionary is saved and reloaded; something else is typed;
    the program is started again on its files; か is converted once more. *)
Definition again : list dict := [mkDict true (DUser (load_text (save_text (all_text 0) learnt)) false)].
Definition m_choosing := final (typed false (U "K a space space") (demo [mosquitos])).
Definition m_chosen := final (run ascii_xkb false [OKey return_key] m_choosing).
Definition m_between := final (typed false (U "K i") (set_store again m_chosen)).
Definition m_later := final (typed false (U "K a") (mkW again (demo_ctx [0]))).
Definition m_deeds : list deed := [Save; Reload] ++ typing (U "K i") ++ [Restart (demo_ctx [0])] ++ typing (U "K a").
Definition m_cand := mkCand (U "か") None false (U "香") None (U "香").
Definition m_key := mkCK (U "か") None.
Definition m_files := [mkFs (Some mosquito) None].
Lemma ran f w : (match f with Ok _ => true | Panic _ => false end) = true -> w = final f -> exists outs, f = Ok (outs, w).
Proof. destruct f as [[o v]|e]; [|discriminate]. intros _ ->. exists o. reflexivity. Qed.
Lemma lived_typed keys ds fl o w : open_all ds fl ds -> typed false keys (demo ds) = Ok (o, w) -> lived ascii_xkb false all_text (mkL w fl).
Proof.
  intros Ho E. exists (demo ds), fl, (typing keys), o. split; [apply demo_started|]. split; [exact Ho|].
  exact (typing_life ascii_xkb false all_text fl _ _ _ _ E).
Qed.
Lemma m_opened : open_all [mosquitos] m_files [mosquitos].
Proof. constructor; [apply oo_user; reflexivity|constructor]. Qed.
Lemma m_lived : lived ascii_xkb false all_text (mkL m_choosing m_files).
Proof.
  destruct (ran (typed false (U "K a space space") (demo [mosquitos])) m_choosing) as (o & E); [vm_compute; reflexivity|reflexivity|].
  exact (lived_typed _ _ _ _ _ m_opened E).
Qed.
Lemma m_life : exists outs fl', careful_life ascii_xkb false all_text (mkL m_chosen m_files) m_deeds outs (mkL m_later fl').
Proof.
  destruct (ran (typed false (U "K i") (set_store again m_chosen)) m_between) as (o2 & E2); [vm_compute; reflexivity|reflexivity|].
  destruct (ran (typed false (U "K a") (mkW again (demo_ctx [0]))) m_later) as (o3 & E3); [vm_compute; reflexivity|reflexivity|].
  assert (F1 : (w_store m_chosen, x_dicts (w_ctx m_chosen)) = ([mkDict true (DUser learnt true)], [0])) by (vm_compute; reflexivity).
  assert (F2 : (w_store m_between, x_dicts (w_ctx m_between)) = (again, [0])) by (vm_compute; reflexivity).
  destruct (learn_typed all_text [] (U "K i") (U "K a") m_chosen true learnt mosquito [] m_chosen o2 m_between o3 m_later (demo_ctx [0]) again
    eq_refl eq_refl F1 learnt_keepable E2 F2 (demo_started [0]) E3) as (fl' & H).
  exists (o2 ++ o3), fl'. exact H.
Qed.
Lemma m_rules : life_rules m_chosen m_deeds.
Proof.
  assert (R : teaches_first (x_cmd (demo_ctx [0]))) by exact (Forall_inv C83_shipped).
  assert (E : x_cmd (w_ctx m_chosen) = x_cmd (demo_ctx [0])) by (vm_compute; reflexivity).
  split; [rewrite E; exact R|]. split.
  - intros r H. unfold m_deeds, typing in H. repeat (apply in_app_or in H as [H|H]);
      try (apply in_map_iff in H as (k & Hk & _); discriminate); cbn [In] in H; intuition discriminate.
  - intros x H. unfold m_deeds, typing in H. repeat (apply in_app_or in H as [H|H]);
      try (apply in_map_iff in H as (k & Hk & _); discriminate); cbn [In] in H.
    + intuition discriminate.
    + destruct H as [H|[]]. injection H as <-. exact R.
Qed.
Example C85_case : exists s cs s2 rest2 d outs fl',
  lived ascii_xkb false all_text (mkL m_choosing m_files)
  /\ frames m_choosing = [s] /\ choosing s cs 1 /\ nth_error cs 1 = Some m_cand /\ offered_for m_key m_cand
  /\ runs m_choosing return_key [IConfirmComposition]
  /\ exec ascii_xkb false (OKey return_key) m_choosing = Ok (OutBool true, m_chosen)
  /\ x_dicts (w_ctx m_choosing) = [0] /\ NoDup [0] /\ dict_at 0 m_choosing = Some d /\ user d
  /\ careful_life ascii_xkb false all_text (mkL m_chosen m_files) m_deeds outs (mkL m_later fl') /\ life_rules m_chosen m_deeds
  /\ ~ asked_in_life ascii_xkb false all_text m_deeds (mkL m_chosen m_files) 0 (about (c_okuri m_cand) (c_midashi m_cand))
  /\ x_dicts (w_ctx m_later) = [0]
  /\ frames m_later = s2 :: rest2 /\ settled m_later s2 /\ get_composite_key s2 = m_key
  /\ no_better_copy m_key (c_kouho m_cand) (ctx_dicts m_later)
  /\ runs m_later space_key [ITryNextCandidate].
Proof.
  assert (Hch : choosing_b m_choosing 2 1 = true) by (vm_compute; reflexivity).
  assert (Hone : length (frames m_choosing) = 1) by (vm_compute; reflexivity).
  assert (Hnth : option_map (fun s => nth_error (cl_list (s_list s)) 1) (hd_error (frames m_choosing)) = Some (Some m_cand)) by (vm_compute; reflexivity).
  apply choosing_b_spec in Hch as (s & r & Hf & Hc & Hl). rewrite Hf in Hone, Hnth. destruct r; [|discriminate]. apply T_Encoding.some_inj in Hnth.
  assert (Hset : settled_b m_later = Some 2) by (vm_compute; reflexivity).
  assert (Hk : option_map get_composite_key (hd_error (frames m_later)) = Some m_key) by (vm_compute; reflexivity).
  apply settled_b_spec in Hset as (s2 & r2 & cs2 & Hf2 & Hs2 & _). rewrite Hf2 in Hk. apply T_Encoding.some_inj in Hk.
  destruct m_life as (outs & fl' & Hlife).
  assert (Hex : exec ascii_xkb false (OKey return_key) m_choosing = Ok (OutBool true, m_chosen)) by (vm_compute; reflexivity).
  assert (Hlived1 : lived ascii_xkb false all_text (mkL m_chosen m_files)).
  { destruct m_lived as (w0 & fl0 & ds0 & os0 & H1 & H2 & H3). exists w0, fl0, (ds0 ++ [Do (OKey return_key)]), (os0 ++ [OutBool true]).
    split; [exact H1|]. split; [exact H2|]. eapply life_app; [exact H3|]. change [OutBool true] with ([OutBool true] ++ []).
    econstructor; [exact I|constructor; [discriminate|exact Hex]|constructor]. }
  exists s, (cl_list (s_list s)), s2, r2, mosquitos, outs, fl'.
  split; [apply m_lived|]. split; [exact Hf|]. split; [exact Hc|]. split; [exact Hnth|]. split; [vm_compute; auto|].
  split; [apply runs_b_spec; vm_compute; reflexivity|]. split; [exact Hex|]. split; [vm_compute; reflexivity|].
  split; [repeat constructor; auto|]. split; [vm_compute; reflexivity|]. split; [exact I|]. split; [exact Hlife|].
  split; [apply m_rules|]. split; [apply keeps_off_asked; [exact Hlived1|vm_compute; reflexivity]|].
  split; [vm_compute; reflexivity|]. split; [exact Hf2|]. split; [exact Hs2|]. split; [exact Hk|].
  split; [apply no_better_b_spec; vm_compute; reflexivity|]. apply runs_b_spec. vm_compute. reflexivity.
Qed.
(** And the word is offered first. *)
Example C85_shown : exists outs w3, typed false (U "space") m_later = Ok (outs, w3) /\ shown w3 = ([U "香"; U "蚊"], 0%N).
Proof.
  destruct (run_case (typed false (U "space") m_later) shown ([U "香"; U "蚊"], 0%N)) as (o & w & E & F); [vm_compute; reflexivity|]. exists o, w. auto.
Qed.
