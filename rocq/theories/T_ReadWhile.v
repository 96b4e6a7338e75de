(** Property C95: reading a dictionary file while programs save it. *)
From Coq Require Import List NArith Arith Lia Bool.
Import ListNotations.
From Verif Require Import Str SaveFs Together T_Together.

Section Read.
  Context (d0 : disk) (i0 : nat) (old : str) (bak : option str) (texts : list str).
  Context (Hm0 : k_main d0 = Some i0) (Hold : nth_error (k_data d0) i0 = Some old).
  (** A move only ever adds to the end of a file. *)
  Lemma grows d l own r n d' l' i s : shape d0 i0 texts d l own r -> move (d, l) n (d', l') -> nth_error (k_data d) i = Some s ->
    exists s', nth_error (k_data d') i = Some s' /\ prefix_of s s'.
  Proof.
    intros S M Hs. assert (Same : exists s', nth_error (k_data d) i = Some s' /\ prefix_of s s') by (exists s; split; [exact Hs|exists []; now rewrite app_nil_r]).
    inversion M as [? ? ? x ? p' Hx H]; subst. remember (sv_phase x) as ph eqn:Ep. clear M.
    destruct H as [d1 d2 Hr|d1|d1 d2 k Hc|d1|d1 k pos chunk rest Hne|d1 k pos rest|d1 k pos]; try exact Same.
    - unfold do_rename in Hr. destruct (k_main d1); [|discriminate]. injection Hr as <-. exact Same.
    - assert (E : k_main d1 = None).
      { assert (Hno : ~ In n own).
        { intros Hn. destruct (in_own d0 _ _ _ _ _ (sh_own _ _ _ _ _ _ _ S) Hx Hn) as (j & s' & _ & _ & Hp). now rewrite <- Ep in Hp. }
        pose proof (sh_rest _ _ _ _ _ _ _ S n x Hx Hno) as Hp. pose proof (sh_r _ _ _ _ _ _ _ S) as R. rewrite <- Ep in Hp.
        destruct r as [m|]; [apply R|destruct Hp; discriminate]. }
      unfold do_create in Hc. rewrite E in Hc. injection Hc as <- <-. cbn [k_data]. exists s. split; [|exists []; now rewrite app_nil_r].
      rewrite nth_error_app1; [exact Hs|]. apply nth_error_Some. congruence.
    - unfold do_write. cbn [k_data]. rewrite set_get. destruct (Nat.eqb_spec k i) as [->|N]; [|exact Same].
      assert (Hn : In n own).
      { destruct (in_dec Nat.eq_dec n own) as [Hn|Hn]; [exact Hn|]. pose proof (sh_rest _ _ _ _ _ _ _ S n x Hx Hn) as Hp. rewrite <- Ep in Hp.
        destruct (match r with Some m => Nat.eqb m n | None => false end); destruct Hp; discriminate. }
      destruct (in_own d0 _ _ _ _ _ (sh_own _ _ _ _ _ _ _ S) Hx Hn) as (j & s' & _ & Hs' & Hp). rewrite <- Ep in Hp. destruct Hp as (-> & -> & _).
      rewrite Hs in *. injection Hs' as <-. cbn [option_map]. eexists. split; [reflexivity|]. rewrite (nth_of_error _ _ _ Hs), write_end. now exists chunk.
  Qed.
  (** The file a reader has opened was the dictionary file: the old one, or made by a save. *)
  Definition once_main (own : list nat) (i : nat) : Prop := i = i0 \/ exists j n, i = length (k_data d0) + j /\ nth_error own j = Some n.
  Lemma once_more own n i : once_main own i -> once_main (own ++ [n]) i.
  Proof.
    intros [H|(j & m & -> & H)]; [now left|]. right. exists j, m. split; [reflexivity|]. rewrite nth_error_app1; [exact H|]. apply nth_error_Some. congruence.
  Qed.
  Lemma main_once d l own r i : shape d0 i0 texts d l own r -> k_main d = Some i -> once_main own i.
  Proof.
    intros S E. pose proof (sh_r _ _ _ _ _ _ _ S) as R. destruct r as [n|]; [destruct R as (_ & _ & R & _); congruence|]. destruct R as (R & _).
    rewrite E in R. injection R as ->. unfold last_file. destruct own as [|a own]; [now left|]. right.
    destruct (nth_error (a :: own) (length own)) as [n|] eqn:En; [|apply nth_error_None in En; cbn in En; lia].
    exists (length own), n. split; [cbn; lia|exact En].
  Qed.
  Lemma what_is_there d l own r i s : shape d0 i0 texts d l own r -> once_main own i -> nth_error (k_data d) i = Some s ->
    s = old \/ exists t, In t texts /\ prefix_of s t.
  Proof.
    intros S [->|(j & n & -> & H)] Hs.
    - left. rewrite (sh_first _ _ _ _ _ _ _ S) in Hs by (apply nth_error_Some; congruence). congruence.
    - right. destruct (made d0 i0 texts d l own r j n S H) as (s' & Hs' & P & I & _). rewrite Hs in Hs'. injection Hs' as <-. eauto.
  Qed.
  Lemma prefix_trans a b c : prefix_of a b -> prefix_of b c -> prefix_of a c.
  Proof. intros (x & ->) (y & ->). exists (x ++ y). now rewrite app_assoc. Qed.
  Lemma more_read got chunk rest s : prefix_of got s -> skipn (length got) s = chunk ++ rest -> prefix_of (got ++ chunk) s.
  Proof.
    intros (x & ->) E. rewrite skipn_app, skipn_all, Nat.sub_diag in E. cbn in E. subst x. exists rest. now rewrite app_assoc.
  Qed.
  Lemma all_read got s : prefix_of got s -> skipn (length got) s = [] -> got = s.
  Proof. intros (x & ->) E. rewrite skipn_app, skipn_all, Nat.sub_diag in E. cbn in E. subst x. now rewrite app_nil_r. Qed.
  Definition fits (d : disk) (own : list nat) (q : reader) : Prop :=
    match q with
    | Reading i got => once_main own i /\ exists s, nth_error (k_data d) i = Some s /\ prefix_of got s
    | Got t => t = old \/ exists t', In t' texts /\ prefix_of t t'
    | _ => True
    end.
  Lemma reads x y : goings x y -> x = (d0, to_save texts, NotOpened) ->
    exists own r, shape d0 i0 texts (fst (fst y)) (snd (fst y)) own r /\ fits (fst (fst y)) own (snd y).
  Proof.
    intros G. induction G as [x|x d l q n d' l' G IH M|x d l q q' G IH M]; intros ->; cbn [fst snd] in *.
    - exists [], None. split; [now apply shape_0|exact I].
    - destruct (IH eq_refl) as (own & r & S & F). 
      destruct (shape_step d0 i0 texts _ _ _ _ _ _ _ S M) as (y & p' & Hy & -> & C).
      assert (Q : forall own', (forall i, once_main own i -> once_main own' i) -> fits d' own' q).
      { intros own' Ho. unfold fits in *. destruct q as [| |i got|t]; auto. destruct F as (F1 & s & F2 & F3). split; [now apply Ho|].
        destruct (grows _ _ _ _ _ _ _ _ _ S M F2) as (s' & H1 & H2). exists s'. split; [exact H1|]. now apply prefix_trans with s. }
      destruct C as [(_ & _ & _ & _ & S')|[(_ & _ & _ & S')|(_ & _ & _ & _ & S')]].
      + exists own, (Some n). split; [exact S'|now apply Q].
      + exists (own ++ [n]), None. split; [exact S'|]. apply Q. intros i. apply once_more.
      + exists own, r. split; [exact S'|now apply Q].
    - destruct (IH eq_refl) as (own & r & S & F). exists own, r. split; [exact S|].
      destruct M as [d i E|d E|d i got chunk rest s Hs Hne E|d i got s Hs E]; unfold fits in *.
      + split; [eapply main_once; eauto|]. assert (L : nth_error (k_data d) i <> None).
        { destruct (main_once _ _ _ _ _ S E) as [->|(j & n & -> & H)].
          - rewrite (sh_first _ _ _ _ _ _ _ S) by (apply nth_error_Some; congruence). congruence.
          - destruct (made d0 i0 texts d l own r j n S H) as (s' & Hs' & _). congruence. }
        destruct (nth_error (k_data d) i) as [s|]; [|congruence]. exists s. split; [reflexivity|]. now exists s.
      + exact I.
      + destruct F as (F1 & s' & F2 & F3). split; [exact F1|]. exists s. split; [exact Hs|]. rewrite Hs in F2. injection F2 as <-. now apply more_read with rest.
      + destruct F as (F1 & s' & F2 & F3). rewrite Hs in F2. injection F2 as <-. rewrite (all_read _ _ F3 E). eapply what_is_there; eauto.
  Qed.
  (** From a moment at which every save that began is done. *)
  Definition for_good (d : disk) (l : list saving) (own : list nat) (q : reader) : Prop :=
    match q with
    | Reading i got => i = i0 \/ exists j n, i = length (k_data d0) + j /\ nth_error own j = Some n /\ phase_of l n = Done
    | Got t => t = old \/ In t texts
    | _ => False
    end.
  Lemma reads_whole x y : goings x y -> forall d l q own r, x = (d, l, q) -> shape d0 i0 texts d l own r -> fits d own q -> for_good d l own q ->
    exists own' r', shape d0 i0 texts (fst (fst y)) (snd (fst y)) own' r' /\ fits (fst (fst y)) own' (snd y) /\ for_good (fst (fst y)) (snd (fst y)) own' (snd y).
  Proof.
    intros G. induction G as [x|x d l q n d' l' G IH M|x d l q q' G IH M]; intros d1 l1 q1 own1 r1 -> S1 F1 W1; cbn [fst snd] in *.
    - exists own1, r1. auto.
    - destruct (IH _ _ _ _ _ eq_refl S1 F1 W1) as (own & r & S & F & W).
      destruct (shape_step d0 i0 texts _ _ _ _ _ _ _ S M) as (y & p' & Hy & -> & C).
      assert (Keep : forall m, phase_of l m = Done -> phase_of (put n p' l) m = Done).
      { intros m Hm. rewrite (phase_put n p' l m y Hy). destruct (Nat.eqb_spec n m) as [<-|N]; [|exact Hm]. exfalso. unfold phase_of in Hm. rewrite Hy in Hm.
        destruct C as [(_ & _ & P & _)|[(_ & P & _)|(_ & _ & _ & P & _)]]; [congruence|congruence|apply P; now left]. }
      assert (Q : forall own', (forall j m, nth_error own j = Some m -> nth_error own' j = Some m) -> fits d' own' q /\ for_good d' (put n p' l) own' q).
      { intros own' Ho. split.
        - unfold fits in *. destruct q as [| |i got|t]; auto. destruct F as (Fa & s & F2 & F3). split.
          + destruct Fa as [->|(j & m & -> & H)]; [now left|right; eauto].
          + destruct (grows _ _ _ _ _ _ _ _ _ S M F2) as (s' & H1 & H2). exists s'. split; [exact H1|]. now apply prefix_trans with s.
        - unfold for_good in *. destruct q as [| |i got|t]; auto. destruct W as [->|(j & m & -> & H & P)]; [now left|]. right. exists j, m. auto. }
      destruct C as [(_ & _ & _ & _ & S')|[(_ & _ & _ & S')|(_ & _ & _ & _ & S')]].
      + exists own, (Some n). split; [exact S'|now apply Q].
      + exists (own ++ [n]), None. split; [exact S'|]. apply Q. intros j m H. rewrite nth_error_app1; [exact H|]. apply nth_error_Some. congruence.
      + exists own, r. split; [exact S'|now apply Q].
    - destruct (IH _ _ _ _ _ eq_refl S1 F1 W1) as (own & r & S & F & W). exists own, r. split; [exact S|].
      destruct M as [d i E|d E|d i got chunk rest s Hs Hne E|d i got s Hs E]; unfold fits, for_good in *; try destruct W.
      + destruct F as (Fa & s' & F2 & F3). subst i. split; [split; [exact Fa|]; exists s; split; [exact Hs|]; rewrite Hs in F2; injection F2 as <-; now apply more_read with rest|now left].
      + destruct F as (Fa & s' & F2 & F3). split; [split; [exact Fa|]; exists s; split; [exact Hs|]; rewrite Hs in F2; injection F2 as <-; now apply more_read with rest|right; assumption].
      + destruct F as (Fa & s' & F2 & F3). rewrite Hs in F2. injection F2 as <-. pose proof (all_read _ _ F3 E) as ->.
        split; [eapply what_is_there; eauto|]. subst i. left. rewrite (sh_first _ _ _ _ _ _ _ S) in Hs by (apply nth_error_Some; congruence). congruence.
      + destruct F as (Fa & s' & F2 & F3). rewrite Hs in F2. injection F2 as <-. pose proof (all_read _ _ F3 E) as ->.
        split; [eapply what_is_there; eauto|]. right. destruct H as (j & n & -> & H & P).
        destruct (made d0 i0 texts d l own r j n S H) as (s' & Hs' & _ & I & D). rewrite Hs in Hs'. injection Hs' as <-. now rewrite (D P).
  Qed.
End Read.

(** C95: a program that reads the file while others save it gets what was there, or the beginning of what one of
    them writes, never a mixture - even when the file is renamed under its hands. *)
Theorem C95_read : forall d0 old bak texts d l t, file_with old bak d0 -> goings (d0, to_save texts, NotOpened) (d, l, Got t) ->
  t = old \/ exists t', In t' texts /\ prefix_of t t'.
Proof.
  intros d0 old bak texts d l t F G. destruct (file_is _ _ _ F) as (i0 & Hm & Ho & _).
  destruct (reads d0 i0 old texts Hm Ho _ _ G eq_refl) as (own & r & _ & H). exact H.
Qed.
(** C95, of "it gets a whole dictionary": so it does when it opens the file while no save is under way or was broken
    off, whatever happens from then on. *)
Theorem C95_whole_partial : forall d0 old bak texts d l q' d' l' t, file_with old bak d0 -> goings (d0, to_save texts, NotOpened) (d, l, NotOpened) ->
  (forall n, settled (phase_of l n)) -> read_step d NotOpened q' -> goings (d, l, q') (d', l', Got t) -> t = old \/ In t texts.
Proof.
  intros d0 old bak texts d l q' d' l' t F G Hs O G'. destruct (file_is _ _ _ F) as (i0 & Hm & Ho & _).
  destruct (reads d0 i0 old texts Hm Ho _ _ G eq_refl) as (own & r & S & _). cbn [fst snd] in S.
  destruct (reads d0 i0 old texts Hm Ho _ _ (gn_read _ _ _ _ _ G O) eq_refl) as (own2 & r2 & S2 & F2). cbn [fst snd] in S2, F2.
  assert (W : for_good d0 i0 old texts d l own2 q').
  { inversion O as [? i E| ? E| |]; subst; cbn.
    - destruct (main_once d0 i0 texts d l own2 r2 i S2 E) as [->|(j & n & -> & H)]; [now left|]. right. exists j, n. split; [reflexivity|]. split; [exact H|].
      destruct (sh_own _ _ _ _ _ _ _ S2 j n H) as (x & s & Hx & _ & Hp). specialize (Hs n). unfold phase_of in *. rewrite Hx in *.
      destruct Hs as [Hs|[Hs|Hs]]; [rewrite Hs in Hp; destruct Hp|rewrite Hs in Hp; destruct Hp|exact Hs].
    - exfalso. pose proof (sh_r _ _ _ _ _ _ _ S2) as R. destruct r2 as [n|]; [|destruct R as (R & _); congruence].
      destruct R as (Hn & Hl & _). destruct (nth_error l n) as [x|] eqn:Hx; [|congruence].
      pose proof (sh_rest _ _ _ _ _ _ _ S2 n x Hx Hn) as P. cbn in P. rewrite Nat.eqb_refl in P. specialize (Hs n). unfold phase_of in Hs. rewrite Hx in Hs.
      destruct Hs as [Hs|[Hs|Hs]], P as [P|P]; congruence. }
  destruct (reads_whole d0 i0 old texts Ho _ _ G' d l q' own2 r2 eq_refl S2 F2 W) as (o & r' & _ & _ & H). exact H.
Qed.
(** In full it is false: a program started while another saves can find nothing in the file, or no file, although the
    save ends with success and the file was there all the time for whoever came before or after. *)
Lemma go_save {x d l q} n y d' p' : goings x (d, l, q) -> nth_error l n = Some y -> one_step (sv_text y) d (sv_phase y) d' p' -> goings x (d', put n p' l, q).
Proof. intros G Hy H. eapply gn_save; [exact G|]. econstructor; [exact Hy|exact H]. Qed.
Lemma saving_to_the_end x old t q : t <> [] -> goings x (mkDisk (Some 1) (Some 0) [old; []], [mkSaving t (Busy 1 0 t)], q) ->
  goings x (mkDisk (Some 1) (Some 0) [old; t], [mkSaving t Done], q).
Proof.
  intros Ht G. apply (go_save 0 (mkSaving t (Busy 1 0 t)) (mkDisk (Some 1) (Some 0) [old; t]) (Busy 1 (length t) [])) in G; [|reflexivity|].
  - exact (go_save 0 (mkSaving t (Busy 1 (length t) [])) (mkDisk (Some 1) (Some 0) [old; t]) Done G eq_refl (on_flushed t _ _ _)).
  - pose proof (on_write t (mkDisk (Some 1) (Some 0) [old; []]) 1 0 t [] Ht) as W. rewrite app_nil_r in W. unfold do_write in W. cbn [k_data nth k_main k_bak set_nth] in W.
    change (write_at 0 t []) with (write_at (length (@nil N)) t []) in W. rewrite (write_end [] t) in W. exact W.
Qed.
Lemma renaming x old t q : goings x (one_file old, [mkSaving t NotBegun], q) -> goings x (mkDisk None (Some 0) [old], [mkSaving t Renamed], q).
Proof. intros G. exact (go_save 0 (mkSaving t NotBegun) (mkDisk None (Some 0) [old]) Renamed G eq_refl (on_rename t (one_file old) _ eq_refl)). Qed.
Lemma creating x old t q : goings x (mkDisk None (Some 0) [old], [mkSaving t Renamed], q) -> goings x (mkDisk (Some 1) (Some 0) [old; []], [mkSaving t (Busy 1 0 t)], q).
Proof. intros G. exact (go_save 0 (mkSaving t Renamed) (mkDisk (Some 1) (Some 0) [old; []]) (Busy 1 0 t) G eq_refl (on_create t (mkDisk None (Some 0) [old]) _ 1 eq_refl)). Qed.
Theorem C95_refuted : forall old t, t <> [] -> exists d l, goings (one_file old, to_save [t], NotOpened) (d, l, Got [])
  /\ phase_of l 0 = Done /\ as_fs d = mkFs (Some t) (Some old).
Proof.
  intros old t Ht. exists (mkDisk (Some 1) (Some 0) [old; t]), [mkSaving t Done]. split; [|split; reflexivity].
  pose proof (gn_none (one_file old, to_save [t], NotOpened)) as G. apply (renaming _ old t) in G. apply creating in G.
  apply saving_to_the_end; [exact Ht|]. eapply gn_read; [eapply gn_read; [exact G|now apply rd_open]|]. eapply rd_end; reflexivity.
Qed.
Theorem C95_no_file_refuted : forall old t, t <> [] -> exists d l, goings (one_file old, to_save [t], NotOpened) (d, l, NoFile)
  /\ phase_of l 0 = Done /\ as_fs d = mkFs (Some t) (Some old).
Proof.
  intros old t Ht. exists (mkDisk (Some 1) (Some 0) [old; t]), [mkSaving t Done]. split; [|split; reflexivity].
  pose proof (gn_none (one_file old, to_save [t], NotOpened)) as G. apply (renaming _ old t) in G.
  apply saving_to_the_end; [exact Ht|]. apply creating. eapply gn_read; [exact G|]. now apply rd_no_file.
Qed.
(** Non-vacuity: a reader that opened the file before it was renamed reads half of it before and half after. *)
Example C95_case : exists d0 d l d' l', file_with (U "old") None d0 /\ d0 = one_file (U "old")
  /\ goings (d0, to_save [U "new"], NotOpened) (d, l, NotOpened) /\ (forall n, settled (phase_of l n)) /\ read_step d NotOpened (Reading 0 [])
  /\ goings (d, l, Reading 0 []) (d', l', Got (U "old")) /\ as_fs d' = mkFs (Some (U "new")) (Some (U "old")).
Proof.
  exists (one_file (U "old")), (one_file (U "old")), (to_save [U "new"]), (mkDisk (Some 1) (Some 0) [U "old"; U "new"]), [mkSaving (U "new") Done].
  split; [apply one_file_with|]. split; [reflexivity|]. split; [apply gn_none|]. split; [intros [|[|n]]; cbn; unfold settled; auto|].
  split; [now apply rd_open|]. split; [|reflexivity].
  pose proof (gn_none (one_file (U "old"), to_save [U "new"], Reading 0 [])) as G.
  apply (fun G => gn_read _ _ _ _ _ G (rd_some (one_file (U "old")) 0 [] (U "ol") (U "d") (U "old") eq_refl ltac:(discriminate) eq_refl)) in G.
  apply (renaming _ (U "old") (U "new")) in G. apply creating in G. apply saving_to_the_end in G; [|discriminate].
  apply (fun G => gn_read _ _ _ _ _ G (rd_some (mkDisk (Some 1) (Some 0) [U "old"; U "new"]) 0 (U "ol") (U "d") [] (U "old") eq_refl ltac:(discriminate) eq_refl)) in G.
  eapply gn_read; [exact G|]. eapply rd_end; reflexivity.
Qed.
