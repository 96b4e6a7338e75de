(** Property C94: several programs saving one dictionary file. *)
From Coq Require Import List NArith Arith Lia Bool.
Import ListNotations.
From Verif Require Import Str SaveFs Together.

(* ------------------------------------------------------------- specification *)
(** A disk with a dictionary file holding [old] and a .BAK or none. *)
Definition file_with (old : str) (bak : option str) (d : disk) : Prop :=
  as_fs d = mkFs (Some old) bak /\ k_main d <> k_bak d /\ (k_bak d = None <-> bak = None).
(** Saves of these texts, none begun. *)
Definition to_save (texts : list str) : list saving := map (fun t => mkSaving t NotBegun) texts.
(** The saves in the order in which they began, the latest first. *)
Fixpoint begins (tr : list nat) : list nat :=
  match tr with [] => [] | n :: r => if existsb (Nat.eqb n) r then begins r else n :: begins r end.
Definition phase_of (l : list saving) (n : nat) : phase := match nth_error l n with Some x => sv_phase x | None => NotBegun end.
(** Those of them that were not refused. *)
Definition began (l : list saving) (tr : list nat) : list nat :=
  filter (fun n => match phase_of l n with Refused => false | _ => true end) (begins tr).
Definition text_of (l : list saving) (n : nat) : str := match nth_error l n with Some x => sv_text x | None => [] end.
(** Not under way, and not broken off. *)
Definition settled (p : phase) : Prop := p = NotBegun \/ p = Refused \/ p = Done.
Definition prefix_of (s t : str) : Prop := exists r, t = s ++ r.
(** Whole: what was there before, or all of what some save was to write. *)
Definition whole (old : str) (texts : list str) (o : option str) : Prop := exists s, o = Some s /\ (s = old \/ In s texts).
(** Schedules in which a save begins only when no other is under way or was broken off. *)
Inductive one_at_a_time : disk * list saving -> list nat -> disk * list saving -> Prop :=
| oat_none x : one_at_a_time x [] x
| oat_next x tr y n z : one_at_a_time x tr y -> (phase_of (snd y) n = NotBegun -> forall m, settled (phase_of (snd y) m)) ->
    move y n z -> one_at_a_time x (n :: tr) z.

(* -------------------------------------------------------------------- proofs *)
Lemma put_get n p l m : nth_error (put n p l) m = if Nat.eqb n m then option_map (fun x => mkSaving (sv_text x) p) (nth_error l m) else nth_error l m.
Proof. revert n m. induction l as [|x l IH]; intros [|n] [|m]; cbn; try reflexivity; [now destruct (Nat.eqb n m)|apply IH]. Qed.
Lemma set_get i s l m : nth_error (set_nth i s l) m = if Nat.eqb i m then option_map (fun _ => s) (nth_error l m) else nth_error l m.
Proof. revert i m. induction l as [|x l IH]; intros [|i] [|m]; cbn; try reflexivity; [now destruct (Nat.eqb i m)|apply IH]. Qed.
Lemma set_len i s l : length (set_nth i s l) = length l.
Proof. revert i. induction l as [|x l IH]; intros [|i]; cbn; auto. Qed.
Lemma nth_of_error (l : list str) i s : nth_error l i = Some s -> nth i l [] = s.
Proof. revert l. induction i as [|i IH]; intros [|x l]; cbn; try discriminate; [now injection 1|apply IH]. Qed.
Lemma write_end s chunk : write_at (length s) chunk s = s ++ chunk.
Proof.
  unfold write_at. rewrite firstn_all, Nat.sub_diag. cbn [repeat app]. rewrite skipn_all2 by lia. now rewrite app_nil_r.
Qed.

Section Shape.
  Context (d0 : disk) (i0 : nat) (old : str) (texts : list str).
  Let N0 := length (k_data d0).
  Context (Hm0 : k_main d0 = Some i0) (Hold : nth_error (k_data d0) i0 = Some old).
  (** The files made, in order: made by the saves [own]; [r] is the save that renamed and has not created. *)
  Definition last_file (own : list nat) : nat := match own with [] => i0 | _ => N0 + length own - 1 end.
  Definition last_but_one (own : list nat) : option nat := match own with [] => k_bak d0 | [_] => Some i0 | _ => Some (N0 + length own - 2) end.
  Record shape (d : disk) (l : list saving) (own : list nat) (r : option nat) : Prop := {
    sh_text : map sv_text l = texts;
    sh_len : length (k_data d) = N0 + length own;
    sh_first : forall i, i < N0 -> nth_error (k_data d) i = nth_error (k_data d0) i;
    sh_own : forall j n, nth_error own j = Some n -> exists x s, nth_error l n = Some x /\ nth_error (k_data d) (N0 + j) = Some s /\
      match sv_phase x with Busy i pos rest => i = N0 + j /\ pos = length s /\ sv_text x = s ++ rest | Done => s = sv_text x | Broken => prefix_of s (sv_text x) | _ => False end;
    sh_nodup : NoDup own;
    sh_rest : forall n x, nth_error l n = Some x -> ~ In n own -> 
      if match r with Some m => Nat.eqb m n | None => false end then sv_phase x = Renamed \/ sv_phase x = Broken else sv_phase x = NotBegun \/ sv_phase x = Refused;
    sh_r : match r with
           | None => k_main d = Some (last_file own) /\ k_bak d = last_but_one own
           | Some n => ~ In n own /\ nth_error l n <> None /\ k_main d = None /\ k_bak d = Some (last_file own)
           end }.
  Lemma shape_0 : shape d0 (to_save texts) [] None.
  Proof.
    constructor; auto.
    - unfold to_save. rewrite map_map. cbn. apply map_id.
    - intros [|j] n; discriminate.
    - constructor.
    - intros n x H _. apply nth_error_In in H. unfold to_save in H. apply in_map_iff in H as (t & <- & _). now left.
  Qed.
  Lemma put_same n p l x : nth_error l n = Some x -> nth_error (put n p l) n = Some (mkSaving (sv_text x) p).
  Proof. intros H. rewrite put_get, Nat.eqb_refl, H. reflexivity. Qed.
  Lemma put_other n p l m : m <> n -> nth_error (put n p l) m = nth_error l m.
  Proof. intros H. rewrite put_get. destruct (Nat.eqb_spec n m); [congruence|reflexivity]. Qed.
  Lemma put_texts n p l : map sv_text (put n p l) = map sv_text l.
  Proof. revert n. induction l as [|x l IH]; intros [|n]; cbn; auto. now rewrite IH. Qed.
  Lemma put_none n p l m : nth_error (put n p l) m <> None <-> nth_error l m <> None.
  Proof. rewrite put_get. destruct (Nat.eqb n m); [|tauto]. destruct (nth_error l m); cbn; split; congruence. Qed.
  (** One move keeps the shape, and is of one of these kinds. *)
  Lemma last_in own : own <> [] -> last_file own < N0 + length own.
  Proof. destruct own; cbn; [congruence|lia]. Qed.
  Lemma in_own own l d n x : (forall j n, nth_error own j = Some n -> exists x s, nth_error l n = Some x /\ nth_error (k_data d) (N0 + j) = Some s /\
      match sv_phase x with Busy i pos rest => i = N0 + j /\ pos = length s /\ sv_text x = s ++ rest | Done => s = sv_text x | Broken => prefix_of s (sv_text x) | _ => False end) ->
    nth_error l n = Some x -> In n own -> exists j s, nth_error own j = Some n /\ nth_error (k_data d) (N0 + j) = Some s /\
      match sv_phase x with Busy i pos rest => i = N0 + j /\ pos = length s /\ sv_text x = s ++ rest | Done => s = sv_text x | Broken => prefix_of s (sv_text x) | _ => False end.
  Proof.
    intros H Hx Hin. apply In_nth_error in Hin as (j & Hj). destruct (H j n Hj) as (x' & s & Hx' & Hs & Hp).
    rewrite Hx in Hx'. injection Hx' as <-. exists j, s. auto.
  Qed.
  (** A move that changes neither names nor files, into a phase that fits. *)
  Lemma keep d l own r n x p : shape d l own r -> nth_error l n = Some x ->
    (forall j s, nth_error own j = Some n -> nth_error (k_data d) (N0 + j) = Some s -> 
      match sv_phase x with Busy i pos rest => i = N0 + j /\ pos = length s /\ sv_text x = s ++ rest | Done => s = sv_text x | Broken => prefix_of s (sv_text x) | _ => False end ->
      match p with Busy i pos rest => i = N0 + j /\ pos = length s /\ sv_text x = s ++ rest | Done => s = sv_text x | Broken => prefix_of s (sv_text x) | _ => False end) ->
    (~ In n own -> if match r with Some m => Nat.eqb m n | None => false end then p = Renamed \/ p = Broken else p = NotBegun \/ p = Refused) ->
    shape d (put n p l) own r.
  Proof.
    intros S Hx Ho Hn. constructor.
    - rewrite put_texts. apply S.
    - apply S.
    - apply S.
    - intros j m Hj. destruct (sh_own _ _ _ _ S j m Hj) as (y & s & Hy & Hs & Hp). destruct (Nat.eq_dec m n) as [->|N].
      + rewrite Hx in Hy. injection Hy as <-. exists (mkSaving (sv_text x) p), s. split; [now apply put_same|]. split; [exact Hs|]. cbn [sv_phase sv_text]. now apply Ho.
      + exists y, s. rewrite put_other by exact N. auto.
    - apply S.
    - intros m y Hy Hm. destruct (Nat.eq_dec m n) as [->|N].
      + rewrite (put_same _ _ _ _ Hx) in Hy. injection Hy as <-. cbn [sv_phase]. now apply Hn.
      + rewrite put_other in Hy by exact N. now apply (sh_rest _ _ _ _ S).
    - destruct r as [m|]; [|apply S]. destruct (sh_r _ _ _ _ S) as (H1 & H2 & H3). split; [exact H1|]. split; [now apply put_none|exact H3].
  Qed.
  Lemma shape_step d l own r n d' l' : shape d l own r -> move (d, l) n (d', l') ->
    exists x p', nth_error l n = Some x /\ l' = put n p' l /\
    ((* renamed *) r = None /\ ~ In n own /\ sv_phase x = NotBegun /\ p' = Renamed /\ shape d' l' own (Some n)
     \/ (* created *) r = Some n /\ sv_phase x = Renamed /\ p' = Busy (N0 + length own) 0 (sv_text x) /\ shape d' l' (own ++ [n]) None
     \/ (* anything else *) (sv_phase x = NotBegun -> p' = Refused) /\ (p' = NotBegun -> False) /\ (p' = Refused -> sv_phase x = NotBegun) /\ (sv_phase x = Done \/ sv_phase x = Refused -> False) /\ shape d' l' own r).
  Proof.
    intros S M. inversion M as [? ? ? x ? p' Hx H]; subst. exists x, p'. split; [exact Hx|]. split; [reflexivity|].
    assert (Ow : In n own \/ ~ In n own) by (destruct (in_dec Nat.eq_dec n own); auto).
    remember (sv_phase x) as ph eqn:Ep. clear M. destruct H as [d1 d2 Hr|d1|d1 d2 i Hc|d1|d1 i pos chunk rest Hne|d1 i pos rest|d1 i pos].
    - (* rename *) left. unfold do_rename in Hr. destruct (k_main d1) as [m|] eqn:Em; [|discriminate]. injection Hr as <-.
      assert (Hn : ~ In n own).
      { intros Hn. destruct (in_own _ _ _ _ _ (sh_own _ _ _ _ S) Hx Hn) as (j & s & _ & _ & Hp). now rewrite <- Ep in Hp. }
      destruct r as [m'|]; [destruct (sh_r _ _ _ _ S) as (_ & _ & H3 & _); congruence|].
      destruct (sh_r _ _ _ _ S) as (H1 & H2). rewrite Em in H1. injection H1 as ->.
      split; [reflexivity|]. split; [exact Hn|]. split; [now symmetry|]. split; [reflexivity|]. constructor.
      + rewrite put_texts. apply S.
      + apply S.
      + apply S.
      + intros j m Hj. assert (N : m <> n) by (intros ->; apply nth_error_In in Hj; contradiction). rewrite put_other by exact N. now apply (sh_own _ _ _ _ S).
      + apply S.
      + intros m y Hy Hm. destruct (Nat.eqb_spec n m) as [->|N].
        * rewrite (put_same _ _ _ _ Hx) in Hy. injection Hy as <-. now left.
        * rewrite put_other in Hy by congruence. exact (sh_rest _ _ _ _ S m y Hy Hm).
      + split; [exact Hn|]. split; [apply put_none; congruence|]. cbn. auto.
    - (* refused *) right. right. split; [reflexivity|]. split; [discriminate|]. split; [now symmetry|]. split; [intros [G|G]; discriminate G|].
      assert (Hn : ~ In n own).
      { intros Hn. destruct (in_own _ _ _ _ _ (sh_own _ _ _ _ S) Hx Hn) as (j & s & _ & _ & Hp). now rewrite <- Ep in Hp. }
      apply (keep d1 l own r n x); [exact S|exact Hx| |].
      + intros j s Hj. apply nth_error_In in Hj. contradiction.
      + intros _. pose proof (sh_rest _ _ _ _ S n x Hx Hn) as Hp. rewrite <- Ep in Hp. destruct (match r with Some m => Nat.eqb m n | None => false end); [destruct Hp; discriminate|now right].
    - (* create *) right. left.
      assert (Hn : ~ In n own).
      { intros Hn. destruct (in_own _ _ _ _ _ (sh_own _ _ _ _ S) Hx Hn) as (j & s & _ & _ & Hp). now rewrite <- Ep in Hp. }
      pose proof (sh_rest _ _ _ _ S n x Hx Hn) as Hp. rewrite <- Ep in Hp.
      assert (Er : r = Some n) by (destruct r as [m|]; [destruct (Nat.eqb_spec m n); [now subst|destruct Hp; discriminate]|destruct Hp; discriminate]). subst r.
      destruct (sh_r _ _ _ _ S) as (_ & _ & H3 & H4). unfold do_create in Hc. rewrite H3 in Hc. injection Hc as <- <-.
      split; [reflexivity|]. split; [now symmetry|]. split; [now rewrite (sh_len _ _ _ _ S)|].
      pose proof (sh_len _ _ _ _ S) as HL. constructor; cbn [k_data k_main k_bak].
      + rewrite put_texts. apply S.
      + rewrite !app_length. cbn. lia.
      + intros i Hi. rewrite nth_error_app1 by lia. now apply S.
      + intros j m Hj. destruct (Nat.lt_ge_cases j (length own)) as [L|L].
        * rewrite nth_error_app1 in Hj by exact L. assert (N : m <> n) by (intros ->; apply nth_error_In in Hj; contradiction).
          destruct (sh_own _ _ _ _ S j m Hj) as (y & s & Hy & Hs & Hq). exists y, s. rewrite put_other by exact N. split; [exact Hy|].
          rewrite nth_error_app1 by lia. auto.
        * rewrite nth_error_app2 in Hj by exact L. destruct (j - length own) as [|k] eqn:Ej; [|destruct k; discriminate]. injection Hj as <-.
          exists (mkSaving (sv_text x) (Busy (length (k_data d1)) 0 (sv_text x))), []. split; [now apply put_same|]. rewrite nth_error_app2 by lia.
          replace (N0 + j - length (k_data d1)) with 0 by lia. split; [reflexivity|]. cbn. split; [lia|auto].
      + assert (Q : forall a : list nat, NoDup a -> ~ In n a -> NoDup (a ++ [n])).
        { induction 1 as [|z a Hz Ha IH]; cbn; intros Hi; [repeat constructor; intros []|]. constructor; [|apply IH; tauto].
          rewrite in_app_iff. intros [G|[G|[]]]; [contradiction|subst; tauto]. }
        apply Q; [apply S|exact Hn].
      + intros m y Hy Hm. assert (N : m <> n) by (intros ->; apply Hm, in_app_iff; right; now left). rewrite put_other in Hy by exact N.
        assert (Hm' : ~ In m own) by (intros G; apply Hm, in_app_iff; now left).
        pose proof (sh_rest _ _ _ _ S m y Hy Hm') as G. cbn in G. destruct (Nat.eqb_spec n m); [congruence|exact G].
      + split.
        * rewrite HL. unfold last_file. destruct (own ++ [n]) eqn:E; [destruct own; discriminate|]. rewrite <- E, app_length. cbn. f_equal. lia.
        * rewrite H4. unfold last_file, last_but_one. destruct own as [|a own]; cbn; [reflexivity|]. 
          destruct (own ++ [n]) eqn:E; [destruct own; discriminate|]. rewrite <- E. rewrite app_length. cbn. f_equal. lia.
    - (* create fails *) right. right. split; [discriminate|]. split; [discriminate|]. split; [discriminate|]. split; [intros [G|G]; discriminate G|].
      apply (keep d1 l own r n x); [exact S|exact Hx| |].
      + intros j s _ _ Hp. now rewrite <- Ep in Hp.
      + intros Hn. pose proof (sh_rest _ _ _ _ S n x Hx Hn) as Hp. rewrite <- Ep in Hp. destruct (match r with Some m => Nat.eqb m n | None => false end); [now right|destruct Hp; discriminate].
    - (* write *) right. right. split; [discriminate|]. split; [discriminate|]. split; [discriminate|]. split; [intros [G|G]; discriminate G|].
      assert (Hn : In n own).
      { destruct Ow as [Hn|Hn]; [exact Hn|]. pose proof (sh_rest _ _ _ _ S n x Hx Hn) as Hp. rewrite <- Ep in Hp.
        destruct (match r with Some m => Nat.eqb m n | None => false end); destruct Hp; discriminate. }
      destruct (in_own _ _ _ _ _ (sh_own _ _ _ _ S) Hx Hn) as (j & s & Hj & Hs & Hp). rewrite <- Ep in Hp. destruct Hp as (-> & -> & Ht).
      constructor; cbn [do_write k_data k_main k_bak].
      + rewrite put_texts. apply S.
      + rewrite set_len. apply S.
      + intros i Hi. rewrite set_get. destruct (Nat.eqb_spec (N0 + j) i); [lia|now apply S].
      + intros j' m Hj'. destruct (Nat.eq_dec m n) as [->|N].
        * assert (j' = j).
          { pose proof (sh_nodup _ _ _ _ S) as ND. rewrite NoDup_nth_error in ND. apply ND; [apply nth_error_Some; congruence|congruence]. }
          subst j'. exists (mkSaving (sv_text x) (Busy (N0 + j) (length s + length chunk) rest)), (s ++ chunk).
          split; [now apply put_same|]. split.
          -- rewrite set_get, Nat.eqb_refl, Hs. cbn [option_map]. rewrite (nth_of_error _ _ _ Hs), write_end. reflexivity.
          -- cbn. split; [reflexivity|]. rewrite app_length. split; [reflexivity|]. rewrite Ht, app_assoc. reflexivity.
        * destruct (sh_own _ _ _ _ S j' m Hj') as (y & s' & Hy & Hs' & Hq). exists y, s'. rewrite put_other by exact N. split; [exact Hy|]. split; [|exact Hq].
          rewrite set_get. destruct (Nat.eqb_spec (N0 + j) (N0 + j')) as [E|_]; [|exact Hs']. assert (j' = j) by lia. subst j'. congruence.
      + apply S.
      + intros m y Hy Hm. rewrite put_other in Hy by congruence. now apply (sh_rest _ _ _ _ S).
      + destruct r as [m|]; [|apply S]. destruct (sh_r _ _ _ _ S) as (H1 & H2 & H3). split; [exact H1|]. split; [now apply put_none|exact H3].
    - (* write fails *) right. right. split; [discriminate|]. split; [discriminate|]. split; [discriminate|]. split; [intros [G|G]; discriminate G|].
      apply (keep d1 l own r n x); [exact S|exact Hx| |].
      + intros j s _ _ Hp. rewrite <- Ep in Hp. destruct Hp as (_ & _ & Ht). exists rest. exact Ht.
      + intros Hn. pose proof (sh_rest _ _ _ _ S n x Hx Hn) as Hp. rewrite <- Ep in Hp. destruct (match r with Some m => Nat.eqb m n | None => false end); destruct Hp; discriminate.
    - (* flushed *) right. right. split; [discriminate|]. split; [discriminate|]. split; [discriminate|]. split; [intros [G|G]; discriminate G|].
      apply (keep d1 l own r n x); [exact S|exact Hx| |].
      + intros j s _ _ Hp. rewrite <- Ep in Hp. destruct Hp as (_ & _ & Ht). now rewrite app_nil_r in Ht.
      + intros Hn. pose proof (sh_rest _ _ _ _ S n x Hx Hn) as Hp. rewrite <- Ep in Hp. destruct (match r with Some m => Nat.eqb m n | None => false end); destruct Hp; discriminate.
  Qed.
End Shape.

Lemma in_existsb n l : existsb (Nat.eqb n) l = true <-> In n l.
Proof.
  rewrite existsb_exists. split; [intros (x & Hx & E); apply Nat.eqb_eq in E; now subst|intros H; exists n; split; [exact H|apply Nat.eqb_refl]].
Qed.
Lemma begins_in tr n : In n (begins tr) <-> In n tr.
Proof.
  induction tr as [|m tr IH]; cbn; [tauto|]. destruct (existsb (Nat.eqb m) tr) eqn:E.
  - apply in_existsb in E. rewrite IH. split; [auto|intros [->|H]; auto].
  - cbn. rewrite IH. tauto.
Qed.
Lemma phase_put n p l m x : nth_error l n = Some x -> phase_of (put n p l) m = if Nat.eqb n m then p else phase_of l m.
Proof.
  intros H. unfold phase_of. rewrite put_get. destruct (Nat.eqb_spec n m) as [->|N]; [now rewrite H|reflexivity].
Qed.
Definition unrefused (l : list saving) (n : nat) : bool := match phase_of l n with Refused => false | _ => true end.
Lemma began_filter l tr : began l tr = filter (unrefused l) (begins tr).
Proof. reflexivity. Qed.
Section Reach.
  Context (d0 : disk) (i0 : nat) (old : str) (texts : list str).
  Context (Hm0 : k_main d0 = Some i0) (Hold : nth_error (k_data d0) i0 = Some old).
  Definition traced (l : list saving) (tr own : list nat) (r : option nat) : Prop :=
    began l tr = match r with Some n => [n] | None => [] end ++ rev own
    /\ forall n, In n tr <-> phase_of l n <> NotBegun.
  Lemma traced_0 : traced (to_save texts) [] [] None.
  Proof.
    split; [reflexivity|]. intros n. split; [intros []|]. intros H. apply H. unfold phase_of, to_save. rewrite nth_error_map.
    now destruct (nth_error texts n).
  Qed.
  Lemma traced_step d l own r n d' l' tr : shape d0 i0 texts d l own r -> traced l tr own r -> move (d, l) n (d', l') ->
    exists own' r', shape d0 i0 texts d' l' own' r' /\ traced l' (n :: tr) own' r' /\
      (own' = own /\ r' = r \/ own' = own /\ r = None /\ r' = Some n /\ phase_of l n = NotBegun \/ own' = own ++ [n] /\ r = Some n /\ r' = None)
      /\ exists x p', nth_error l n = Some x /\ l' = put n p' l /\ (phase_of l n = Done -> p' = Done) .
  Proof.
    intros S (T1 & T2) M. destruct (shape_step d0 i0 texts d l own r n d' l' S M) as (x & p' & Hx & -> & H).
    assert (Px : phase_of l n = sv_phase x) by (unfold phase_of; now rewrite Hx).
    assert (In_tr : (forall m, In m (n :: tr) <-> phase_of (put n p' l) m <> NotBegun) <-> p' <> NotBegun).
    { split.
      - intros G. specialize (G n). rewrite (phase_put n p' l n x Hx), Nat.eqb_refl in G. apply G. now left.
      - intros G m. rewrite (phase_put n p' l m x Hx). cbn [In]. destruct (Nat.eqb_spec n m) as [->|N]; [tauto|].
        rewrite <- T2. tauto. }
    assert (Other : forall a, ~ In n a -> filter (unrefused (put n p' l)) a = filter (unrefused l) a).
    { intros a Ha. apply filter_ext_in. intros m Hm. unfold unrefused. rewrite (phase_put n p' l m x Hx). destruct (Nat.eqb_spec n m); [subst; contradiction|reflexivity]. }
    assert (Same : (p' = Refused <-> sv_phase x = Refused) -> forall a, filter (unrefused (put n p' l)) a = filter (unrefused l) a).
    { intros G a. apply filter_ext. intros m. unfold unrefused. rewrite (phase_put n p' l m x Hx). destruct (Nat.eqb_spec n m) as [<-|]; [|reflexivity].
      rewrite Px. destruct p', (sv_phase x); try reflexivity; exfalso; destruct G as (G1 & G2); try (discriminate (G1 eq_refl)); try (discriminate (G2 eq_refl)). }
    assert (New : sv_phase x = NotBegun -> begins (n :: tr) = n :: begins tr /\ ~ In n (begins tr)).
    { intros G. assert (Hn : ~ In n tr) by (rewrite T2, Px; tauto). rewrite begins_in. split; [|exact Hn]. cbn [begins].
      destruct (existsb (Nat.eqb n) tr) eqn:E; [apply in_existsb in E; contradiction|reflexivity]. }
    assert (Again : sv_phase x <> NotBegun -> begins (n :: tr) = begins tr).
    { intros G. assert (Hn : In n tr) by (rewrite T2, Px; exact G). cbn [begins]. apply in_existsb in Hn. now rewrite Hn. }
    destruct H as [(-> & Hn & P & -> & S')|[(-> & P & -> & S')|(H1 & H2 & H3 & H4 & S')]].
    - exists own, (Some n). split; [exact S'|]. split; [split|split].
      + rewrite began_filter in *. destruct (New P) as (-> & Hb). cbn [filter]. unfold unrefused at 1. rewrite (phase_put _ _ _ _ x Hx), Nat.eqb_refl.
        rewrite (Other _ Hb), T1. reflexivity.
      + apply In_tr. discriminate.
      + right. left. rewrite Px. auto.
      + exists x, Renamed. rewrite Px, P. split; [exact Hx|split; [reflexivity|discriminate]].
    - exists (own ++ [n]), None. split; [exact S'|]. split; [split|split].
      + rewrite began_filter in *. rewrite Again by (rewrite P; discriminate). rewrite Same by (rewrite P; split; discriminate). rewrite T1, rev_app_distr. reflexivity.
      + apply In_tr. discriminate.
      + auto.
      + eexists x, _. rewrite Px, P. split; [exact Hx|split; [reflexivity|discriminate]].
    - exists own, r. split; [exact S'|]. split; [split|split; [now left|]].
      + rewrite began_filter in *. rewrite <- T1.
        assert (C : sv_phase x = NotBegun \/ sv_phase x <> NotBegun) by (destruct (sv_phase x); auto; right; discriminate).
        destruct C as [C|C].
        * destruct (New C) as (-> & Hb). pose proof (H1 C) as ->. cbn [filter]. unfold unrefused at 1. rewrite (phase_put _ _ _ _ x Hx), Nat.eqb_refl. now apply Other.
        * rewrite (Again C). apply Same. split; [intros G; now apply H3 in G|intros G; destruct H4; now right].
      + apply In_tr. exact H2.
      + exists x, p'. split; [exact Hx|]. split; [reflexivity|]. rewrite Px. intros G. destruct H4. now left.
  Qed.
  Lemma reach tr y : moves (d0, to_save texts) tr y -> exists own r, shape d0 i0 texts (fst y) (snd y) own r /\ traced (snd y) tr own r.
  Proof.
    intros M. remember (d0, to_save texts) as y0 eqn:E. induction M as [y|y0' tr y n z M IH M1]; subst.
    - exists [], None. split; [apply shape_0; assumption|apply traced_0].
    - destruct (IH eq_refl) as (own & r & S & T). destruct y as [d l], z as [d' l']. cbn [fst snd] in *.
      destruct (traced_step _ _ _ _ _ _ _ _ S T M1) as (own' & r' & S' & T' & _). exists own', r'. auto.
  Qed.
End Reach.

Lemma file_is d old bak : file_with old bak d -> exists i0, k_main d = Some i0 /\ nth_error (k_data d) i0 = Some old
  /\ match k_bak d with Some b => b < length (k_data d) | None => True end /\ contents_of d (k_bak d) = bak.
Proof.
  intros (F & _ & B). unfold as_fs in F. injection F as F1 F2. unfold contents_of in F1. destruct (k_main d) as [i0|] eqn:E; [|discriminate].
  exists i0. split; [reflexivity|]. split; [exact F1|]. split; [|exact F2]. destruct (k_bak d) as [b|] eqn:Eb; [|exact I].
  apply nth_error_Some. cbn in F2. rewrite F2. intros G. destruct B as (_ & B). specialize (B G). discriminate.
Qed.
Section Facts.
  Context (d0 : disk) (i0 : nat) (old : str) (bak : option str) (texts : list str).
  Context (Hm0 : k_main d0 = Some i0) (Hold : nth_error (k_data d0) i0 = Some old).
  Context (Hb0 : match k_bak d0 with Some b => b < length (k_data d0) | None => True end) (Hbak : contents_of d0 (k_bak d0) = bak).
  Lemma i0_small : i0 < length (k_data d0).
  Proof. apply nth_error_Some. congruence. Qed.
  Lemma text_in l n x : map sv_text l = texts -> nth_error l n = Some x -> In (sv_text x) texts.
  Proof. intros <- H. apply in_map. now apply nth_error_In in H. Qed.
  Lemma text_is l n x : nth_error l n = Some x -> text_of l n = sv_text x.
  Proof. intros H. unfold text_of. now rewrite H. Qed.
  (** contents of the files in a shape *)
  Lemma made d l own r j n : shape d0 i0 texts d l own r -> nth_error own j = Some n ->
    exists s, nth_error (k_data d) (length (k_data d0) + j) = Some s /\ prefix_of s (text_of l n) /\ In (text_of l n) texts
      /\ (phase_of l n = Done -> s = text_of l n).
  Proof.
    intros S Hj. destruct (sh_own _ _ _ _ _ _ _ S j n Hj) as (x & s & Hx & Hs & Hp). exists s. split; [exact Hs|].
    rewrite (text_is _ _ _ Hx). unfold phase_of. rewrite Hx. split; [|split; [eapply text_in; [apply S|exact Hx]|]].
    - destruct (sv_phase x); try contradiction; [destruct Hp as (_ & _ & ->); now exists rest|exists []; now rewrite app_nil_r|exact Hp].
    - intros E. rewrite E in Hp. exact Hp.
  Qed.
  Lemma last_made d l own r : shape d0 i0 texts d l own r ->
    match rev own with
    | [] => contents_of d (Some (last_file d0 i0 own)) = Some old
    | n :: _ => exists s, contents_of d (Some (last_file d0 i0 own)) = Some s /\ prefix_of s (text_of l n) /\ In (text_of l n) texts
        /\ (phase_of l n = Done -> s = text_of l n)
    end.
  Proof.
    intros S. destruct own as [|n own] using rev_ind; [|clear IHown].
    - cbn. rewrite (sh_first _ _ _ _ _ _ _ S) by exact i0_small. exact Hold.
    - rewrite rev_app_distr. cbn [rev app].
      assert (E : last_file d0 i0 (own ++ [n]) = length (k_data d0) + length own).
      { unfold last_file. destruct (own ++ [n]) eqn:E; [destruct own; discriminate|]. rewrite <- E, app_length. cbn. lia. }
      rewrite E. apply (made d l (own ++ [n]) r); [exact S|]. rewrite nth_error_app2 by lia. now rewrite Nat.sub_diag.
  Qed.
  Lemma last_but_one_made d l own r : shape d0 i0 texts d l own r ->
    match rev own with
    | [] => contents_of d (last_but_one d0 i0 own) = bak
    | [_] => contents_of d (last_but_one d0 i0 own) = Some old
    | _ :: n :: _ => exists s, contents_of d (last_but_one d0 i0 own) = Some s /\ prefix_of s (text_of l n) /\ In (text_of l n) texts
        /\ (phase_of l n = Done -> s = text_of l n)
    end.
  Proof.
    intros S. destruct own as [|n own] using rev_ind; [|clear IHown].
    - cbn. rewrite <- Hbak. unfold contents_of. destruct (k_bak d0) as [b|]; [|reflexivity]. now apply (sh_first _ _ _ _ _ _ _ S).
    - rewrite rev_app_distr. cbn [rev app]. destruct own as [|m own] using rev_ind; [|clear IHown].
      + cbn. rewrite (sh_first _ _ _ _ _ _ _ S) by exact i0_small. exact Hold.
      + rewrite rev_app_distr. cbn [rev app].
        assert (E : last_but_one d0 i0 ((own ++ [m]) ++ [n]) = Some (length (k_data d0) + length own)).
        { unfold last_but_one. destruct ((own ++ [m]) ++ [n]) as [|a [|b z]] eqn:E.
          - destruct own; discriminate.
          - apply (f_equal (@length nat)) in E. rewrite !app_length in E. cbn in E. lia.
          - rewrite <- E, !app_length. cbn. f_equal. lia. }
        rewrite E. apply (made d l ((own ++ [m]) ++ [n]) r); [exact S|]. rewrite <- app_assoc. rewrite nth_error_app2 by lia. now rewrite Nat.sub_diag.
  Qed.
End Facts.

(** C94: however the saves interleave, fail or are killed, the two files are never mixtures: each holds what was
    there, or the beginning of what one of the saves was writing. *)
Theorem C94_unmixed : forall d0 old bak texts tr d l s, file_with old bak d0 -> moves (d0, to_save texts) tr (d, l) ->
  (f_main (as_fs d) = Some s -> s = old \/ exists t, In t texts /\ prefix_of s t)
  /\ (f_bak (as_fs d) = Some s -> bak = Some s \/ s = old \/ exists t, In t texts /\ prefix_of s t).
Proof.
  intros d0 old bak texts tr d l s F M. destruct (file_is _ _ _ F) as (i0 & Hm & Ho & Hb & Hk).
  destruct (reach d0 i0 texts Hm tr _ M) as (own & r & S & _). cbn [fst snd] in S.
  pose proof (last_made d0 i0 old texts Ho d l own r S) as A. pose proof (last_but_one_made d0 i0 old bak texts Ho Hb Hk d l own r S) as B.
  assert (A' : contents_of d (Some (last_file d0 i0 own)) = Some s -> s = old \/ exists t, In t texts /\ prefix_of s t).
  { intros E. rewrite E in A. destruct (rev own) as [|n q]; [left; congruence|]. destruct A as (s' & [= <-] & P & I & _). right. eauto. }
  pose proof (sh_r _ _ _ _ _ _ _ S) as R. unfold as_fs. cbn [f_main f_bak]. destruct r as [n|].
  - destruct R as (_ & _ & -> & ->). split; [discriminate|]. intros E. right. now apply A'.
  - destruct R as (-> & ->). split; [exact A'|]. intros E. rewrite E in B. destruct (rev own) as [|n [|m q]]; [left; congruence|right; left; congruence|].
    destruct B as (s' & [= <-] & P & I & _). right. right. eauto.
Qed.
(** C94: when all saves that began are done, the file holds all of what the last to begin wrote, and .BAK all
    of what the one before wrote. *)
Theorem C94_last : forall d0 old bak texts tr d l, file_with old bak d0 -> moves (d0, to_save texts) tr (d, l) ->
  (forall n, settled (phase_of l n)) ->
  as_fs d = match map (text_of l) (began l tr) with
            | [] => mkFs (Some old) bak
            | [t] => mkFs (Some t) (Some old)
            | t :: t' :: _ => mkFs (Some t) (Some t')
            end.
Proof.
  intros d0 old bak texts tr d l F M Hs. destruct (file_is _ _ _ F) as (i0 & Hm & Ho & Hb & Hk).
  destruct (reach d0 i0 texts Hm tr _ M) as (own & r & S & (T & _)). cbn [fst snd] in *.
  pose proof (sh_r _ _ _ _ _ _ _ S) as R. destruct r as [n|].
  { exfalso. destruct R as (Hn & Hl & _). destruct (nth_error l n) as [x|] eqn:Hx; [|congruence].
    pose proof (sh_rest _ _ _ _ _ _ _ S n x Hx Hn) as P. cbn in P. rewrite Nat.eqb_refl in P. specialize (Hs n). unfold phase_of in Hs. rewrite Hx in Hs.
    destruct Hs as [Hs|[Hs|Hs]], P as [P|P]; congruence. }
  destruct R as (R1 & R2). cbn [app] in T. rewrite T. unfold as_fs. rewrite R1, R2.
  assert (D : forall n, In n own -> phase_of l n = Done).
  { intros n Hn. apply In_nth_error in Hn as (j & Hj). destruct (sh_own _ _ _ _ _ _ _ S j n Hj) as (x & s & Hx & _ & Hp).
    specialize (Hs n). unfold phase_of in *. rewrite Hx in *. destruct Hs as [Hs|[Hs|Hs]]; [rewrite Hs in Hp; destruct Hp|rewrite Hs in Hp; destruct Hp|exact Hs]. }
  pose proof (last_made d0 i0 old texts Ho d l own None S) as A. pose proof (last_but_one_made d0 i0 old bak texts Ho Hb Hk d l own None S) as B.
  assert (D' : forall n, In n (rev own) -> phase_of l n = Done) by (intros n Hn; apply D; now apply in_rev).
  destruct (rev own) as [|n [|m q]]; cbn [map].
  - now rewrite A, B.
  - destruct A as (s & -> & _ & _ & A). rewrite (A (D' n (or_introl eq_refl))), B. reflexivity.
  - destruct A as (s & -> & _ & _ & A). destruct B as (s' & -> & _ & _ & B).
    rewrite (A (D' n (or_introl eq_refl))), (B (D' m (or_intror (or_introl eq_refl)))). reflexivity.
Qed.
(** C94: while a save is between renaming and creating, every save that begins is refused: it changes nothing. *)
Theorem C94_refused : forall d0 old bak texts tr d l n m d' l', file_with old bak d0 -> moves (d0, to_save texts) tr (d, l) ->
  phase_of l n = Renamed -> phase_of l m = NotBegun -> move (d, l) m (d', l') -> d' = d /\ phase_of l' m = Refused.
Proof.
  intros d0 old bak texts tr d l n m d' l' F M Hn Hm M1. destruct (file_is _ _ _ F) as (i0 & Hi & Ho & Hb & Hk).
  destruct (reach d0 i0 texts Hi tr _ M) as (own & r & S & _). cbn [fst snd] in S.
  assert (R : k_main d = None).
  { unfold phase_of in Hn. destruct (nth_error l n) as [x|] eqn:Hx; [|discriminate].
    assert (Hno : ~ In n own).
    { intros H. apply In_nth_error in H as (j & Hj). destruct (sh_own _ _ _ _ _ _ _ S j n Hj) as (y & s & Hy & _ & Hp).
      rewrite Hx in Hy. injection Hy as <-. rewrite Hn in Hp. exact Hp. }
    pose proof (sh_rest _ _ _ _ _ _ _ S n x Hx Hno) as P. pose proof (sh_r _ _ _ _ _ _ _ S) as R. rewrite Hn in P.
    destruct r as [k|]; [apply R|]. destruct P; discriminate. }
  inversion M1 as [? ? ? x ? p' Hx H]; subst. unfold phase_of in Hm. rewrite Hx in Hm. rewrite Hm in H.
  rewrite (phase_put m p' l m x Hx), Nat.eqb_refl. inversion H as [? ? Hr|?| | | | |]; subst; [|auto].
  unfold do_rename in Hr. rewrite R in Hr. discriminate.
Qed.
(** C94, of "at every moment one of the two files is whole": so it is when no save begins while another is under
    way or after one was broken off. *)
Theorem C94_whole_partial : forall d0 old bak texts tr d l, file_with old bak d0 -> one_at_a_time (d0, to_save texts) tr (d, l) ->
  whole old texts (f_main (as_fs d)) \/ whole old texts (f_bak (as_fs d)).
Proof.
  intros d0 old bak texts tr d l F M. destruct (file_is _ _ _ F) as (i0 & Hm & Ho & Hb & Hk).
  assert (G : forall y, one_at_a_time (d0, to_save texts) tr y -> exists own r, shape d0 i0 texts (fst y) (snd y) own r /\ traced (snd y) tr own r
    /\ forall j n, nth_error own j = Some n -> r <> None \/ S j < length own -> phase_of (snd y) n = Done).
  { clear M d l. intros y M. remember (d0, to_save texts) as y0 eqn:E. induction M as [y|y0' tr y n z M IH Hc M1]; subst.
    - exists [], None. split; [apply (shape_0 d0 i0 texts Hm)|]. split; [apply traced_0|]. intros [|j] n; discriminate.
    - destruct (IH eq_refl) as (own & r & S & T & D). destruct y as [d l], z as [d' l']. cbn [fst snd] in *.
      destruct (traced_step d0 i0 texts _ _ _ _ _ _ _ _ S T M1) as (own' & r' & S' & T' & C & x & p' & Hx & -> & Hd).
      exists own', r'. split; [exact S'|]. split; [exact T'|].
      assert (Keep : forall m, phase_of l m = Done -> phase_of (put n p' l) m = Done).
      { intros m Hm'. rewrite (phase_put n p' l m x Hx). destruct (Nat.eqb_spec n m) as [<-|]; auto. }
      destruct C as [(-> & ->)|[(-> & -> & -> & P)|(-> & -> & ->)]].
      + intros j m Hj Hc'. apply Keep. exact (D j m Hj Hc').
      + intros j m Hj _. apply Keep. specialize (Hc P m). destruct (sh_own _ _ _ _ _ _ _ S j m Hj) as (y & s & Hy & _ & Hp).
        unfold phase_of in *. rewrite Hy in *. destruct Hc as [Hc|[Hc|Hc]]; [rewrite Hc in Hp; destruct Hp|rewrite Hc in Hp; destruct Hp|exact Hc].
      + intros j m Hj [Hc'|Hc']; [congruence|]. rewrite app_length in Hc'. cbn in Hc'. rewrite nth_error_app1 in Hj by lia. apply Keep.
        apply (D j m Hj). left. discriminate. }
  destruct (G _ M) as (own & r & S & _ & D). cbn [fst snd] in *. clear G.
  pose proof (last_made d0 i0 old texts Ho d l own r S) as A. pose proof (last_but_one_made d0 i0 old bak texts Ho Hb Hk d l own r S) as B.
  pose proof (sh_r _ _ _ _ _ _ _ S) as R. unfold as_fs. cbn [f_main f_bak].
  assert (D' : forall k n, nth_error (rev own) k = Some n -> r <> None \/ 0 < k -> phase_of l n = Done).
  { intros k n Hn Hr. assert (Lk : k < length own) by (rewrite <- rev_length; apply nth_error_Some; congruence).
    apply (D (length own - Datatypes.S k)); [|destruct Hr; [now left|right; lia]].
    rewrite <- (rev_involutive own), rev_length. rewrite <- Hn.
    rewrite (nth_error_nth' (rev (rev own)) 0) by (rewrite !rev_length; lia). rewrite (nth_error_nth' (rev own) 0) by (rewrite rev_length; lia).
    f_equal. rewrite rev_nth by (rewrite rev_length; lia). f_equal. rewrite rev_length. lia. }
  destruct r as [n|].
  - right. destruct R as (_ & _ & _ & ->). destruct (rev own) as [|m q]; [exists old; auto|]. destruct A as (s & A1 & _ & A2 & A3).
    exists s. split; [exact A1|]. right. rewrite (A3 (D' 0 m eq_refl ltac:(left; discriminate))). exact A2.
  - destruct R as (-> & ->). destruct (rev own) as [|n [|m q]]; [left; exists old; auto|right; exists old; auto|right].
    destruct B as (s & B1 & _ & B2 & B3). exists s. split; [exact B1|]. right. rewrite (B3 (D' 1 m eq_refl ltac:(right; lia))). exact B2.
Qed.
(** ** The other claims are false. *)
Definition one_file (old : str) : disk := mkDisk (Some 0) None [old].
Lemma one_file_with old : file_with old None (one_file old).
Proof. split; [reflexivity|]. split; [discriminate|]. split; reflexivity. Qed.
(** A schedule step by step. *)
Lemma go {y0 tr d l} n x d' p' : moves y0 tr (d, l) -> nth_error l n = Some x -> one_step (sv_text x) d (sv_phase x) d' p' ->
  moves y0 (n :: tr) (d', put n p' l).
Proof. intros M Hx H. eapply mvs_next; [exact M|]. econstructor; [exact Hx|exact H]. Qed.
(** Two programs saving at once, both killed: neither file is whole, and what was there is gone. *)
Theorem C94_refuted : forall old t t', old <> [] -> t <> [] -> t' <> [] ->
  exists tr d l, moves (one_file old, to_save [t; t']) tr (d, l) /\ as_fs d = mkFs (Some []) (Some [])
    /\ ~ whole old [t; t'] (f_main (as_fs d)) /\ ~ whole old [t; t'] (f_bak (as_fs d)).
Proof.
  intros old t t' Hold Ht Ht'. eexists _, _, _. split.
  - eapply (go 1); [eapply (go 1); [eapply (go 0); [eapply (go 0); [apply mvs_none|reflexivity|now apply on_rename]|reflexivity|now apply on_create]
      |reflexivity|now apply on_rename]|reflexivity|now apply on_create].
  - split; [reflexivity|]. split; intros (s & E & H); injection E as <-; destruct H as [H|[H|[H|[]]]]; congruence.
Qed.
(** Three programs that saved one after another, all with success: what the first saved is in neither file. *)
Lemma put_put n p q l : put n p (put n q l) = put n p l.
Proof. revert n. induction l as [|x l IH]; intros [|n]; cbn; [reflexivity|reflexivity|reflexivity|now rewrite IH]. Qed.
Lemma set_last (a : list str) s s' : set_nth (length a) s (a ++ [s']) = a ++ [s].
Proof. induction a as [|x a IH]; cbn; [reflexivity|now rewrite IH]. Qed.
Lemma nth_last (a : list str) s : nth (length a) (a ++ [s]) [] = s.
Proof. induction a as [|x a IH]; cbn; auto. Qed.
(** A save from its beginning to its end, nobody else moving. *)
Lemma save_alone y0 tr d l n t i : moves y0 tr (d, l) -> nth_error l n = Some (mkSaving t NotBegun) -> k_main d = Some i -> t <> [] ->
  moves y0 (n :: n :: n :: n :: tr) (mkDisk (Some (length (k_data d))) (Some i) (k_data d ++ [t]), put n Done l).
Proof.
  intros M Hn Hm Ht. 
  assert (P : forall p, nth_error (put n p l) n = Some (mkSaving t p)) by (intros p; rewrite put_get, Nat.eqb_refl, Hn; reflexivity).
  assert (M1 : moves y0 (n :: tr) (mkDisk None (Some i) (k_data d), put n Renamed l)).
  { eapply go; [exact M|exact Hn|]. apply on_rename. unfold do_rename. now rewrite Hm. }
  assert (M2 : moves y0 (n :: n :: tr) (mkDisk (Some (length (k_data d))) (Some i) (k_data d ++ [[]]), put n (Busy (length (k_data d)) 0 t) l)).
  { rewrite <- (put_put n _ Renamed l). eapply go; [exact M1|apply P|]. apply on_create. reflexivity. }
  assert (M3 : moves y0 (n :: n :: n :: tr) (mkDisk (Some (length (k_data d))) (Some i) (k_data d ++ [t]), put n (Busy (length (k_data d)) (length t) []) l)).
  { rewrite <- (put_put n _ (Busy (length (k_data d)) 0 t) l). eapply go; [exact M2|apply P|]. cbn [sv_phase sv_text].
    replace (mkDisk (Some (length (k_data d))) (Some i) (k_data d ++ [t]))
      with (do_write (length (k_data d)) 0 t (mkDisk (Some (length (k_data d))) (Some i) (k_data d ++ [[]]))).
    - pose proof (on_write t (mkDisk (Some (length (k_data d))) (Some i) (k_data d ++ [[]])) (length (k_data d)) 0 t [] Ht) as W.
      rewrite app_nil_r in W. exact W.
    - unfold do_write. cbn [k_main k_bak k_data]. rewrite nth_last. change (write_at 0 t []) with (write_at (length (@nil N)) t []). rewrite (write_end [] t), set_last. reflexivity. }
  rewrite <- (put_put n _ (Busy (length (k_data d)) (length t) []) l). eapply go; [exact M3|apply P|]. apply on_flushed.
Qed.
Theorem C94_lost_refuted : forall old t1 t2 t3, t1 <> [] -> t2 <> [] -> t3 <> [] -> t1 <> t2 -> t1 <> t3 ->
  exists tr d l, moves (one_file old, to_save [t1; t2; t3]) tr (d, l) /\ (forall n, n < 3 -> phase_of l n = Done)
    /\ f_main (as_fs d) <> Some t1 /\ f_bak (as_fs d) <> Some t1.
Proof.
  intros old t1 t2 t3 H1 H2 H3 N2 N3. pose proof (mvs_none (one_file old, to_save [t1; t2; t3])) as M.
  apply (save_alone _ _ _ _ 0 t1 0) in M; [|reflexivity|reflexivity|exact H1].
  apply (save_alone _ _ _ _ 1 t2 1) in M; [|reflexivity|reflexivity|exact H2].
  apply (save_alone _ _ _ _ 2 t3 2) in M; [|reflexivity|reflexivity|exact H3].
  eexists _, _, _. split; [exact M|]. split; [intros [|[|[|n]]] L; [reflexivity|reflexivity|reflexivity|lia]|].
  split; cbn; congruence.
Qed.

(** ** What the programs have learnt. *)
From Verif Require Import Keys Modes KanaBuilder FormChanger DictTypes Parser Lru Dictionary CState Context DefaultRule Demo Spec P_Dict T_Save T_Life.
(** The program started next answers as the one that began to save last. *)
Theorem C94_next_partial : forall enc (ds : list dents) d0 old bak tr d l n r c b, file_with old bak d0 ->
  moves (d0, to_save (map (save_text enc) ds)) tr (d, l) -> (forall n, settled (phase_of l n)) -> began l tr = n :: r ->
  exists e u, nth_error ds n = Some e /\ open_dictionary (as_fs d) = Some u
    /\ (sound_dents e -> keepable enc e -> same_answers (mkDict c (DUser e b)) (mkDict c (DUser (u_ents u) b))).
Proof.
  intros enc ds d0 old bak tr d l n r c b F M Hs Hb.
  pose proof (C94_last d0 old bak _ tr d l F M Hs) as E. rewrite Hb in E. cbn [map] in E.
  assert (Em : f_main (as_fs d) = Some (text_of l n)) by (rewrite E; destruct (map (text_of l) r); reflexivity). clear E.
  destruct (file_is _ _ _ F) as (i0 & Hm & _). destruct (reach d0 i0 _ Hm tr _ M) as (own & rr & S & (T & _)). cbn [fst snd] in *.
  assert (Hin : nth_error l n <> None).
  { assert (G : In n (match rr with Some n => [n] | None => [] end ++ rev own)) by (rewrite <- T, Hb; now left).
    apply in_app_iff in G as [G|G].
    - destruct rr as [m|]; [|destruct G]. destruct G as [->|[]]. apply (sh_r _ _ _ _ _ _ _ S).
    - apply in_rev in G. apply In_nth_error in G as (j & Hj). destruct (sh_own _ _ _ _ _ _ _ S j n Hj) as (x & s & Hx & _). congruence. }
  destruct (nth_error l n) as [x|] eqn:Hx; [|congruence].
  assert (Ht : nth_error (map (save_text enc) ds) n = Some (sv_text x)) by (rewrite <- (sh_text _ _ _ _ _ _ _ S), nth_error_map, Hx; reflexivity).
  rewrite nth_error_map in Ht. destruct (nth_error ds n) as [e|] eqn:He; [|discriminate]. injection Ht as Ht.
  exists e, (mkU (load_text (save_text enc e)) false). split; [reflexivity|]. split.
  - unfold open_dictionary. rewrite Em. unfold text_of. rewrite Hx, <- Ht. reflexivity.
  - intros Hsd Hk. cbn [u_ents]. rewrite (reload_exact enc e Hsd Hk). now apply remade_answers.
Qed.
(** What the other learnt is lost, although both saved with success: one program learns that か is 香, another,
    started on the same file before that, that あい is 藍; the file then says that か is 蚊. *)
Definition two_words : str := U "か /蚊/香/" ++ [10%N] ++ U "あい /愛/藍/" ++ [10%N].
Definition started_on (t : str) : world := demo [mkDict true (DUser (load_text t) false)].
(** The user dictionary of a program, saved. *)
Definition its_save (r : res (list out * world)) (f : fs) : option bool * fs :=
  match r with
  | Ok (_, w) => match dict_at 0 w with
                 | Some (mkDict _ (DUser e b)) => let (res, uf) := save_working (fun _ => true) (mkU e b) f in (res, snd uf)
                 | _ => (None, f)
                 end
  | Panic _ => (None, f)
  end.
Definition offers (t : option str) (reading : str) : option (list str) :=
  match t with
  | Some t => match get_all_candidates [mkDict true (DUser (load_text t) false)] (mkCK reading None) with Ok cs => Some (map c_output cs) | Panic _ => None end
  | None => None
  end.
Theorem C94_word_refuted : exists f1 f2,
  its_save (typed false (U "K a space space Return") (started_on two_words)) (mkFs (Some two_words) None) = (Some true, f1)
  /\ offers (f_main f1) (U "か") = Some [U "香"; U "蚊"]
  /\ its_save (typed false (U "A i space space Return") (started_on two_words)) f1 = (Some true, f2)
  /\ offers (f_main f2) (U "か") = Some [U "蚊"; U "香"] /\ offers (f_main f2) (U "あい") = Some [U "藍"; U "愛"].
Proof.
  destruct (its_save (typed false (U "K a space space Return") (started_on two_words)) (mkFs (Some two_words) None)) as [r1 f1] eqn:E1.
  destruct (its_save (typed false (U "A i space space Return") (started_on two_words)) f1) as [r2 f2] eqn:E2.
  assert (C : (r1, offers (f_main f1) (U "か"), r2, offers (f_main f2) (U "か"), offers (f_main f2) (U "あい"))
    = (Some true, Some [U "香"; U "蚊"], Some true, Some [U "蚊"; U "香"], Some [U "藍"; U "愛"])).
  { assert (F1 : f1 = snd (its_save (typed false (U "K a space space Return") (started_on two_words)) (mkFs (Some two_words) None))) by (rewrite E1; reflexivity).
    assert (R1 : r1 = fst (its_save (typed false (U "K a space space Return") (started_on two_words)) (mkFs (Some two_words) None))) by (rewrite E1; reflexivity).
    assert (F2 : f2 = snd (its_save (typed false (U "A i space space Return") (started_on two_words)) f1)) by (rewrite E2; reflexivity).
    assert (R2 : r2 = fst (its_save (typed false (U "A i space space Return") (started_on two_words)) f1)) by (rewrite E2; reflexivity).
    rewrite F2, R2, F1, R1. vm_compute. reflexivity. }
  exists f1, f2. 
  assert (C1 := f_equal (fun x => fst (fst (fst (fst x)))) C). assert (C2 := f_equal (fun x => snd (fst (fst (fst x)))) C).
  assert (C3 := f_equal (fun x => snd (fst (fst x))) C). assert (C4 := f_equal (fun x => snd (fst x)) C). assert (C5 := f_equal snd C).
  cbv beta iota delta [fst snd] in C1, C2, C3, C4, C5. rewrite C1, C3 in *. auto.
Qed.
(** Non-vacuity of the others: two saves that overlap and both end well, the second beginning while the first
    writes; and a schedule one at a time with a save that is refused. *)
Example C94_case : exists tr d l, moves (one_file (U "old"), to_save [U "first"; U "second"]) tr (d, l)
  /\ (forall n, settled (phase_of l n)) /\ began l tr = [1; 0] /\ as_fs d = mkFs (Some (U "second")) (Some (U "first")).
Proof.
  pose proof (mvs_none (one_file (U "old"), to_save [U "first"; U "second"])) as M.
  assert (G0 : forall old t t' y0 tr d l, moves y0 tr (d, l) -> (d, l) = (one_file old, to_save [t; t']) -> t <> [] -> t' <> [] ->
    moves y0 (0 :: 0 :: 1 :: 1 :: 1 :: 1 :: 0 :: 0 :: tr) (mkDisk (Some 2) (Some 1) [old; t; t'], [mkSaving t Done; mkSaving t' Done])).
  { intros old t t' y0 tr d l M0 [= -> ->] Ht Ht'.
    apply (go 0 (mkSaving t NotBegun) (mkDisk None (Some 0) [old]) Renamed) in M0; [|reflexivity|now apply on_rename].
    apply (go 0 (mkSaving t Renamed) (mkDisk (Some 1) (Some 0) [old; []]) (Busy 1 0 t)) in M0; [|reflexivity|now apply on_create].
    apply (save_alone _ _ _ _ 1 t' 1) in M0; [|reflexivity|reflexivity|exact Ht']. cbn in M0.
    apply (go 0 (mkSaving t (Busy 1 0 t)) (do_write 1 0 t (mkDisk (Some 2) (Some 1) [old; []; t'])) (Busy 1 (length t) [])) in M0; [|reflexivity|].
    - apply (go 0 (mkSaving t (Busy 1 (length t) [])) (mkDisk (Some 2) (Some 1) [old; t; t']) Done) in M0; [exact M0|reflexivity|].
      unfold do_write. cbn [k_data nth k_main k_bak set_nth]. change (write_at 0 t []) with (write_at (length (@nil N)) t []). rewrite (write_end [] t). apply on_flushed.
    - pose proof (on_write t (mkDisk (Some 2) (Some 1) [old; []; t']) 1 0 t [] Ht) as W. rewrite app_nil_r in W. exact W. }
  apply (G0 (U "old") (U "first") (U "second")) in M; [|reflexivity|discriminate|discriminate].
  eexists _, _, _. split; [exact M|]. split; [intros [|[|[|n]]]; cbn; unfold settled; auto|]. split; reflexivity.
Qed.
