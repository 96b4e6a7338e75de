(** Property C93: which words completion offers. *)
From Coq Require Import Lia Sorting.Sorted Permutation.
From Verif Require Import Str Keys Modes KanaBuilder FormChanger DictTypes Parser Lru Dictionary
  CState Context DefaultRule Demo Spec P_Dict T_Entry T_Dedup T_Complete.

(* ------------------------------------------------------------- specification *)
(** A suggestion: a word with its annotation, under a heading. *)
Record suggestion := mkSug { sg_heading : str; sg_word : str; sg_note : option str }.
(** A completable dictionary lists the word under a heading that starts with the text. *)
Definition suggests (ds : list dict) (k : ckey) (p : str) (x : suggestion) : Prop :=
  exists d e l, In d ds /\ d_completable d = true /\ lpeek (sg_heading x) (section (has_okuri k) d) = Some e
    /\ starts_with p (sg_heading x) /\ entry_candidates (ck_okuri k) e = Some l /\ In (mkDC (sg_word x) (sg_note x)) l.
(** By heading, then by word; a word with a later annotation, or with one at all, comes later. *)
Definition later (x y : suggestion) : Prop :=
  str_lt (sg_heading x) (sg_heading y) \/ sg_heading x = sg_heading y
  /\ (str_lt (sg_word x) (sg_word y) \/ sg_word x = sg_word y
      /\ match sg_note x, sg_note y with None, Some _ => True | Some a, Some b => str_lt a b | _, _ => False end).
(** The next suggestion in that order is of the same word. *)
Definition overshadowed (A : suggestion -> Prop) (x : suggestion) : Prop :=
  exists y, A y /\ later x y /\ sg_word y = sg_word x /\ forall z, A z -> later x z -> z = y \/ later y z.
(** The entries of a dictionary under headings that start with the text, by heading. *)
Definition headings_of (k : ckey) (p : str) (d : dict) (es : list entry) : Prop :=
  if d_completable d
  then StronglySorted str_lt (map e_midashi es)
       /\ forall e, In e es <-> starts_with p (e_midashi e) /\ lpeek (e_midashi e) (section (has_okuri k) d) = Some e
  else es = [].
Definition of_entry (o : option str) (e : entry) : list suggestion :=
  match entry_candidates o e with Some l => map (fun c => mkSug (e_midashi e) (dc_kouho c) (dc_annot c)) l | None => [] end.
(** All suggestions as they are found: dictionary after dictionary, heading after heading, candidate after candidate. *)
Definition found_one_by_one (ds : list dict) (k : ckey) (p : str) (all : list suggestion) : Prop :=
  exists ess, Forall2 (headings_of k p) ds ess /\ all = flat_map (of_entry (ck_okuri k)) (concat ess).
(** A list in the order in which its members are first found: when one is found first, just those before it have been found. *)
Definition as_found (all xs : list suggestion) : Prop :=
  forall a x b, xs = a ++ x :: b -> exists l r, all = l ++ x :: r /\ ~ In x l
    /\ (forall y, In y a -> In y l) /\ (forall y, In y b -> ~ In y l).
(** What a completion shows of a suggestion. *)
Definition as_candidate (o : option str) (x : suggestion) : candidate :=
  mkCand (sg_heading x) o (match o with Some _ => true | None => false end) (sg_word x) (sg_note x) (sg_word x).

(* -------------------------------------------------------------------- proofs *)
(** ** Removing duplicates, for any order. *)
Section Any.
  Context {T : Type} (cmp : T -> T -> comparison) (kouho : T -> str).
  Hypothesis cmp_eq : forall a b, cmp a b = Eq <-> a = b.
  Hypothesis cmp_sym : forall a b, cmp b a = CompOpp (cmp a b).
  Hypothesis cmp_trans : forall a b c, cmp a b = Lt -> cmp b c = Lt -> cmp a c = Lt.
  Definition lt (a b : T) : Prop := cmp a b = Lt.
  Definition le (a b : T) : Prop := cmp a b <> Gt.
  Lemma lt_irrefl a : ~ lt a a.
  Proof. unfold lt. intros H. assert (E : cmp a a = Eq) by now apply cmp_eq. congruence. Qed.
  Lemma le_cases a b : le a b <-> a = b \/ lt a b.
  Proof.
    unfold le, lt. split.
    - intros H. destruct (cmp a b) eqn:E; [left; now apply cmp_eq|now right|congruence].
    - intros [->|H]; [|congruence]. assert (E : cmp b b = Eq) by now apply cmp_eq. congruence.
  Qed.
  Lemma le_trans a b c : le a b -> le b c -> le a c.
  Proof. rewrite !le_cases. intros [->|H] [->|H']; auto. right. unfold lt in *. eauto. Qed.
  Lemma le_lt a b c : le a b -> lt b c -> lt a c.
  Proof. rewrite !le_cases. intros [->|H] H'; auto. unfold lt in *. eauto. Qed.
  Lemma total a b : le a b \/ lt b a.
  Proof. unfold le, lt. rewrite (cmp_sym a b). destruct (cmp a b); cbn; [left|left|right]; congruence. Qed.
  Lemma ins_in x l y : In y (insert_cmp cmp x l) <-> y = x \/ In y l.
  Proof.
    induction l as [|z l IH]; cbn; [intuition|]. destruct (cmp x z); cbn; [intuition|intuition|]. rewrite IH. intuition.
  Qed.
  Lemma srt_in l y : In y (sort_cmp cmp l) <-> In y l.
  Proof. induction l as [|x l IH]; cbn; [tauto|]. rewrite ins_in, IH. intuition. Qed.
  Lemma ins_sorted x l : StronglySorted le l -> StronglySorted le (insert_cmp cmp x l).
  Proof.
    induction 1 as [|y l Hs IH Hf]; cbn; [repeat constructor|].
    assert (Hc : le x y -> StronglySorted le (x :: y :: l)).
    { intros H. constructor; [constructor; assumption|]. constructor; [exact H|].
      eapply Forall_impl; [|exact Hf]. cbn. intros z. now apply le_trans. }
    destruct (cmp x y) eqn:E.
    - apply Hc. unfold le. congruence.
    - apply Hc. unfold le. congruence.
    - constructor; [exact IH|]. apply Forall_forall. intros z Hz. apply ins_in in Hz as [->|Hz].
      + unfold le. rewrite cmp_sym, E. discriminate.
      + rewrite Forall_forall in Hf. auto.
  Qed.
  Lemma srt_sorted l : StronglySorted le (sort_cmp cmp l).
  Proof. induction l as [|x l IH]; cbn; [constructor|]. now apply ins_sorted. Qed.
  Definition ge (a b : T) : Prop := le b a.
  Lemma rev_sorted l : StronglySorted le l -> StronglySorted ge (rev l).
  Proof.
    induction 1 as [|x l Hs IH Hf]; cbn; [constructor|].
    assert (G : forall m, StronglySorted ge m -> Forall (fun z => le x z) m -> StronglySorted ge (m ++ [x])).
    { induction 1 as [|y m Hm IHm Hfm]; intros Hx; cbn; [repeat constructor|].
      inversion Hx; subst. constructor; [now apply IHm|]. apply Forall_app. split; [exact Hfm|].
      constructor; [assumption|constructor]. }
    apply G; [exact IH|]. now apply Forall_rev.
  Qed.
  (** what is kept of a list: the elements whose predecessor has another text *)
  Lemma from_text p q l : kouho p = kouho q -> dedup_from kouho p l = dedup_from kouho q l.
  Proof.
    intros E. induction l as [|y l IH]; cbn; [reflexivity|]. rewrite E. destruct (str_eqb (kouho y) (kouho q)); [exact IH|reflexivity].
  Qed.
  Lemma from_adjacent l : forall q y, In y (dedup_from kouho q l) <->
    exists a p b, q :: l = a ++ p :: y :: b /\ kouho p <> kouho y.
  Proof.
    induction l as [|x l IH]; intros q y; cbn [dedup_from].
    - split; [intros []|]. intros (a & p & b & E & _). apply (f_equal (@length T)) in E. rewrite app_length in E. cbn in E. lia.
    - destruct (str_eqb_spec (kouho x) (kouho q)) as [Ex|Ex].
      + rewrite <- (from_text x q l Ex), IH. split.
        * intros (a & p & b & E & H). exists (q :: a), p, b. split; [cbn; now rewrite E|exact H].
        * intros (a & p & b & E & H). destruct a as [|q' a]; cbn in E.
          -- injection E as <- <- <-. congruence.
          -- injection E as _ E. exists a, p, b. auto.
      + cbn [In]. rewrite IH. split.
        * intros [->|(a & p & b & E & H)].
          -- exists [], q, l. split; [reflexivity|congruence].
          -- exists (q :: a), p, b. split; [cbn; now rewrite E|exact H].
        * intros (a & p & b & E & H). destruct a as [|q' a]; cbn in E.
          -- injection E as _ -> _. now left.
          -- injection E as _ E. right. exists a, p, b. auto.
  Qed.
  (** the next larger element has the same text *)
  Definition shadowed (l : list T) (y : T) : Prop :=
    exists p, In p l /\ lt y p /\ kouho p = kouho y /\ forall z, In z l -> lt y z -> le p z.
  Lemma sorted_split a : forall y b, StronglySorted ge (a ++ y :: b) -> (forall z, In z a -> le y z) /\ (forall z, In z b -> le z y).
  Proof.
    induction a as [|x a IH]; intros y b H; cbn in H; inversion H as [|? ? Hs Hf]; subst.
    - split; [intros z []|]. rewrite Forall_forall in Hf. exact Hf.
    - destruct (IH y b Hs) as (H1 & H2). split; [|exact H2]. intros z [<-|Hz]; [|auto].
      rewrite Forall_forall in Hf. apply Hf. apply in_app_iff. right. now left.
  Qed.
  Lemma eq_dec_cmp (a b : T) : {a = b} + {a <> b}.
  Proof. destruct (cmp a b) eqn:E; [left; now apply cmp_eq|right..]; intros ->; assert (cmp b b = Eq) by (now apply cmp_eq); congruence. Qed.
  Lemma first_split (y : T) (l : list T) : In y l -> exists a b, l = a ++ y :: b /\ ~ In y a.
  Proof.
    induction l as [|x l IH]; [intros []|]. destruct (eq_dec_cmp x y) as [->|N].
    - intros _. exists [], l. split; [reflexivity|intros []].
    - intros [E|H]; [contradiction|]. destruct (IH H) as (a & b & -> & Ha). exists (x :: a), b. split; [reflexivity|].
      intros [E|Hy]; [contradiction|now apply Ha].
  Qed.
  Lemma by_spec l : StronglySorted ge l -> forall y, In y (dedup_by kouho l) <-> In y l /\ ~ shadowed l y.
  Proof.
    intros Hs y. split.
    - destruct l as [|x l]; [intros []|]. intros [<-|H].
      + split; [now left|]. intros (p & [<-|Hp] & Hl & _); [now apply lt_irrefl in Hl|].
        inversion Hs as [|? ? _ Hf]; subst. rewrite Forall_forall in Hf. apply Hf in Hp. apply (lt_irrefl p). now apply le_lt with x.
      + apply from_adjacent in H as (a & p & b & E & H). rewrite E in *. clear E x l.
        split; [apply in_app_iff; right; right; now left|]. intros (p' & Hp & Hl & Hk & Hm).
        pose proof (sorted_split _ _ _ Hs) as (S1 & S2).
        assert (Hs' : StronglySorted ge ((a ++ [p]) ++ y :: b)) by now rewrite <- app_assoc.
        pose proof (sorted_split _ _ _ Hs') as (S3 & S4).
        assert (Lp : lt y p).
        { assert (L : le y p) by (apply S2; now left). apply le_cases in L as [->|L]; [congruence|exact L]. }
        assert (Lm : le p' p) by (apply Hm; [apply in_app_iff; right; now left|exact Lp]).
        apply in_app_iff in Hp. destruct Hp as [Hp|[Hp|[Hp|Hp]]].
        * apply S1 in Hp. apply le_cases in Lm as [->|Lm]; [congruence|]. apply (lt_irrefl p). now apply le_lt with p'.
        * congruence.
        * subst p'. now apply (lt_irrefl y).
        * apply S4 in Hp. apply (lt_irrefl p'). now apply le_lt with y.
    - intros (Hy & Hn). destruct (first_split y l Hy) as (a & b & -> & Ha).
      destruct (rev a) as [|p ra] eqn:R.
      + apply (f_equal (@rev T)) in R. rewrite rev_involutive in R. subst a. cbn. now left.
      + apply (f_equal (@rev T)) in R. rewrite rev_involutive in R. cbn in R. subst a. set (a := rev ra) in *. clearbody a. clear ra.
        pose proof (sorted_split _ _ _ Hs) as (S3 & S4).
        rewrite <- app_assoc in Hs. cbn [app] in Hs. pose proof (sorted_split _ _ _ Hs) as (S1 & _).
        assert (N : kouho p <> kouho y).
        { intros E. apply Hn. exists p. split; [rewrite <- app_assoc; apply in_app_iff; right; now left|]. split; [|split; [exact E|]].
          - assert (L : le y p) by (apply S3; apply in_app_iff; right; now left). apply le_cases in L as [<-|L]; [|exact L].
            exfalso. apply Ha. apply in_app_iff. right. now left.
          - intros z Hz Lz. rewrite <- app_assoc in Hz. apply in_app_iff in Hz. destruct Hz as [Hz|[<-|[<-|Hz]]].
            + now apply S1.
            + apply le_cases. now left.
            + now apply lt_irrefl in Lz.
            + apply S4 in Hz. exfalso. apply (lt_irrefl z). now apply le_lt with y. }
        rewrite <- app_assoc. cbn [app]. destruct a as [|x a]; cbn [app dedup_by].
        * right. apply from_adjacent. exists [], p, b. auto.
        * right. apply from_adjacent. exists (x :: a), p, b. auto.
  Qed.
  Lemma from_nodup l : forall q, StronglySorted ge (q :: l) -> NoDup (dedup_from kouho q l) /\ forall y, In y (dedup_from kouho q l) -> In y l /\ lt y q.
  Proof.
    induction l as [|x l IH]; intros q Hs; [split; [constructor|intros y []]|].
    inversion Hs as [|? ? Hs1 Hf]; subst. destruct (IH x Hs1) as (H1 & H2). pose proof (Forall_inv Hf) as Hx. cbn [dedup_from].
    destruct (str_eqb_spec (kouho x) (kouho q)) as [E|E].
    - rewrite <- (from_text x q l E). split; [exact H1|]. intros y Hy. destruct (H2 y Hy) as (Hl & Hlt). split; [now right|].
      unfold ge in Hx. apply le_cases in Hx as [->|Hx]; [exact Hlt|]. unfold lt in *. eauto.
    - assert (Lx : lt x q) by (unfold ge in Hx; apply le_cases in Hx as [->|Hx]; [congruence|exact Hx]). split.
      + constructor; [|exact H1]. intros Hx'. apply H2 in Hx' as (_ & Hx'). now apply lt_irrefl in Hx'.
      + intros y [<-|Hy]; [split; [now left|exact Lx]|]. destruct (H2 y Hy) as (Hl & Hlt). split; [now right|]. unfold lt in *. eauto.
  Qed.
  Lemma by_nodup l : StronglySorted ge l -> NoDup (dedup_by kouho l).
  Proof.
    destruct l as [|x l]; [constructor|]. intros Hs. destruct (from_nodup l x Hs) as (H1 & H2). cbn. constructor; [|exact H1].
    intros Hx. apply H2 in Hx as (_ & Hx). now apply lt_irrefl in Hx.
  Qed.
  (** ** Picking the kept ones, in the order they were found. *)
  Lemma eqc a b : eq_cmp cmp a b = true <-> a = b.
  Proof. unfold eq_cmp. rewrite <- cmp_eq. destruct (cmp a b); split; congruence. Qed.
  Lemma match_none x D : ~ In x D -> forall pos acc at_, matches cmp x pos D acc at_ = (acc, at_).
  Proof.
    induction D as [|y D IH]; intros Hn pos acc at_; cbn; [reflexivity|]. destruct (eq_cmp cmp y x) eqn:E.
    - apply eqc in E. exfalso. apply Hn. now left.
    - apply IH. intros H. apply Hn. now right.
  Qed.
  Lemma match_some x D : NoDup D -> In x D -> forall pos acc at_,
    exists a b, D = a ++ x :: b /\ matches cmp x pos D acc at_ = (acc ++ [x], Some (pos + length a)).
  Proof.
    induction 1 as [|y D Hy Hnd IH]; intros Hin pos acc at_; [destruct Hin|]. cbn. destruct (eq_cmp cmp y x) eqn:E.
    - apply eqc in E. subst y. exists [], D. split; [reflexivity|]. rewrite match_none by exact Hy. cbn. now rewrite Nat.add_0_r.
    - destruct Hin as [->|Hin]; [assert (E' : eq_cmp cmp x x = true) by (now apply eqc); congruence|].
      destruct (IH Hin (S pos) acc at_) as (a & b & -> & Hm). exists (y :: a), b. split; [reflexivity|]. rewrite Hm. cbn. now rewrite Nat.add_succ_r.
  Qed.
  (** each element at its first place *)
  Fixpoint firsts (l : list T) : list T :=
    match l with [] => [] | x :: r => x :: filter (fun y => negb (eq_cmp cmp y x)) (firsts r) end.
  Lemma filter_and (f g : T -> bool) l : filter f (filter g l) = filter (fun x => g x && f x) l.
  Proof. induction l as [|x l IH]; cbn; [reflexivity|]. destruct (g x); cbn; now rewrite IH. Qed.
  Lemma firsts_filter f l : firsts (filter f l) = filter f (firsts l).
  Proof.
    induction l as [|x l IH]; cbn; [reflexivity|]. destruct (f x) eqn:E; cbn.
    - f_equal. rewrite IH, !filter_and. apply filter_ext. intros y. apply andb_comm.
    - rewrite IH, filter_and. apply filter_ext. intros y. destruct (eq_cmp cmp y x) eqn:Ey; [|reflexivity].
      apply eqc in Ey. subst y. now rewrite E.
  Qed.
  Lemma pick_firsts l : forall D P, NoDup D -> (forall y, In y D <-> In y D /\ P y = true) -> (forall y, In y l -> P y = true -> In y D) ->
    pick cmp l D = firsts (filter P l).
  Proof.
    induction l as [|x l IH]; intros D P Hn HP HD; cbn [pick filter]; [reflexivity|]. destruct (P x) eqn:Px.
    - assert (Hin : In x D) by (apply HD; [now left|exact Px]).
      destruct (match_some x D Hn Hin 0 [] None) as (a & b & -> & ->). cbn [app Nat.add]. rewrite remove_nth_app. cbn [firsts]. f_equal.
      rewrite <- firsts_filter, filter_and. apply NoDup_remove in Hn as (Hn1 & Hn2). apply IH.
      + exact Hn1.
      + intros y. split; [|intros (H & _); exact H]. intros Hy. split; [exact Hy|]. apply andb_true_iff. split.
        * apply HP. apply in_app_iff in Hy. apply in_app_iff. cbn. tauto.
        * apply negb_true_iff. destruct (eq_cmp cmp y x) eqn:E; [|reflexivity]. apply eqc in E. subst y. contradiction.
      + intros y Hy Py. apply andb_true_iff in Py as (Py & Ny). apply negb_true_iff in Ny.
        specialize (HD y (or_intror Hy) Py). apply in_app_iff in HD. apply in_app_iff. destruct HD as [H|[H|H]]; auto.
        subst y. assert (E : eq_cmp cmp x x = true) by (now apply eqc). congruence.
    - assert (Hni : ~ In x D) by (intros H; apply HP in H as (_ & H); congruence). rewrite match_none by exact Hni. cbn [app].
      apply IH; [exact Hn|exact HP|]. intros y Hy. apply HD. now right.
  Qed.
  Lemma firsts_in l y : In y (firsts l) <-> In y l.
  Proof.
    induction l as [|x l IH]; cbn; [tauto|]. split.
    - intros [H|H]; [auto|]. apply filter_In in H as (H & _). right. now apply IH.
    - intros [H|H]; [auto|]. destruct (eq_cmp cmp y x) eqn:E; [apply eqc in E; auto|]. right. apply filter_In. split; [now apply IH|now rewrite E].
  Qed.
  Lemma firsts_nodup l : NoDup (firsts l).
  Proof.
    induction l as [|x l IH]; cbn; [constructor|]. constructor; [|now apply NoDup_filter].
    intros H. apply filter_In in H as (_ & H). assert (E : eq_cmp cmp x x = true) by (now apply eqc). now rewrite E in H.
  Qed.
  Lemma shadowed_ext l l' y : (forall z, In z l <-> In z l') -> shadowed l y -> shadowed l' y.
  Proof. intros E (p & H1 & H2 & H3 & H4). exists p. split; [now apply E|]. split; [exact H2|]. split; [exact H3|]. intros z Hz. apply H4. now apply E. Qed.
  Lemma dedup_any l : exists P, dedup_candidates cmp kouho l = firsts (filter P l) /\ forall y, In y l -> (P y = true <-> ~ shadowed l y).
  Proof.
    unfold dedup_candidates. set (L := rev (sort_cmp cmp l)).
    assert (Hs : StronglySorted ge L) by apply rev_sorted, srt_sorted.
    assert (HL : forall z, In z L <-> In z l) by (intros z; unfold L; rewrite <- in_rev; apply srt_in).
    assert (HD : forall y, In y (rev (dedup_by kouho L)) <-> In y l /\ ~ shadowed l y).
    { intros y. rewrite <- in_rev, (by_spec L Hs), HL. split; intros (H1 & H2); (split; [exact H1|]); intros H; apply H2; eapply shadowed_ext; try exact H; intros; [symmetry|]; apply HL. }
    set (P := fun y => existsb (fun z => eq_cmp cmp z y) (rev (dedup_by kouho L))).
    assert (HP : forall y, P y = true <-> In y (rev (dedup_by kouho L))).
    { intros y. unfold P. rewrite existsb_exists. split; [intros (z & Hz & E); apply eqc in E; now subst|intros H; exists y; split; [exact H|now apply eqc]]. }
    exists P. split.
    - apply pick_firsts; [apply NoDup_rev, by_nodup, Hs| |].
      + intros y. rewrite HP. tauto.
      + intros y _. now rewrite HP.
    - intros y Hy. rewrite HP, HD. tauto.
  Qed.
  Lemma next_exists l y : (exists p, In p l /\ lt y p) -> exists q, In q l /\ lt y q /\ forall z, In z l -> lt y z -> le q z.
  Proof.
    induction l as [|x l IH]; [intros (p & [] & _)|]. intros (p & Hp & Hy).
    assert (C : (exists p, In p l /\ lt y p) \/ forall z, In z l -> ~ lt y z).
    { clear. induction l as [|z l [H|H]]; [right; intros z []|left; destruct H as (p & H1 & H2); exists p; split; [now right|exact H2]|].
      unfold lt at 1 2. destruct (cmp y z) eqn:E; [right|left|right].
      - intros u [<-|Hu]; [congruence|now apply H].
      - exists z. split; [now left|exact E].
      - intros u [<-|Hu]; [congruence|now apply H]. }
    destruct C as [C|C].
    - destruct (IH C) as (q & H1 & H2 & H3). assert (D : lt y x \/ ~ lt y x) by (unfold lt; destruct (cmp y x); [right|left|right]; congruence).
      destruct D as [D|D].
      + destruct (total q x) as [L|L].
        * exists q. split; [now right|]. split; [exact H2|]. intros z [<-|Hz] Lz; [exact L|now apply H3].
        * exists x. split; [now left|]. split; [exact D|]. intros z [<-|Hz] Lz; [apply le_cases; now left|].
          apply le_trans with q; [apply le_cases; now right|now apply H3].
      + exists q. split; [now right|]. split; [exact H2|]. intros z [<-|Hz] Lz; [contradiction|now apply H3].
    - destruct Hp as [<-|Hp]; [|destruct (C p Hp Hy)]. exists x. split; [now left|]. split; [exact Hy|].
      intros z [<-|Hz] Lz; [apply le_cases; now left|destruct (C z Hz Lz)].
  Qed.
  Lemma unshadowed_exists l y : In y l -> exists z, In z l /\ kouho z = kouho y /\ ~ shadowed l z.
  Proof.
    intros Hy. assert (M : exists z, In z l /\ kouho z = kouho y /\ forall u, In u l -> kouho u = kouho y -> le u z).
    { remember (kouho y) as t eqn:Et.
      assert (G : (exists z, In z l /\ kouho z = t /\ forall u, In u l -> kouho u = t -> le u z) \/ forall u, In u l -> kouho u <> t).
      { clear y Hy Et. induction l as [|x l [H|H]]; [right; intros u []|left|].
        - destruct H as (z & H1 & H2 & H3). destruct (str_eqb_spec (kouho x) t) as [E|E].
          + destruct (total x z) as [L|L].
            * exists z. split; [now right|]. split; [exact H2|]. intros u [<-|Hu] Eu; [exact L|now apply H3].
            * exists x. split; [now left|]. split; [exact E|]. intros u [<-|Hu] Eu; [apply le_cases; now left|].
              apply le_trans with z; [now apply H3|apply le_cases; now right].
          + exists z. split; [now right|]. split; [exact H2|]. intros u [<-|Hu] Eu; [contradiction|now apply H3].
        - destruct (str_eqb_spec (kouho x) t) as [E|E]; [left|right].
          + exists x. split; [now left|]. split; [exact E|]. intros u [<-|Hu] Eu; [apply le_cases; now left|destruct (H u Hu Eu)].
          + intros u [<-|Hu]; [exact E|now apply H]. }
      destruct G as [G|G]; [exact G|]. destruct (G y Hy). now symmetry. }
    destruct M as (z & H1 & H2 & H3). exists z. split; [exact H1|]. split; [exact H2|]. intros (p & P1 & P2 & P3 & _).
    assert (L : le p z) by (apply H3; [exact P1|congruence]). apply (lt_irrefl p). now apply le_lt with z.
  Qed.
  Lemma filter_split (f : T -> bool) l : forall a x b, filter f l = a ++ x :: b ->
    exists a' b', l = a' ++ x :: b' /\ filter f a' = a /\ filter f b' = b /\ f x = true.
  Proof.
    induction l as [|y l IH]; intros a x b E; cbn in E; [destruct a; discriminate E|]. destruct (f y) eqn:Fy.
    - destruct a as [|z a]; cbn in E.
      + injection E as -> <-. exists [], l. auto.
      + injection E as <- E. destruct (IH _ _ _ E) as (a' & b' & -> & H2 & H3 & H4). exists (y :: a'), b'. cbn. rewrite Fy, H2. auto.
    - destruct (IH _ _ _ E) as (a' & b' & -> & H2 & H3 & H4). exists (y :: a'), b'. cbn. rewrite Fy. auto.
  Qed.
  Lemma firsts_found l : forall a x b, firsts l = a ++ x :: b ->
    exists l1 r, l = l1 ++ x :: r /\ ~ In x l1 /\ (forall y, In y a -> In y l1) /\ (forall y, In y b -> ~ In y l1).
  Proof.
    induction l as [|x0 l IH]; intros a x b E; cbn in E; [destruct a; discriminate E|]. destruct a as [|z a]; cbn in E.
    - injection E as -> _. exists [], l. split; [reflexivity|]. split; [intros []|]. split; [intros y []|intros y _ []].
    - injection E as <- E. apply filter_split in E as (a' & b' & E & Ha & Hb & Hx). destruct (IH _ _ _ E) as (l1 & r & -> & H1 & H2 & H3).
      exists (x0 :: l1), r. split; [reflexivity|].
      assert (N : forall y, negb (eq_cmp cmp y x0) = true -> y <> x0).
      { intros y Hy ->. assert (Q : eq_cmp cmp x0 x0 = true) by (now apply eqc). now rewrite Q in Hy. }
      split; [intros [->|H]; [now apply (N x)|contradiction]|]. split.
      + intros y [<-|Hy]; [now left|]. right. apply H2. rewrite <- Ha in Hy. now apply filter_In in Hy as (Hy & _).
      + intros y Hy. rewrite <- Hb in Hy. apply filter_In in Hy as (Hy & Ny). intros [->|H]; [now apply (N y)|now apply (H3 y)].
  Qed.
  Lemma dedup_found l P : forall a x b, firsts (filter P l) = a ++ x :: b ->
    exists l1 r, l = l1 ++ x :: r /\ ~ In x l1 /\ (forall y, In y a -> In y l1) /\ (forall y, In y b -> ~ In y l1).
  Proof.
    intros a x b E. rewrite firsts_filter in E. apply filter_split in E as (a' & b' & E & Ha & Hb & _).
    destruct (firsts_found l _ _ _ E) as (l1 & r & H1 & H2 & H3 & H4). exists l1, r. split; [exact H1|]. split; [exact H2|]. split.
    - intros y Hy. apply H3. rewrite <- Ha in Hy. now apply filter_In in Hy as (Hy & _).
    - intros y Hy. apply H4. rewrite <- Hb in Hy. now apply filter_In in Hy as (Hy & _).
  Qed.
End Any.

(** ** The order of suggestions. *)
Definition cc_of (o : option str) (x : suggestion) : ccand := mkCC (sg_heading x) o (sg_word x) (sg_note x).
Lemma ostr_eq a b : ostr_cmp a b = Eq <-> a = b.
Proof.
  destruct a as [a|], b as [b|]; cbn; split; try congruence; try discriminate.
  - intros H. apply str_cmp_eq in H. now subst.
  - intros [= ->]. apply str_cmp_refl.
Qed.
Lemma ostr_sym a b : ostr_cmp b a = CompOpp (ostr_cmp a b).
Proof. destruct a, b; cbn; try reflexivity. apply str_cmp_antisym. Qed.
Lemma ostr_trans a b c : ostr_cmp a b = Lt -> ostr_cmp b c = Lt -> ostr_cmp a c = Lt.
Proof. destruct a, b, c; cbn; try congruence. apply str_cmp_lt_trans. Qed.
Definition lex (a b : comparison) : comparison := match a with Eq => b | c => c end.
Lemma cc_lex a b : ccand_cmp a b = lex (str_cmp (cc_midashi a) (cc_midashi b)) (lex (ostr_cmp (cc_okuri a) (cc_okuri b))
  (lex (str_cmp (cc_kouho a) (cc_kouho b)) (ostr_cmp (cc_annot a) (cc_annot b)))).
Proof.
  unfold ccand_cmp, lex. destruct (str_cmp (cc_midashi a) (cc_midashi b)); try reflexivity. destruct (ostr_cmp (cc_okuri a) (cc_okuri b)); try reflexivity.
  destruct (str_cmp (cc_kouho a) (cc_kouho b)); reflexivity.
Qed.
Lemma lex_eq a b : lex a b = Eq <-> a = Eq /\ b = Eq.
Proof. destruct a; cbn; intuition congruence. Qed.
Lemma lex_opp a b : CompOpp (lex a b) = lex (CompOpp a) (CompOpp b).
Proof. now destruct a. Qed.
Lemma lex_lt a b : lex a b = Lt <-> a = Lt \/ a = Eq /\ b = Lt.
Proof. destruct a; cbn; intuition congruence. Qed.
Lemma cc_eq a b : ccand_cmp a b = Eq <-> a = b.
Proof.
  rewrite cc_lex, !lex_eq, !str_cmp_eq, !ostr_eq. destruct a, b; cbn. split; [intros (-> & -> & -> & ->); reflexivity|intros [= -> -> -> ->]; auto].
Qed.
Lemma cc_sym a b : ccand_cmp b a = CompOpp (ccand_cmp a b).
Proof. rewrite !cc_lex, !lex_opp. rewrite <- !str_cmp_antisym, <- !ostr_sym. reflexivity. Qed.
Lemma lex_trans (a b c a' b' c' : comparison) : 
  (a = Lt -> b = Lt -> c = Lt) -> (a = Eq -> c = b) -> (b = Eq -> c = a) -> (a' = Lt -> b' = Lt -> c' = Lt) ->
  lex a a' = Lt -> lex b b' = Lt -> lex c c' = Lt.
Proof.
  intros H1 H2 H3 H4. rewrite !lex_lt. intros [A|(A & A')] [B|(B & B')].
  - left. auto.
  - left. rewrite H3; auto.
  - left. rewrite H2; auto.
  - right. split; [rewrite H2; auto|auto].
Qed.
Lemma str_left a b c : str_cmp a b = Eq -> str_cmp a c = str_cmp b c.
Proof. intros H. apply str_cmp_eq in H. now subst. Qed.
Lemma str_right a b c : str_cmp b c = Eq -> str_cmp a c = str_cmp a b.
Proof. intros H. apply str_cmp_eq in H. now subst. Qed.
Lemma cc_trans a b c : ccand_cmp a b = Lt -> ccand_cmp b c = Lt -> ccand_cmp a c = Lt.
Proof.
  rewrite !cc_lex. apply lex_trans; [apply str_cmp_lt_trans|apply str_left|apply str_right|].
  apply lex_trans; [apply ostr_trans| | |].
  - intros H. apply ostr_eq in H. now rewrite H.
  - intros H. apply ostr_eq in H. now rewrite H.
  - apply lex_trans; [apply str_cmp_lt_trans|apply str_left|apply str_right|apply ostr_trans].
Qed.
Lemma later_lt o x y : later x y <-> ccand_cmp (cc_of o x) (cc_of o y) = Lt.
Proof.
  rewrite cc_lex, !lex_lt. cbn [cc_of cc_midashi cc_okuri cc_kouho cc_annot]. rewrite !str_cmp_eq. 
  assert (E : ostr_cmp o o = Eq) by now apply ostr_eq. rewrite E. unfold later, str_lt.
  destruct (sg_note x) as [a|], (sg_note y) as [b|]; cbn; intuition congruence.
Qed.
Lemma cc_of_inj o x y : cc_of o x = cc_of o y -> x = y.
Proof. destruct x, y. cbn. intros [= -> -> ->]. reflexivity. Qed.
Lemma as_candidate_cc o x : candidate_of_ccand (cc_of o x) = as_candidate o x.
Proof. reflexivity. Qed.

(** ** What is found. *)
Lemma found ds k p : Forall built ds -> get_dict_key k = Ok p -> exists ess, Forall2 (headings_of k p) ds ess
  /\ complete_in_order ds k = Ok (map (cc_of (ck_okuri k)) (flat_map (of_entry (ck_okuri k)) (concat ess))).
Proof.
  intros Hb Hp. induction Hb as [|d ds Hd _ IH]; [exists []; split; [constructor|reflexivity]|].
  destruct IH as (ess & F & E). cbn [complete_in_order]. rewrite E.
  assert (G : exists es, headings_of k p d es /\ (if d_completable d then complete d k else Ok []) = Ok es).
  { unfold headings_of. destruct (d_completable d); [|exists []; auto]. destruct (C32_complete d k p Hd Hp) as (es & H1 & H2 & H3). exists es. auto. }
  destruct G as (es & H & ->). exists (es :: ess). split; [now constructor|]. cbn [rbind rmap concat]. f_equal.
  rewrite flat_map_app, map_app. f_equal. clear. induction es as [|e es IH]; [reflexivity|]. cbn [flat_map]. rewrite map_app, IH. f_equal.
  unfold of_entry. destruct (entry_candidates (ck_okuri k) e) as [l|]; [|reflexivity]. rewrite map_map. reflexivity.
Qed.
Lemma found_suggests ds k p ess : Forall2 (headings_of k p) ds ess -> Forall built ds ->
  forall x, In x (flat_map (of_entry (ck_okuri k)) (concat ess)) <-> suggests ds k p x.
Proof.
  intros F Hb x. rewrite in_flat_map. unfold suggests. split.
  - intros (e & He & Hx). apply in_concat in He as (es & Hes & He).
    assert (G : exists d, In d ds /\ headings_of k p d es).
    { clear -F Hes. induction F as [|d es' ds ess H F IH]; [destruct Hes|]. destruct Hes as [->|Hes]; [exists d; split; [now left|exact H]|].
      destruct (IH Hes) as (d' & H1 & H2). exists d'. split; [now right|exact H2]. }
    destruct G as (d & Hd & H). unfold headings_of in H. destruct (d_completable d) eqn:C; [|subst es; destruct He].
    destruct H as (_ & H). apply H in He as (H1 & H2). unfold of_entry in Hx. destruct (entry_candidates (ck_okuri k) e) as [l|] eqn:El; [|destruct Hx].
    apply in_map_iff in Hx as (c & <- & Hc). cbn [sg_heading sg_word sg_note]. exists d, e, l. repeat split; auto. destruct c; exact Hc.
  - intros (d & e & l & Hd & C & Hl & Hs & El & Hx).
    assert (G : exists es, In es ess /\ headings_of k p d es).
    { clear -F Hd. induction F as [|d' es ds ess H F IH]; [destruct Hd|]. destruct Hd as [->|Hd]; [exists es; split; [now left|exact H]|].
      destruct (IH Hd) as (es' & H1 & H2). exists es'. split; [now right|exact H2]. }
    destruct G as (es & Hes & H). unfold headings_of in H. rewrite C in H. destruct H as (_ & H).
    assert (Em : e_midashi e = sg_heading x).
    { rewrite Forall_forall in Hb. destruct (built_section d (has_okuri k) (Hb d Hd)) as (_ & Hm). apply Hm. now apply lpeek_in. }
    exists e. split; [apply in_concat; exists es; split; [exact Hes|]; apply H; rewrite Em; auto|].
    unfold of_entry. rewrite El. apply in_map_iff. exists (mkDC (sg_word x) (sg_note x)). split; [|exact Hx]. rewrite Em. now destruct x.
Qed.

Lemma in_cc o l y : In (cc_of o y) (map (cc_of o) l) <-> In y l.
Proof.
  rewrite in_map_iff. split; [intros (x & E & H); apply cc_of_inj in E; now subst|intros H; exists y; auto].
Qed.
Lemma map_split o (xs : list suggestion) a x b : map (cc_of o) xs = a ++ x :: b ->
  exists a' x' b', xs = a' ++ x' :: b' /\ a = map (cc_of o) a' /\ x = cc_of o x' /\ b = map (cc_of o) b'.
Proof.
  revert a. induction xs as [|y xs IH]; intros [|z a] E; cbn in E; try discriminate E.
  - injection E as <- <-. exists [], y, xs. auto.
  - injection E as <- E. destruct (IH _ E) as (a' & x' & b' & -> & -> & -> & ->). exists (y :: a'), x', b'. auto.
Qed.
Lemma shadowed_iff o all x : shadowed ccand_cmp cc_kouho (map (cc_of o) all) (cc_of o x) <-> overshadowed (fun y => In y all) x.
Proof.
  unfold shadowed, overshadowed. split.
  - intros (p & Hp & H1 & H2 & H3). apply in_map_iff in Hp as (y & <- & Hy). exists y. split; [exact Hy|]. split; [now apply (later_lt o)|].
    split; [exact H2|]. intros z Hz Lz. assert (L : le ccand_cmp (cc_of o y) (cc_of o z)) by (apply H3; [now apply in_cc|now apply (later_lt o)]).
    apply (le_cases _ cc_eq) in L as [L|L]; [left; now apply cc_of_inj in L|right; now apply (later_lt o)].
  - intros (y & Hy & H1 & H2 & H3). exists (cc_of o y). split; [now apply in_cc|]. split; [now apply later_lt|]. split; [exact H2|].
    intros z Hz Lz. apply in_map_iff in Hz as (z' & <- & Hz). apply (le_cases _ cc_eq). destruct (H3 z' Hz) as [->|L]; [now apply (later_lt o)|now left|right].
    now apply later_lt.
Qed.
Lemma overshadowed_ext A B x : (forall y, A y <-> B y) -> overshadowed A x <-> overshadowed B x.
Proof.
  intros E. unfold overshadowed. split; intros (y & H1 & H2 & H3 & H4); exists y; (split; [now apply E|]); (split; [exact H2|]); (split; [exact H3|]);
    intros z Hz; apply H4; now apply E.
Qed.
(** C93, exactly which: completing offers, in the order in which they are found, the suggestions whose next in the
    order of headings, words and annotations is of another word. *)
Theorem C93_exact : forall ds k p, Forall built ds -> get_dict_key k = Ok p ->
  exists all xs, found_one_by_one ds k p all /\ (forall x, In x all <-> suggests ds k p x)
    /\ get_all_complete ds k = Ok (map (as_candidate (ck_okuri k)) xs)
    /\ NoDup xs /\ as_found all xs
    /\ forall x, In x xs <-> suggests ds k p x /\ ~ overshadowed (suggests ds k p) x.
Proof.
  intros ds k p Hb Hp. destruct (found ds k p Hb Hp) as (ess & F & E).
  pose proof (found_suggests ds k p ess F Hb) as S. set (all := flat_map (of_entry (ck_okuri k)) (concat ess)) in *.
  destruct (dedup_any ccand_cmp cc_kouho cc_eq cc_sym cc_trans (map (cc_of (ck_okuri k)) all)) as (P & D & HP).
  assert (G : exists xs, firsts ccand_cmp (filter P (map (cc_of (ck_okuri k)) all)) = map (cc_of (ck_okuri k)) xs).
  { assert (G : forall l, (forall y, In y l -> exists x, y = cc_of (ck_okuri k) x) -> exists xs, l = map (cc_of (ck_okuri k)) xs).
    { induction l as [|y l IH]; intros H; [exists []; reflexivity|]. destruct (H y (or_introl eq_refl)) as (x & ->).
      destruct IH as (xs & ->); [intros z Hz; apply H; now right|]. exists (x :: xs). reflexivity. }
    apply G. intros y Hy. rewrite (firsts_in _ cc_kouho cc_eq) in Hy. apply filter_In in Hy as (Hy & _). apply in_map_iff in Hy as (x & <- & _). now exists x. }
  destruct G as (xs & G). exists all, xs. split; [exists ess; auto|]. split; [exact S|]. split.
  { unfold get_all_complete. rewrite E. cbn [rmap rbind]. rewrite D, G, map_map. reflexivity. }
  split. { apply (NoDup_map_inv (cc_of (ck_okuri k))). rewrite <- G. apply (firsts_nodup _ cc_eq). }
  split.
  - intros a x b ->. rewrite map_app in G. cbn [map] in G. destruct (dedup_found _ cc_eq _ _ _ _ _ G) as (l1 & r & H1 & H2 & H3 & H4).
    apply map_split in H1 as (l1' & x' & r' & H1 & -> & Hx & ->). apply cc_of_inj in Hx. subst x'. exists l1', r'. split; [exact H1|].
    split; [intros H; apply H2; now apply in_cc|]. split.
    + intros y Hy. apply (in_cc (ck_okuri k)). apply H3. now apply in_map.
    + intros y Hy H. apply (H4 (cc_of (ck_okuri k) y)); [now apply in_map|now apply in_cc].
  - intros x. rewrite <- (in_cc (ck_okuri k)), <- G, (firsts_in _ cc_kouho cc_eq), filter_In, in_cc, <- S.
    rewrite <- (overshadowed_ext _ _ x S), <- (shadowed_iff (ck_okuri k)).
    split; intros (H1 & H2); (split; [exact H1|]); apply HP; auto; now apply in_cc.
Qed.
(** C93: no word is lost, and no word is offered twice under one heading. *)
Theorem C93_offered_partial : forall ds k p cs, Forall built ds -> get_dict_key k = Ok p -> get_all_complete ds k = Ok cs ->
  (forall t, In t (map c_output cs) <-> exists x, suggests ds k p x /\ sg_word x = t)
  /\ NoDup (map (fun c => (c_midashi c, c_output c)) cs).
Proof.
  intros ds k p cs Hb Hp Hc. destruct (C93_exact ds k p Hb Hp) as (all & xs & _ & S & E & N & _ & X).
  rewrite Hc in E. injection E as ->. rewrite !map_map. cbn [as_candidate c_output c_midashi].
  assert (Hsh : forall x, In x xs <-> In x all /\ ~ shadowed ccand_cmp cc_kouho (map (cc_of None) all) (cc_of None x)).
  { intros x. rewrite X, <- S, (shadowed_iff None), (overshadowed_ext _ _ x S). tauto. }
  split.
  - intros t. rewrite in_map_iff. split.
    + intros (x & <- & Hx). exists x. split; [now apply X|reflexivity].
    + intros (x & Hx & <-). apply S in Hx. apply (in_cc None) in Hx.
      destruct (unshadowed_exists ccand_cmp cc_kouho cc_eq cc_sym cc_trans _ _ Hx) as (z & Hz & Ez & Nz).
      apply in_map_iff in Hz as (y & <- & Hy). exists y. split; [exact Ez|]. apply Hsh. auto.
  - assert (G : forall x y, In x xs -> In y xs -> (sg_heading x, sg_word x) = (sg_heading y, sg_word y) -> x = y).
    { assert (W : forall x y, In x xs -> In y xs -> sg_heading x = sg_heading y -> sg_word x = sg_word y -> ~ later x y).
      { intros x y Hx Hy E1 E2 L. apply Hsh in Hx as (Hx & Nx). apply Hsh in Hy as (Hy & _). apply Nx.
        destruct (next_exists ccand_cmp cc_eq cc_sym cc_trans (map (cc_of None) all) (cc_of None x)) as (q & Hq & L1 & L2).
        { exists (cc_of None y). split; [now apply in_cc|now apply later_lt]. }
        exists q. split; [exact Hq|]. split; [exact L1|]. split; [|exact L2].
        apply in_map_iff in Hq as (z & <- & Hz). cbn [cc_of cc_kouho]. apply (later_lt None) in L1.
        assert (L3 : le ccand_cmp (cc_of None z) (cc_of None y)) by (apply L2; [now apply in_cc|now apply later_lt]).
        apply (le_cases _ cc_eq) in L3 as [L3|L3]; [apply cc_of_inj in L3; now subst|]. apply (later_lt None) in L3.
        unfold later in L1, L3. rewrite <- E1, <- E2 in L3.
        destruct L1 as [L1|(L1 & L1')].
        - exfalso. destruct L3 as [L3|(L3 & _)]; [apply (str_lt_irrefl (sg_heading x)); eapply str_lt_trans; eauto|].
          rewrite L3 in L1. now apply str_lt_irrefl in L1.
        - destruct L1' as [L1'|(L1' & _)]; [|now symmetry]. exfalso. destruct L3 as [L3|(_ & L3)].
          + rewrite L1 in L3. now apply str_lt_irrefl in L3.
          + destruct L3 as [L3|(L3 & _)]; [apply (str_lt_irrefl (sg_word x)); eapply str_lt_trans; eauto|].
            rewrite L3 in L1'. now apply str_lt_irrefl in L1'. }
      intros x y Hx Hy [= E1 E2]. destruct (ccand_cmp (cc_of None x) (cc_of None y)) eqn:C.
      - apply cc_eq in C. now apply cc_of_inj in C.
      - exfalso. apply (W x y Hx Hy E1 E2). now apply (later_lt None).
      - exfalso. apply (W y x Hy Hx (eq_sym E1) (eq_sym E2)). apply (later_lt None). rewrite cc_sym, C. reflexivity. }
    clear -N G. induction N as [|x xs Hx N IH]; [constructor|]. cbn [map]. constructor; [|apply IH; intros; apply G; auto; now right].
    intros H. apply in_map_iff in H as (y & E & Hy). apply Hx. rewrite (G x y); [exact Hy|now left|now right|now symmetry].
Qed.
(** ** The claim that each word is offered once is false, and so is the claim that each heading found is. *)
Definition love (l : list str) : dict := user_dict l.
Lemma love_built l : Forall built [love l].
Proof. constructor; [|constructor]. unfold love, user_dict. apply built_user. Qed.
Theorem C93_refuted : exists ds t cs, Forall built ds /\ get_all_complete ds (mkCK t None) = Ok cs /\ ~ NoDup (map c_output cs).
Proof.
  exists [love [U "あい /愛/"; U "あいあい /哀/愛/"]], (U "あ"). eexists. split; [apply love_built|]. split; [vm_compute; reflexivity|].
  intros N. inversion N as [|x l H _ E]. apply H. right. now left.
Qed.
Theorem C93_refuted_heading : exists ds t cs x, Forall built ds /\ get_all_complete ds (mkCK t None) = Ok cs
  /\ suggests ds (mkCK t None) t x /\ ~ In (sg_heading x, sg_word x) (map (fun c => (c_midashi c, c_output c)) cs).
Proof.
  exists [love [U "あい /愛/"; U "あいあい /愛/"]], (U "あ"). eexists. exists (mkSug (U "あい") (U "愛") None).
  split; [apply love_built|]. split; [vm_compute; reflexivity|]. split.
  - exists (love [U "あい /愛/"; U "あいあい /愛/"]). eexists _, _. split; [now left|]. split; [reflexivity|]. split; [vm_compute; reflexivity|].
    split; [exists (U "い"); reflexivity|]. split; [vm_compute; reflexivity|]. now left.
  - vm_compute. intros [H|[]]. discriminate H.
Qed.
(** What the user sees of both: three completions, the first and the last the same; one completion, the longer reading. *)
Definition offered_now (r : res (list out * world)) : list (str * str) :=
  match r with Ok (_, w) => match x_stack (w_ctx w) with s :: _ => map (fun c => (c_midashi c, c_output c)) (cl_list (s_list s)) | [] => [] end | Panic _ => [] end.
Example C93_case :
  offered_now (typed false (U "A Tab") (demo [love [U "あい /愛/"; U "あいあい /哀/愛/"]]))
  = [(U "あい", U "愛"); (U "あいあい", U "哀"); (U "あいあい", U "愛")]
  /\ offered_now (typed false (U "A Tab") (demo [love [U "あい /愛/"; U "あいあい /愛/"]])) = [(U "あいあい", U "愛")]
  /\ offered_now (typed false (U "A Tab") (demo [static_dict [U "あい /藍;dye/"; U "あか /赤/"]; love [U "あい /愛/藍/"; U "いか /烏賊/"]]))
  = [(U "あい", U "藍"); (U "あか", U "赤"); (U "あい", U "愛")].
Proof. split; [|split]; vm_compute; reflexivity. Qed.
From Verif Require Import P_Monad P_Frames P_Step T_InputMode T_Frames T_Romaji T_Word T_Sentence.
From Verif Require T_Encoding T_RuleWords.
Lemma bind_ok {A B} (m : M A) (f : A -> M B) w x w' : m w = Ok (x, w') -> bind m f w = f x w'.
Proof. intros E. unfold bind. now rewrite E. Qed.
Lemma cur_ok s fr w : cur (with_frames (s :: fr) w) = Ok (s, with_frames (s :: fr) w). Proof. reflexivity. Qed.
Lemma get_ok w : get w = Ok (w, w). Proof. reflexivity. Qed.
Lemma lift_ok {A} (x : A) w : lift (Ok x) w = Ok (x, w). Proof. reflexivity. Qed.
Lemma lists_them w s fr cs : get_all_complete (ctx_dicts w) (get_composite_key s) = Ok cs ->
  update_completion_list (with_frames (s :: fr) w) = Ok (tt, with_frames (set_new_candidate_list cs s :: fr) w).
Proof.
  intros E. assert (D : ctx_dicts (with_frames (s :: fr) w) = ctx_dicts w) by reflexivity.
  unfold update_completion_list. rewrite (bind_ok cur _ _ _ _ (cur_ok s fr w)). rewrite (bind_ok get _ _ _ _ (get_ok _)). rewrite D, E.
  rewrite (bind_ok _ _ _ _ _ (lift_ok cs _)). reflexivity.
Qed.
Lemma then_completion w s fr cs : get_all_complete (ctx_dicts w) (get_composite_key s) = Ok cs -> s_cmode s = PreComposition ->
  (update_completion_list ;; s <- cur ;;
    (if negb (is_nil (s_comp s)) && cl_is_empty (s_list s) then ret tt
     else if negb (cl_is_empty (s_list s)) then set_composition_mode Completion else ret tt)) (with_frames (s :: fr) w)
  = Ok (tt, with_frames ((match cs with [] => set_new_candidate_list cs s | _ => change_composition_mode Completion (set_new_candidate_list cs s) end) :: fr) w).
Proof.
  intros E Hm. rewrite (bind_ok _ _ _ _ _ (lists_them w s fr cs E)). rewrite (bind_ok cur _ _ _ _ (cur_ok _ fr w)).
  destruct cs as [|c cs]; [|].
  - assert (E1 : cl_is_empty (s_list (set_new_candidate_list [] s)) = true) by reflexivity. rewrite E1, andb_true_r. cbn [negb].
    destruct (negb (is_nil (s_comp (set_new_candidate_list [] s)))); reflexivity.
  - assert (E1 : cl_is_empty (s_list (set_new_candidate_list (c :: cs) s)) = false) by reflexivity. rewrite E1, andb_false_r. cbn [negb].
    reflexivity.
Qed.
(** The key: in a reading, Tab (the key bound to TryNextCompletion alone) writes the pending keys and lists the
    completions of the reading; there being none, nothing else happens. *)
Theorem C93_key : forall X dbg r w s fr k e v' cs, distinct_keys X r -> x_kb (w_ctx w) = kb_new X r -> frames w = s :: fr ->
  s_cmode s = PreComposition -> s_okuri s = [] ->
  commands (x_cmd (w_ctx w)) PreComposition (s_imode s) k [ITryNextCompletion] -> outside X r (s_pre s) k -> forced X r (s_pre s) e v' ->
  get_all_complete (ctx_dicts w) (mkCK (s_raw s ++ e) None) = Ok cs ->
  exists s', exec X dbg (OKey k) w = Ok (OutBool true, with_frames (s' :: fr) w)
    /\ s_raw s' = s_raw s ++ e /\ s_comp s' = s_comp s ++ e /\ s_conf s' = s_conf s
    /\ cl_list (s_list s') = cs /\ cl_cur (s_list s') = 0%N
    /\ s_cmode s' = match cs with [] => PreComposition | _ :: _ => Completion end.
Proof.
  intros X dbg r w s fr k e v' cs Hd Hb F Hm Hk0 Hk Ho Hf Hc.
  assert (W : w = with_frames (s :: fr) w) by (destruct w as [st [sk c b kf am ds cf]]; cbn in *; unfold frames in F; cbn in F; subst sk; reflexivity).
  enough (G : exists s', process_key_event X dbg k (with_frames (s :: fr) w) = Ok (true, with_frames (s' :: fr) w)
    /\ s_raw s' = s_raw s ++ e /\ s_comp s' = s_comp s ++ e /\ s_conf s' = s_conf s
    /\ cl_list (s_list s') = cs /\ cl_cur (s_list s') = 0%N
    /\ s_cmode s' = match cs with [] => PreComposition | _ :: _ => Completion end).
  { destruct G as (s' & E & G). exists s'. split; [|exact G]. rewrite <- W in E. apply exec_key, E. }
  rewrite (command_step X dbg r Hd w s fr k _ PreComposition (s_imode s) Hb Hm eq_refl ltac:(discriminate) Ho Hk).
  unfold process_instructions. cbn [run_instrs run_instr is_nil negb]. unfold try_next_completion. cbn [cmode_eqb negb].
  assert (K : forall s1, s_raw s1 = s_raw s ++ e -> s_okuri s1 = [] -> get_all_complete (ctx_dicts w) (get_composite_key s1) = Ok cs).
  { intros s1 R O. unfold get_composite_key. rewrite O, R. cbn [is_nil negb]. now rewrite andb_false_r. }
  assert (G : exists b s1, output_converted_kana_if_any (s_imode s) PreComposition (with_frames (s :: fr) w) = Ok (b, with_frames (s1 :: fr) w)
    /\ s_raw s1 = s_raw s ++ e /\ s_comp s1 = s_comp s ++ e /\ s_conf s1 = s_conf s /\ s_okuri s1 = [] /\ s_cmode s1 = PreComposition).
  { unfold output_converted_kana_if_any. rewrite (bind_ok cur _ _ _ _ (cur_ok s fr w)), (bind_ok get _ _ _ _ (get_ok _)). cbn [x_kb x_kf w_ctx with_frames]. rewrite Hb.
    destruct (forced_some X r Hd _ _ _ Hf) as [[E He]|(E & -> & ->)]; rewrite E.
    - destruct v' as [|y v']; (eexists _, _; split; [reflexivity|]); repeat split; cbn; auto.
    - eexists _, _. split; [reflexivity|]. rewrite !app_nil_r. auto. }
  destruct G as (b & s1 & E1 & R1 & R2 & R3 & R4 & R5).
  exists (match cs with [] => set_new_candidate_list cs s1 | _ => change_composition_mode Completion (set_new_candidate_list cs s1) end).
  assert (G : (output_converted_kana_if_any (s_imode s) PreComposition ;;
    update_completion_list ;; s0 <- cur ;;
    (if negb (is_nil (s_comp s0)) && cl_is_empty (s_list s0) then ret tt
     else if negb (cl_is_empty (s_list s0)) then set_composition_mode Completion else ret tt)) (with_frames (s :: fr) w)
    = Ok (tt, with_frames ((match cs with [] => set_new_candidate_list cs s1 | _ => change_composition_mode Completion (set_new_candidate_list cs s1) end) :: fr) w)).
  { rewrite (bind_ok _ _ _ _ _ E1). now apply then_completion; [apply K|]. }
  split.
  - rewrite (bind_ok _ _ _ _ _ (bind_ok _ _ _ _ _ G)). reflexivity.
  - destruct cs as [|c cs]; repeat split; cbn; auto.
Qed.
(** Tab with a pending n: the key of the theorem, its state, and its answer. *)
Definition tab : keyev := mkKey 65289 0.
Example C93_key_case : exists o1 w1 s cs, typed true (U "K a n") (demo [love [U "かん /缶/"; U "かんじ /漢字/感じ/"; U "か /蚊/"]]) = Ok (o1, w1) /\ frames w1 = [s]
  /\ s_cmode s = PreComposition /\ s_okuri s = []
  /\ commands (x_cmd (w_ctx w1)) PreComposition (s_imode s) tab [ITryNextCompletion]
  /\ outside ascii_xkb default_rule (s_pre s) tab /\ forced ascii_xkb default_rule (s_pre s) (U "ん") []
  /\ get_all_complete (ctx_dicts w1) (mkCK (s_raw s ++ U "ん") None) = Ok cs /\ map c_output cs = [U "缶"; U "漢字"; U "感じ"].
Proof.
  destruct (run_case (typed true (U "K a n") (demo [love [U "かん /缶/"; U "かんじ /漢字/感じ/"; U "か /蚊/"]]))
    (fun w => (map (fun s => (s_imode s, assoc_key tab (x_cmd (w_ctx w) PreComposition (s_imode s)), s_cmode s, s_okuri s, s_pre s,
        rmap (map c_output) (get_all_complete (ctx_dicts w) (mkCK (s_raw s ++ U "ん") None)))) (frames w)))
    [(Hiragana, Some [ITryNextCompletion], PreComposition, [], U "n", Ok [U "缶"; U "漢字"; U "感じ"])] ltac:(vm_compute; reflexivity)) as (o & w & R & E).
  cbv beta in E. destruct (frames w) as [|s [|]] eqn:F; [discriminate| |discriminate]. cbn [map] in E.
  assert (E3 := f_equal (fun l => match l with x :: _ => Some x | _ => None end) E). cbv beta iota in E3. apply T_Encoding.some_inj in E3. clear E.
  assert (A := f_equal (fun x => snd (fst (fst (fst (fst x))))) E3). assert (B := f_equal (fun x => snd (fst (fst (fst x)))) E3).
  assert (C := f_equal (fun x => snd (fst (fst x))) E3). assert (D := f_equal (fun x => snd (fst x)) E3). assert (G := f_equal snd E3). cbn [fst snd] in A, B, C, D, G. clear E3.
  destruct (get_all_complete (ctx_dicts w) (mkCK (s_raw s ++ U "ん") None)) as [cs|] eqn:Q; [|discriminate].
  exists o, w, s, cs. split; [exact R|]. split; [exact F|]. split; [exact B|]. split; [exact C|]. split; [split; [reflexivity|exact A]|].
  rewrite D. split; [apply outside_b_spec; vm_compute; reflexivity|]. split.
  - left. apply entry_of_spec. vm_compute. reflexivity.
  - split; [exact Q|]. exact (f_equal (fun r => match r with Ok x => x | Panic _ => [] end) G).
Qed.
(** So what the user sees: whatever was done before, Tab in a reading shows the words that completable dictionaries
    list under headings that start with it, and no others; there being none, the reading stays. *)
Theorem C93_shown : forall X dbg r w0 ops outs w s fr k e v',
  started X w0 -> Forall built (w_store w0) -> Forall (fun o => match o with OOther st => Forall built st | _ => True end) ops ->
  run X dbg ops w0 = Ok (outs, w) ->
  distinct_keys X r -> x_kb (w_ctx w) = kb_new X r -> frames w = s :: fr -> s_cmode s = PreComposition -> s_okuri s = [] ->
  commands (x_cmd (w_ctx w)) PreComposition (s_imode s) k [ITryNextCompletion] -> outside X r (s_pre s) k -> forced X r (s_pre s) e v' ->
  exists s', exec X dbg (OKey k) w = Ok (OutBool true, with_frames (s' :: fr) w)
    /\ (forall t, In t (map c_output (cl_list (s_list s'))) <->
          exists x, suggests (ctx_dicts w) (mkCK (s_raw s ++ e) None) (s_raw s ++ e) x /\ sg_word x = t)
    /\ (s_cmode s' = Completion <-> exists x, suggests (ctx_dicts w) (mkCK (s_raw s ++ e) None) (s_raw s ++ e) x).
Proof.
  intros X dbg r w0 ops outs w s fr k e v' Hst Hb0 Hops Hr Hd Hb F Hm Hk0 Hk Ho Hf.
  assert (Hn : x_stack (w_ctx w0) <> []) by (destruct Hst as (st & kf & am & ds & i0 & c & [(r0 & ->)| ->]); discriminate).
  assert (HB : Forall built (w_store w)) by (eapply P_Dict.run_built; eauto).
  assert (HD : Forall built (ctx_dicts w)).
  { unfold ctx_dicts. apply Forall_forall. intros d Hd'. apply in_map_iff in Hd' as (i & <- & _).
    destruct (nth_in_or_default i (w_store w) empty_dict) as [H| ->]; [rewrite Forall_forall in HB; now apply HB|apply built_empty]. }
  destruct (C93_exact (ctx_dicts w) (mkCK (s_raw s ++ e) None) (s_raw s ++ e) HD eq_refl) as (all & xs & _ & _ & E & _).
  destruct (C93_offered_partial (ctx_dicts w) (mkCK (s_raw s ++ e) None) (s_raw s ++ e) _ HD eq_refl E) as (O & _).
  destruct (C93_key X dbg r w s fr k e v' _ Hd Hb F Hm Hk0 Hk Ho Hf E) as (s' & X1 & _ & _ & _ & L & _ & M).
  exists s'. split; [exact X1|]. rewrite L. split; [exact O|]. rewrite M. split.
  - destruct xs as [|x xs]; [discriminate|]. intros _. specialize (O (sg_word x)). cbn [map] in O.
    destruct (proj1 O (or_introl eq_refl)) as (y & Hy & _). now exists y.
  - intros (x & Hx). assert (I : In (sg_word x) (map c_output (map (as_candidate (ck_okuri (mkCK (s_raw s ++ e) None))) xs))) by (apply O; eauto).
    destruct xs; [destruct I|reflexivity].
Qed.
(** Every word offered as a completion is offered too when more dictionaries are asked. *)
Theorem C92_more_completions : forall ds ds' k p cs cs', incl ds ds' -> Forall built ds -> Forall built ds' -> get_dict_key k = Ok p ->
  get_all_complete ds k = Ok cs -> get_all_complete ds' k = Ok cs' ->
  forall t, In t (map c_output cs) -> In t (map c_output cs').
Proof.
  intros ds ds' k p cs cs' I B B' Hp E E' t Ht. apply (C93_offered_partial ds k p cs B Hp E) in Ht as (x & (d & e & l & Hd & Hx) & <-).
  apply (C93_offered_partial ds' k p cs' B' Hp E'). exists x. split; [exists d, e, l; split; [now apply I|exact Hx]|reflexivity].
Qed.
(** Non-vacuity: the key of C93_key_case was reached by typing, from a context with built dictionaries. *)
Example C93_shown_case : started ascii_xkb (demo [love [U "かん /缶/"; U "かんじ /漢字/感じ/"; U "か /蚊/"]])
  /\ Forall built (w_store (demo [love [U "かん /缶/"; U "かんじ /漢字/感じ/"; U "か /蚊/"]]))
  /\ (forall o w, typed true (U "K a n") (demo [love [U "かん /缶/"; U "かんじ /漢字/感じ/"; U "か /蚊/"]]) = Ok (o, w) ->
      x_kb (w_ctx w) = kb_new ascii_xkb default_rule)
  /\ distinct_keys ascii_xkb default_rule.
Proof.
  split; [apply T_Frames.demo_started|]. split; [apply love_built|]. split; [|exact (proj1 T_Frames.C11_case)].
  intros o w E. exact (T_RuleWords.typed_kb _ _ _ _ _ E).
Qed.
