(** Property C52: what a dictionary file means. *)
From Verif Require Import Str Keys Modes FormChanger DictTypes Parser Lru Dictionary T_Lru T_Entry P_Dict T_Escape T_Line.

(** * Specification *)
Definition comment (ln : str) : Prop := exists r, ln = 59%N :: r.
(** Headers are comments. *)
Definition opens_ari (ln : str) : Prop := comment ln /\ occurs (U ";; okuri-ari entries") ln.
Definition opens_nasi (ln : str) : Prop :=
  comment ln /\ occurs (U ";; okuri-nasi entries") ln /\ ~ occurs (U ";; okuri-ari entries") ln.
(** Lines after [before] are read for the section with okurigana: the latest header says so,
    or there is none yet. *)
Definition in_ari (before : list str) : Prop :=
  (forall ln, In ln before -> ~ opens_nasi ln)
  \/ exists a ln b, before = a ++ ln :: b /\ opens_ari ln /\ forall l, In l b -> ~ opens_nasi l.
(** The line [ln], after the lines [before], gives the entry [e] for a section.  A line read
    for the section with okurigana whose midashi has no okurigana letter goes to the other. *)
Definition gives (before : list str) (ln : str) (ari : bool) (e : entry) : Prop :=
  ~ comment ln /\ from_skkjisyo_line ln = Some e /\ (ari = true <-> in_ari before /\ okuri_midashi (e_midashi e)).
(** [e] is the entry of the last line giving one for this section and midashi. *)
Definition last_given (ls : list str) (ari : bool) (m : str) (e : entry) : Prop :=
  exists before ln after, ls = before ++ ln :: after /\ gives before ln ari e /\ e_midashi e = m
    /\ forall b' ln' a' e', after = b' ++ ln' :: a' -> gives (before ++ ln :: b') ln' ari e' -> e_midashi e' <> m.
Definition loaded (ari : bool) (d : dents) : lmap entry := if ari then d_ari d else d_nashi d.

(** * Proofs *)
Lemma contains_spec p s : contains p s = true <-> occurs p s.
Proof.
  unfold occurs. induction s as [|c s IH]; cbn [contains].
  - rewrite orb_false_r, is_prefixb_spec. split.
    + intros (r & E). now exists [], r.
    + intros (a & b & E). destruct a; [|discriminate]. now exists b.
  - rewrite orb_true_iff, IH, is_prefixb_spec. split.
    + intros [(r & E)|(a & b & ->)]; [now exists [], r|now exists (c :: a), b].
    + intros (a & b & E). destruct a as [|c' a]; [left; now exists b|].
      right. injection E as _ ->. now exists a, b.
Qed.
Lemma comment_spec ln : is_prefixb (U ";") ln = true <-> comment ln.
Proof. rewrite is_prefixb_spec. change (U ";") with [59%N]. reflexivity. Qed.
Lemma opens_nasi_dec ln : {opens_nasi ln} + {~ opens_nasi ln}.
Proof.
  unfold opens_nasi. destruct (is_prefixb (U ";") ln) eqn:E1.
  - apply comment_spec in E1. destruct (contains (U ";; okuri-nasi entries") ln) eqn:E2.
    + apply contains_spec in E2. destruct (contains (U ";; okuri-ari entries") ln) eqn:E3.
      * apply contains_spec in E3. right. intros (_ & _ & N). exact (N E3).
      * left. repeat split; auto. rewrite <- contains_spec. congruence.
    + right. intros (_ & H & _). apply contains_spec in H. rewrite H in E2. discriminate.
  - right. intros (H & _). apply comment_spec in H. congruence.
Qed.
Lemma in_ari_nil : in_ari [].
Proof. left. intros ln []. Qed.
Lemma in_ari_ari ls ln : opens_ari ln -> in_ari (ls ++ [ln]).
Proof. intros H. right. exists ls, ln, []. repeat split; try apply H. intros l []. Qed.
Lemma in_ari_nasi ls ln : opens_nasi ln -> ~ in_ari (ls ++ [ln]).
Proof.
  intros H [Hn|(a & l & b & E & Ha & Hb)].
  - apply (Hn ln); [apply in_or_app; right; now left|exact H].
  - destruct b as [|x b] using rev_ind.
    + apply app_inj_tail in E as (_ & ->). destruct H as (_ & _ & H), Ha as (_ & Ha). exact (H Ha).
    + clear IHb. rewrite app_comm_cons, app_assoc in E. apply app_inj_tail in E as (_ & ->).
      apply (Hb x); [apply in_or_app; right; now left|exact H].
Qed.
Lemma in_ari_other ls ln : ~ opens_ari ln -> ~ opens_nasi ln -> in_ari (ls ++ [ln]) <-> in_ari ls.
Proof.
  intros H1 H2. split.
  - intros [Hn|(a & l & b & E & Ha & Hb)].
    + left. intros l Hl. apply Hn, in_or_app. now left.
    + right. destruct b as [|x b] using rev_ind.
      * apply app_inj_tail in E as (_ & ->). tauto.
      * clear IHb. rewrite app_comm_cons, app_assoc in E. apply app_inj_tail in E as (-> & ->).
        exists a, l, b. repeat split; try apply Ha. intros y Hy. apply Hb, in_or_app. now left.
  - intros [Hn|(a & l & b & -> & Ha & Hb)].
    + left. intros l Hl. apply in_app_iff in Hl as [Hl|[<-|[]]]; auto.
    + right. exists a, l, (b ++ [ln]). rewrite <- app_assoc. repeat split; try apply Ha.
      intros y Hy. apply in_app_iff in Hy as [Hy|[<-|[]]]; auto.
Qed.

Definition state_after (ls : list str) : bool * dents := fold_left load_line ls (true, dents_empty).
Lemma state_after_app ls ln : state_after (ls ++ [ln]) = load_line (state_after ls) ln.
Proof. unfold state_after. now rewrite fold_left_app. Qed.
(** One line, by cases. *)
Lemma load_line_cases b d ln :
  (opens_ari ln /\ load_line (b, d) ln = (true, d))
  \/ (opens_nasi ln /\ load_line (b, d) ln = (false, d))
  \/ (~ opens_ari ln /\ ~ opens_nasi ln /\ (comment ln \/ from_skkjisyo_line ln = None) /\ load_line (b, d) ln = (b, d))
  \/ (~ comment ln /\ exists e, from_skkjisyo_line ln = Some e
      /\ load_line (b, d) ln = (b, if b && e_okuri e then mkDents (lpush (e_midashi e) e (d_ari d)) (d_nashi d)
                                 else mkDents (d_ari d) (lpush (e_midashi e) e (d_nashi d)))).
Proof.
  unfold load_line. destruct (is_prefixb (U ";") ln) eqn:E1.
  - apply comment_spec in E1.
    destruct (contains (U ";; okuri-ari entries") ln) eqn:E2.
    + left. apply contains_spec in E2. repeat split; auto.
    + destruct (contains (U ";; okuri-nasi entries") ln) eqn:E3.
      * right. left. split; [|reflexivity]. apply contains_spec in E3. repeat split; auto.
        rewrite <- contains_spec. congruence.
      * right. right. left. split; [|split; [|split; [left; exact E1|reflexivity]]].
        -- intros (_ & H). apply contains_spec in H. rewrite H in E2. discriminate.
        -- intros (_ & H & _). apply contains_spec in H. rewrite H in E3. discriminate.
  - assert (Hc : ~ comment ln) by (rewrite <- comment_spec; congruence).
    right. right. destruct (from_skkjisyo_line ln) as [e|] eqn:E2.
    + right. split; [exact Hc|]. exists e. split; [reflexivity|]. destruct (b && e_okuri e); reflexivity.
    + left. split; [intros (H & _); exact (Hc H)|split; [intros (H & _); exact (Hc H)|split; [right; reflexivity|reflexivity]]].
Qed.
Lemma mode_after ls : fst (state_after ls) = true <-> in_ari ls.
Proof.
  induction ls as [|ln ls IH] using rev_ind; [split; [intros; exact in_ari_nil|reflexivity]|].
  rewrite state_after_app. destruct (state_after ls) as [b d]. cbn [fst] in IH.
  destruct (load_line_cases b d ln) as [(H & ->)|[(H & ->)|[(H1 & H2 & _ & ->)|(H & e & _ & ->)]]]; cbn [fst].
  - split; [intros; now apply in_ari_ari|reflexivity].
  - split; [discriminate|]. intros Hi. exfalso. eapply in_ari_nasi; eauto.
  - now rewrite in_ari_other.
  - rewrite in_ari_other; [exact IH|intros (K & _); exact (H K)|intros (K & _); exact (H K)].
Qed.
Lemma not_gives_snoc ls ln ari m e : (forall e', gives ls ln ari e' -> e_midashi e' <> m) ->
  last_given (ls ++ [ln]) ari m e <-> last_given ls ari m e.
Proof.
  intros Hn. split.
  - intros (before & l & after & E & Hg & Hm & Ha). destruct after as [|x after] using rev_ind.
    + apply app_inj_tail in E as (-> & ->). exfalso. now apply (Hn e).
    + clear IHafter. rewrite app_comm_cons, app_assoc in E. apply app_inj_tail in E as (-> & ->).
      exists before, l, after. repeat split; try apply Hg; auto.
      intros b' ln' a' e' -> Hg'. apply (Ha b' ln' (a' ++ [x]) e'); [now rewrite <- app_assoc|exact Hg'].
  - intros (before & l & after & -> & Hg & Hm & Ha).
    exists before, l, (after ++ [ln]). split; [now rewrite <- app_assoc|]. repeat split; try apply Hg; auto.
    intros b' ln' a' e' E Hg'. destruct a' as [|x a'] using rev_ind.
    + apply app_inj_tail in E as (-> & ->). now apply Hn.
    + clear IHa'. rewrite app_comm_cons, app_assoc in E. apply app_inj_tail in E as (-> & ->). eapply Ha; eauto.
Qed.
Lemma gives_snoc ls ln ari m e e0 : gives ls ln ari e0 -> e_midashi e0 = m ->
  last_given (ls ++ [ln]) ari m e <-> e = e0.
Proof.
  intros Hg0 Hm0. split.
  - intros (before & l & after & E & Hg & Hm & Ha). destruct after as [|x after] using rev_ind.
    + apply app_inj_tail in E as (-> & ->). destruct Hg as (_ & E1 & _), Hg0 as (_ & E2 & _). congruence.
    + clear IHafter. rewrite app_comm_cons, app_assoc in E. apply app_inj_tail in E as (-> & ->).
      exfalso. eapply (Ha after x [] e0); eauto.
  - intros ->. exists ls, ln, []. repeat split; try apply Hg0; auto. intros [|? b'] ? ? ? H; discriminate H.
Qed.
(** C52: after loading the lines of a file, looking up a midashi in a section finds exactly the
    entry of the last well-formed line for it. *)
Theorem C52_load ls ari m e :
  lpeek m (loaded ari (load_lines ls)) = Some e <-> last_given ls ari m e.
Proof.
  change (load_lines ls) with (snd (state_after ls)). revert m e.
  induction ls as [|ln ls IH] using rev_ind; intros m e.
  - split; [destruct ari; discriminate|]. intros (b & l & a & E & _). destruct b; discriminate.
  - rewrite state_after_app. pose proof (mode_after ls) as Hmode. destruct (state_after ls) as [b d]. cbn [fst snd] in *.
    destruct (load_line_cases b d ln) as [(H & ->)|[(H & ->)|[(H1 & H2 & H3 & ->)|(H & e0 & E0 & ->)]]]; cbn [snd].
    1-2: rewrite not_gives_snoc; [apply IH|]; intros e' (Hc & _); destruct H as (H & _); tauto.
    { rewrite not_gives_snoc; [apply IH|]. intros e' (Hc & Ef & _). destruct H3; [tauto|congruence]. }
    set (sec := b && e_okuri e0).
    assert (Hsec : sec = true <-> in_ari ls /\ okuri_midashi (e_midashi e0)) by (unfold sec; now rewrite andb_true_iff, Hmode, (parsed_mark _ _ E0)).
    assert (Hl : forall ari', loaded ari' (if sec then mkDents (lpush (e_midashi e0) e0 (d_ari d)) (d_nashi d)
                                 else mkDents (d_ari d) (lpush (e_midashi e0) e0 (d_nashi d)))
             = if Bool.eqb ari' sec then lpush (e_midashi e0) e0 (loaded ari' d) else loaded ari' d).
    { intros [|]; destruct sec; reflexivity. }
    rewrite Hl. clearbody sec. destruct (Bool.eqb ari sec) eqn:Es.
    + apply Bool.eqb_prop in Es. subst sec.
      assert (Hg : gives ls ln ari e0) by (repeat split; try assumption; apply Hsec; assumption).
      rewrite lpeek_push. destruct (str_eqb_spec m (e_midashi e0)) as [->|Hne].
      * rewrite (gives_snoc _ _ _ _ _ _ Hg eq_refl). split; [intros [= ->]; reflexivity|now intros ->].
      * rewrite not_gives_snoc; [apply IH|]. intros e' (_ & E' & _). rewrite E0 in E'. injection E' as <-. congruence.
    + rewrite not_gives_snoc; [apply IH|]. intros e' (_ & E' & Hs). rewrite E0 in E'. injection E' as <-.
      exfalso. apply Bool.eqb_false_iff in Es. apply Es. destruct ari, sec; try reflexivity; intuition congruence.
Qed.
(** A comment that is no header, or a line that does not parse, changes nothing, wherever it is. *)
Theorem C52_ignored a ln b : ~ opens_ari ln -> ~ opens_nasi ln ->
  comment ln \/ from_skkjisyo_line ln = None ->
  load_lines (a ++ ln :: b) = load_lines (a ++ b).
Proof.
  intros H1 H2 H3. unfold load_lines. rewrite !fold_left_app. cbn [fold_left].
  destruct (fold_left load_line a (true, dents_empty)) as [m d]. f_equal. f_equal.
  destruct (load_line_cases m d ln) as [(H & _)|[(H & _)|[(_ & _ & _ & ->)|(H & e & E & _)]]]; try tauto.
  exfalso. destruct H3; [tauto|congruence].
Qed.
(** Where a new line gives an entry, nothing else changes. *)
Theorem C52_one_more ls ln ari e : gives ls ln ari e ->
  forall ari' m, lpeek m (loaded ari' (load_lines (ls ++ [ln])))
  = if Bool.eqb ari' ari && str_eqb m (e_midashi e) then Some e else lpeek m (loaded ari' (load_lines ls)).
Proof.
  intros Hg ari' m. pose proof Hg as (Hc & E & Hs).
  change (load_lines ls) with (snd (state_after ls)). change (load_lines (ls ++ [ln])) with (snd (state_after (ls ++ [ln]))).
  rewrite state_after_app. pose proof (mode_after ls) as Hmode. destruct (state_after ls) as [b d]. cbn [fst snd] in *.
  destruct (load_line_cases b d ln) as [(H & _)|[(H & _)|[(_ & _ & H & _)|(_ & e0 & E0 & ->)]]];
    [destruct H as (H & _); destruct (Hc H)|destruct H as (H & _); destruct (Hc H)|destruct H as [H|H]; [destruct (Hc H)|congruence]|].
  rewrite E in E0. injection E0 as <-.
  assert (Hb : b && e_okuri e = ari).
  { destruct (b && e_okuri e) eqn:Eb.
    - apply andb_true_iff in Eb. rewrite Hmode, (parsed_mark _ _ E) in Eb. symmetry. now apply Hs.
    - destruct ari; [|reflexivity]. apply proj1 in Hs. specialize (Hs eq_refl). rewrite <- Hmode, <- (parsed_mark _ _ E) in Hs.
      destruct Hs as (-> & Hs). cbn in Eb. congruence. }
  rewrite Hb. cbn [snd]. destruct ari, ari'; cbn [loaded d_ari d_nashi Bool.eqb andb]; try reflexivity; apply lpeek_push.
Qed.
(** A dictionary with a header in the middle, a comment, an ill-formed line and a repeated
    midashi. *)
Example C52_example :
  let ls := [U ";; okuri-ari entries."; U "おおk /大/"; U "broken"; U "; note"; U ";; okuri-nasi entries."; U "か /蚊/"; U "か /可;able/"] in
  option_map entry_to_string (lpeek (U "か") (loaded false (load_lines ls))) = Some (U "か /可;able/")
  /\ option_map entry_to_string (lpeek (U "おおk") (loaded true (load_lines ls))) = Some (U "おおk /大/")
  /\ from_skkjisyo_line (U "broken") = None
  /\ gives (removelast ls) (U "か /可;able/") false (mkEntry (U "か") false [([], [mkDC (U "可") (Some (U "able"))])]).
Proof.
  cbn zeta. split; [vm_compute; reflexivity|split; [vm_compute; reflexivity|split; [vm_compute; reflexivity|]]].
  split; [intros (r & H); vm_compute in H; discriminate|split; [vm_compute; reflexivity|]].
  cbn [e_midashi]. rewrite <- okuri_midashi_spec. split; [discriminate|intros (_ & H); vm_compute in H; discriminate].
Qed.
