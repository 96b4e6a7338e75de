(** Property C47, exactly: which texts of a rule file are taken as which instruction. *)
From Coq Require Import Lia.
From Verif Require Import Str Keys Modes T_KeyParse.

(* ------------------------------------------------------------- specification *)
(** [l] holds the name [m] in parentheses, behind [p]. *)
Definition call_at (names : list str) (l p m : str) : Prop := In m names /\ exists j, l = p ++ U "(" ++ m ++ U ")" ++ j.
(** [m] is the last name in parentheses of the first line of [s] that has one; [p] is what stands before it on that line. *)
Definition reads_call (names : list str) (s p m : str) : Prop :=
  exists before l after, split_on 10 s = before ++ l :: after
    /\ Forall (fun l => forall p m, ~ call_at names l p m) before
    /\ call_at names l p m
    /\ forall p' m', call_at names l p' m' -> length p' <= length p.
(** What a name of an input mode behind the word [p] stands for. *)
Definition input_call (p : str) (i : instr) (j : imode) : Prop :=
  (p = U "ChangeInputMode" /\ i = IChangeInputMode j)
  \/ ((p = U "ForceKanaConvert" \/ p = U "OutputNNIfAny") /\ i = IForceKanaConvert j)
  \/ (p = U "ConfirmAs" /\ i = IConfirmAs j).

(* ---------------------------------------------------------------------- proof *)
Lemma is_prefix_app (a b : str) : is_prefixb a (a ++ b) = true.
Proof. apply is_prefixb_spec. eauto. Qed.
Lemma starts_mode_here names l m : starts_mode names l = None -> ~ call_at names l [] m.
Proof.
  intros H (Hin & j & E). unfold starts_mode in H. pose proof (find_none _ _ H m Hin) as N. cbv beta in N.
  rewrite E in N. change ([] ++ U "(" ++ m ++ U ")" ++ j) with ((40%N :: m) ++ [41%N] ++ j) in N.
  rewrite app_assoc, is_prefix_app in N. discriminate.
Qed.
Lemma last_mode_none names l : last_mode names l = None -> forall p m, ~ call_at names l p m.
Proof.
  induction l as [|c l IH]; intros H p m (Hin & j & E).
  - destruct p; discriminate.
  - cbn [last_mode] in H. destruct (last_mode names l) as [[? ?]|] eqn:El; [discriminate|].
    destruct (starts_mode names (c :: l)) eqn:Es; [discriminate|].
    destruct p as [|c' p].
    + apply (starts_mode_here names (c :: l) m Es). split; [exact Hin|exists j; exact E].
    + injection E as -> E. apply (IH eq_refl p m). split; [exact Hin|exists j; exact E].
Qed.
Lemma last_mode_last names l p m : last_mode names l = Some (p, m) ->
  call_at names l p m /\ forall p' m', call_at names l p' m' -> length p' <= length p.
Proof.
  intros H. split; [exact (last_mode_spec _ _ _ _ H)|]. revert p H. induction l as [|c l IH]; intros p H p' m' (Hin & j & E); [discriminate|].
  cbn [last_mode] in H. destruct (last_mode names l) as [[p1 m1]|] eqn:El.
  - injection H as <- ->. destruct p' as [|c' p']; [cbn; lia|]. injection E as -> E. cbn [length].
    specialize (IH p1 eq_refl p' m' (conj Hin (ex_intro _ j E))). lia.
  - destruct p' as [|c' p']; [cbn; lia|]. exfalso. injection E as -> E.
    apply (last_mode_none names l El p' m'). split; [exact Hin|exists j; exact E].
Qed.
Lemma captures_reads names s p m : mode_captures names s = Some (p, m) -> reads_call names s p m.
Proof.
  unfold mode_captures, reads_call. generalize (split_on 10 s). intros ls. induction ls as [|l ls IH]; cbn [first_some]; [discriminate|].
  destruct (last_mode names l) as [[p1 m1]|] eqn:El.
  - intros [= -> ->]. exists [], l, ls. destruct (last_mode_last _ _ _ _ El) as (A & B). split; [reflexivity|split; [constructor|split; [exact A|exact B]]].
  - intros H. destruct (IH H) as (b & l1 & a & E & F & C & D). exists (l :: b), l1, a. rewrite E.
    split; [reflexivity|split; [constructor; [now apply last_mode_none|exact F]|split; [exact C|exact D]]].
Qed.
Definition plain_names (names : list str) : Prop := Forall (fun m => ~ In 41%N m) names.
Lemma same_name (a b x y : str) : ~ In 41%N a -> ~ In 41%N b -> a ++ U ")" ++ x = b ++ U ")" ++ y -> a = b.
Proof.
  revert b. induction a as [|c a IH]; intros [|d b] Ha Hb E; auto.
  - exfalso. apply Hb. left. change (U ")") with [41%N] in E. cbn [app] in E. congruence.
  - exfalso. apply Ha. left. change (U ")") with [41%N] in E. cbn [app] in E. congruence.
  - injection E as -> E. f_equal. apply IH; auto; intros H; [apply Ha|apply Hb]; now right.
Qed.
Lemma same_call names l p m p' m' : plain_names names -> call_at names l p m -> call_at names l p' m' -> length p = length p' ->
  p = p' /\ m = m'.
Proof.
  intros Hn (H1 & j1 & E1) (H2 & j2 & E2) Hl. rewrite E1 in E2.
  assert (Hp : p = p' /\ U "(" ++ m ++ U ")" ++ j1 = U "(" ++ m' ++ U ")" ++ j2).
  { clear E1. revert p' Hl E2. induction p as [|c p IH]; intros [|d p'] Hl E; try discriminate; auto.
    injection E as -> E. injection Hl as Hl. destruct (IH _ Hl E) as (-> & E'). auto. }
  destruct Hp as (-> & E). split; [reflexivity|]. change (U "(") with [40%N] in E. cbn [app] in E. injection E as E.
  unfold plain_names in Hn. rewrite Forall_forall in Hn. eapply same_name; [apply Hn, H1|apply Hn, H2|exact E].
Qed.
Lemma reads_captures names s p m : plain_names names -> reads_call names s p m -> mode_captures names s = Some (p, m).
Proof.
  intros Hn (b & l & a & E & F & C & D). unfold mode_captures. rewrite E. clear E. induction F as [|x b Hx F IH]; cbn [app first_some].
  - destruct (last_mode names l) as [[p1 m1]|] eqn:El.
    + destruct (last_mode_last _ _ _ _ El) as (A & B). pose proof (D _ _ A). pose proof (B _ _ C).
      destruct (same_call names l p1 m1 p m Hn A C ltac:(lia)) as (-> & ->). reflexivity.
    + now destruct (last_mode_none names l El p m).
  - destruct (last_mode names x) as [[p1 m1]|] eqn:El; [|exact IH]. apply last_mode_spec in El. now destruct (Hx p1 m1).
Qed.
Lemma imode_plain : plain_names imode_names.
Proof. unfold plain_names, imode_names. repeat constructor; cbn; intros H; repeat (destruct H as [H|H]; [discriminate H|]); exact H. Qed.
Lemma cmode_plain : plain_names cmode_names.
Proof. unfold plain_names, cmode_names. repeat constructor; cbn; intros H; repeat (destruct H as [H|H]; [discriminate H|]); exact H. Qed.
Lemma imode_listed j : In (imode_text j) imode_names /\ imode_from_str (imode_text j) = Some j.
Proof. destruct j; (split; [cbn; tauto|vm_compute; reflexivity]). Qed.
Lemma cmode_listed c : In (cmode_text c) cmode_names /\ cmode_from_str (cmode_text c) = Some c.
Proof. destruct c; (split; [cbn; tauto|vm_compute; reflexivity]). Qed.
Lemma simple_no_call s i : simple_instr s = Some i -> mode_captures imode_names s = None /\ mode_captures cmode_names s = None.
Proof.
  unfold simple_instr.
  assert (G : forall l, forallb (fun e : str * instr => match mode_captures imode_names (fst e), mode_captures cmode_names (fst e) with None, None => true | _, _ => false end) l = true ->
              assoc_str s l = Some i -> mode_captures imode_names s = None /\ mode_captures cmode_names s = None).
  { induction l as [|[k v] l IH]; cbn [assoc_str forallb fst]; [discriminate|]. intros H. apply andb_prop in H as (H1 & H2).
    destruct (str_eqb_spec s k) as [->|]; [intros _|now apply IH].
    destruct (mode_captures imode_names k); [discriminate|]. destruct (mode_captures cmode_names k); [discriminate|]. auto. }
  apply G. vm_compute. reflexivity.
Qed.

(** * C47 *)
(** A text is taken as the instruction [i] exactly if it is its text (now or in former versions), or if the last name of
    an input mode in parentheses on the first line with one follows a word for [i] with which that line begins, or, if
    there is no such instruction, the same with a composition mode behind ChangeCompositionMode. *)
Theorem C47_exact : forall s i, instr_from_str s = Ok (Some i) <->
  s = instr_text i \/ legacy_text i s
  \/ (exists p j, reads_call imode_names s p (imode_text j) /\ input_call p i j)
  \/ (exists c, i = IChangeCompositionMode c /\ reads_call cmode_names s (U "ChangeCompositionMode") (cmode_text c)
        /\ forall p j i', reads_call imode_names s p (imode_text j) -> ~ input_call p i' j).
Proof.
  assert (Q : forall s, simple_instr s = None ->
     forall p j, mode_captures imode_names s = Some (p, imode_text j) -> forall i', input_call p i' j -> instr_from_str s = Ok (Some i')).
  { intros s Hs p j E i' Hc. unfold instr_from_str. rewrite Hs, E. cbv zeta. rewrite (proj2 (imode_listed j)).
    destruct Hc as [(-> & ->)|[([-> | ->] & ->)|(-> & ->)]]; reflexivity. }
  assert (N : forall s p m names, simple_instr s = None \/ mode_captures names s = Some (p, m) -> (names = imode_names \/ names = cmode_names) -> simple_instr s = None).
  { intros s p m names [H|H] Hn; [exact H|]. destruct (simple_instr s) as [x|] eqn:E; [|reflexivity].
    apply simple_no_call in E as (E1 & E2). destruct Hn as [-> | ->]; congruence. }
  intros s i. split.
  - intros H. unfold instr_from_str in H. destruct (simple_instr s) as [i0|] eqn:Es.
    { injection H as ->. apply simple_instr_spec in Es. tauto. }
    cbv zeta in H. right. right.
    destruct (mode_captures imode_names s) as [[p m]|] eqn:Ei.
    + pose proof (mode_captures_spec _ _ _ _ Ei) as (Hin & _). apply imode_from_name in Hin as (j & Ej & Em). rewrite Ej in H. subst m.
      pose proof (captures_reads _ _ _ _ Ei) as R.
      destruct (str_eqb_spec p (U "ChangeInputMode")) as [->|P1]; [injection H as <-; left; exists (U "ChangeInputMode"), j; split; [exact R|left; auto]|].
      destruct (str_eqb_spec p (U "ForceKanaConvert")) as [->|P2]; [injection H as <-; left; exists (U "ForceKanaConvert"), j; split; [exact R|right; left; auto]|].
      destruct (str_eqb_spec p (U "ConfirmAs")) as [->|P3]; [injection H as <-; left; exists (U "ConfirmAs"), j; split; [exact R|right; right; auto]|].
      destruct (str_eqb_spec p (U "OutputNNIfAny")) as [->|P4]; [injection H as <-; left; exists (U "OutputNNIfAny"), j; split; [exact R|right; left; auto]|].
      right. destruct (mode_captures cmode_names s) as [[q m]|] eqn:Ec; [|discriminate].
      pose proof (mode_captures_spec _ _ _ _ Ec) as (Hin & _). apply cmode_from_name in Hin as (c & Ec2 & Em). rewrite Ec2 in H. subst m.
      destruct (str_eqb_spec q (U "ChangeCompositionMode")) as [->|]; [|discriminate]. injection H as <-.
      exists c. split; [reflexivity|]. split; [exact (captures_reads _ _ _ _ Ec)|].
      intros p' j' i' R' Hc. apply (reads_captures _ _ _ _ imode_plain) in R'. rewrite Ei in R'. injection R' as <- _.
      destruct Hc as [(-> & _)|[([-> | ->] & _)|(-> & _)]]; congruence.
    + right. destruct (mode_captures cmode_names s) as [[q m]|] eqn:Ec; [|discriminate].
      pose proof (mode_captures_spec _ _ _ _ Ec) as (Hin & _). apply cmode_from_name in Hin as (c & Ec2 & Em). rewrite Ec2 in H. subst m.
      destruct (str_eqb_spec q (U "ChangeCompositionMode")) as [->|]; [|discriminate]. injection H as <-.
      exists c. split; [reflexivity|]. split; [exact (captures_reads _ _ _ _ Ec)|].
      intros p' j' i' R' Hc. apply (reads_captures _ _ _ _ imode_plain) in R'. congruence.
  - intros [->|[H|[(p & j & R & Hc)|(c & -> & R & Hno)]]].
    + apply C47_parse_back.
    + destruct i as [| [] | [] | | | | [] | | | | | | | | [] | | | | | ]; cbn in H; try (destruct H; fail);
        repeat match goal with H : _ \/ _ |- _ => destruct H as [H|H] end; subst s; try (vm_compute; reflexivity); destruct H.
    + apply (reads_captures _ _ _ _ imode_plain) in R. apply (Q s (N s p _ imode_names (or_intror R) (or_introl eq_refl)) p j R i Hc).
    + apply (reads_captures _ _ _ _ cmode_plain) in R. pose proof (N s _ _ cmode_names (or_intror R) (or_intror eq_refl)) as Hs.
      unfold instr_from_str. rewrite Hs, R, (proj2 (cmode_listed c)). cbv zeta.
      change (str_eqb (U "ChangeCompositionMode") (U "ChangeCompositionMode")) with true. cbv iota.
      destruct (mode_captures imode_names s) as [[p m]|] eqn:Ei; [|reflexivity].
      pose proof (mode_captures_spec _ _ _ _ Ei) as (Hin & _). apply imode_from_name in Hin as (j & Ej & Em). rewrite Ej. subst m.
      pose proof (captures_reads _ _ _ _ Ei) as R'.
      destruct (str_eqb_spec p (U "ChangeInputMode")) as [->|P1]; [destruct (Hno _ j (IChangeInputMode j) R'); left; auto|].
      destruct (str_eqb_spec p (U "ForceKanaConvert")) as [->|P2]; [destruct (Hno _ j (IForceKanaConvert j) R'); right; left; auto|].
      destruct (str_eqb_spec p (U "ConfirmAs")) as [->|P3]; [destruct (Hno _ j (IConfirmAs j) R'); right; right; auto|].
      destruct (str_eqb_spec p (U "OutputNNIfAny")) as [->|P4]; [destruct (Hno _ j (IForceKanaConvert j) R'); right; left; auto|].
      reflexivity.
Qed.
(** All four ways occur. *)
Example C47_exact_case :
  reads_call imode_names (U "x(y)" ++ [10%N] ++ U "ConfirmAs(Ascii)z") (U "ConfirmAs") (imode_text Ascii)
  /\ instr_from_str (U "x(y)" ++ [10%N] ++ U "ConfirmAs(Ascii)z") = Ok (Some (IConfirmAs Ascii))
  /\ instr_from_str (U "x(Ascii)" ++ [10%N] ++ U "ConfirmAs(Ascii)") = Ok None
  /\ instr_from_str (U "ChangeCompositionMode(Direct)(Ascii)") = Ok (Some (IChangeCompositionMode Direct))
  /\ instr_from_str (U "DeleteDirect") = Ok (Some IDelete).
Proof. split; [apply captures_reads; vm_compute; reflexivity|]. vm_compute. auto. Qed.
