(** Property C34, exactly: which texts come back from their escaped form. *)
From Coq Require Import Lia.
From Verif Require Import Str Keys Modes FormChanger DictTypes T_Escape.
Open Scope nat_scope.

(* ------------------------------------------------------------- specification *)
(** The widest piece of a text that looks like a call of concat: from the first opening to the last
    closing parenthesis behind it. *)
Definition opening : str := U "(concat ".
Definition widest_form (m s : str) : Prop := exists a b c, s = a ++ m ++ c /\ m = opening ++ b ++ [41%N]
  /\ (forall a' b', s = a' ++ opening ++ b' -> length a <= length a') /\ ~ In 41%N c.
(** A call of concat without a text: spaces, at most two quotes, spaces, closing parentheses. *)
Definition blank_form (m : str) : Prop := exists i q j n, m = opening ++ repeat 32%N i ++ q ++ repeat 32%N j ++ repeat 41%N (S n)
  /\ (q = [] \/ q = [34%N] \/ q = [34; 34]%N).
(** The texts that come back: behind a separator there is neither another one nor a backslash, and behind a backslash
    there is a quote, if anything. *)
Definition comes_back (s : str) : Prop :=
  ((exists c, In c s /\ special c) /\ forall a x y b, s = a ++ x :: y :: b ->
     (special x -> ~ special y /\ y <> 92%N) /\ (x = 92%N -> y = 34%N))
  \/ ((forall c, In c s -> ~ special c) /\ forall m, widest_form m s -> blank_form m).

(** The texts without a newline, and without an octal escape of their own if there is a separator in them, that come back. *)
Definition own_escape (s : str) : Prop := (exists c, In c s /\ special c) /\ exists a d b, s = a ++ 92%N :: d :: b /\ (48 <= d <= 55)%N.
Definition carried (s : str) : Prop := ~ In 10%N s /\ ~ own_escape s /\ comes_back s.

(* -------------------------------------------------------------------- proofs *)
Notation rep := (fun acc o => replacen1 o [octal_value o] acc).
Definition octs (f : str) : list str := find_octals (length f) f.
Definition undone (f : str) : str := fold_left rep (octs f) f.

Lemma octal_digits_split k : forall s a b, octal_digits k s = (a, b) -> s = a ++ b.
Proof.
  induction k as [|k IH]; intros [|c s] a b; cbn; try (intros [= <- <-]; reflexivity).
  destruct (is_octal c); [|intros [= <- <-]; reflexivity].
  destruct (octal_digits k s) as [a' b'] eqn:E. intros [= <- <-]. cbn. f_equal. now apply IH.
Qed.
Lemma octs_fuel n : forall m f, length f <= n -> length f <= m -> find_octals n f = find_octals m f.
Proof.
  induction n as [|n IH]; intros m f Hn Hm.
  { destruct f; [|cbn in Hn; lia]. now destruct m. }
  destruct f as [|c f]; [now destruct m|]. destruct m as [|m]; [cbn in Hm; lia|]. cbn [length] in Hn, Hm. cbn [find_octals].
  destruct (N.eqb c 92); [|apply IH; lia]. destruct (octal_digits 3 f) as [ds rest] eqn:E.
  pose proof (octal_digits_split _ _ _ _ E) as Es. assert (L := f_equal (@length N) Es). rewrite app_length in L.
  destruct ds as [|x ds]; [apply IH; lia|]. destruct rest as [|c' rest]; [reflexivity|]. cbn [length] in L.
  destruct (N.eqb c' 92); f_equal; apply IH; cbn [length]; lia.
Qed.
(** Every match is a backslash and an octal digit. *)
Definition octal_text (o : str) : Prop := exists d m, o = 92%N :: d :: m /\ is_octal d = true.
Lemma octal_digits_octal k : forall s c a b, octal_digits k s = (c :: a, b) -> is_octal c = true.
Proof.
  destruct k as [|k]; intros [|x s] c a b; cbn; try discriminate.
  destruct (is_octal x) eqn:E; [|discriminate]. destruct (octal_digits k s). now intros [= <- _ _].
Qed.
Lemma octs_octal n : forall f, Forall octal_text (find_octals n f).
Proof.
  induction n as [|n IH]; intros f; [constructor|]. destruct f as [|c f]; [constructor|]. cbn [find_octals].
  destruct (N.eqb_spec c 92) as [->|]; [|apply IH]. destruct (octal_digits 3 f) as [[|x ds] rest] eqn:E; [apply IH|].
  pose proof (octal_digits_octal _ _ _ _ _ E) as Hx.
  assert (O : forall l, octal_text (92%N :: x :: l)) by (intros l; exists x, l; auto).
  destruct rest as [|c' rest]; [constructor; [apply O|constructor]|].
  destruct (N.eqb c' 92); (constructor; [apply O|apply IH]).
Qed.
(** Texts put together. *)
Definition head_octal (s : str) : bool := match s with c :: _ => is_octal c | [] => false end.
Lemma clean_left a b : clean (a ++ b) -> clean a.
Proof. intros H x c y ->. apply (H x c (y ++ b)). now rewrite <- app_assoc. Qed.
Lemma clean_right a b : clean (a ++ b) -> clean b.
Proof. intros H x c y ->. apply (H (a ++ x) c y). now rewrite <- app_assoc. Qed.
Lemma clean_cons c s : clean s -> (c = 92%N -> head_octal s = false) -> clean (c :: s).
Proof.
  intros H Hc [|z x] y b E; cbn in E; injection E as -> E; [subst s; now apply Hc|]. exact (H x y b E).
Qed.
Lemma clean_join a b : clean a -> clean b -> (last_opt a = Some 92%N -> head_octal b = false) -> clean (a ++ b).
Proof.
  induction a as [|c a IH]; intros Ha Hb Hl; [exact Hb|]. cbn [app]. apply clean_cons.
  - apply IH; [exact (clean_right [c] a Ha)|exact Hb|]. intros E. apply Hl. destruct a as [|x a]; [discriminate|].
    revert E. unfold last_opt. cbn [rev]. destruct (rev a ++ [x]) as [|y l] eqn:Er; [now destruct (rev a)|]. cbn. auto.
  - intros ->. destruct a as [|x a]; [apply Hl; reflexivity|]. cbn. exact (Ha [] x a eq_refl).
Qed.
Lemma clean_head c s : clean (92%N :: c :: s) -> is_octal c = false.
Proof. intros H. exact (H [] c s eq_refl). Qed.

(** The escapes in an escaped text. *)
Definition drop_slash (f : str) : str := match f with c :: r => if N.eqb c 92 then r else f | [] => [] end.
Lemma octs_plain c f : c <> 92%N -> octs (c :: f) = octs f.
Proof. intros H. unfold octs. cbn [length find_octals]. apply N.eqb_neq in H. now rewrite H. Qed.
Lemma octs_slash f : head_octal f = false -> octs (92%N :: f) = octs f.
Proof.
  intros H. unfold octs. cbn [length find_octals]. rewrite N.eqb_refl. destruct f as [|c f]; [reflexivity|].
  cbn [octal_digits]. cbn [head_octal] in H. now rewrite H.
Qed.
Lemma octs_special c f : special c -> exists o, octs (enc c ++ f) = o :: octs (drop_slash f) /\ octal_value o = c
  /\ enc c ++ f = o ++ drop_slash f /\ octal_text o.
Proof.
  intros Hc.
  assert (G : forall d1 d2 d3, enc c = [92; d1; d2; d3]%N -> is_octal d1 = true -> is_octal d2 = true -> is_octal d3 = true ->
    octal_value [92; d1; d2; d3]%N = c -> octal_value [92; d1; d2; d3; 92]%N = c ->
    exists o, octs (enc c ++ f) = o :: octs (drop_slash f) /\ octal_value o = c /\ enc c ++ f = o ++ drop_slash f /\ octal_text o).
  { intros d1 d2 d3 Ee O1 O2 O3 V1 V2. rewrite Ee. unfold octs. remember (length f + 3) as n eqn:En.
    rewrite (octs_fuel (length ([92; d1; d2; d3]%N ++ f)) (S n)) by (cbn [app length]; lia).
    cbn [app find_octals]. rewrite N.eqb_refl. cbn [octal_digits]. rewrite O1, O2, O3.
    assert (Ot : forall m, octal_text (92%N :: d1 :: m)) by (intros m; exists d1, m; auto).
    destruct f as [|x f]; [exists [92; d1; d2; d3]%N; auto|]. cbn [drop_slash]. destruct (N.eqb_spec x 92) as [->|Hx].
    - exists [92; d1; d2; d3; 92]%N. cbn [app]. rewrite (octs_fuel n (length f) f) by (cbn [length] in *; lia). auto.
    - exists [92; d1; d2; d3]%N. cbn [app]. rewrite (octs_fuel n (length (x :: f)) (x :: f)) by (cbn [length] in *; lia). auto. }
  destruct Hc as [-> | ->]; [apply (G 48 53 55)%N|apply (G 48 55 51)%N]; reflexivity.
Qed.
Lemma enc_plain c : ~ special c -> c <> 34%N -> enc c = [c].
Proof.
  intros Hs Hq. unfold enc. destruct (N.eqb_spec c 47) as [->|]; [exfalso; apply Hs; now left|].
  destruct (N.eqb_spec c 59) as [->|]; [exfalso; apply Hs; now right|]. destruct (N.eqb_spec c 34); [contradiction|reflexivity].
Qed.
Lemma enc_head s : head_octal s = false -> head_octal (flat_map enc s) = false.
Proof.
  destruct s as [|c s]; [reflexivity|]. cbn [head_octal flat_map]. intros H. unfold enc. destruct (N.eqb c 47); [reflexivity|].
  destruct (N.eqb c 59); [reflexivity|]. destruct (N.eqb c 34); [reflexivity|exact H].
Qed.
(** An escaped text with its octal escapes undone; [b]: behind one, which also takes a backslash. *)
Fixpoint half_back (b : bool) (s : str) : str :=
  match s with
  | [] => []
  | c :: r => if after_special c then (if b then tl (enc c) ++ half_back false r else c :: half_back true r)
      else if N.eqb c 34 then (if b then [34%N] else [92; 34]%N) ++ half_back false r
      else if N.eqb c 92 then (if b then [] else [92%N]) ++ half_back false r
      else c :: half_back false r
  end.
Lemma undo_all s : forall pre, clean (pre ++ s) ->
  fold_left rep (octs (flat_map enc s)) (pre ++ flat_map enc s) = pre ++ half_back false s
  /\ (last_opt pre <> Some 92%N ->
      fold_left rep (octs (drop_slash (flat_map enc s))) (pre ++ drop_slash (flat_map enc s)) = pre ++ half_back true s).
Proof.
  induction s as [|c s IH]; intros pre Hc; [split; reflexivity|]. cbn [flat_map half_back].
  pose proof (clean_left _ _ Hc) as Cp. pose proof (clean_right _ _ Hc) as Cs. pose proof (clean_right [c] s Cs) as Cr.
  assert (A : forall l, pre ++ c :: l = (pre ++ [c]) ++ l) by (intros l; now rewrite <- app_assoc).
  assert (Hc1 : clean ((pre ++ [c]) ++ s)) by (rewrite <- A; exact Hc).
  destruct (after_special c) eqn:Es.
  - assert (Sc : special c) by now apply special_b. assert (Hn : c <> 92%N) by (destruct Sc as [-> | ->]; discriminate). split.
    + destruct (octs_special c (flat_map enc s) Sc) as (o & -> & Eo & -> & (d & m & -> & Hd)). cbn [fold_left]. rewrite Eo. cbn [app].
      rewrite replace_clean by assumption. cbn [app]. rewrite (A (drop_slash (flat_map enc s))), (A (half_back true s)). apply (IH _ Hc1). rewrite last_opt_app. congruence.
    + intros Hl. assert (W : exists d1 d2 d3, enc c = [92; d1; d2; d3]%N /\ d1 <> 92%N /\ d2 <> 92%N /\ d3 <> 92%N).
      { destruct Sc as [-> | ->]; [exists 48%N, 53%N, 55%N|exists 48%N, 55%N, 51%N]; repeat split; discriminate. }
      destruct W as (d1 & d2 & d3 & -> & N1 & N2 & N3). cbn [app drop_slash tl]. rewrite N.eqb_refl, !octs_plain by assumption.
      assert (B : forall l, pre ++ d1 :: d2 :: d3 :: l = (pre ++ [d1; d2; d3]) ++ l) by (intros l; now rewrite <- app_assoc).
      rewrite (B (flat_map enc s)), (B (half_back false s)). apply IH. rewrite <- (B s). apply clean_join; [exact Cp| |contradiction].
      repeat (apply clean_cons; [|contradiction]). exact Cr.
  - assert (Sc : ~ special c) by (rewrite special_b; congruence). destruct (N.eqb_spec c 34) as [->|Hq].
    + change (enc 34) with [92; 34]%N. cbn [app drop_slash]. rewrite N.eqb_refl, octs_slash, octs_plain by (discriminate || reflexivity).
      split; [|intros _; rewrite (A (flat_map enc s)), (A (half_back false s)); now apply IH].
      assert (B : forall l, pre ++ 92%N :: 34%N :: l = (pre ++ [92; 34]%N) ++ l) by (intros l; now rewrite <- app_assoc).
      rewrite (B (flat_map enc s)), (B (half_back false s)). apply IH. rewrite <- (B s). apply clean_join; [exact Cp| |reflexivity]. apply clean_cons; [exact Cs|reflexivity].
    + rewrite enc_plain by assumption. cbn [app drop_slash]. destruct (N.eqb_spec c 92) as [->|H92].
      * assert (Hh : head_octal s = false) by (destruct s as [|x s]; [reflexivity|exact (clean_head x s Cs)]).
        rewrite octs_slash by now apply enc_head. cbn [app]. split; [rewrite (A (flat_map enc s)), (A (half_back false s)); now apply IH|].
        intros Hl. apply IH. now apply clean_join.
      * rewrite octs_plain by exact H92. split; [|intros _]; rewrite (A (flat_map enc s)), (A (half_back false s)); now apply IH.
Qed.
Definition read_back (f : str) : str := unescape (undone f).
Lemma read_half s : clean s -> read_back (flat_map enc s) = unescape (half_back false s).
Proof. intros H. unfold read_back. f_equal. exact (proj1 (undo_all s [] H)). Qed.

(** Which texts are read back: one letter after the other. *)
Definition fits (c : N) (s : str) : Prop := match s with
  | y :: _ => (special c -> ~ special y /\ y <> 92%N) /\ (c = 92%N -> y = 34%N)
  | [] => True
  end.
Fixpoint all_fit (s : str) : Prop := match s with c :: r => fits c r /\ all_fit r | [] => True end.
Lemma unescape_plain c f : c <> 92%N -> unescape (c :: f) = c :: unescape f.
Proof. intros H. cbn [unescape]. apply N.eqb_neq in H. now rewrite H. Qed.
Lemma unescape_slash c f : is_octal c = false -> unescape (92%N :: c :: f) = c :: unescape f.
Proof. intros H. cbn [unescape]. rewrite N.eqb_refl, H. reflexivity. Qed.
(** What is left out at the beginning of a run of backslashes is missed at its end. *)
Lemma half_slashes n : forall s k, length s <= n -> clean (92%N :: s) -> unescape (half_back false s) <> repeat 92%N (S k) ++ s.
Proof.
  induction n as [|n IH]; intros [|c s] k Hn Hc; cbn [length] in Hn; try lia; try (cbn; discriminate).
  pose proof (clean_right [92%N] (c :: s) Hc) as Cc. cbn [half_back]. destruct (after_special c) eqn:Es.
  { assert (Hs : special c) by now apply special_b. rewrite unescape_plain by (destruct Hs as [-> | ->]; discriminate).
    cbn [repeat app]. intros E. injection E as E _. subst c. discriminate. }
  destruct (N.eqb_spec c 34) as [->|Hq]; [cbn [app]; rewrite unescape_slash by reflexivity; discriminate|].
  destruct (N.eqb_spec c 92) as [->|H92]; [|rewrite unescape_plain by exact H92; cbn [repeat app]; intros E; injection E as E _; contradiction].
  cbn [app]. destruct s as [|y s]; [destruct k; discriminate|].
  pose proof (clean_head y s Cc) as Hy. cbn [half_back]. destruct (after_special y) eqn:Ey.
  { assert (Hs : special y) by now apply special_b. rewrite unescape_slash by exact Hy. cbn [repeat app]. intros E.
    injection E as E _. subst y. discriminate. }
  destruct (N.eqb_spec y 34) as [->|Hq'].
  { cbn [app]. rewrite unescape_slash, unescape_plain by (reflexivity || discriminate). cbn [repeat app]. intros E.
    injection E as E. destruct k as [|k]; discriminate. }
  destruct (N.eqb_spec y 92) as [->|H92'].
  - cbn [app]. rewrite unescape_slash by reflexivity. intros E.
    apply (IH s (S k)); [cbn [length] in Hn; lia|exact (clean_right [92%N] _ Cc)|].
    assert (E' : 92%N :: unescape (half_back false s) = 92%N :: (repeat 92%N (S (S k)) ++ s)).
    { rewrite E. clear. change (92%N :: repeat 92%N (S (S k)) ++ s) with (repeat 92%N (3 + k) ++ s).
      replace (92 :: 92 :: s)%N with (repeat 92%N 2 ++ s) by reflexivity. rewrite app_assoc, <- repeat_app. do 2 f_equal. lia. }
    injection E' as E'. exact E'.
  - rewrite unescape_slash by exact Hy. cbn [repeat app]. intros E. injection E as E _. contradiction.
Qed.
Lemma half_exact n : forall s, length s <= n -> clean s -> (unescape (half_back false s) = s <-> all_fit s)
  /\ (unescape (half_back true s) = s <-> all_fit s /\ match s with x :: _ => ~ special x /\ x <> 92%N | [] => True end).
Proof.
  induction n as [|n IH]; intros [|c s] Hn Hc; cbn [length] in Hn; try lia; try (cbn; tauto).
  pose proof (clean_right [c] s Hc) as Cs. destruct (IH s ltac:(lia) Cs) as (I1 & I2). cbn [half_back all_fit].
  destruct (after_special c) eqn:Es.
  { assert (Hs : special c) by now apply special_b. assert (Hn92 : c <> 92%N) by (destruct Hs as [-> | ->]; discriminate). split.
    - rewrite unescape_plain by exact Hn92. split.
      + intros E. injection E as E. apply I2 in E as (F & H). split; [|exact F]. destruct s as [|y s]; [exact I|]. split; [auto|contradiction].
      + intros (F & A). f_equal. apply I2. split; [exact A|]. destruct s as [|y s]; [exact I|]. now apply F.
    - split; [|intros (_ & N & _); contradiction]. intros E. exfalso.
      assert (G : exists r, tl (enc c) ++ half_back false s = 48%N :: r) by (destruct Hs as [-> | ->]; cbn; eauto).
      destruct G as (r & G). rewrite G, unescape_plain in E by discriminate. injection E as E _. subst c. destruct Hs; discriminate. }
  assert (Hs : ~ special c) by (rewrite special_b; congruence). destruct (N.eqb_spec c 34) as [->|Hq].
  { assert (F : fits 34 s) by (destruct s; [exact I|split; [contradiction|discriminate]]). cbn [app].
    rewrite unescape_slash, unescape_plain by (reflexivity || discriminate).
    assert (K : 34%N :: unescape (half_back false s) = 34%N :: s <-> fits 34 s /\ all_fit s).
    { rewrite <- I1. split; [intros E; injection E as E; auto|intros (_ & E); now rewrite E]. }
    split; [exact K|]. rewrite K. split; [intros H; split; [exact H|split; [exact Hs|discriminate]]|tauto]. }
  destruct (N.eqb_spec c 92) as [->|H92].
  - cbn [app]. destruct s as [|y s].
    { cbn. split; [tauto|]. split; [discriminate|intros (_ & _ & N); contradiction]. }
    pose proof (clean_head y s Hc) as Hy. assert (Cr : clean s) by exact (clean_right [y] s Cs).
    destruct (IH s ltac:(cbn [length] in Hn; lia) Cr) as (J1 & J2). clear I2.
    assert (R : unescape (half_back false (y :: s)) <> 92%N :: y :: s).
    { exact (half_slashes (length (y :: s)) (y :: s) 0 (le_n _) Hc). }
    split; [|split; [contradiction|intros (_ & _ & N); contradiction]].
    cbn [half_back fits]. destruct (after_special y) eqn:Ey.
    { assert (Sy : special y) by now apply special_b. rewrite unescape_slash by exact Hy. split.
      - intros E. injection E as E _. subst y. discriminate.
      - intros ((_ & F) & _). rewrite F in Ey by reflexivity. discriminate. }
    destruct (N.eqb_spec y 34) as [->|Hq'].
    { cbn [app]. rewrite unescape_slash, unescape_plain by (reflexivity || discriminate).
      assert (K : 92%N :: 34%N :: unescape (half_back false s) = 92%N :: 34%N :: s <-> all_fit s).
      { rewrite <- J1. split; [intros E; injection E as E; exact E|intros E; now rewrite E]. }
      rewrite K. cbn [all_fit]. split; [intros A; split; [split; [intros X; now apply Hs in X|reflexivity]|split; [|exact A]]|tauto].
      destruct s; [exact I|split; [|discriminate]]. intros X. destruct X; discriminate. }
    destruct (N.eqb_spec y 92) as [->|H92'].
    + cbn [app]. rewrite unescape_slash by reflexivity. split; [|intros ((_ & F) & _); discriminate (F eq_refl)].
      intros E. exfalso. injection E as E. exact (half_slashes (length s) s 0 (le_n _) Cs E).
    + rewrite unescape_slash by exact Hy. split; [intros E; injection E as E _; contradiction|].
      intros ((_ & F) & _). contradiction (Hq' (F eq_refl)).
  - rewrite unescape_plain by exact H92.
    assert (F : fits c s) by (destruct s; [exact I|split; [contradiction|intros; contradiction]]).
    assert (K : c :: unescape (half_back false s) = c :: s <-> fits c s /\ all_fit s).
    { rewrite <- I1. split; [intros E; injection E as E; auto|intros (_ & E); now rewrite E]. }
    split; [exact K|]. rewrite K. tauto.
Qed.
Lemma all_fit_spec s : all_fit s <-> (forall a c y b, s = a ++ c :: y :: b -> (special c -> ~ special y /\ y <> 92%N) /\ (c = 92%N -> y = 34%N)).
Proof.
  induction s as [|x s IH]; [split; [intros _ [|] ? ? ?; discriminate|reflexivity]|]. cbn [all_fit]. rewrite IH. split.
  - intros (F & A) [|z a] c y b E; cbn in E; injection E as -> E; [subst s; exact F|]. exact (A a c y b E).
  - intros H. split; [destruct s as [|y s]; [exact I|exact (H [] x y s eq_refl)]|]. intros a c y b ->. exact (H (x :: a) c y b eq_refl).
Qed.

(** The whole of an escaped text is one form. *)
Lemma process_quoted s : s <> [] -> ~ In 10%N s -> process_lisp_fun (quoted s) = read_back (flat_map enc s).
Proof.
  intros Hne H10. unfold process_lisp_fun.
  assert (Hnl : ~ In 10%N (quoted s)).
  { unfold quoted. intros H. rewrite !in_app_iff in H. pose proof (enc_no_newline s H10) as H'.
    vm_compute in H. intuition discriminate. }
  assert (Ef : find_concats (quoted s) = [quoted s]).
  { unfold find_concats, split_on. rewrite split_aux_one by exact Hnl. cbn [rev app flat_map].
    rewrite app_nil_r. unfold concat_in_line, quoted.
    set (rest := [34%N] ++ flat_map enc s ++ [34%N] ++ [41%N]).
    assert (Es : split_once (U "(concat ") (U "(concat " ++ rest) = Some ([], rest)) by reflexivity.
    rewrite Es. unfold rest. rewrite !app_assoc. rewrite last_close_end. reflexivity. }
  rewrite Ef. cbn [map_opt].
  assert (Er : concat_replacement (quoted s) = Some (read_back (flat_map enc s))).
  { unfold concat_replacement.
    assert (E1 : trim_start_str (length (quoted s)) (U "(concat") (quoted s)
      = 32%N :: [34%N] ++ flat_map enc s ++ [34%N] ++ [41%N]).
    { unfold quoted. set (rest := [34%N] ++ flat_map enc s ++ [34%N] ++ [41%N]). clearbody rest.
      change (length (U "(concat " ++ rest)) with (S (S (6 + length rest))).
      cbn [trim_start_str]. reflexivity. }
    rewrite E1.
    assert (E2 : trim_start_matches 32 (32%N :: [34%N] ++ flat_map enc s ++ [34%N] ++ [41%N])
      = [34%N] ++ flat_map enc s ++ [34%N] ++ [41%N]) by reflexivity.
    rewrite E2.
    assert (E3 : trim_end_matches 41 ([34%N] ++ flat_map enc s ++ [34%N] ++ [41%N]) = ([34%N] ++ flat_map enc s) ++ [34%N]).
    { unfold trim_end_matches. rewrite !app_assoc, rev_app_distr. cbn [rev app trim_start_matches].
      change (41 =? 41)%N with true. cbv iota. rewrite rev_app_distr. cbn [rev app trim_start_matches].
      change (34 =? 41)%N with false. cbv iota. cbn [rev]. rewrite rev_app_distr. cbn. now rewrite !rev_involutive. }
    rewrite E3, (trim_end_other 32) by discriminate.
    assert (E4 : strip_suffix_char 34 (strip_prefix_char 34 (([34%N] ++ flat_map enc s) ++ [34%N])) = flat_map enc s).
    { cbn [app]. unfold strip_prefix_char at 1. change (34 =? 34)%N with true. cbv iota.
      unfold strip_suffix_char. rewrite rev_app_distr. cbn. apply rev_involutive. }
    rewrite E4.
    assert (E5 : is_nil (flat_map enc s) = false).
    { destruct s as [|c s]; [congruence|]. cbn [flat_map]. unfold enc.
      destruct (N.eqb c 47); [reflexivity|]. destruct (N.eqb c 59); [reflexivity|]. destruct (N.eqb c 34); reflexivity. }
    rewrite E5. reflexivity. }
  rewrite Er. cbn [option_map fold_left]. unfold replacen1.
  assert (Es : split_once (quoted s) (quoted s) = Some ([], [])).
  { unfold split_once. destruct (quoted s) as [|c q] eqn:E; [discriminate|].
    assert (Hp : is_prefixb (c :: q) (c :: q) = true) by (apply is_prefixb_spec; exists []; now rewrite app_nil_r).
    rewrite Hp, skipn_all. reflexivity. }
  rewrite Es. cbn. apply app_nil_r.
Qed.

(** * Texts without a separator *)
Lemma split_once_first p s : forall a b, split_once p s = Some (a, b) -> forall a' b', s = a' ++ p ++ b' -> length a <= length a'.
Proof.
  induction s as [|c s IH]; intros a b; cbn [split_once].
  - destruct (is_prefixb p []); [|discriminate]. intros [= <- <-] a' b' _. cbn. lia.
  - destruct (is_prefixb p (c :: s)) eqn:E; [intros [= <- <-] a' b' _; cbn; lia|].
    destruct (split_once p s) as [[x y]|]; [|discriminate]. intros [= <- <-] a' b' Es.
    destruct a' as [|z a']; [exfalso|].
    + cbn in Es. assert (P : is_prefixb p (c :: s) = true) by (apply is_prefixb_spec; eauto). congruence.
    + cbn in Es. injection Es as -> Es. cbn. specialize (IH _ _ eq_refl _ _ Es). lia.
Qed.
Lemma split_once_finds p a b : exists x y, split_once p (a ++ p ++ b) = Some (x, y).
Proof.
  induction a as [|c a (x & y & IH)]; cbn [app].
  - destruct (p ++ b) as [|c r] eqn:E.
    + apply app_eq_nil in E as (-> & ->). cbn. eauto.
    + cbn [split_once]. assert (P : is_prefixb p (c :: r) = true) by (apply is_prefixb_spec; exists b; now symmetry). rewrite P. eauto.
  - cbn [split_once]. destruct (is_prefixb p (c :: a ++ p ++ b)); [eauto|]. rewrite IH. eauto.
Qed.
Lemma last_close_spec s : match last_close s with
  | Some (x, c) => (exists y, x = y ++ [41%N]) /\ s = x ++ c /\ ~ In 41%N c
  | None => ~ In 41%N s
  end.
Proof.
  induction s as [|c s IH]; [intros []|]. cbn [last_close]. destruct (last_close s) as [[x r]|].
  - destruct IH as ((y & ->) & -> & H). split; [exists (c :: y); reflexivity|]. split; [reflexivity|exact H].
  - destruct (N.eqb_spec c 41) as [->|Hc].
    + split; [exists []; reflexivity|]. split; [reflexivity|exact IH].
    + intros [H|H]; [congruence|now apply IH].
Qed.
Lemma last_close_at y c : ~ In 41%N c -> last_close ((y ++ [41%N]) ++ c) = Some (y ++ [41%N], c).
Proof.
  intros H. induction y as [|x y IH]; cbn [app last_close].
  - pose proof (last_close_spec c) as S. destruct (last_close c) as [[u v]|]; [|reflexivity].
    exfalso. destruct S as ((w & ->) & -> & _). apply H. apply in_or_app. left. apply in_or_app. right. now left.
  - cbn [app] in IH. rewrite IH. reflexivity.
Qed.
Lemma forms_found s : ~ In 10%N s -> match find_concats s with
  | [] => forall m, ~ widest_form m s
  | [m] => widest_form m s /\ forall m', widest_form m' s -> m' = m
  | _ => False
  end.
Proof.
  intros H10. unfold find_concats, split_on. rewrite split_aux_one by exact H10. cbn [rev app flat_map]. rewrite app_nil_r.
  assert (K : forall m, widest_form m s -> concat_in_line s = [m]).
  { intros m (a & b & c & Es & -> & Hmin & Hc). unfold concat_in_line. fold opening.
    destruct (split_once_finds opening a (b ++ [41%N] ++ c)) as (x & y & E).
    replace (a ++ opening ++ b ++ [41%N] ++ c) with s in E by (rewrite Es, <- !app_assoc; reflexivity).
    pose proof (split_once_occurs _ _ _ _ E) as E1. pose proof (Hmin _ _ E1) as L1.
    assert (E2 : s = a ++ opening ++ (b ++ [41%N]) ++ c) by (rewrite Es, <- !app_assoc; reflexivity).
    pose proof (split_once_first _ _ _ _ E _ _ E2) as L2. rewrite E.
    assert (Ex : x = a /\ y = (b ++ [41%N]) ++ c).
    { rewrite E1 in E2. assert (L : length x = length a) by lia. clear - E2 L. revert a L E2.
      induction x as [|z x IH]; intros [|z' a] L E2; try discriminate; cbn [app length] in L, E2.
      - split; [reflexivity|]. now apply app_inv_head in E2.
      - injection E2 as -> E2. destruct (IH a ltac:(lia) E2) as (-> & ->). auto. }
    destruct Ex as (-> & ->). now rewrite last_close_at. }
  destruct (concat_in_line s) as [|m [|m' r]] eqn:E.
  - intros m W. specialize (K m W). discriminate.
  - split; [|intros m' W; specialize (K m' W); congruence]. unfold concat_in_line in E. fold opening in E.
    destruct (split_once opening s) as [[a rest]|] eqn:Es; [|discriminate]. pose proof (last_close_spec rest) as S.
    destruct (last_close rest) as [[x c]|]; [|discriminate]. apply (f_equal (fun l => hd [] l)) in E. cbn [hd] in E. subst m. destruct S as ((y & ->) & -> & Hc).
    exists a, y, c. split; [apply split_once_occurs in Es; rewrite Es, <- !app_assoc; reflexivity|]. split; [reflexivity|].
    split; [exact (split_once_first _ _ _ _ Es)|exact Hc].
  - unfold concat_in_line in E. destruct (split_once (U "(concat ") s) as [[a rest]|]; [|discriminate].
    destruct (last_close rest) as [[x c]|]; discriminate.
Qed.

(** * What is in a form *)
Definition inner (b : str) : str := trim_end_matches 32 (trim_end_matches 41 (trim_start_matches 32 (b ++ [41%N]))).
Lemma replacement_inner b : concat_replacement (opening ++ b ++ [41%N])
  = (let f := strip_suffix_char 34 (strip_prefix_char 34 (inner b)) in if is_nil f then None else Some (read_back f)).
Proof.
  unfold concat_replacement.
  assert (E1 : trim_start_str (length (opening ++ b ++ [41%N])) (U "(concat") (opening ++ b ++ [41%N]) = 32%N :: b ++ [41%N]).
  { unfold opening. set (rest := b ++ [41%N]). clearbody rest.
    change (length (U "(concat " ++ rest)) with (S (S (6 + length rest))). cbn [trim_start_str]. reflexivity. }
  rewrite E1. cbn [trim_start_matches]. change (32 =? 32)%N with true. cbv iota. reflexivity.
Qed.
Lemma trim_start_spec x s : exists k r, s = repeat x k ++ r /\ trim_start_matches x s = r /\ forall r', r <> x :: r'.
Proof.
  induction s as [|c s (k & r & -> & E & N)]; [exists 0, []; repeat split; discriminate|]. cbn [trim_start_matches].
  destruct (N.eqb_spec c x) as [->|Hc]; [exists (S k), r; auto|]. exists 0, (c :: repeat x k ++ r). repeat split.
  intros r' [= E' _]. contradiction.
Qed.
Lemma trim_start_repeat x k r : (forall r', r <> x :: r') -> trim_start_matches x (repeat x k ++ r) = r.
Proof.
  intros H. induction k as [|k IH]; cbn [repeat app]; [now apply trim_start_other|]. cbn [trim_start_matches]. now rewrite N.eqb_refl.
Qed.
Lemma rev_repeat (x : N) k : rev (repeat x k) = repeat x k.
Proof. induction k as [|k IH]; [reflexivity|]. cbn [repeat rev]. rewrite IH. clear IH. induction k as [|k IH]; [reflexivity|]. cbn. now rewrite IH. Qed.
Lemma trim_end_spec x s : exists k r, s = r ++ repeat x k /\ trim_end_matches x s = r.
Proof.
  destruct (trim_start_spec x (rev s)) as (k & r & E & T & _). exists k, (rev r). split.
  - apply (f_equal (@rev N)) in E. rewrite rev_involutive, rev_app_distr, rev_repeat in E. exact E.
  - unfold trim_end_matches. now rewrite T.
Qed.
Lemma trim_end_repeat x k r : (forall r', r <> r' ++ [x]) -> trim_end_matches x (r ++ repeat x k) = r.
Proof.
  intros H. unfold trim_end_matches. rewrite rev_app_distr, rev_repeat, trim_start_repeat; [apply rev_involutive|].
  intros r' E. apply (H (rev r')). rewrite <- (rev_involutive r), E. reflexivity.
Qed.
Lemma strip_nil f : is_nil (strip_suffix_char 34 (strip_prefix_char 34 f)) = true <-> f = [] \/ f = [34%N] \/ f = [34; 34]%N.
Proof.
  split.
  - intros H. assert (E : strip_suffix_char 34 (strip_prefix_char 34 f) = []) by (destruct (strip_suffix_char 34 _); [reflexivity|discriminate]).
    clear H. unfold strip_suffix_char in E. apply (f_equal (@rev N)) in E. rewrite rev_involutive in E. cbn [rev] in E.
    assert (G : strip_prefix_char 34 f = [] \/ strip_prefix_char 34 f = [34%N]).
    { destruct (rev (strip_prefix_char 34 f)) as [|c r] eqn:Er.
      - left. now rewrite <- (rev_involutive (strip_prefix_char 34 f)), Er.
      - right. cbn in E. destruct (N.eqb_spec c 34) as [->|]; [subst r|discriminate].
        now rewrite <- (rev_involutive (strip_prefix_char 34 f)), Er. }
    clear E. destruct f as [|c f]; [now left|]. cbn in G. destruct (N.eqb_spec c 34) as [->|Hc].
    + destruct G as [-> | ->]; auto.
    + destruct G as [G|G]; [discriminate|]. injection G as -> _. congruence.
  - intros [->|[->| ->]]; reflexivity.
Qed.
Lemma blank_inner b : (inner b = [] \/ inner b = [34%N] \/ inner b = [34; 34]%N) <-> blank_form (opening ++ b ++ [41%N]).
Proof.
  split.
  - unfold inner. destruct (trim_start_spec 32 (b ++ [41%N])) as (i & r & E & -> & _).
    destruct (trim_end_spec 41 r) as (n & r2 & E2 & E2'). rewrite E2'. destruct (trim_end_spec 32 r2) as (j & q & E3 & ->).
    intros Hq. exists i, q, j, (Nat.pred n). split; [|exact Hq]. f_equal. rewrite E, E2, E3, <- !app_assoc. do 3 f_equal.
    destruct n as [|n]; [exfalso|reflexivity]. cbn in E2. rewrite app_nil_r in E2.
    assert (R : r <> []). { intros ->. rewrite app_nil_r in E. apply (f_equal (@rev N)) in E. rewrite rev_app_distr, rev_repeat in E. destruct i; discriminate. }
    assert (L : exists r0, r = r0 ++ [41%N]).
    { destruct r as [|z r0 _] using rev_ind; [congruence|]. exists r0. rewrite app_assoc in E. apply app_inj_tail in E as (_ & ->). reflexivity. }
    destruct L as (r0 & L). assert (T : trim_end_matches 41 r = r) by congruence. rewrite L in T.
    unfold trim_end_matches in T. rewrite rev_app_distr in T. cbn in T.
    assert (Ln : length (rev (trim_start_matches 41 (rev r0))) <= length r0).
    { rewrite rev_length, <- (rev_length r0). clear. induction (rev r0) as [|c l IH]; [cbn; lia|]. cbn. destruct (N.eqb c 41); cbn; lia. }
    rewrite T, app_length in Ln. cbn in Ln. lia.
  - intros (i & q & j & n & E & Hq). apply app_inv_head in E. unfold inner. rewrite E.
    assert (P : forall m, repeat 41%N (S m) <> [] /\ forall r', repeat 41%N (S m) <> 32%N :: r') by (intros m; split; discriminate).
    assert (Tail : trim_start_matches 32 (repeat 32%N i ++ q ++ repeat 32%N j ++ repeat 41%N (S n))
      = match q with [] => repeat 41%N (S n) | _ => q ++ repeat 32%N j ++ repeat 41%N (S n) end).
    { destruct Hq as [->|[->| ->]].
      - cbn [app]. rewrite app_assoc, <- repeat_app. apply trim_start_repeat, P.
      - apply trim_start_repeat. discriminate.
      - apply trim_start_repeat. discriminate. }
    rewrite Tail. clear Tail.
    assert (N41 : forall q0, (q0 = [] \/ q0 = [34%N] \/ q0 = [34; 34]%N) -> forall j0 r', q0 ++ repeat 32%N j0 <> r' ++ [41%N]).
    { intros q0 H0 j0 r' E0. assert (I : In 41%N (q0 ++ repeat 32%N j0)) by (rewrite E0; apply in_or_app; right; now left).
      apply in_app_iff in I as [I|I]; [destruct H0 as [->|[->| ->]]; cbn in I; intuition discriminate|]. apply repeat_spec in I. discriminate. }
    assert (N32 : forall q0, (q0 = [] \/ q0 = [34%N] \/ q0 = [34; 34]%N) -> forall r', q0 <> r' ++ [32%N]).
    { intros q0 H0 r' E0. assert (I : In 32%N q0) by (rewrite E0; apply in_or_app; right; now left).
      destruct H0 as [->|[->| ->]]; cbn in I; intuition discriminate. }
    destruct Hq as [->|[->| ->]].
    + left. change (repeat 41%N (S n)) with ([] ++ repeat 41%N (S n)). rewrite trim_end_repeat by (intros [|] ?; discriminate). reflexivity.
    + right; left. rewrite app_assoc. rewrite trim_end_repeat by (apply N41; auto). apply trim_end_repeat. apply N32; auto.
    + right; right. rewrite app_assoc. rewrite trim_end_repeat by (apply N41; auto). apply trim_end_repeat. apply N32; auto.
Qed.

(** * Replacing shortens *)
Lemma replacen1_le o v t : o <> [] -> length (replacen1 o [v] t) <= length t.
Proof.
  intros Ho. unfold replacen1. destruct (split_once o t) as [[a b]|] eqn:E; [|lia]. apply split_once_occurs in E. subst t.
  rewrite !app_length. destruct o; [congruence|]. cbn. lia.
Qed.
Lemma undone_le f : length (undone f) <= length f.
Proof.
  unfold undone. pose proof (octs_octal (length f) f) as O. fold (octs f) in O. revert O. generalize (octs f). intros l O.
  revert f. induction O as [|o l (d & m & -> & _) O IH]; intros f; [cbn; lia|]. cbn [fold_left].
  etransitivity; [apply IH|]. apply replacen1_le. discriminate.
Qed.
Lemma unescape_le t : length (unescape t) <= length t.
Proof.
  remember (length t) as n eqn:En. assert (Hn : length t <= n) by lia. clear En. revert t Hn.
  induction n as [|n IH]; intros [|c t] Hn; cbn [length] in *; try (cbn; lia). cbn [unescape].
  destruct (N.eqb c 92); [|cbn [length]; specialize (IH t); lia]. destruct t as [|c' t]; [cbn; lia|].
  destruct (is_octal c'); cbn [length] in *; [specialize (IH (c' :: t))|specialize (IH t)]; cbn [length] in *; lia.
Qed.
Lemma strip_le c f : length (strip_suffix_char c (strip_prefix_char c f)) <= length f.
Proof.
  assert (P : forall g, length (strip_prefix_char c g) <= length g) by (intros [|x g]; cbn; [lia|]; destruct (N.eqb x c); cbn; lia).
  unfold strip_suffix_char. rewrite rev_length. etransitivity; [apply P|]. rewrite rev_length. apply P.
Qed.
Lemma inner_le b : length (inner b) <= length b.
Proof.
  unfold inner. destruct (trim_start_spec 32 (b ++ [41%N])) as (i & r & E & -> & _).
  destruct (trim_end_spec 41 r) as (n & r2 & E2 & E2'). rewrite E2'. destruct (trim_end_spec 32 r2) as (j & q & E3 & ->).
  destruct n as [|n].
  - exfalso. cbn in E2. rewrite app_nil_r in E2. 
    assert (L : exists r0, r = r0 ++ [41%N]).
    { destruct r as [|z r0 _] using rev_ind.
      - rewrite app_nil_r in E. apply (f_equal (@rev N)) in E. rewrite rev_app_distr, rev_repeat in E. destruct i; discriminate.
      - exists r0. rewrite app_assoc in E. apply app_inj_tail in E as (_ & ->). reflexivity. }
    destruct L as (r0 & L). assert (T : trim_end_matches 41 r = r) by congruence. rewrite L in T.
    unfold trim_end_matches in T. rewrite rev_app_distr in T. cbn in T.
    assert (Ln : length (rev (trim_start_matches 41 (rev r0))) <= length r0).
    { rewrite rev_length, <- (rev_length r0). clear. induction (rev r0) as [|c l IH]; [cbn; lia|]. cbn. destruct (N.eqb c 41); cbn; lia. }
    rewrite T, app_length in Ln. cbn in Ln. lia.
  - apply (f_equal (@length N)) in E, E2, E3. rewrite !app_length, repeat_length in *. cbn [length] in *. lia.
Qed.
Lemma plain_exact s : ~ In 10%N s -> (process_lisp_fun s = s <-> forall m, widest_form m s -> blank_form m).
Proof.
  intros H10. pose proof (forms_found s H10) as F. unfold process_lisp_fun. destruct (find_concats s) as [|m [|]]; [|clear H10|contradiction].
  - split; [intros _ m W; now apply F in W|reflexivity].
  - destruct F as (W & Only). destruct W as (a & b & c & Es & Em & Hmin & Hc). cbn [map_opt]. rewrite Em, replacement_inner. cbv zeta.
    pose proof (strip_nil (inner b)) as Sn. pose proof (blank_inner b) as Bl.
    destruct (is_nil (strip_suffix_char 34 (strip_prefix_char 34 (inner b)))) eqn:En.
    + cbn [option_map]. split; [|reflexivity]. intros _ m' W. apply Only in W. subst m' m. apply Bl, Sn. reflexivity.
    + cbn [option_map map_opt fold_left]. set (r := read_back _). split.
      * intros E. exfalso. assert (Hr : length r < length m).
        { unfold r, read_back. rewrite Em, !app_length. cbn [length].
          pose proof (unescape_le (undone (strip_suffix_char 34 (strip_prefix_char 34 (inner b))))).
          pose proof (undone_le (strip_suffix_char 34 (strip_prefix_char 34 (inner b)))).
          pose proof (strip_le 34 (inner b)). pose proof (inner_le b). lia. }
        clearbody r. rewrite <- Em in E. unfold replacen1 in E.
        destruct (split_once_finds m a c) as (x & y & Ex). rewrite <- Es in Ex. rewrite Ex in E. apply split_once_occurs in Ex.
        apply (f_equal (@length N)) in E, Ex. rewrite !app_length in E, Ex. lia.
      * intros B. exfalso. assert (Bm : blank_form m) by (apply B; exists a, b, c; auto). rewrite Em in Bm. apply Bl, Sn in Bm. discriminate.
Qed.

(** * C34 *)
(** A text without a newline, and without an octal escape of its own if there is a separator in it, comes back exactly
    in these cases. *)
Theorem C34_exact : forall s, ~ In 10%N s ->
  ~ own_escape s ->
  (process_lisp_fun (escape_dictionary_string s) = s <-> comes_back s).
Proof.
  intros s H10 Hcl. unfold comes_back. destruct (existsb after_special s) eqn:E.
  - apply existsb_exists in E as (c & Hin & Hs). apply special_b in Hs. assert (X : exists c, In c s /\ special c) by eauto.
    assert (Cl : clean s).
    { intros a d b Es. apply Bool.not_true_is_false. intros O. apply andb_true_iff in O as (O1 & O2).
      apply N.leb_le in O1, O2. apply Hcl. split; [exact X|]. exists a, d, b. auto. }
    rewrite escape_quoted by exact X. rewrite process_quoted; [|intros ->; destruct Hin|exact H10].
    rewrite read_half by exact Cl. rewrite (proj1 (half_exact (length s) s (le_n _) Cl)), all_fit_spec.
    split; [intros A; left; auto|intros [(_ & A)|(N & _)]; [exact A|]]. exfalso. exact (N c Hin Hs).
  - assert (N : forall c, In c s -> ~ special c).
    { intros c Hin Hs. assert (B : existsb after_special s = true) by (apply existsb_exists; exists c; split; [exact Hin|now apply special_b]). congruence. }
    rewrite escape_id by exact N. rewrite plain_exact by exact H10. split; [intros F; right; auto|].
    intros [((c & Hin & Hs) & _)|(_ & F)]; [exfalso; exact (N c Hin Hs)|exact F].
Qed.
Lemma carried_comes_back s : carried s -> process_lisp_fun (escape_dictionary_string s) = s.
Proof. intros (H10 & Ho & B). now apply C34_exact. Qed.
(** A text that holds nothing like an escape is among them. *)
Lemma escapable_carried s : escapable s -> carried s.
Proof.
  intros E. pose proof E as (H10 & _ & Hq). split; [exact H10|].
  assert (O : ~ own_escape s).
  { intros (X & a & d & b & -> & _). destruct (Hq X) as (H92 & _). apply H92. apply in_or_app. right. now left. }
  split; [exact O|]. apply C34_exact; [exact H10|exact O|]. now apply C34_round_trip_partial.
Qed.
Fixpoint cleanb (s : str) : bool := match s with c :: r => negb (N.eqb c 92 && head_octal r) && cleanb r | [] => true end.
Lemma cleanb_spec s : cleanb s = true -> clean s.
Proof.
  induction s as [|c s IH]; [intros _ [|] ? ?; discriminate|]. cbn [cleanb]. intros H. apply andb_true_iff in H as (H & Hr).
  apply clean_cons; [now apply IH|]. intros ->. rewrite N.eqb_refl in H. cbn in H. now destruct (head_octal s).
Qed.
Example C34_exact_case : comes_back (U "a/b") /\ ~ comes_back (U "a//b") /\ comes_back (U "(concat )x") /\ comes_back (U "C:\" ++ [34%N] ++ U "/x\")
  /\ ~ comes_back (U "a\/b") /\ ~ comes_back (U "a\b/") /\ ~ comes_back (U "a/\") /\ comes_back (U "a\057")
  /\ ~ comes_back ([40; 99; 111; 110; 99; 97; 116; 32; 34; 97; 34; 41]%N).
Proof.
  assert (D : forall s, existsb (N.eqb 10) s = false -> cleanb s = true \/ existsb after_special s = false ->
    (process_lisp_fun (escape_dictionary_string s) = s <-> comes_back s)).
  { intros s H1 H2. apply C34_exact; [now apply notin_b|]. intros ((c & Hin & Hs) & a & d & b & Es & O1 & O2). destruct H2 as [H2|H2].
    { pose proof (cleanb_spec s H2 a d b Es) as O. unfold is_octal in O. apply N.leb_le in O1, O2. now rewrite O1, O2 in O. }
    apply special_b in Hs. assert (B : existsb after_special s = true) by (apply existsb_exists; eauto). congruence. }
  repeat split; try (apply D; [vm_compute; reflexivity|first [left; vm_compute; reflexivity|right; vm_compute; reflexivity]|vm_compute; reflexivity]);
    intros B; apply D in B; try (vm_compute in B; discriminate B);
    first [vm_compute; reflexivity|left; vm_compute; reflexivity|right; vm_compute; reflexivity].
Qed.
