(** Numbers in readings and candidates: C39, C40, C41, C42, C43. *)
From Verif Require Import Str Keys Modes FormChanger DictTypes Parser Lru Dictionary.

(* ----------------------------------------------------- specification: numerals *)
(** Characters of Japanese numerals: a digit, a unit within a group of four (ten, hundred,
    thousand), a unit of groups (man, oku, cho, kei). *)
Inductive numeral := Digit (d : N) | Small (u : N) | Large (u : N).
Definition numeral_values : list numeral :=
  [Digit 0; Digit 1; Digit 2; Digit 3; Digit 4; Digit 5; Digit 6; Digit 7; Digit 8; Digit 9;
   Small 10; Small 100; Small 1000; Large (10 ^ 4); Large (10 ^ 8); Large (10 ^ 12); Large (10 ^ 16)]%N.
Definition kanji_numerals : list (N * numeral) :=
  combine (U "〇一二三四五六七八九十百千万億兆京") numeral_values.
Definition daiji_numerals : list (N * numeral) :=
  combine (U "零壱弐参四伍六七八九拾百阡萬億兆京") numeral_values.
Definition legal_daiji_numerals : list (N * numeral) :=
  combine (U "〇壱弐参四五六七八九拾百千万億兆京") numeral_values.
(** Reading: [total] of the groups read, [section] of the current group, pending [digit].
    A unit without a digit counts once. *)
Fixpoint reading (tbl : list (N * numeral)) (s : str) (total section : N) (digit : option N) : option N :=
  match s with
  | [] => Some (total + section + match digit with Some d => d | None => 0 end)%N
  | c :: r =>
      match assoc_N c tbl with
      | None => None
      | Some (Digit d) => match digit with Some _ => None | None => reading tbl r total section (Some d) end
      | Some (Small u) => reading tbl r total (section + match digit with Some d => d | None => 1 end * u) None
      | Some (Large u) => reading tbl r (total + (section + match digit with Some d => d | None => 0 end) * u) 0 None
      end
  end%N.
(** The number a numeral denotes. *)
Definition reads_as (tbl : list (N * numeral)) (s : str) : option N :=
  match s with [] => None | _ => reading tbl s 0 0 None end.
(** The number an ASCII digit string denotes. *)
Definition decimal (d : str) : N := fold_left (fun acc c => acc * 10 + (c - 48))%N d 0%N.
Definition ascii_digits (d : str) : Prop := d <> [] /\ Forall (fun c => (48 <= c <= 57)%N) d.

(* ---------------------------------------------------------------- C39 proofs *)
Section Kanji.
Open Scope N_scope.
Lemma digit_at_lt n i : digit_at n i < 10.
Proof. unfold digit_at. apply N.mod_lt. discriminate. Qed.
Lemma ten_cases d : d < 10 -> d = 0 \/ d = 1 \/ d = 2 \/ d = 3 \/ d = 4 \/ d = 5 \/ d = 6 \/ d = 7 \/ d = 8 \/ d = 9.
Proof. lia. Qed.
Lemma digit_char d : d < 10 -> exists c, nth_char digit_kanji d = [c] /\ assoc_N c kanji_numerals = Some (Digit d).
Proof.
  intros Hd. destruct (ten_cases d Hd) as [->|[->|[->|[->|[->|[->|[->|[->|[->| ->]]]]]]]]];
    eexists; split; vm_compute; reflexivity.
Qed.
Lemma read_digit c d rest t sec : assoc_N c kanji_numerals = Some (Digit d) ->
  reading kanji_numerals (c :: rest) t sec None = reading kanji_numerals rest t sec (Some d).
Proof. intros H. cbn [reading]. now rewrite H. Qed.
Lemma read_small c u rest t sec o : assoc_N c kanji_numerals = Some (Small u) ->
  reading kanji_numerals (c :: rest) t sec o
  = reading kanji_numerals rest t (sec + match o with Some d => d | None => 1 end * u) None.
Proof. intros H. cbn [reading]. now rewrite H. Qed.
Lemma read_large c u rest t sec o : assoc_N c kanji_numerals = Some (Large u) ->
  reading kanji_numerals (c :: rest) t sec o
  = reading kanji_numerals rest (t + (sec + match o with Some d => d | None => 0 end) * u) 0 None.
Proof. intros H. cbn [reading]. now rewrite H. Qed.
Lemma read_part d e u unit rest total section :
  d < 10 -> assoc_N unit kanji_numerals = Some (Small u) ->
  reading kanji_numerals (keta_part d e [unit] ++ rest) total section None
  = reading kanji_numerals rest total (section + d * u) None.
Proof.
  intros Hd Hu. unfold keta_part. destruct (N.eqb_spec d 0) as [->|H0].
  - cbn [app]. f_equal. lia.
  - destruct (digit_char d Hd) as (c & -> & Hc).
    destruct (N.eqb_spec d 1) as [->|H1]; [destruct e|]; cbn [negb orb app].
    + rewrite (read_digit _ _ _ _ _ Hc), (read_small _ _ _ _ _ _ Hu). reflexivity.
    + rewrite (read_small _ _ _ _ _ _ Hu). reflexivity.
    + rewrite (read_digit _ _ _ _ _ Hc), (read_small _ _ _ _ _ _ Hu). reflexivity.
Qed.
(** A group contributes its value times its unit. *)
Definition group_value (n : N) (i : nat) : N :=
  let b := N.of_nat (i * 4) in
  digit_at n (b + 3) * 1000 + digit_at n (b + 2) * 100 + digit_at n (b + 1) * 10 + digit_at n b.
Lemma small_units : assoc_N (C "千") kanji_numerals = Some (Small 1000) /\
  assoc_N (C "百") kanji_numerals = Some (Small 100) /\ assoc_N (C "十") kanji_numerals = Some (Small 10).
Proof. vm_compute. auto. Qed.
Lemma large_unit i : (1 <= i <= 4)%nat -> exists c, nth i kurai [] = [c] /\
  assoc_N c kanji_numerals = Some (Large (10000 ^ N.of_nat i)).
Proof.
  intros H. assert (i = 1 \/ i = 2 \/ i = 3 \/ i = 4)%nat as [->|[->|[->| ->]]] by lia;
    eexists; split; vm_compute; reflexivity.
Qed.
Lemma read_group n e i rest t : (i <= 4)%nat -> (i = 0%nat -> rest = []) ->
  reading kanji_numerals (keta_group n e i ++ rest) t 0 None
  = reading kanji_numerals rest (t + group_value n i * 10000 ^ N.of_nat i) 0 None.
Proof.
  intros Hi Hr. unfold keta_group, group_value. set (b := N.of_nat (i * 4)).
  pose proof (digit_at_lt n b) as H0. pose proof (digit_at_lt n (b + 1)) as H1.
  pose proof (digit_at_lt n (b + 2)) as H2. pose proof (digit_at_lt n (b + 3)) as H3.
  destruct small_units as (U3 & U2 & U1).
  set (k0 := digit_at n b) in *. set (k1 := digit_at n (b + 1)) in *.
  set (k2 := digit_at n (b + 2)) in *. set (k3 := digit_at n (b + 3)) in *. clearbody k0 k1 k2 k3.
  destruct (N.eqb k0 0 && N.eqb k1 0 && N.eqb k2 0 && N.eqb k3 0)%bool eqn:E.
  - apply andb_prop in E as [E E3]. apply andb_prop in E as [E E2]. apply andb_prop in E as [E0 E1].
    apply N.eqb_eq in E0, E1, E2, E3. subst. cbn [app]. f_equal; lia.
  - clear E. rewrite <- !app_assoc.
    change (U "千") with [C "千"]. change (U "百") with [C "百"]. change (U "十") with [C "十"].
    rewrite (read_part k3 e 1000 _ _ _ _ H3 U3), (read_part k2 e 100 _ _ _ _ H2 U2), (read_part k1 e 10 _ _ _ _ H1 U1).
    assert (Hd : forall rest', reading kanji_numerals ((if k0 =? 0 then [] else nth_char digit_kanji k0) ++ rest') t
        (0 + k3 * 1000 + k2 * 100 + k1 * 10) None
      = reading kanji_numerals rest' t (0 + k3 * 1000 + k2 * 100 + k1 * 10) (if k0 =? 0 then None else Some k0)).
    { intros rest'. destruct (N.eqb_spec k0 0); [reflexivity|]. destruct (digit_char k0 H0) as (c & -> & Hc).
      cbn [app]. apply read_digit, Hc. }
    rewrite Hd. destruct i as [|i].
    + rewrite (Hr eq_refl). cbn [nth kurai app reading]. f_equal. cbn [N.of_nat]. rewrite N.pow_0_r.
      destruct (N.eqb_spec k0 0); subst; lia.
    + destruct (large_unit (S i)) as (c & -> & Hc); [lia|]. cbn [app].
      rewrite (read_large _ _ _ _ _ _ Hc). f_equal. destruct (N.eqb_spec k0 0); subst; lia.
Qed.
Lemma group_value_div n i : group_value n i = (n / 10000 ^ N.of_nat i) mod 10000.
Proof.
  unfold group_value, digit_at. set (b := N.of_nat (i * 4)).
  assert (Hp : 10000 ^ N.of_nat i = 10 ^ b).
  { unfold b. replace (N.of_nat (i * 4)) with (4 * N.of_nat i) by lia. rewrite N.pow_mul_r. reflexivity. }
  rewrite Hp. set (m := n / 10 ^ b).
  assert (Hd : forall j, n / 10 ^ (b + j) = m / 10 ^ j).
  { intros j. rewrite N.pow_add_r. unfold m. rewrite N.div_div; [reflexivity| |]; apply N.pow_nonzero; discriminate. }
  rewrite !Hd. clearbody m.
  change (10 ^ 1) with 10. change (10 ^ 2) with 100. change (10 ^ 3) with 1000.
  assert (E1 : m mod 10000 = m mod 10 + 10 * ((m / 10) mod 1000)) by (apply (N.mod_mul_r m 10 1000); discriminate).
  assert (E2 : (m / 10) mod 1000 = (m / 10) mod 10 + 10 * ((m / 10 / 10) mod 100)) by (apply (N.mod_mul_r (m / 10) 10 100); discriminate).
  assert (E3 : (m / 10 / 10) mod 100 = (m / 10 / 10) mod 10 + 10 * ((m / 10 / 10 / 10) mod 10)) by (apply (N.mod_mul_r (m / 10 / 10) 10 10); discriminate).
  rewrite !N.div_div in E3 by discriminate. rewrite !N.div_div in E2 by discriminate.
  change (10 * 10 * 10) with 1000 in E3. change (10 * 10) with 100 in *.
  rewrite E1, E2, E3. lia.
Qed.
Lemma groups_sum n : n < 10 ^ 20 ->
  group_value n 4 * 10000 ^ 4 + group_value n 3 * 10000 ^ 3 + group_value n 2 * 10000 ^ 2
  + group_value n 1 * 10000 + group_value n 0 = n.
Proof.
  intros Hn. rewrite !group_value_div. cbn [N.of_nat Pos.of_succ_nat Pos.succ].
  change (10000 ^ 0) with 1. rewrite N.div_1_r. change (10000 ^ 1) with 10000.
  assert (H1 := N.div_mod n 10000 ltac:(discriminate)).
  assert (H2 := N.div_mod (n / 10000) 10000 ltac:(discriminate)).
  assert (H3 := N.div_mod (n / 10000 / 10000) 10000 ltac:(discriminate)).
  assert (H4 := N.div_mod (n / 10000 / 10000 / 10000) 10000 ltac:(discriminate)).
  assert (Hb : n / 10000 / 10000 / 10000 / 10000 < 10000).
  { rewrite !N.div_div by discriminate. apply N.div_lt_upper_bound; [discriminate|].
    eapply N.lt_le_trans; [exact Hn|]. vm_compute. discriminate. }
  replace (10000 ^ 2) with (10000 * 10000) by reflexivity.
  replace (10000 ^ 3) with (10000 * 10000 * 10000) by reflexivity.
  replace (10000 ^ 4) with (10000 * 10000 * 10000 * 10000) by reflexivity.
  rewrite <- !N.div_div by discriminate. rewrite (N.mod_small _ _ Hb).
  set (a := n / 10000) in *. set (b := a / 10000) in *. set (c := b / 10000) in *. set (d := c / 10000) in *.
  lia.
Qed.
Lemma read_format n e : n < 10 ^ 19 -> reads_as kanji_numerals (format_number_kanji n e) = Some n.
Proof.
  intros Hn. unfold format_number_kanji. assert (N.leb 10000000000000000000 n = false) as ->.
  { apply N.leb_gt. exact Hn. }
  destruct (N.eqb_spec n 0) as [->|H0]; [vm_compute; reflexivity|].
  assert (R : reading kanji_numerals (flat_map (keta_group n e) [4; 3; 2; 1; 0]%nat) 0 0 None = Some n).
  { cbn [flat_map]. rewrite (read_group n e 4), (read_group n e 3), (read_group n e 2), (read_group n e 1),
      (read_group n e 0) by (lia || discriminate || auto). cbn [reading].
    rewrite <- (groups_sum n) at 6 by (eapply N.lt_trans; [exact Hn|]; vm_compute; reflexivity).
    f_equal. change (10000 ^ N.of_nat 0) with 1. change (10000 ^ N.of_nat 1) with 10000.
    change (N.of_nat 2) with 2. change (N.of_nat 3) with 3. change (N.of_nat 4) with 4. lia. }
  unfold reads_as. destruct (flat_map _ _); [|exact R]. cbn in R. injection R as R. lia.
Qed.
End Kanji.

(* ------------------------------------------- digit runs of a text *)
Local Arguments is_digit : simpl never.
Definition digits (d : str) : Prop := d <> [] /\ Forall (fun c => is_digit c = true) d.
Definition no_digit (s : str) : Prop := Forall (fun c => is_digit c = false) s.
Lemma ascii_is_digit c : (48 <= c <= 57)%N -> is_digit c = true.
Proof.
  intros [H1 H2]. unfold is_digit. apply existsb_exists. exists (48, 57)%N. split; [left; reflexivity|].
  apply N.leb_le in H1, H2. now rewrite H1, H2.
Qed.
Lemma ascii_digits_digits d : ascii_digits d -> digits d.
Proof. intros [H1 H2]. split; [exact H1|]. eapply Forall_impl; [|exact H2]. intros; now apply ascii_is_digit. Qed.
Lemma span_digits_run d r : Forall (fun c => is_digit c = true) d ->
  (forall c r', r = c :: r' -> is_digit c = false) -> span_digits (d ++ r) = (d, r).
Proof.
  intros Hd Hr. induction d as [|x d IH]; cbn [app span_digits].
  - destruct r as [|c r']; [reflexivity|]. cbn [span_digits]. now rewrite (Hr c r' eq_refl).
  - inversion Hd; subst. rewrite H1, (IH H2). reflexivity.
Qed.
Lemma find_digits_run p d r : no_digit p -> digits d -> (forall c r', r = c :: r' -> is_digit c = false) ->
  find_digits (p ++ d ++ r) = Some (p, d, r).
Proof.
  intros Hp [Hne Hd] Hr. induction p as [|x p IH]; cbn.
  - destruct d as [|x d]; [congruence|]. cbn. inversion Hd; subst. rewrite H1.
    change (x :: d ++ r) with ((x :: d) ++ r).
    destruct (span_digits (d ++ r)) eqn:E. rewrite (span_digits_run d r H2 Hr) in E. injection E as <- <-. reflexivity.
  - inversion Hp; subst. rewrite H1, (IH H2). reflexivity.
Qed.
Lemma find_digits_all d : digits d -> find_digits d = Some ([], d, []).
Proof.
  intros H. pose proof (find_digits_run [] d [] ltac:(constructor) H ltac:(discriminate)) as E.
  rewrite app_nil_r in E. exact E.
Qed.
Lemma parse_decimal d : ascii_digits d -> (decimal d < 2 ^ 64)%N -> parse_u64 d = Some (decimal d).
Proof.
  intros [Hne Hd] Hn. unfold parse_u64. apply is_nil_false in Hne. rewrite Hne.
  assert (forallb is_ascii_digit d = true) as ->.
  { apply forallb_forall. intros c Hc. rewrite Forall_forall in Hd. specialize (Hd c Hc).
    unfold is_ascii_digit. apply andb_true_intro; split; apply N.leb_le; lia. }
  fold (decimal d). apply N.ltb_lt in Hn. change (2 ^ 64)%N with 18446744073709551616%N in Hn. rewrite Hn. reflexivity.
Qed.

(* ------------------------------------------- simultaneous replacement *)
Definition subst_char (tbl : list (N * N)) (c : N) : N := match assoc_N c tbl with Some b => b | None => c end.
(** No replacement text is itself replaced by a later step. *)
Fixpoint no_chain (tbl : list (N * N)) : bool :=
  match tbl with
  | [] => true
  | (_, b) :: r => negb (existsb (N.eqb b) (map fst r)) && no_chain r
  end.
Lemma replace_char_map a b s : replace_char a [b] s = map (fun x => if N.eqb x a then b else x) s.
Proof. unfold replace_char. induction s; cbn; [reflexivity|]. rewrite IHs. destruct (N.eqb a0 a); reflexivity. Qed.
Lemma assoc_not_in {A} c (tbl : list (N * A)) : existsb (N.eqb c) (map fst tbl) = false -> assoc_N c tbl = None.
Proof.
  induction tbl as [|[a b] tbl IH]; cbn; [reflexivity|]. intros H. apply Bool.orb_false_iff in H as [H1 H2].
  rewrite H1. auto.
Qed.
Lemma replace_table tbl : no_chain tbl = true -> forall s,
  fold_left (fun acc '(a, b) => replace_char a [b] acc) tbl s = map (subst_char tbl) s.
Proof.
  induction tbl as [|[a b] tbl IH]; intros H s; cbn [fold_left].
  - unfold subst_char. cbn. now rewrite map_id.
  - cbn in H. apply andb_prop in H as [H1 H2]. rewrite (IH H2), replace_char_map, map_map.
    apply map_ext. intros c. unfold subst_char. cbn. apply Bool.negb_true_iff in H1.
    destruct (N.eqb_spec c a) as [->|Hn].
    + rewrite (assoc_not_in _ _ H1). reflexivity.
    + reflexivity.
Qed.

(* ------------------------------------------------------------------ C39 *)
Lemma read_translated tbl tbl' f : (forall c v, assoc_N c tbl = Some v -> assoc_N (f c) tbl' = Some v) ->
  forall s t sec o n, reading tbl s t sec o = Some n -> reading tbl' (map f s) t sec o = Some n.
Proof.
  intros Hf. induction s as [|c s IH]; intros t sec o n H; cbn in *; [exact H|].
  destruct (assoc_N c tbl) as [v|] eqn:E; [|discriminate]. rewrite (Hf c v E).
  destruct v; [destruct o; [discriminate|]|..]; apply IH, H.
Qed.
Lemma reads_translated tbl tbl' f : (forall c v, assoc_N c tbl = Some v -> assoc_N (f c) tbl' = Some v) ->
  forall s n, reads_as tbl s = Some n -> reads_as tbl' (map f s) = Some n.
Proof.
  intros Hf s n H. unfold reads_as in *. destruct s as [|c s]; [discriminate|].
  change (map f (c :: s)) with (f c :: map f s) at 1. apply (read_translated _ _ _ Hf (c :: s) _ _ _ _ H).
Qed.
Definition forall_keys {A} (P : N -> A -> bool) (tbl : list (N * A)) : bool :=
  forallb (fun kv => P (fst kv) (snd kv)) tbl.
Lemma assoc_N_in {A} c (tbl : list (N * A)) v : assoc_N c tbl = Some v -> In (c, v) tbl.
Proof.
  induction tbl as [|[k x] tbl IH]; cbn; [discriminate|]. destruct (N.eqb_spec c k) as [->|].
  - intros [= ->]. now left.
  - intros H. right. auto.
Qed.
Definition numeral_eqb (a b : numeral) : bool :=
  match a, b with
  | Digit x, Digit y | Small x, Small y | Large x, Large y => N.eqb x y
  | _, _ => false
  end.
Lemma numeral_eqb_eq a b : numeral_eqb a b = true -> a = b.
Proof. destruct a, b; cbn; try discriminate; intros H; apply N.eqb_eq in H; congruence. Qed.
Lemma translation_ok tbl tbl' f :
  forallb (fun kv => match assoc_N (f (fst kv)) tbl' with Some v => numeral_eqb v (snd kv) | None => false end) tbl = true ->
  forall c v, assoc_N c tbl = Some v -> assoc_N (f c) tbl' = Some v.
Proof.
  intros H c v Hc. apply assoc_N_in in Hc. rewrite forallb_forall in H. specialize (H _ Hc). cbn in H.
  destruct (assoc_N (f c) tbl') as [v'|]; [|discriminate]. f_equal. now apply numeral_eqb_eq.
Qed.

(** #3: every ASCII digit string below 10^19 becomes a numeral that reads as its value. *)
Theorem C39_kanji : forall d, ascii_digits d -> (decimal d < 10 ^ 19)%N ->
  exists t, numeric_to_simple_kanji_as_number d = Ok t /\ reads_as kanji_numerals t = Some (decimal d).
Proof.
  intros d Hd Hn. exists (format_number_kanji (decimal d) false). split; [|apply read_format, Hn].
  unfold numeric_to_simple_kanji_as_number. rewrite (find_digits_all d (ascii_digits_digits d Hd)).
  rewrite (parse_decimal d Hd); [now rewrite app_nil_r|]. eapply N.lt_trans; [exact Hn|]. vm_compute. reflexivity.
Qed.
(** #5: both formal variants. *)
Theorem C39_daiji : forall d legal, ascii_digits d -> (decimal d < 10 ^ 19)%N ->
  exists t, numeric_to_daiji_as_number d legal = Ok t /\
    reads_as (if legal : bool then legal_daiji_numerals else daiji_numerals) t = Some (decimal d).
Proof.
  intros d legal Hd Hn.
  unfold numeric_to_daiji_as_number. rewrite (find_digits_all d (ascii_digits_digits d Hd)).
  rewrite (parse_decimal d Hd); [|eapply N.lt_trans; [exact Hn|]; vm_compute; reflexivity].
  eexists. split; [reflexivity|]. rewrite app_nil_r. cbn [app]. unfold replace_each.
  rewrite replace_table by (destruct legal; vm_compute; reflexivity).
  apply (reads_translated kanji_numerals); [|apply read_format, Hn].
  apply translation_ok. destruct legal; vm_compute; reflexivity.
Qed.
(** From 10^19 up to the largest u64: the message. *)
Theorem C39_too_large : forall d, ascii_digits d -> (10 ^ 19 <= decimal d < 2 ^ 64)%N ->
  numeric_to_simple_kanji_as_number d = Ok (U "数字が大きすぎます").
Proof.
  intros d Hd [H1 H2]. unfold numeric_to_simple_kanji_as_number. rewrite (find_digits_all d (ascii_digits_digits d Hd)).
  rewrite (parse_decimal d Hd H2). unfold format_number_kanji. change (10 ^ 19)%N with 10000000000000000000%N in H1.
  apply N.leb_le in H1. rewrite H1. reflexivity.
Qed.
Example C39_case : numeric_to_simple_kanji_as_number (U "120030405") = Ok (U "一億二千三万四百五")
  /\ reads_as kanji_numerals (U "一億二千三万四百五") = Some 120030405%N
  /\ numeric_to_daiji_as_number (U "1111") false = Ok (U "壱阡壱百壱拾壱")
  /\ reads_as daiji_numerals (U "壱阡壱百壱拾壱") = Some 1111%N
  /\ numeric_to_simple_kanji_as_number (U "10000000000000000000") = Ok (U "数字が大きすぎます")
  /\ ascii_digits (U "120030405").
Proof. repeat split; try (vm_compute; reflexivity); [discriminate|]. repeat constructor; vm_compute; discriminate. Qed.

(* ------------------------------------------------------------------ C40 *)
(** The digits in groups of three from the right, separated by commas. *)
Definition separated (d out : str) : Prop :=
  exists g0 gs, d = g0 ++ concat gs /\ out = g0 ++ concat (map (fun g => 44%N :: g) gs)
    /\ 1 <= length g0 <= 3 /\ Forall (fun g => length g = 3) gs.
Lemma byte_len_ascii d : Forall (fun c => (48 <= c <= 57)%N) d -> byte_len d = length d.
Proof.
  induction 1 as [|x l H H0 IH]; [reflexivity|]. change (byte_len (x :: l)) with (char_len x + byte_len l). cbn [length].
  rewrite IH. unfold char_len. assert (N.ltb x 128 = true) as -> by (apply N.ltb_lt; lia).
  reflexivity.
Qed.
(** the tail, at a group boundary *)
Lemma sep_groups n : forall k gs cnt, length gs = 3 * k -> Nat.modulo cnt 3 = 0 -> cnt + length gs <= n + 3 -> n + 1 <= cnt + length gs ->
  exists l, gs = concat l /\ Forall (fun g => length g = 3) l /\ length l = k /\
    sep_loop n cnt gs = match l with [] => [] | g :: r => g ++ concat (map (fun g => 44%N :: g) r) end.
Proof.
  induction k as [|k IH]; intros gs cnt Hl Hc H1 H2.
  - destruct gs; [|cbn in Hl; lia]. exists []. repeat split; constructor.
  - destruct gs as [|a [|b [|c gs]]]; cbn in Hl; try lia.
    assert (Hm1 : Nat.modulo (S cnt) 3 = 1) by (symmetry; apply (Nat.mod_unique _ 3 (cnt / 3)); pose proof (Nat.div_mod cnt 3); lia).
    assert (Hm2 : Nat.modulo (S (S cnt)) 3 = 2) by (symmetry; apply (Nat.mod_unique _ 3 (cnt / 3)); pose proof (Nat.div_mod cnt 3); lia).
    assert (Hm3 : Nat.modulo (S (S (S cnt))) 3 = 0) by (symmetry; apply (Nat.mod_unique _ 3 (S (cnt / 3))); pose proof (Nat.div_mod cnt 3); lia).
    destruct (IH gs (S (S (S cnt)))) as (l & E & Hf & Hk & Hs); [lia|exact Hm3|cbn in *; lia|cbn in *; lia|].
    exists ([a; b; c] :: l). split; [cbn; congruence|]. split; [constructor; auto|]. split; [cbn; lia|].
    cbn [sep_loop]. rewrite Hc, Hm1, Hm2, Hs. cbn [Nat.eqb andb app].
    destruct k as [|k].
    + destruct l; [|discriminate]. cbn in E. subst gs. cbn in H1, H2.
      assert (Nat.ltb (S (S cnt)) n = false) as -> by (apply Nat.ltb_ge; lia). reflexivity.
    + destruct l as [|g l]; [discriminate|].
      assert (Nat.ltb (S (S cnt)) n = true) as -> by (apply Nat.ltb_lt; cbn in *; lia). reflexivity.
Qed.
Theorem C40_thousands : forall d, ascii_digits d -> separated d (numeric_to_thousand_separator d).
Proof.
  intros d Hd. pose proof Hd as [Hne Hf]. unfold numeric_to_thousand_separator.
  rewrite (find_digits_all d (ascii_digits_digits d Hd)). rewrite (byte_len_ascii d Hf).
  destruct (Nat.ltb_spec (length d) 4) as [H4|H4].
  - exists d, []. cbn. rewrite !app_nil_r. repeat split; auto; [|lia]. destruct d; [congruence|cbn; lia].
  - assert (Hdm := Nat.div_mod (length d) 3 ltac:(discriminate)). set (q := length d / 3) in *. set (r := Nat.modulo (length d) 3) in *.
    assert (Hr : r < 3) by (apply Nat.mod_upper_bound; discriminate). clearbody q r.
    assert (Hrest : forall g0 gs, d = g0 ++ gs -> length g0 = r -> exists l, gs = concat l /\
       Forall (fun g => length g = 3) l /\ sep_loop (length d) 3 gs =
        match l with [] => [] | g :: r => g ++ concat (map (fun g => 44%N :: g) r) end /\ length l = q).
    { intros g0 gs E Hg. pose proof (f_equal (@length N) E) as El. rewrite app_length in El.
      destruct (sep_groups (length d) q gs 3) as (l & E1 & E2 & E3 & E4); [lia|reflexivity|lia|lia|]. exists l. auto. }
    assert (Hq : 1 <= q) by lia.
    assert (r = 0 \/ r = 1 \/ r = 2) as [Er|[Er|Er]] by lia; rewrite Er in *; cbn [Nat.sub].
    + destruct (Hrest [] d eq_refl eq_refl) as (l & E1 & E2 & E3 & E4). rewrite E3.
      destruct l as [|g l]; [cbn in E4; lia|]. exists g, l. inversion E2; subst. repeat split; auto; lia.
    + destruct d as [|a d']; [congruence|]. destruct (Hrest [a] d' eq_refl eq_refl) as (l & E1 & E2 & E3 & E4).
      assert (E0 : sep_loop (length (a :: d')) 2 (a :: d') = a :: 44%N :: sep_loop (length (a :: d')) 3 d').
      { cbn [sep_loop Nat.modulo Nat.divmod Nat.sub snd fst Nat.eqb andb]. assert (Nat.ltb 2 (length (a :: d')) = true) as -> by (apply Nat.ltb_lt; lia).
        reflexivity. }
      rewrite E0, E3. destruct l as [|g l]; [cbn in E4; lia|]. exists [a], (g :: l). cbn [map concat] in *. repeat split; auto; cbn in *; solve [congruence|lia].
    + destruct d as [|a [|b d']]; [congruence|cbn in H4; lia|]. destruct (Hrest [a; b] d' eq_refl eq_refl) as (l & E1 & E2 & E3 & E4).
      assert (E0 : sep_loop (length (a :: b :: d')) 1 (a :: b :: d') = a :: b :: 44%N :: sep_loop (length (a :: b :: d')) 3 d').
      { cbn [sep_loop Nat.modulo Nat.divmod Nat.sub snd fst Nat.eqb andb]. assert (Nat.ltb 2 (length (a :: b :: d')) = true) as -> by (apply Nat.ltb_lt; lia).
        reflexivity. }
      rewrite E0, E3. destruct l as [|g l]; [cbn in E4; lia|]. exists [a; b], (g :: l). cbn [map concat] in *. repeat split; auto; cbn in *; solve [congruence|lia].
Qed.
(** Deleting the commas gives the digits back. *)
Theorem C40_commas_removed : forall d, ascii_digits d ->
  filter (fun c => negb (N.eqb c 44)) (numeric_to_thousand_separator d) = d.
Proof.
  intros d Hd. destruct (C40_thousands d Hd) as (g0 & gs & -> & -> & _ & _). destruct Hd as [_ Hd].
  assert (K : forall l, Forall (fun c => (48 <= c <= 57)%N) l -> filter (fun c => negb (N.eqb c 44)) l = l).
  { induction 1; cbn; [reflexivity|]. assert (N.eqb x 44 = false) as -> by (apply N.eqb_neq; lia). cbn. congruence. }
  apply Forall_app in Hd as [H1 H2]. rewrite filter_app, (K _ H1). f_equal. induction gs as [|g gs IH]; cbn; [reflexivity|].
  cbn in H2. apply Forall_app in H2 as [H2 H3]. rewrite filter_app, (K _ H2), (IH H3). reflexivity.
Qed.
Example C40_case : numeric_to_thousand_separator (U "1234567") = U "1,234,567" /\ numeric_to_thousand_separator (U "123") = U "123"
  /\ numeric_to_thousand_separator (U "123456") = U "123,456".
Proof. repeat split; vm_compute; reflexivity. Qed.

(* ------------------------------------------------------------------ C41 *)
Definition full_width_digit (c : N) : N := if N.leb 48 c && N.leb c 57 then (c - 48 + C "０")%N else c.
Definition kanji_digit (c : N) : N :=
  if N.leb 48 c && N.leb c 57 then nth (N.to_nat (c - 48)) (U "〇一二三四五六七八九") 0%N else c.
Lemma not_ascii_digit_subst tbl c : map fst tbl = U "0123456789" -> (N.leb 48 c && N.leb c 57 = false) -> subst_char tbl c = c.
Proof.
  intros Ht Hc. unfold subst_char. rewrite assoc_not_in; [reflexivity|]. rewrite Ht.
  apply Bool.not_true_iff_false. intros H. apply existsb_exists in H as (x & Hx & E). apply N.eqb_eq in E. subst x.
  assert (48 <= c <= 57)%N. { cbn in Hx. repeat (destruct Hx as [<-|Hx]; [vm_compute; split; discriminate|]). destruct Hx. }
  destruct H as [H1 H2]. apply N.leb_le in H1, H2. rewrite H1, H2 in Hc. discriminate.
Qed.
Lemma ascii_digit_cases c : (N.leb 48 c && N.leb c 57 = true) ->
  c = 48%N \/ c = 49%N \/ c = 50%N \/ c = 51%N \/ c = 52%N \/ c = 53%N \/ c = 54%N \/ c = 55%N \/ c = 56%N \/ c = 57%N.
Proof. intros H. apply andb_prop in H as [H1 H2]. apply N.leb_le in H1, H2. lia. Qed.
Theorem C41_zenkaku : forall s, numeric_to_zenkaku s = map full_width_digit s.
Proof.
  intros s. unfold numeric_to_zenkaku, replace_each. rewrite replace_table by (vm_compute; reflexivity).
  apply map_ext. intros c. unfold full_width_digit. destruct (N.leb 48 c && N.leb c 57) eqn:E.
  - destruct (ascii_digit_cases c E) as [->|[->|[->|[->|[->|[->|[->|[->|[->| ->]]]]]]]]]; vm_compute; reflexivity.
  - apply not_ascii_digit_subst; [vm_compute; reflexivity|exact E].
Qed.
Theorem C41_kanji_each : forall s, numeric_to_kanji_each s = map kanji_digit s.
Proof.
  intros s. unfold numeric_to_kanji_each, replace_each. rewrite replace_table by (vm_compute; reflexivity).
  apply map_ext. intros c. unfold kanji_digit. destruct (N.leb 48 c && N.leb c 57) eqn:E.
  - destruct (ascii_digit_cases c E) as [->|[->|[->|[->|[->|[->|[->|[->|[->| ->]]]]]]]]]; vm_compute; reflexivity.
  - apply not_ascii_digit_subst; [vm_compute; reflexivity|exact E].
Qed.
Example C41_case : numeric_to_zenkaku (U "a10") = U "a１０" /\ numeric_to_kanji_each (U "a10") = U "a一〇".
Proof. split; vm_compute; reflexivity. Qed.

(* ------------------------------------------------------------------ C42 *)
(** The text cut into its maximal digit runs: [p0 n1 p1 n2 p2 ...]. *)
Definition unpieces (p0 : str) (rest : list (str * str)) : str :=
  p0 ++ concat (map (fun np => fst np ++ snd np) rest).
Definition digit_pieces (s p0 : str) (rest : list (str * str)) : Prop :=
  s = unpieces p0 rest /\ no_digit p0 /\ Forall (fun np => digits (fst np) /\ no_digit (snd np)) rest
  /\ Forall (fun np => snd np <> []) (removelast rest).
Lemma find_digits_none s : find_digits s = None -> no_digit s.
Proof.
  induction s as [|c s IH]; cbn; intros H; [constructor|]. destruct (is_digit c) eqn:E.
  - destruct (span_digits s); discriminate.
  - destruct (find_digits s) as [[[? ?] ?]|]; [discriminate|]. constructor; [exact E|]. now apply IH.
Qed.
Lemma span_digits_spec s a b : span_digits s = (a, b) ->
  s = a ++ b /\ Forall (fun c => is_digit c = true) a /\ (forall c r, b = c :: r -> is_digit c = false).
Proof.
  revert a b; induction s as [|c s IH]; intros a b H; cbn in H.
  - injection H as <- <-. repeat split; [constructor|discriminate].
  - destruct (is_digit c) eqn:E.
    + destruct (span_digits s) as [a' b'] eqn:E'. injection H as <- <-. destruct (IH _ _ eq_refl) as (-> & H1 & H2).
      repeat split; auto.
    + injection H as <- <-. repeat split; [constructor|]. intros ? ? [= -> ->]. exact E.
Qed.
Lemma find_digits_spec s : forall p d r, find_digits s = Some (p, d, r) ->
  s = p ++ d ++ r /\ no_digit p /\ digits d /\ (forall c r', r = c :: r' -> is_digit c = false).
Proof.
  induction s as [|c s IH]; intros p d r H; [discriminate|]. cbn [find_digits] in H.
  destruct (is_digit c) eqn:E.
  - destruct (span_digits (c :: s)) as [a b] eqn:E'. injection H as <- <- <-.
    destruct (span_digits_spec _ _ _ E') as (H1 & H2 & H3). split; [exact H1|]. split; [constructor|]. split; [|exact H3].
    split; [|exact H2]. intros ->. cbn in H1. subst b. specialize (H3 c s eq_refl). congruence.
  - destruct (find_digits s) as [[[p' d'] r']|]; [|discriminate]. injection H as <- <- <-.
    destruct (IH _ _ _ eq_refl) as (-> & H1 & H2 & H3). split; [reflexivity|]. split; [now constructor|auto].
Qed.
Lemma pieces_exist : forall fuel s, length s <= fuel ->
  exists p0 rest, digit_pieces s p0 rest /\ digit_runs fuel s = map fst rest.
Proof.
  induction fuel as [|f IH]; intros s Hl.
  - destruct s; [|cbn in Hl; lia]. exists [], []. repeat split; constructor.
  - cbn [digit_runs]. destruct (find_digits s) as [[[p d] r]|] eqn:E.
    + apply find_digits_spec in E as (-> & Hp & Hd & Hr). rewrite !app_length in Hl.
      destruct (IH r) as (q0 & rest & (E1 & E2 & E3 & E4) & E5).
      { destruct Hd as [Hd _]. destruct d; [congruence|cbn in Hl; lia]. }
      exists p, ((d, q0) :: rest). split; [|cbn; congruence]. split; [|split; [exact Hp|split]].
      * unfold unpieces in *. cbn. rewrite <- app_assoc. now rewrite <- E1.
      * constructor; [split; auto|exact E3].
      * destruct rest as [|[n1 p1] rest]; [constructor|]. constructor; [|exact E4].
        cbn. intros ->. inversion E3 as [|? ? [[Hn Hn'] _] _]; subst. cbn in Hn, Hn'.
        destruct n1 as [|c n1]; [congruence|]. inversion Hn' as [|? ? Hc _]; subst.
        specialize (Hr c _ eq_refl). congruence.
    + exists s, []. split; [|reflexivity]. apply find_digits_none in E. repeat split; auto; try constructor.
      unfold unpieces. cbn. now rewrite app_nil_r.
Qed.
Lemma split_once_first c pat A B : Forall (fun x => x <> c) A ->
  split_once (c :: pat) (A ++ (c :: pat) ++ B) = Some (A, B).
Proof.
  induction 1 as [|a A Ha HA IH].
  - cbn [app split_once is_prefixb]. rewrite N.eqb_refl. cbn [andb].
    assert (is_prefixb pat (pat ++ B) = true) as -> by (apply is_prefixb_spec; now exists B).
    f_equal. f_equal. cbn. clear. induction pat; cbn; auto.
  - cbn [app split_once is_prefixb]. assert (N.eqb c a = false) as -> by (apply N.eqb_neq; congruence).
    cbn [andb]. cbn [app] in IH. rewrite IH. reflexivity.
Qed.
Theorem C42_numeric_key : forall k, exists p0 rest,
  digit_pieces (ck_to k) p0 rest /\
  to_numeric_key k = (mkCK (unpieces p0 (map (fun np => (U "#", snd np)) rest)) (ck_okuri k), map fst rest).
Proof.
  intros k. destruct (pieces_exist (length (ck_to k)) (ck_to k) (le_n _)) as (p0 & rest & Hp & Hr).
  exists p0, rest. split; [exact Hp|]. unfold to_numeric_key, numbers_of. rewrite Hr. f_equal. f_equal.
  destruct Hp as (-> & H0 & Hd & _). clear Hr k. unfold unpieces. revert p0 H0.
  induction rest as [|[n p] rest IH]; intros p0 H0; [reflexivity|]. inversion Hd as [|? ? [[Hn1 Hn2] Hnp] Hd']; subst. cbn in Hn1, Hn2, Hnp.
  cbn [map concat fst snd fold_left]. unfold replacen1 at 2. destruct n as [|c n]; [congruence|].
  rewrite <- !app_assoc. rewrite (split_once_first c n p0).
  - rewrite (app_assoc (U "#")), (app_assoc p0), (IH Hd').
    + now rewrite <- !app_assoc.
    + apply Forall_app. split; [exact H0|]. apply Forall_app. split; [|exact Hnp]. constructor; [vm_compute; reflexivity|constructor].
  - apply Forall_forall. intros x Hx E. subst x. unfold no_digit in H0. rewrite Forall_forall in H0. specialize (H0 c Hx).
    inversion Hn2; congruence.
Qed.
(** The pieces are determined by the text. *)
Theorem C42_pieces_unique : forall s p0 rest q0 rest',
  digit_pieces s p0 rest -> digit_pieces s q0 rest' -> p0 = q0 /\ rest = rest'.
Proof.
  intros s p0 rest q0 rest' (E1 & A1 & B1 & C1) (E2 & A2 & B2 & C2).
  assert (R : forall p rest, no_digit p -> Forall (fun np => digits (fst np) /\ no_digit (snd np)) rest ->
     Forall (fun np => snd np <> []) (removelast rest) ->
     match rest with
     | [] => find_digits (unpieces p rest) = None
     | (n, q) :: r => find_digits (unpieces p rest) = Some (p, n, unpieces q r)
     end).
  { clear. intros p rest Hp Hr Hm. destruct rest as [|[n q] r].
    - unfold unpieces. cbn. rewrite app_nil_r. induction Hp; cbn; [reflexivity|]. now rewrite H, IHHp.
    - unfold unpieces. cbn [map concat fst snd]. inversion Hr as [|? ? [Hn Hq] Hr']; subst. cbn in Hn, Hq.
      rewrite <- app_assoc. apply find_digits_run; auto. intros c r' E.
      destruct q as [|x q].
      + destruct r as [|[n' q'] r]; [cbn in E; discriminate|]. cbn in Hm. inversion Hm; subst. cbn in *. congruence.
      + cbn in E. injection E as -> _. inversion Hq; auto. }
  revert s p0 q0 rest' E1 A1 E2 A2 B2 C2. induction rest as [|[n q] r IH]; intros s p0 q0 rest' E1 A1 E2 A2 B2 C2.
  - pose proof (R p0 [] A1 B1 C1) as F1. pose proof (R q0 rest' A2 B2 C2) as F2. rewrite <- E1 in F1.
    destruct rest' as [|[n' q'] r']; rewrite <- E2 in F2.
    + split; [|reflexivity]. unfold unpieces in *. cbn in *. rewrite app_nil_r in *. congruence.
    + cbn in F1. congruence.
  - pose proof (R p0 _ A1 B1 C1) as F1. pose proof (R q0 rest' A2 B2 C2) as F2. cbn beta iota in F1. rewrite <- E1 in F1.
    destruct rest' as [|[n' q'] r']; rewrite <- E2 in F2; [congruence|].
    rewrite F2 in F1. injection F1 as -> -> Eu. inversion B1 as [|? ? [_ Hq] B1']; subst. inversion B2 as [|? ? [_ Hq'] B2']; subst.
    cbn [snd] in Hq, Hq'.
    assert (C1' : Forall (fun np => snd np <> []) (removelast r)) by (destruct r; [constructor|inversion C1; auto]).
    assert (C2' : Forall (fun np => snd np <> []) (removelast r')) by (destruct r'; [constructor|inversion C2; auto]).
    destruct (IH B1' C1' (unpieces q r) q q' r' eq_refl Hq (eq_sym Eu) Hq' B2' C2') as [-> ->]. auto.
Qed.
Example C42_case : to_numeric_key (mkCK (U "12がつ3にち12") None) = (mkCK (U "#がつ#にち#") None, [U "12"; U "3"; U "12"])
  /\ digit_pieces (U "だい1かい") (U "だい") [(U "1", U "かい")].
Proof.
  split; [vm_compute; reflexivity|]. repeat split; repeat constructor; try (vm_compute; reflexivity); vm_compute; discriminate.
Qed.

(* ------------------------------------------------------------------ C43 *)
(** A candidate text cut at its templates: [p0 #t1 p1 #t2 p2 ...]. *)
Definition with_templates (p0 : str) (rest : list (N * str)) : str :=
  p0 ++ concat (map (fun tp => 35%N :: fst tp :: snd tp) rest).
(** A piece of plain text: no template in it, and it does not end with a number sign. *)
Definition plain (p : str) : Prop := templates p = [] /\ last_opt p <> Some 35%N.
Definition is_form (t : N) : Prop := In t (U "0123458").
(** All ways to put one text for each template, in order; templates without a number stay. *)
Fixpoint filled (rest : list (N * str)) (texts : list (list str)) : list str :=
  match rest with
  | [] => [[]]
  | (t, p) :: r =>
      flat_map (fun x => map (fun y => x ++ p ++ y) (filled r (tl texts)))
               (match texts with xs :: _ => xs | [] => [[35%N; t]] end)
  end.
Definition no_hash (s : str) : Prop := Forall (fun c => c <> 35%N) s.
Lemma templates_cons c d r : templates (c :: d :: r)
  = if N.eqb c 35 && is_template d then d :: templates r else templates (d :: r).
Proof. reflexivity. Qed.
Lemma last_opt_cons {A} (x y : A) l : last_opt (x :: y :: l) = last_opt (y :: l).
Proof. reflexivity. Qed.
Lemma plain_tail c p : plain (c :: p) -> plain p.
Proof.
  intros [H1 H2]. destruct p as [|d p]; [split; [reflexivity|discriminate]|]. split.
  - rewrite templates_cons in H1. destruct (_ && _); [discriminate|exact H1].
  - rewrite last_opt_cons in H2. exact H2.
Qed.
Lemma plain_app a b : plain a -> plain b -> plain (a ++ b).
Proof.
  induction a as [|c a IH]; intros Ha Hb; [exact Hb|]. pose proof (IH (plain_tail _ _ Ha) Hb) as [I1 I2].
  cbn [app] in *. destruct a as [|d a].
  - cbn [app] in *. destruct Ha as [_ Ha]. assert (Hc : N.eqb c 35 = false) by (apply N.eqb_neq; intros ->; apply Ha; reflexivity).
    destruct b as [|e b]; [split; auto|]. split.
    + rewrite templates_cons, Hc. exact I1.
    + rewrite last_opt_cons. exact I2.
  - cbn [app] in *. split.
    + rewrite templates_cons. destruct Ha as [Ha _]. rewrite templates_cons in Ha. destruct (_ && _); [discriminate|exact I1].
    + rewrite last_opt_cons. exact I2.
Qed.
Lemma plain_no_hash r : no_hash r -> plain r.
Proof.
  induction r as [|c r IH]; intros H; [split; [reflexivity|discriminate]|]. inversion H; subst.
  destruct (IH H3) as [I1 I2]. apply N.eqb_neq in H2. destruct r as [|d r].
  - split; [reflexivity|]. cbn. intros [= ->]. discriminate.
  - split; [rewrite templates_cons, H2; exact I1|rewrite last_opt_cons; exact I2].
Qed.
Lemma is_form_template t : is_form t -> is_template t = true.
Proof. intros H. unfold is_template. apply existsb_exists. exists t. split; [exact H|apply N.eqb_refl]. Qed.
Lemma split_template A t B : plain A -> is_form t -> split_once [35%N; t] (A ++ 35%N :: t :: B) = Some (A, B).
Proof.
  intros HA Ht. apply is_form_template in Ht. induction A as [|c A IH].
  - cbn. rewrite N.eqb_refl. reflexivity.
  - specialize (IH (plain_tail _ _ HA)). cbn [app split_once].
    assert (is_prefixb [35%N; t] (c :: A ++ 35%N :: t :: B) = false) as ->; [|rewrite IH; reflexivity].
    cbn [is_prefixb]. destruct (N.eqb_spec 35 c) as [<-|]; [|reflexivity]. cbn [andb]. destruct HA as [H1 H2].
    destruct A as [|d A]; [exfalso; apply H2; reflexivity|]. cbn [app]. destruct (N.eqb_spec t d) as [<-|]; [|reflexivity].
    rewrite templates_cons, Ht in H1. discriminate.
Qed.
Lemma templates_of p0 rest : plain p0 -> Forall (fun tp => is_form (fst tp) /\ plain (snd tp)) rest ->
  templates (with_templates p0 rest) = map fst rest.
Proof.
  intros H0 Hr. revert p0 H0. induction Hr as [|[t p] rest [Ht Hp] Hr IH]; intros p0 H0; unfold with_templates; cbn [map concat fst snd].
  - rewrite app_nil_r. apply H0.
  - cbn in Ht, Hp. fold (with_templates p rest). change ((35%N :: t :: p) ++ ?x) with (35%N :: t :: p ++ x).
    fold (with_templates p rest). specialize (IH p Hp). apply is_form_template in Ht.
    assert (H1 : templates (35%N :: t :: with_templates p rest) = t :: map fst rest)
      by (rewrite templates_cons, Ht; cbn [N.eqb Pos.eqb andb]; now rewrite IH).
    induction p0 as [|c p0 IHp]; [exact H1|]. specialize (IHp (plain_tail _ _ H0)). cbn [app].
    destruct p0 as [|d p0].
    + cbn [app] in *. rewrite templates_cons. destruct H0 as [_ H0].
      assert (Hc : N.eqb c 35 = false) by (apply N.eqb_neq; intros ->; apply H0; reflexivity). rewrite Hc. exact IHp.
    + cbn [app] in *. rewrite templates_cons. destruct H0 as [H0 _]. rewrite templates_cons in H0.
      destruct (_ && _); [discriminate|exact IHp].
Qed.
Lemma fill_loop ds : forall rest ns texts cur, Forall plain cur ->
  Forall (fun tp => is_form (fst tp) /\ plain (snd tp)) rest ->
  Forall2 (fun tn xs => template_texts ds (fst tn) (snd tn) = Ok xs) (combine (map fst rest) ns) texts ->
  Forall (Forall no_hash) texts ->
  replace_templates ds (map fst rest) ns (map (fun a => a ++ concat (map (fun tp => 35%N :: fst tp :: snd tp) rest)) cur)
  = Ok (flat_map (fun a => map (app a) (filled rest texts)) cur).
Proof.
  induction rest as [|[t p] rest IH]; intros ns texts cur Hc Hr Ht Hn.
  - cbn. assert (map (fun a => a ++ []) cur = cur) as -> by (rewrite <- (map_id cur) at 2; apply map_ext; intros; apply app_nil_r).
    f_equal. clear. induction cur; cbn; [reflexivity|]. rewrite app_nil_r. now f_equal.
  - inversion Hr as [|? ? [Hf Hp] Hr']; subst. cbn in Hf, Hp. destruct ns as [|n ns].
    + cbn in Ht. inversion Ht; subst. cbn [map replace_templates fst]. f_equal. clear - cur.
      assert (K : forall rest0, filled rest0 [] = [concat (map (fun tp => 35%N :: fst tp :: snd tp) rest0)]).
      { induction rest0 as [|[t' p'] rest' IH']; [reflexivity|]. cbn [filled tl flat_map]. rewrite IH'. reflexivity. }
      rewrite K. cbn [map fst snd]. generalize (concat ((35%N :: t :: p) :: map (fun tp : N * list N => 35%N :: fst tp :: snd tp) rest)).
      intros z. induction cur as [|a0 cur IHc]; cbn [map flat_map app]; [reflexivity|]. now rewrite <- IHc.
    + cbn [map combine fst] in Ht. inversion Ht as [|? xs ? texts' Hx Ht']; subst. cbn in Hx. inversion Hn as [|? ? Hn1 Hn2]; subst.
      destruct cur as [|a cur]; [reflexivity|]. cbn [map replace_templates fst snd concat].
      rewrite Hx. cbn [rbind].
      set (tail := concat (map (fun tp => 35%N :: fst tp :: snd tp) rest)) in *.
      assert (E : forall l, Forall plain l -> flat_map (fun text => map (fun r => replacen1 [35%N; t] r text) xs)
            (map (fun a => a ++ (35%N :: t :: p) ++ tail) l)
         = map (fun b => b ++ tail) (flat_map (fun a => map (fun x => a ++ x ++ p) xs) l)).
      { clear - Hf. induction 1 as [|b l Hb Hl IHl]; [reflexivity|]. cbn [map flat_map]. rewrite IHl, map_app. f_equal.
        rewrite map_map. apply map_ext. intros x. unfold replacen1.
        change ((35%N :: t :: p) ++ tail) with (35%N :: t :: p ++ tail). rewrite (split_template b t _ Hb Hf).
        now rewrite <- !app_assoc. }
      specialize (E (a :: cur) Hc). cbn [map] in E. rewrite E, (IH ns texts'); auto.
      * f_equal. clear. induction (a :: cur) as [|b l IHl]; [reflexivity|]. cbn [flat_map]. rewrite flat_map_app, IHl. f_equal.
        clear. cbn [filled tl]. induction xs as [|x xs IHx]; [reflexivity|]. cbn [map flat_map]. rewrite IHx, map_app. f_equal.
        rewrite map_map. apply map_ext. intros y. now rewrite <- !app_assoc.
      * apply Forall_flat_map. eapply Forall_impl; [|exact Hc]. intros b Hb. apply Forall_map.
        eapply Forall_impl; [|exact Hn1]. intros x Hx'. apply plain_app; [exact Hb|]. apply plain_app; [|exact Hp].
        now apply plain_no_hash.
Qed.
(** Each template is replaced by a text of its number, in order, and the plain pieces stay;
    the candidates are all the combinations.  The pieces may not end with a number sign and
    the texts may not contain one (only #4 can). *)
Theorem C43_templates_partial : forall ds p0 rest ns texts,
  plain p0 -> Forall (fun tp => is_form (fst tp) /\ plain (snd tp)) rest ->
  Forall2 (fun tn xs => template_texts ds (fst tn) (snd tn) = Ok xs) (combine (map fst rest) ns) texts ->
  Forall (Forall no_hash) texts ->
  replace_numeric_string ds (with_templates p0 rest) ns = Ok (map (app p0) (filled rest texts)).
Proof.
  intros ds p0 rest ns texts H0 Hr Ht Hn. unfold replace_numeric_string. rewrite (templates_of p0 rest H0 Hr).
  pose proof (fill_loop ds rest ns texts [p0] ltac:(constructor; auto) Hr Ht Hn) as E. cbn [map flat_map] in E.
  rewrite app_nil_r in E. exact E.
Qed.
(** The same for pieces that may end with a number sign and texts that may contain one: no template that is still to
    be filled may come up in what is already filled. *)
Definition occurs (t : N) (a : str) : Prop := exists u v, a = u ++ 35%N :: t :: v.
Definition free_of (ts : list N) (a : str) : Prop := Forall (fun t => ~ occurs t a) ts.
Fixpoint undisturbed (a : str) (rest : list (N * str)) (texts : list (list str)) : Prop :=
  free_of (map fst rest) a /\
  match rest, texts with
  | (_, p) :: rest', xs :: texts' => Forall (fun x => undisturbed (a ++ x ++ p) rest' texts') xs
  | _, _ => True
  end.
Lemma occurs_cons t c a : occurs t a -> occurs t (c :: a).
Proof. intros (u & v & ->). exists (c :: u), v. reflexivity. Qed.
Lemma split_free A t B : ~ occurs t A -> is_form t -> split_once [35%N; t] (A ++ 35%N :: t :: B) = Some (A, B).
Proof.
  intros HA Ht. assert (H35 : t <> 35%N) by (intros ->; apply is_form_template in Ht; discriminate Ht). induction A as [|c A IH].
  - cbn. rewrite N.eqb_refl. reflexivity.
  - specialize (IH (fun H => HA (occurs_cons t c A H))). cbn [app split_once].
    assert (is_prefixb [35%N; t] (c :: A ++ 35%N :: t :: B) = false) as ->; [|rewrite IH; reflexivity].
    cbn [is_prefixb]. destruct (N.eqb_spec 35 c) as [<-|]; [|reflexivity]. cbn [andb].
    destruct A as [|d A]; cbn [app].
    + destruct (N.eqb_spec t 35); [congruence|reflexivity].
    + destruct (N.eqb_spec t d) as [<-|]; [|reflexivity]. exfalso. apply HA. exists [], A. reflexivity.
Qed.
Lemma templates_tail c p : templates (c :: p) = [] -> templates p = [].
Proof. destruct p as [|d p]; [reflexivity|]. rewrite templates_cons. destruct (_ && _); [discriminate|auto]. Qed.
Lemma templates_of_any p0 rest : templates p0 = [] -> Forall (fun tp => is_form (fst tp) /\ templates (snd tp) = []) rest ->
  templates (with_templates p0 rest) = map fst rest.
Proof.
  intros H0 Hr. revert p0 H0. induction Hr as [|[t p] rest [Ht Hp] Hr IH]; intros p0 H0; unfold with_templates; cbn [map concat fst snd].
  - rewrite app_nil_r. apply H0.
  - cbn in Ht, Hp. fold (with_templates p rest). change ((35%N :: t :: p) ++ ?x) with (35%N :: t :: p ++ x).
    fold (with_templates p rest). specialize (IH p Hp). apply is_form_template in Ht.
    assert (H1 : templates (35%N :: t :: with_templates p rest) = t :: map fst rest)
      by (rewrite templates_cons, Ht; cbn [N.eqb Pos.eqb andb]; now rewrite IH).
    induction p0 as [|c p0 IHp]; [exact H1|]. specialize (IHp (templates_tail _ _ H0)). cbn [app].
    destruct p0 as [|d p0].
    + cbn [app] in *. rewrite templates_cons. replace (is_template 35) with false by reflexivity. rewrite andb_false_r. exact IHp.
    + cbn [app] in *. rewrite templates_cons. rewrite templates_cons in H0.
      destruct (_ && _); [discriminate|exact IHp].
Qed.
Lemma fill_undisturbed ds : forall rest ns texts cur, Forall (fun a => undisturbed a rest texts) cur ->
  Forall (fun tp => is_form (fst tp)) rest ->
  Forall2 (fun tn xs => template_texts ds (fst tn) (snd tn) = Ok xs) (combine (map fst rest) ns) texts ->
  replace_templates ds (map fst rest) ns (map (fun a => a ++ concat (map (fun tp => 35%N :: fst tp :: snd tp) rest)) cur)
  = Ok (flat_map (fun a => map (app a) (filled rest texts)) cur).
Proof.
  induction rest as [|[t p] rest IH]; intros ns texts cur Hc Hr Ht.
  - cbn. assert (map (fun a => a ++ []) cur = cur) as -> by (rewrite <- (map_id cur) at 2; apply map_ext; intros; apply app_nil_r).
    f_equal. clear. induction cur; cbn; [reflexivity|]. rewrite app_nil_r. now f_equal.
  - inversion Hr as [|? ? Hf Hr']; subst. cbn in Hf. destruct ns as [|n ns].
    + cbn in Ht. inversion Ht; subst. cbn [map replace_templates fst]. f_equal. clear - cur.
      assert (K : forall rest0, filled rest0 [] = [concat (map (fun tp => 35%N :: fst tp :: snd tp) rest0)]).
      { induction rest0 as [|[t' p'] rest' IH']; [reflexivity|]. cbn [filled tl flat_map]. rewrite IH'. reflexivity. }
      rewrite K. cbn [map fst snd]. generalize (concat ((35%N :: t :: p) :: map (fun tp : N * list N => 35%N :: fst tp :: snd tp) rest)).
      intros z. induction cur as [|a0 cur IHc]; cbn [map flat_map app]; [reflexivity|]. now rewrite <- IHc.
    + cbn [map combine fst] in Ht. inversion Ht as [|? xs ? texts' Hx Ht']; subst. cbn in Hx.
      destruct cur as [|a cur]; [reflexivity|]. cbn [map replace_templates fst snd concat].
      rewrite Hx. cbn [rbind].
      set (tail := concat (map (fun tp => 35%N :: fst tp :: snd tp) rest)) in *.
      assert (E : forall l, Forall (fun a => undisturbed a ((t, p) :: rest) (xs :: texts')) l -> flat_map (fun text => map (fun r => replacen1 [35%N; t] r text) xs)
            (map (fun a => a ++ (35%N :: t :: p) ++ tail) l)
         = map (fun b => b ++ tail) (flat_map (fun a => map (fun x => a ++ x ++ p) xs) l)).
      { clear - Hf. induction 1 as [|b l Hb Hl IHl]; [reflexivity|]. cbn [map flat_map]. rewrite IHl, map_app. f_equal.
        rewrite map_map. apply map_ext. intros x. unfold replacen1.
        destruct Hb as (Hb & _). inversion Hb as [|? ? Hb1 _]; subst.
        change ((35%N :: t :: p) ++ tail) with (35%N :: t :: p ++ tail). rewrite (split_free b t _ Hb1 Hf).
        now rewrite <- !app_assoc. }
      specialize (E (a :: cur) Hc). cbn [map] in E. rewrite E, (IH ns texts'); auto.
      * f_equal. clear. induction (a :: cur) as [|b l IHl]; [reflexivity|]. cbn [flat_map]. rewrite flat_map_app, IHl. f_equal.
        clear. cbn [filled tl]. induction xs as [|x xs IHx]; [reflexivity|]. cbn [map flat_map]. rewrite IHx, map_app. f_equal.
        rewrite map_map. apply map_ext. intros y. now rewrite <- !app_assoc.
      * apply Forall_flat_map. eapply Forall_impl; [|exact Hc]. intros b (_ & Hb). apply Forall_map. exact Hb.
Qed.
Theorem C43_undisturbed_partial : forall ds p0 rest ns texts,
  templates p0 = [] -> Forall (fun tp => is_form (fst tp) /\ templates (snd tp) = []) rest ->
  Forall2 (fun tn xs => template_texts ds (fst tn) (snd tn) = Ok xs) (combine (map fst rest) ns) texts ->
  undisturbed p0 rest texts ->
  replace_numeric_string ds (with_templates p0 rest) ns = Ok (map (app p0) (filled rest texts)).
Proof.
  intros ds p0 rest ns texts H0 Hr Ht Hu. unfold replace_numeric_string. rewrite (templates_of_any p0 rest H0 Hr).
  assert (Hf : Forall (fun tp => is_form (fst tp)) rest) by (eapply Forall_impl; [|exact Hr]; intros tp H; apply H).
  pose proof (fill_undisturbed ds rest ns texts [p0] ltac:(constructor; auto) Hf Ht) as E. cbn [map flat_map] in E.
  rewrite app_nil_r in E. exact E.
Qed.
(** A number sign before a template does no harm if no template comes up: seven is no template. *)
Example C43_undisturbed_case :
  undisturbed (U "#") [(C "0", U "-#"); (C "2", [])] [[U "7"]; [U "五"]]
  /\ replace_numeric_string [] (U "##0-##2") [U "7"; U "5"] = Ok [U "#7-#五"]
  /\ ~ undisturbed (U "#") [(C "0", []); (C "1", [])] [[U "12"]; [U "５"]].
Proof.
  assert (G : forall ts a, forallb (fun t => negb (contains [35%N; t] a)) ts = true -> free_of ts a).
  { intros ts a H. rewrite forallb_forall in H. apply Forall_forall. intros t Ht (u & v & ->). specialize (H t Ht).
    apply negb_true_iff in H. clear - H. induction u as [|c u IH]; cbn [app contains] in H; apply orb_false_iff in H as (H1 & H2).
    - cbn [is_prefixb] in H1. rewrite !N.eqb_refl in H1. discriminate.
    - now apply IH. }
  split; [|split; [vm_compute; reflexivity|]].
  - split; [apply G; vm_compute; reflexivity|]. constructor; [|constructor]. split; [apply G; vm_compute; reflexivity|].
    constructor; [|constructor]. split; [apply G; vm_compute; reflexivity|exact I].
  - intros (_ & H). inversion H as [|? ? (H1 & _) _]; subst. inversion H1 as [|? ? H2 _]; subst. apply H2. exists [], (U "2"). reflexivity.
Qed.
(** The texts of each form of a number. *)
Theorem C43_forms : forall ds n, ascii_digits n -> (decimal n < 10 ^ 19)%N ->
  template_texts ds (C "0") n = Ok [n] /\
  template_texts ds (C "1") n = Ok [map full_width_digit n] /\
  template_texts ds (C "2") n = Ok [map kanji_digit n] /\
  (exists t, template_texts ds (C "3") n = Ok [t] /\ reads_as kanji_numerals t = Some (decimal n)) /\
  (exists t t', template_texts ds (C "5") n = Ok [t; t'] /\ reads_as daiji_numerals t = Some (decimal n)
      /\ reads_as legal_daiji_numerals t' = Some (decimal n)) /\
  (exists t, template_texts ds (C "8") n = Ok [t] /\ separated n t) /\
  template_texts ds (C "4") n = rmap (map c_kouho) (exact_candidates ds (mkCK n None)).
Proof.
  intros ds n Hn Hl. split; [reflexivity|]. split; [|split; [|split; [|split; [|split]]]].
  - change (template_texts ds (C "1") n) with (Ok [numeric_to_zenkaku n] : res (list str)). now rewrite C41_zenkaku.
  - change (template_texts ds (C "2") n) with (Ok [numeric_to_kanji_each n] : res (list str)). now rewrite C41_kanji_each.
  - destruct (C39_kanji n Hn Hl) as (t & E & R). exists t. split; [|exact R].
    change (template_texts ds (C "3") n) with (rmap (fun x => [x]) (numeric_to_simple_kanji_as_number n)). now rewrite E.
  - destruct (C39_daiji n false Hn Hl) as (t & E & R). destruct (C39_daiji n true Hn Hl) as (t' & E' & R').
    exists t, t'. split; [|split; assumption].
    change (template_texts ds (C "5") n) with (rbind (numeric_to_daiji_as_number n false) (fun a =>
      rmap (fun b => [a; b]) (numeric_to_daiji_as_number n true))). rewrite E, E'. reflexivity.
  - exists (numeric_to_thousand_separator n). split; [reflexivity|]. now apply C40_thousands.
  - reflexivity.
Qed.
(** None of these texts, except those of #4, contains a number sign. *)
Lemma reads_no_hash tbl s n : assoc_N 35 tbl = None -> reads_as tbl s = Some n -> no_hash s.
Proof.
  intros Ht. assert (K : forall s t sec o, reading tbl s t sec o <> None -> no_hash s).
  { induction s0 as [|c s0 IH]; intros t sec o H; [constructor|]. cbn in H.
    destruct (assoc_N c tbl) as [v|] eqn:E; [|congruence]. constructor; [congruence|].
    destruct v; [destruct o; [congruence|]|..]; eapply IH; eauto. }
  intros H. unfold reads_as in H. destruct s as [|c s]; [constructor|]. eapply K. rewrite H. discriminate.
Qed.
Lemma digits_no_hash n : ascii_digits n -> no_hash n.
Proof. intros [_ H]. eapply Forall_impl; [|exact H]. cbn. lia. Qed.
Theorem C43_no_hash : forall ds t n xs, ascii_digits n -> (decimal n < 10 ^ 19)%N -> is_form t -> t <> C "4" ->
  template_texts ds t n = Ok xs -> Forall no_hash xs.
Proof.
  intros ds t n xs Hn Hl Hf H4 E. destruct (C43_forms ds n Hn Hl) as (F0 & F1 & F2 & (t3 & F3 & R3) & (t5 & t5' & F5 & R5 & R5') & (t8 & F8 & S8) & _).
  assert (D : forall f, (forall c, (48 <= c <= 57)%N -> f c <> 35%N) -> no_hash (map f n)).
  { intros f H. destruct Hn as [_ Hn]. apply Forall_map. eapply Forall_impl; [|exact Hn]. exact H. }
  assert (Cs : forall f : N -> N, forallb (fun c => negb (N.eqb (f c) 35)) (U "0123456789") = true ->
     forall c, (48 <= c <= 57)%N -> f c <> 35%N).
  { intros f H c Hc E'. rewrite forallb_forall in H. specialize (H c). rewrite E' in H. discriminate H.
    cbn. lia. }
  cbn in Hf. destruct Hf as [<-|[<-|[<-|[<-|[<-|[<-|[<-|[]]]]]]]].
  - change 48%N with (C "0") in E. rewrite F0 in E. injection E as <-. constructor; [now apply digits_no_hash|constructor].
  - change 49%N with (C "1") in E. rewrite F1 in E. injection E as <-. constructor; [|constructor]. apply D, Cs. vm_compute. reflexivity.
  - change 50%N with (C "2") in E. rewrite F2 in E. injection E as <-. constructor; [|constructor]. apply D, Cs. vm_compute. reflexivity.
  - change 51%N with (C "3") in E. rewrite F3 in E. injection E as <-. constructor; [|constructor].
    eapply reads_no_hash; [|exact R3]. vm_compute. reflexivity.
  - exfalso. apply H4. reflexivity.
  - change 53%N with (C "5") in E. rewrite F5 in E. injection E as <-. repeat constructor.
    + eapply reads_no_hash; [|exact R5]. vm_compute. reflexivity.
    + eapply reads_no_hash; [|exact R5']. vm_compute. reflexivity.
  - change 56%N with (C "8") in E. rewrite F8 in E. injection E as <-. constructor; [|constructor].
    destruct S8 as (g0 & gs & E1 & -> & _). apply digits_no_hash in Hn. rewrite E1 in Hn. apply Forall_app in Hn as [N1 N2].
    apply Forall_app. split; [exact N1|]. clear - N2. induction gs as [|g gs IH]; [constructor|]. cbn in *.
    apply Forall_app in N2 as [N2 N3]. constructor; [discriminate|]. apply Forall_app. split; auto.
Qed.
(** A literal number sign before a template makes the replacement go wrong. *)
Theorem C43_refuted : replace_numeric_string [] (U "##0#1") [U "12"; U "5"] = Ok [U "５2#1"].
Proof. vm_compute. reflexivity. Qed.
Example C43_case : replace_numeric_string [] (U "第#1回#3日") [U "12"; U "30"] = Ok [U "第１２回三十日"]
  /\ with_templates (U "第") [(C "1", U "回"); (C "3", U "日")] = U "第#1回#3日"
  /\ plain (U "第") /\ is_form (C "3").
Proof. repeat split; try (vm_compute; reflexivity); [discriminate|vm_compute; tauto]. Qed.
