(** Property C34: reading back an escaped candidate text. *)
From Verif Require Import Str Keys Modes FormChanger DictTypes.

(** * Specification *)
Definition special (c : N) : Prop := c = 47%N \/ c = 59%N.
Definition occurs (p s : str) : Prop := exists a b, s = a ++ p ++ b.
(** Texts the escape can carry: no newline, no text that itself looks like an escape; and, if
    there is anything to escape, no backslash and no two of / ; in a row. *)
Definition escapable (s : str) : Prop :=
  ~ In 10%N s /\ ~ occurs (U "(concat ") s
  /\ ((exists c, In c s /\ special c) ->
      ~ In 92%N s /\ (forall a x y b, s = a ++ x :: y :: b -> special x -> special y -> False)).

(** * Substrings *)
Lemma split_once_occurs p s a b : split_once p s = Some (a, b) -> s = a ++ p ++ b.
Proof.
  revert a. induction s as [|c s IH]; intros a; cbn.
  - destruct (is_prefixb p []) eqn:E; [|discriminate]. apply is_prefixb_spec in E as (r & E).
    intros [= <- <-]. cbn. symmetry in E. apply app_eq_nil in E as (-> & ->). reflexivity.
  - destruct (is_prefixb p (c :: s)) eqn:E.
    + apply is_prefixb_spec in E as (r & E). intros [= <- <-]. rewrite E. rewrite skipn_app, Nat.sub_diag, skipn_all. reflexivity.
    + destruct (split_once p s) as [[a' b']|]; [|discriminate]. intros [= <- <-].
      rewrite (IH a' eq_refl). reflexivity.
Qed.
Lemma split_aux_sub x acc s w : In w (split_aux x acc s) -> exists a b, rev acc ++ s = a ++ w ++ b.
Proof.
  revert acc. induction s as [|c s IH]; intros acc; cbn.
  - intros [<-|[]]. exists [], []. now rewrite !app_nil_r.
  - destruct (N.eqb_spec c x) as [->|].
    + intros [<-|H]; [exists [], (x :: s); reflexivity|].
      apply IH in H as (a & b & E). cbn in E. exists (rev acc ++ x :: a), b. rewrite E, <- app_assoc. reflexivity.
    + intros H. apply IH in H as (a & b & E). cbn in E. rewrite <- app_assoc in E. eauto.
Qed.
Lemma split_aux_one x acc s : ~ In x s -> split_aux x acc s = [rev acc ++ s].
Proof.
  revert acc. induction s as [|c s IH]; intros acc H; cbn; [now rewrite app_nil_r|].
  destruct (N.eqb_spec c x) as [->|]; [exfalso; apply H; now left|].
  rewrite IH by (intros H'; apply H; now right). cbn. now rewrite <- app_assoc.
Qed.
Lemma no_concat_plain s : ~ occurs (U "(concat ") s -> process_lisp_fun s = s.
Proof.
  intros H. unfold process_lisp_fun.
  assert (E : find_concats s = []).
  { unfold find_concats. assert (G : forall w, In w (split_on 10 s) -> concat_in_line w = []).
    { intros w Hw. apply split_aux_sub in Hw as (a & b & E). cbn [rev app] in E. unfold concat_in_line.
      destruct (split_once (U "(concat ") w) as [[p q]|] eqn:Es; [|reflexivity].
      exfalso. apply H. apply split_once_occurs in Es. rewrite Es in E.
      exists (a ++ p), (q ++ b). rewrite E, <- !app_assoc. reflexivity. }
    induction (split_on 10 s) as [|w ws IH]; [reflexivity|]. cbn. rewrite G by now left. apply IH.
    intros w' Hw'. apply G. now right. }
  rewrite E. reflexivity.
Qed.

(** * The escape as a character map *)
Definition enc (c : N) : str :=
  if N.eqb c 47 then [92; 48; 53; 55]%N else if N.eqb c 59 then [92; 48; 55; 51]%N
  else if N.eqb c 34 then [92; 34]%N else [c].
Definition quoted (s : str) : str := U "(concat " ++ [34%N] ++ flat_map enc s ++ [34%N] ++ [41%N].
Lemma escape_quoted s : (exists c, In c s /\ special c) -> escape_dictionary_string s = quoted s.
Proof.
  intros (c & Hin & Hc). unfold escape_dictionary_string.
  assert (E : existsb (N.eqb 59) s || existsb (N.eqb 47) s = true).
  { apply orb_true_iff. rewrite !existsb_exists. destruct Hc as [-> | ->]; [right|left]; eexists; (split; [exact Hin|reflexivity]). }
  rewrite E. unfold quoted. f_equal. f_equal. f_equal.
  clear. induction s as [|c s IH]; [reflexivity|].
  unfold replace_char in *. cbn [flat_map]. rewrite !flat_map_app, IH. f_equal.
  unfold enc. destruct (N.eqb_spec c 47) as [->|H1]; [reflexivity|].
  cbn [flat_map app]. destruct (N.eqb_spec c 59) as [->|H2]; [reflexivity|].
  cbn [flat_map app]. destruct (N.eqb_spec c 34) as [->|H3]; reflexivity.
Qed.
Lemma escape_id s : (forall c, In c s -> ~ special c) -> escape_dictionary_string s = s.
Proof.
  intros H. unfold escape_dictionary_string.
  assert (E : existsb (N.eqb 59) s || existsb (N.eqb 47) s = false).
  { apply orb_false_iff. split; apply Bool.not_true_is_false; rewrite existsb_exists; intros (c & Hc & Hs);
      apply N.eqb_eq in Hs; apply (H c Hc); unfold special; auto. }
  now rewrite E.
Qed.

(** * Decoding *)
Definition after_special (c : N) : bool := N.eqb c 47 || N.eqb c 59.
(** the text after the octal escapes are replaced: a quote right after one of them has lost
    its backslash *)
Fixpoint half (prev : bool) (s : str) : str :=
  match s with
  | [] => []
  | c :: r => (if N.eqb c 34 && negb prev then [92; 34]%N else [c]) ++ half (after_special c) r
  end.
Definition apart (s : str) : Prop := forall a x y b, s = a ++ x :: y :: b -> special x -> special y -> False.
Lemma apart_tail c s : apart (c :: s) -> apart s.
Proof. intros H a x y b ->. apply (H (c :: a) x y b). reflexivity. Qed.
(** No backslash is followed by an octal digit. *)
Definition clean (p : str) : Prop := forall a c b, p = a ++ 92%N :: c :: b -> is_octal c = false.
Lemma clean_snoc p c : clean p -> is_octal c = false -> clean (p ++ [c]).
Proof.
  intros H Hc a x b E. destruct b as [|y b] using rev_ind.
  - assert (E' : p ++ [c] = (a ++ [92%N]) ++ [x]) by (rewrite E, <- app_assoc; reflexivity).
    apply app_inj_tail in E' as (_ & <-). exact Hc.
  - clear IHb. assert (E' : p ++ [c] = (a ++ 92%N :: x :: b) ++ [y]) by (rewrite E, <- app_assoc; reflexivity).
    apply app_inj_tail in E' as (-> & _). apply (H a x b eq_refl).
Qed.
Lemma clean_snoc_plain p c : clean p -> last_opt p <> Some 92%N -> clean (p ++ [c]).
Proof.
  intros H Hl a x b E. destruct b as [|y b] using rev_ind.
  - assert (E' : p ++ [c] = (a ++ [92%N]) ++ [x]) by (rewrite E, <- app_assoc; reflexivity).
    apply app_inj_tail in E' as (-> & _). exfalso. apply Hl, last_opt_app.
  - clear IHb. assert (E' : p ++ [c] = (a ++ 92%N :: x :: b) ++ [y]) by (rewrite E, <- app_assoc; reflexivity).
    apply app_inj_tail in E' as (-> & _). apply (H a x b eq_refl).
Qed.
Lemma split_once_clean p d m rest : clean p -> is_octal d = true -> 
  split_once (92%N :: d :: m) (p ++ 92%N :: d :: m ++ rest) = Some (p, rest).
Proof.
  intros H Hd. induction p as [|c p IH].
  - cbn [app]. unfold split_once. assert (E : is_prefixb (92%N :: d :: m) (92%N :: d :: m ++ rest) = true)
      by (apply is_prefixb_spec; exists rest; reflexivity).
    rewrite E. do 2 f_equal. cbn [length skipn]. rewrite skipn_app, Nat.sub_diag, skipn_all. reflexivity.
  - cbn [app split_once].
    destruct (is_prefixb (92%N :: d :: m) (c :: p ++ 92%N :: d :: m ++ rest)) eqn:E.
    + exfalso. apply is_prefixb_spec in E as (r & E). cbn in E. injection E as -> E.
      destruct p as [|c' p]; cbn in E.
      * injection E as E _. subst d. vm_compute in Hd. discriminate.
      * injection E as -> E. specialize (H [] d p eq_refl). congruence.
    + rewrite IH; [reflexivity|]. intros a x b ->. apply (H (c :: a) x b eq_refl).
Qed.

Lemma replace_clean p d m r rest : clean p -> is_octal d = true ->
  replacen1 (92%N :: d :: m) r (p ++ 92%N :: d :: m ++ rest) = p ++ r ++ rest.
Proof. intros H1 H2. unfold replacen1. now rewrite split_once_clean. Qed.
Lemma half_true_other s : (forall r, s <> 34%N :: r) -> half true s = half false s.
Proof.
  destruct s as [|c s]; [reflexivity|]. intros H. cbn.
  destruct (N.eqb_spec c 34) as [->|]; [exfalso; now apply (H s)|reflexivity].
Qed.
Lemma plain_grow p c : clean p -> last_opt p <> Some 92%N -> c <> 92%N ->
  clean (p ++ [c]) /\ last_opt (p ++ [c]) <> Some 92%N.
Proof.
  intros H1 H2 H3. split; [now apply clean_snoc_plain|]. rewrite last_opt_app. congruence.
Qed.
Lemma octals_fold s : forall fuel pre, ~ In 92%N s -> apart s -> length (flat_map enc s) <= fuel ->
  clean pre -> last_opt pre <> Some 92%N ->
  fold_left (fun acc o => replacen1 o [octal_value o] acc) (find_octals fuel (flat_map enc s))
            (pre ++ flat_map enc s)
  = pre ++ half false s.
Proof.
  remember (length s) as n eqn:Hn. assert (Hle : length s <= n) by lia. clear Hn. revert s Hle.
  induction n as [|n IH]; intros s Hle fuel pre H92 Hap Hf Hc Hl.
  { destruct s; [|cbn in Hle; lia]. destruct fuel; reflexivity. }
  destruct s as [|c s]; [destruct fuel; reflexivity|]. cbn [length] in Hle.
  assert (H92s : ~ In 92%N s) by (intros H; apply H92; now right).
  assert (Hc92 : c <> 92%N) by (intros ->; apply H92; now left).
  pose proof (apart_tail _ _ Hap) as Haps.
  cbn [flat_map] in *. rewrite app_length in Hf.
  assert (SP : forall oct d1 d2 d3, (oct = 47 \/ oct = 59)%N -> c = oct -> enc c = [92; d1; d2; d3]%N ->
    is_octal d1 = true -> is_octal d2 = true -> is_octal d3 = true ->
    octal_value [92; d1; d2; d3]%N = oct -> octal_value [92; d1; d2; d3; 92]%N = oct ->
    fold_left (fun acc o => replacen1 o [octal_value o] acc)
      (find_octals fuel (enc c ++ flat_map enc s)) (pre ++ enc c ++ flat_map enc s)
    = pre ++ half false (c :: s)).
  { intros oct d1 d2 d3 Ho -> Ee O1 O2 O3 V1 V2. rewrite Ee in *. cbn [length] in Hf.
    destruct fuel as [|fuel]; [lia|]. cbn [app find_octals]. rewrite N.eqb_refl.
    cbn [octal_digits]. rewrite O1, O2, O3.
    destruct (plain_grow pre oct Hc Hl Hc92) as (G1 & G2).
    assert (Ha : after_special oct = true) by (destruct Ho as [-> | ->]; reflexivity).
    assert (Hq : N.eqb oct 34 = false) by (destruct Ho as [-> | ->]; reflexivity).
    cbn [half]. rewrite Hq, Ha. cbn [andb].
    destruct s as [|x s].
    - cbn [flat_map fold_left half]. rewrite V1. rewrite <- (app_nil_r [92; d1; d2; d3]%N) at 2.
      cbn [app]. change ([d2; d3]) with ([d2; d3] ++ @nil N) at 2. rewrite replace_clean by assumption. reflexivity.
    - cbn [flat_map] in *. destruct (N.eqb_spec x 34) as [->|Hx].
      + change (enc 34) with [92; 34]%N. cbn [app]. rewrite N.eqb_refl.
        cbn [fold_left]. rewrite V2.
        change (pre ++ 92%N :: d1 :: d2 :: d3 :: 92%N :: 34%N :: flat_map enc s)
          with (pre ++ 92%N :: d1 :: [d2; d3; 92%N] ++ (34%N :: flat_map enc s)).
        rewrite (replace_clean pre d1 [d2; d3; 92%N]) by assumption.
        change (enc 34) with [92; 34]%N in Hf. rewrite app_length in Hf. cbn [length] in Hf.
        destruct fuel as [|fuel]; [lia|]. cbn [find_octals].
        change (34 =? 92)%N with false. cbn [app half]. change (34 =? 34)%N with true.
        change (after_special 34) with false. cbn [negb andb app].
        destruct (plain_grow _ 34%N G1 G2) as (G3 & G4); [discriminate|].
        replace (pre ++ oct :: 34%N :: flat_map enc s) with (((pre ++ [oct]) ++ [34%N]) ++ flat_map enc s)
          by (rewrite <- !app_assoc; reflexivity).
        rewrite IH.
        * rewrite <- !app_assoc. reflexivity.
        * cbn [length] in Hle. lia.
        * intros H; apply H92s; now right.
        * now apply apart_tail in Haps.
        * lia.
        * exact G3.
        * exact G4.
      + assert (Hsx : ~ special x).
        { intros Hs. apply (Hap [] oct x s eq_refl); [exact Ho|exact Hs]. }
        assert (Hx92 : x <> 92%N) by (intros ->; apply H92s; now left).
        assert (Ex : enc x = [x]).
        { unfold enc. destruct (N.eqb_spec x 47) as [->|]; [exfalso; apply Hsx; now left|].
          destruct (N.eqb_spec x 59) as [->|]; [exfalso; apply Hsx; now right|].
          destruct (N.eqb_spec x 34); [contradiction|reflexivity]. }
        rewrite Ex in *. cbn [app]. apply N.eqb_neq in Hx92. rewrite Hx92. cbn [fold_left]. rewrite V1.
        change (pre ++ 92%N :: d1 :: d2 :: d3 :: x :: flat_map enc s)
          with (pre ++ 92%N :: d1 :: [d2; d3] ++ (x :: flat_map enc s)).
        rewrite (replace_clean pre d1 [d2; d3]) by assumption.
        rewrite half_true_other by (intros r [= E _]; contradiction).
        replace (pre ++ [oct] ++ x :: flat_map enc s) with ((pre ++ [oct]) ++ flat_map enc (x :: s))
          by (cbn [flat_map]; rewrite Ex, <- app_assoc; reflexivity).
        replace (x :: flat_map enc s) with (flat_map enc (x :: s)) by (cbn [flat_map]; now rewrite Ex).
        rewrite IH.
        * rewrite <- app_assoc. reflexivity.
        * cbn [length] in *. lia.
        * exact H92s.
        * exact Haps.
        * cbn [flat_map]. rewrite Ex. cbn [app length] in *. lia.
        * exact G1.
        * exact G2. }
  destruct (N.eqb_spec c 47) as [E|H47].
  { apply (SP 47 48 53 55)%N; auto; subst c; reflexivity. }
  destruct (N.eqb_spec c 59) as [E|H59].
  { apply (SP 59 48 55 51)%N; auto; subst c; reflexivity. }
  clear SP. destruct (N.eqb_spec c 34) as [->|H34].
  - change (enc 34) with [92; 34]%N in *. cbn [length] in Hf. destruct fuel as [|[|fuel]]; try lia.
    cbn [app find_octals]. rewrite N.eqb_refl. cbn [octal_digits]. change (is_octal 34) with false. cbn [find_octals].
    change (34 =? 92)%N with false. cbn [half]. change (34 =? 34)%N with true. change (after_special 34) with false.
    cbn [negb andb app].
    replace (pre ++ 92%N :: 34%N :: flat_map enc s) with (((pre ++ [92%N]) ++ [34%N]) ++ flat_map enc s)
      by (rewrite <- !app_assoc; reflexivity).
    rewrite IH.
    + rewrite <- !app_assoc. reflexivity.
    + lia.
    + exact H92s.
    + exact Haps.
    + lia.
    + apply clean_snoc; [now apply clean_snoc_plain|reflexivity].
    + rewrite last_opt_app. discriminate.
  - assert (Ec : enc c = [c]).
    { unfold enc. apply N.eqb_neq in H47, H59, H34. now rewrite H47, H59, H34. }
    rewrite Ec in *. cbn [length] in Hf. destruct fuel as [|fuel]; [lia|]. cbn [app find_octals].
    assert (Eb : N.eqb c 92 = false) by now apply N.eqb_neq. rewrite Eb.
    cbn [half]. assert (E34 : N.eqb c 34 = false) by now apply N.eqb_neq. rewrite E34. cbn [andb app].
    assert (Ea : after_special c = false).
    { unfold after_special. apply N.eqb_neq in H47, H59. now rewrite H47, H59. }
    rewrite Ea. destruct (plain_grow pre c Hc Hl Hc92) as (G1 & G2).
    replace (pre ++ c :: flat_map enc s) with ((pre ++ [c]) ++ flat_map enc s) by (rewrite <- !app_assoc; reflexivity).
    rewrite IH; auto; [rewrite <- app_assoc; reflexivity|lia|lia].
Qed.
Lemma unescape_half s : ~ In 92%N s -> forall b, unescape (half b s) = s.
Proof.
  induction s as [|c s IH]; intros H b; [reflexivity|].
  assert (Hs : ~ In 92%N s) by (intros H'; apply H; now right).
  assert (Hc : c <> 92%N) by (intros ->; apply H; now left).
  cbn [half]. destruct (N.eqb_spec c 34) as [->|H34]; cbn [andb].
  - destruct b; cbn [negb app]; cbn [unescape].
    + change (34 =? 92)%N with false. now rewrite IH.
    + change (92 =? 92)%N with true. change (is_octal 34) with false. cbv iota. now rewrite IH.
  - cbn [app unescape]. apply N.eqb_neq in Hc. rewrite Hc. now rewrite IH.
Qed.
Lemma trim_start_other x s : (forall r, s <> x :: r) -> trim_start_matches x s = s.
Proof.
  destruct s as [|c s]; [reflexivity|]. intros H. cbn.
  destruct (N.eqb_spec c x) as [->|]; [exfalso; now apply (H s)|reflexivity].
Qed.
Lemma trim_end_other x s c : c <> x -> trim_end_matches x (s ++ [c]) = s ++ [c].
Proof.
  intros H. unfold trim_end_matches. rewrite trim_start_other; [apply rev_involutive|].
  rewrite rev_app_distr. cbn. intros r [= E _]. contradiction.
Qed.
Lemma last_close_end s : last_close (s ++ [41%N]) = Some (s ++ [41%N], []).
Proof. induction s as [|c s IH]; [reflexivity|]. cbn [app last_close]. now rewrite IH. Qed.
Lemma enc_no_newline s : ~ In 10%N s -> ~ In 10%N (flat_map enc s).
Proof.
  intros H Hin. apply in_flat_map in Hin as (c & Hc & Hin). unfold enc in Hin.
  destruct (N.eqb_spec c 47); [cbn in Hin; intuition discriminate|].
  destruct (N.eqb_spec c 59); [cbn in Hin; intuition discriminate|].
  destruct (N.eqb_spec c 34); [cbn in Hin; intuition discriminate|].
  destruct Hin as [->|[]]. contradiction.
Qed.
Lemma quoted_decodes s : s <> [] -> ~ In 10%N s -> ~ In 92%N s -> apart s -> process_lisp_fun (quoted s) = s.
Proof.
  intros Hne H10 H92 Hap. unfold process_lisp_fun.
  assert (Hnl : ~ In 10%N (quoted s)).
  { unfold quoted. intros H. rewrite !in_app_iff in H. pose proof (enc_no_newline s H10) as H'.
    vm_compute in H. intuition discriminate. }
  assert (Ef : find_concats (quoted s) = [quoted s]).
  { unfold find_concats, split_on. rewrite split_aux_one by exact Hnl. cbn [rev app flat_map].
    rewrite app_nil_r. unfold concat_in_line, quoted.
    set (rest := [34%N] ++ flat_map enc s ++ [34%N] ++ [41%N]).
    assert (Es : split_once (U "(concat ") (U "(concat " ++ rest) = Some ([], rest)) by reflexivity.
    rewrite Es. unfold rest. rewrite !app_assoc. rewrite last_close_end. reflexivity. }
  rewrite Ef. cbn [map_opt].
  assert (Er : concat_replacement (quoted s) = Some s).
  { unfold concat_replacement.
    assert (E1 : trim_start_str (length (quoted s)) (U "(concat") (quoted s)
      = 32%N :: [34%N] ++ flat_map enc s ++ [34%N] ++ [41%N]).
    { unfold quoted. set (rest := [34%N] ++ flat_map enc s ++ [34%N] ++ [41%N]). clearbody rest.
      change (length (U "(concat " ++ rest)) with (S (S (6 + length rest))).
      cbn [trim_start_str]. reflexivity. }
    rewrite E1.
    assert (E2 : trim_start_matches 32 (32%N :: [34%N] ++ flat_map enc s ++ [34%N] ++ [41%N])
      = [34%N] ++ flat_map enc s ++ [34%N] ++ [41%N]) by reflexivity.
    rewrite E2.
    assert (E3 : trim_end_matches 41 ([34%N] ++ flat_map enc s ++ [34%N] ++ [41%N]) = ([34%N] ++ flat_map enc s) ++ [34%N]).
    { unfold trim_end_matches. rewrite !app_assoc, rev_app_distr. cbn [rev app trim_start_matches].
      change (41 =? 41)%N with true. cbv iota. rewrite rev_app_distr. cbn [rev app trim_start_matches].
      change (34 =? 41)%N with false. cbv iota. cbn [rev]. rewrite rev_app_distr. cbn. now rewrite !rev_involutive. }
    rewrite E3, (trim_end_other 32) by discriminate.
    assert (E4 : strip_suffix_char 34 (strip_prefix_char 34 (([34%N] ++ flat_map enc s) ++ [34%N])) = flat_map enc s).
    { cbn [app]. unfold strip_prefix_char at 1. change (34 =? 34)%N with true. cbv iota.
      unfold strip_suffix_char. rewrite rev_app_distr. cbn. apply rev_involutive. }
    rewrite E4.
    assert (E5 : is_nil (flat_map enc s) = false).
    { destruct s as [|c s]; [congruence|]. cbn [flat_map]. unfold enc.
      destruct (N.eqb c 47); [reflexivity|]. destruct (N.eqb c 59); [reflexivity|]. destruct (N.eqb c 34); reflexivity. }
    rewrite E5. f_equal.
    assert (E6 := octals_fold s (length (flat_map enc s)) [] H92 Hap (le_n _)). cbn [app] in E6.
    rewrite E6; [now apply unescape_half| |discriminate].
    intros a c b E. destruct a; discriminate. }
  rewrite Er. cbn [option_map fold_left]. unfold replacen1.
  assert (Es : split_once (quoted s) (quoted s) = Some ([], [])).
  { unfold split_once. destruct (quoted s) as [|c q] eqn:E; [discriminate|].
    assert (Hp : is_prefixb (c :: q) (c :: q) = true) by (apply is_prefixb_spec; exists []; now rewrite app_nil_r).
    rewrite Hp, skipn_all. reflexivity. }
  rewrite Es. cbn. apply app_nil_r.
Qed.

(** * C34 *)
Theorem C34_round_trip_partial s : escapable s ->
  process_lisp_fun (escape_dictionary_string s) = s.
Proof.
  intros (H10 & Hc & Hq).
  destruct (existsb after_special s) eqn:E.
  - apply existsb_exists in E as (c & Hin & Hs).
    assert (Hsp : special c).
    { unfold after_special in Hs. apply orb_true_iff in Hs as [Hs|Hs]; apply N.eqb_eq in Hs; [left|right]; exact Hs. }
    destruct Hq as (H92 & Hap); [eauto|].
    rewrite escape_quoted by eauto. apply quoted_decodes; auto. intros ->. destruct Hin.
  - rewrite escape_id; [now apply no_concat_plain|]. intros c Hin Hs.
    assert (H : existsb after_special s = true).
    { apply existsb_exists. exists c. split; [exact Hin|]. destruct Hs as [-> | ->]; reflexivity. }
    congruence.
Qed.
(** The escaped text is fit for a dictionary line: none of the separators. *)
Theorem C34_no_separator s c : In c (escape_dictionary_string s) -> ~ special c.
Proof.
  intros Hin Hs. destruct (existsb after_special s) eqn:E.
  - apply existsb_exists in E as (x & Hx & Hxs).
    assert (Hsp : special x).
    { unfold after_special in Hxs. apply orb_true_iff in Hxs as [H|H]; apply N.eqb_eq in H; [left|right]; exact H. }
    rewrite escape_quoted in Hin by eauto. unfold quoted in Hin. rewrite !in_app_iff in Hin.
    assert (G : ~ In c (flat_map enc s)).
    { intros H. apply in_flat_map in H as (y & _ & Hy). unfold enc in Hy.
      destruct (N.eqb_spec y 47); [destruct Hs as [-> | ->]; cbn in Hy; intuition discriminate|].
      destruct (N.eqb_spec y 59); [destruct Hs as [-> | ->]; cbn in Hy; intuition discriminate|].
      destruct (N.eqb_spec y 34); [destruct Hs as [-> | ->]; cbn in Hy; intuition discriminate|].
      destruct Hy as [->|[]]. destruct Hs; contradiction. }
    destruct Hs as [-> | ->]; vm_compute in Hin; intuition discriminate.
  - rewrite escape_id in Hin.
    + assert (H : existsb after_special s = true).
      { apply existsb_exists. exists c. split; [exact Hin|]. destruct Hs as [-> | ->]; reflexivity. }
      congruence.
    + intros x Hx Hxs. assert (H : existsb after_special s = true).
      { apply existsb_exists. exists x. split; [exact Hx|]. destruct Hxs as [-> | ->]; reflexivity. }
      congruence.
Qed.
(** A check for [escapable]. *)
Fixpoint apartb (s : str) : bool :=
  match s with
  | x :: ((y :: _) as r) => negb (after_special x && after_special y) && apartb r
  | _ => true
  end.
Lemma special_b c : special c <-> after_special c = true.
Proof. unfold special, after_special. rewrite orb_true_iff, !N.eqb_eq. reflexivity. Qed.
Lemma apartb_spec s : apartb s = true -> apart s.
Proof.
  induction s as [|c s IH]; intros H a x y b E Hx Hy; [destruct a; discriminate|].
  destruct a as [|z a]; cbn in E.
  - injection E as -> ->. cbn [apartb] in H. apply special_b in Hx, Hy. rewrite Hx, Hy in H. discriminate.
  - injection E as -> ->. apply (IH) with (a := a) (x := x) (y := y) (b := b); auto.
    destruct (a ++ x :: y :: b); [reflexivity|]. cbn [apartb] in H. apply andb_true_iff in H. apply H.
Qed.
Definition escapableb (s : str) : bool :=
  negb (existsb (N.eqb 10) s) && (negb (existsb after_special s) || negb (existsb (N.eqb 92) s) && apartb s)
  && match split_once (U "(concat ") s with Some _ => false | None => true end.
Lemma notin_b x s : existsb (N.eqb x) s = false -> ~ In x s.
Proof.
  intros H Hin. assert (E : existsb (N.eqb x) s = true) by (apply existsb_exists; exists x; split; [exact Hin|apply N.eqb_refl]).
  congruence.
Qed.
Lemma split_once_none p s : split_once p s = None -> ~ occurs p s.
Proof.
  intros H (a & b & ->). revert H. induction a as [|c a IH]; intros H.
  - assert (E : is_prefixb p (p ++ b) = true) by (apply is_prefixb_spec; now exists b).
    cbn [app] in H. destruct (p ++ b); cbn [split_once] in H; rewrite E in H; discriminate.
  - cbn [app split_once] in H. destruct (is_prefixb p (c :: a ++ p ++ b)); [discriminate|].
    destruct (split_once p (a ++ p ++ b)) as [[u v]|]; [discriminate|]. now apply IH.
Qed.
Lemma escapableb_spec s : escapableb s = true -> escapable s.
Proof.
  unfold escapableb. rewrite !andb_true_iff, !negb_true_iff. intros ((H1 & H2) & H4).
  split; [now apply notin_b|split].
  - destruct (split_once (U "(concat ") s) eqn:E; [discriminate|]. now apply split_once_none.
  - intros (c & Hin & Hs). assert (E : existsb after_special s = true).
    { apply existsb_exists. exists c. split; [exact Hin|]. destruct Hs as [-> | ->]; reflexivity. }
    rewrite E in H2. cbn [negb orb] in H2. apply andb_true_iff in H2 as (H2 & H3). apply negb_true_iff in H2.
    split; [now apply notin_b|now apply apartb_spec].
Qed.
Example C34_example : escapable (U "a/b;c(d)") /\ escape_dictionary_string (U "a/b") <> U "a/b"
  /\ escapable ([92; 110; 92]%N ++ U "(concat)").
Proof. split; [apply escapableb_spec; vm_compute; reflexivity|split; [vm_compute; discriminate|apply escapableb_spec; vm_compute; reflexivity]]. Qed.
(** The full property (every text) is false: two separators in a row, a backslash, and a text
    that looks like an escape. *)
Theorem C34_refuted :
  process_lisp_fun (escape_dictionary_string (U "a//b")) = U "a/057b"
  /\ process_lisp_fun (escape_dictionary_string (U "/\n")) <> U "/\n"
  /\ process_lisp_fun (escape_dictionary_string ([40; 99; 111; 110; 99; 97; 116; 32; 34; 97; 34; 41]%N)) = U "a".
Proof. split; [vm_compute; reflexivity|split; [vm_compute; discriminate|vm_compute; reflexivity]]. Qed.
