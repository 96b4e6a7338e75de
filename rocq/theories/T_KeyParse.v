(** Properties C45, C46 and C47: parsing key events and rule instructions, and key events
    coming from fcitx. *)
From Verif Require Import Str Keys Modes.

(** * White space *)
Lemma trim_start_split s : exists p, s = p ++ trim_start s /\ Forall (fun c => is_ws c = true) p.
Proof.
  induction s as [|c s (p & Hp & Hw)]; cbn; [now exists []|].
  destruct (is_ws c) eqn:E; [|now exists []].
  exists (c :: p). cbn. rewrite <- Hp. split; [reflexivity|now constructor].
Qed.
Lemma trim_split s : exists p q, s = p ++ trim s ++ q
  /\ Forall (fun c => is_ws c = true) p /\ Forall (fun c => is_ws c = true) q.
Proof.
  destruct (trim_start_split s) as (p & Hp & Hw).
  unfold trim, trim_end.
  destruct (trim_start_split (rev (trim_start s))) as (q & Hq & Hv).
  exists p, (rev q). split; [|split; [exact Hw | now apply Forall_rev]].
  rewrite <- rev_app_distr, <- Hq, rev_involutive. exact Hp.
Qed.
Lemma trim_in s c : In c (trim s) -> In c s.
Proof.
  destruct (trim_split s) as (p & q & E & _). intros H. rewrite E.
  rewrite !in_app_iff. tauto.
Qed.
Lemma trim_start_head s c r : trim_start s = c :: r -> is_ws c = false.
Proof.
  induction s as [|d s IH]; cbn; [discriminate|]. destruct (is_ws d) eqn:E; [exact IH|].
  intros [= -> ->]; exact E.
Qed.
Lemma trim_start_length s : length (trim_start s) <= length s.
Proof. induction s as [|d s IH]; cbn; [lia|]. destruct (is_ws d); cbn; lia. Qed.
Lemma trim_length s : length (trim s) <= length s.
Proof.
  destruct (trim_split s) as (p & q & E & _).
  rewrite E at 2. rewrite !app_length. lia.
Qed.
Lemma trim_head s c r : trim s = c :: r -> is_ws c = false.
Proof.
  unfold trim, trim_end.
  destruct (trim_start_split (rev (trim_start s))) as (q & Hq & _).
  intros H.
  assert (E : trim_start s = (c :: r) ++ rev q).
  { rewrite <- (rev_involutive (trim_start s)), Hq, rev_app_distr, H. reflexivity. }
  exact (trim_start_head _ _ _ E).
Qed.
Lemma trim_id s : (forall c r, s = c :: r -> is_ws c = false)
  -> (forall c r, s = r ++ [c] -> is_ws c = false) -> trim s = s.
Proof.
  intros H1 H2. unfold trim, trim_end.
  assert (E : trim_start s = s).
  { destruct s as [|c r]; [reflexivity|]. cbn. now rewrite (H1 c r eq_refl). }
  rewrite E. destruct (rev s) as [|c r] eqn:Er.
  - apply (f_equal (@rev N)) in Er. rewrite rev_involutive in Er. now subst.
  - cbn. assert (Es : s = rev r ++ [c]).
    { rewrite <- (rev_involutive s), Er. reflexivity. }
    rewrite (H2 _ _ Es). cbn. symmetry. exact Es.
Qed.

(** * C45: which texts parse without a panic *)
Definition no_nul (s : str) : Prop := ~ In 0%N s.
Definition ascii (s : str) : Prop := Forall (fun c => (0 < c < 128)%N) s.
(** Starts with an opening and ends with a closing parenthesis. *)
Definition parenthesised (s : str) : Prop :=
  (exists m, s = U "(" ++ m) /\ (exists m, s = m ++ U ")").
(** Byte 2 is a character boundary. *)
Definition boundary2 (s : str) : Prop := exists p r, s = p ++ r /\ byte_len p = 2.

Lemma no_nul_existsb w : no_nul w -> existsb (N.eqb 0) w = false.
Proof.
  intros H. destruct (existsb (N.eqb 0) w) eqn:E; [|reflexivity].
  apply existsb_exists in E as (c & Hc & E). apply N.eqb_eq in E. now subst.
Qed.
Lemma keysym_no_nul x w : no_nul w -> keysym_from_name x w = Ok (xk_from_name x w).
Proof. intros H. unfold keysym_from_name. now rewrite no_nul_existsb. Qed.

Lemma tsm_in k s c : In c (trim_start_matches k s) -> In c s.
Proof.
  induction s as [|d s IH]; cbn; [tauto|]. destruct (N.eqb d k); cbn; [|tauto].
  intros H. right. now apply IH.
Qed.
Lemma tem_in k s c : In c (trim_end_matches k s) -> In c s.
Proof.
  unfold trim_end_matches. rewrite <- in_rev. intros H. apply tsm_in in H.
  now apply in_rev.
Qed.
Lemma split_aux_in k s : forall acc w c, In w (split_aux k acc s) -> In c w -> In c acc \/ In c s.
Proof.
  induction s as [|d s IH]; intros acc w c; cbn.
  - intros [<-|[]] H. left. now apply in_rev.
  - destruct (N.eqb d k).
    + intros [<-|Hw] Hc; [left; now apply in_rev|].
      destruct (IH _ _ _ Hw Hc) as [[]|H]; auto.
    + intros Hw Hc. destruct (IH _ _ _ Hw Hc) as [[->|H]|H]; auto.
Qed.
Lemma split_on_in k s w c : In w (split_on k s) -> In c w -> In c s.
Proof. intros Hw Hc. destruct (split_aux_in _ _ _ _ _ Hw Hc) as [[]|H]; exact H. Qed.

Lemma paren_words_total x ws : Forall no_nul ws ->
  forall m sym, exists r, paren_words x ws m sym = Ok r.
Proof.
  induction 1 as [|w ws Hw _ IH]; intros m sym; cbn [paren_words]; [eauto|].
  repeat match goal with |- context[if ?b then _ else _] => destruct b; [apply IH|] end.
  rewrite (keysym_no_nul x w Hw). cbn. apply IH.
Qed.

Lemma slice02_boundary s : 2 < byte_len s -> (boundary2 s <-> exists p, slice02 s = Ok p).
Proof.
  intros Hlen. unfold boundary2, slice02. split.
  - intros (p & r & -> & Hp).
    destruct p as [|c1 p]; [discriminate|]. cbn in Hp |- *.
    assert (H1 : 1 <= char_len c1 <= 4).
    { unfold char_len. repeat (destruct (N.ltb _ _); try lia). }
    destruct (char_len c1) as [|[|[|n]]] eqn:E1; try lia; [|eauto].
    destruct p as [|c2 p]; cbn in Hp; [lia|]. cbn.
    assert (H2 : 1 <= char_len c2).
    { unfold char_len. repeat (destruct (N.ltb _ _); try lia). }
    assert (E2 : char_len c2 = 1) by lia. rewrite E2. cbn. eauto.
  - intros (p & Hp). destruct s as [|c1 r]; [discriminate|].
    destruct (char_len c1) as [|[|[|n]]] eqn:E1; try discriminate.
    + destruct r as [|c2 r]; [discriminate|].
      destruct (Nat.eqb_spec (char_len c2) 1) as [E2|]; [|discriminate].
      exists [c1; c2], r. cbn. rewrite E1, E2. auto.
    + exists [c1], r. cbn. rewrite E1. auto.
Qed.

(** For texts without NUL: parsing panics exactly when the trimmed text is not
    parenthesised, longer than two bytes, and its byte 2 is inside a character. *)
Theorem C45_exact_partial : forall x s, no_nul s ->
  ((exists r, key_from_str x s = Panic r)
   <-> ~ parenthesised (trim s) /\ 2 < byte_len (trim s) /\ ~ boundary2 (trim s)).
Proof.
  intros x s Hn.
  assert (Ht : no_nul (trim s)) by (intros H; apply Hn; now apply trim_in).
  assert (Hp : is_prefixb (U "(") (trim s) && is_suffixb (U ")") (trim s) = true
               <-> parenthesised (trim s)).
  { rewrite andb_true_iff, is_prefixb_spec, is_suffixb_spec. reflexivity. }
  unfold key_from_str. cbv zeta.
  destruct (is_prefixb (U "(") (trim s) && is_suffixb (U ")") (trim s)) eqn:E.
  - set (ws := split_on 32 _).
    assert (Hws : Forall no_nul ws).
    { apply Forall_forall. intros w Hw H0. apply Ht.
      apply (tsm_in 40), (tem_in 41), (split_on_in 32 _ w); assumption. }
    destruct (paren_words_total x ws Hws 0%N KEY_VoidSymbol) as ((m & sym) & ->).
    cbn. split; [intros (r & Hr); discriminate|].
    intros (H & _). exfalso. now apply H, Hp.
  - assert (Hnp : ~ parenthesised (trim s)) by (rewrite <- Hp; discriminate).
    assert (Hs : forall m, rbind (keysym_from_name x (skipn 2 (trim s))) (fun sym => Ok (finish_parse m sym))
             = Ok (finish_parse m (xk_from_name x (skipn 2 (trim s))))).
    { intros m. rewrite keysym_no_nul; [reflexivity|].
      intros H. apply Ht. rewrite <- (firstn_skipn 2 (trim s)). apply in_app_iff. now right. }
    assert (Hs0 : forall m, rbind (keysym_from_name x (trim s)) (fun sym => Ok (finish_parse m sym))
             = Ok (finish_parse m (xk_from_name x (trim s)))).
    { intros m. now rewrite keysym_no_nul. }
    rewrite !Hs, !Hs0.
    destruct (Nat.ltb_spec 2 (byte_len (trim s))) as [Hl|Hl].
    + destruct (slice02 (trim s)) as [p|r] eqn:Es.
      * cbn [rbind]. split.
        -- intros (r & Hr). exfalso. revert Hr.
           repeat match goal with |- context[if ?b then _ else _] => destruct b end; discriminate.
        -- intros (_ & _ & Hb). exfalso. apply Hb. apply (proj2 (slice02_boundary _ Hl)). eauto.
      * cbn [rbind]. split; [|eauto]. intros _. repeat split; auto.
        intros Hb. apply (proj1 (slice02_boundary _ Hl)) in Hb as (p & Hb). congruence.
    + split; [intros (r & Hr); discriminate | intros (_ & H & _); lia].
Qed.

(** Texts of ASCII characters (without NUL) always give Ok or Err. *)
Theorem C45_ascii_partial : forall x s, ascii s -> exists r, key_from_str x s = Ok r.
Proof.
  intros x s Ha.
  assert (Hn : no_nul s).
  { intros H. unfold ascii in Ha. rewrite Forall_forall in Ha. specialize (Ha _ H). lia. }
  destruct (key_from_str x s) as [r|r] eqn:E; [eauto|].
  exfalso. destruct (proj1 (C45_exact_partial x s Hn) (ex_intro _ r E)) as (_ & Hl & Hb).
  assert (Ht : Forall (fun c => char_len c = 1) (trim s)).
  { apply Forall_forall. intros c Hc. apply trim_in in Hc.
    unfold ascii in Ha. rewrite Forall_forall in Ha. specialize (Ha _ Hc).
    unfold char_len. destruct (N.ltb_spec c 128); [reflexivity|lia]. }
  apply Hb. destruct (trim s) as [|c1 [|c2 t]]; cbn in Hl.
  - lia.
  - inversion Ht; subst. lia.
  - exists [c1; c2], t. inversion Ht as [|? ? H1 Ht']; subst. inversion Ht'; subst.
    cbn. rewrite H1, H2. auto.
Qed.

(** Not for every text: one hiragana is enough, whatever xkbcommon knows; so is a NUL. *)
Theorem C45_refuted : forall x,
  key_from_str x (U "あ") = Panic PanicIndex /\ key_from_str x [0%N] = Panic PanicUnwrap.
Proof. intros x. split; reflexivity. Qed.

Example C45_case :
  ascii (U " C-j ") /\ no_nul (U "ああ") /\
  key_from_str ascii_xkb (U " C-j ") = Ok (PKey (mkKey 106 M_CONTROL)) /\
  key_from_str ascii_xkb (U "(control lshift a)")
    = Ok (PKey (mkKey 97 (N.lor M_CONTROL (N.lor M_L_SHIFT M_SHIFT)))) /\
  key_from_str ascii_xkb (U "nosuchkey") = Ok PErr.
Proof.
  split; [|split].
  - repeat constructor.
  - intros H. cbn in H. intuition discriminate.
  - vm_compute. auto.
Qed.

(** What the simple notation denotes: a name alone, or one of four modifier letters. *)
Definition plain_name (w : str) : Prop :=
  ascii w /\ w <> [] /\ Forall (fun c => is_ws c = false) w
  /\ (forall m, w <> U "(" ++ m) /\ nth_error w 1 <> Some 45%N.
Lemma trim_solid w : Forall (fun c => is_ws c = false) w -> trim w = w.
Proof.
  intros H. rewrite Forall_forall in H. apply trim_id.
  - intros c r ->. apply H. now left.
  - intros c r ->. apply H. apply in_app_iff. right. now left.
Qed.
Lemma ascii_no_nul w : ascii w -> no_nul w.
Proof.
  intros Ha H. unfold ascii in Ha. rewrite Forall_forall in Ha. specialize (Ha _ H). lia.
Qed.
Lemma ascii_char_len c : (0 < c < 128)%N -> char_len c = 1.
Proof. intros H. unfold char_len. destruct (N.ltb_spec c 128); [reflexivity|lia]. Qed.
Lemma ascii_byte_len w : ascii w -> byte_len w = length w.
Proof.
  induction 1 as [|c w Hc _ IH]; [reflexivity|].
  cbn [byte_len fold_right length]. rewrite ascii_char_len by exact Hc.
  change (fold_right _ 0 w) with (byte_len w). lia.
Qed.
Lemma not_paren_open w : (forall m, w <> U "(" ++ m) -> is_prefixb (U "(") w = false.
Proof.
  intros H. destruct (is_prefixb (U "(") w) eqn:E; [|reflexivity].
  apply is_prefixb_spec in E as (r & E). now apply H in E.
Qed.

Theorem C45_plain_partial : forall x w, plain_name w ->
  key_from_str x w = Ok (finish_parse 0 (xk_from_name x w)).
Proof.
  intros x w (Ha & Hne & Hw & Hp & Hd).
  unfold key_from_str. cbv zeta. rewrite (trim_solid w Hw), (not_paren_open w Hp).
  cbn [andb]. rewrite !(keysym_no_nul x w (ascii_no_nul w Ha)). cbn [rbind].
  rewrite (ascii_byte_len w Ha).
  destruct (Nat.ltb_spec 2 (length w)) as [Hl|Hl]; [|reflexivity].
  destruct w as [|c1 [|c2 t]]; cbn in Hl; try lia.
  inversion Ha as [|? ? H1 Ha']; subst. inversion Ha' as [|? ? H2 _]; subst.
  unfold slice02. rewrite (ascii_char_len c1 H1), (ascii_char_len c2 H2). cbn [Nat.eqb rbind].
  cbn in Hd.
  assert (E : forall m, str_eqb [c1; c2] [m; 45%N] = false).
  { intros m. apply str_eqb_neq. intros [= -> ->]. now apply Hd. }
  change (U "C-") with [67%N; 45%N]. change (U "M-") with [77%N; 45%N].
  change (U "A-") with [65%N; 45%N]. change (U "G-") with [71%N; 45%N].
  rewrite !E. reflexivity.
Qed.

Theorem C45_modifier_partial : forall x l f w,
  In (l, f) [(67%N, M_CONTROL); (77%N, M_META); (65%N, M_ALT); (71%N, M_MOD5)] ->
  ascii w -> w <> [] -> Forall (fun c => is_ws c = false) w ->
  key_from_str x (l :: U "-" ++ w) = Ok (finish_parse f (xk_from_name x w)).
Proof.
  intros x l f w Hin Ha Hne Hw.
  assert (Hl : (0 < l < 128)%N /\ is_ws l = false /\ l <> 40%N).
  { cbn in Hin.
    destruct Hin as [H|[H|[H|[H|[]]]]]; inversion H; subst; (split; [lia|split; [reflexivity|discriminate]]). }
  destruct Hl as (Hl & Hlw & Hl40).
  change (l :: U "-" ++ w) with (l :: 45%N :: w).
  unfold key_from_str. cbv zeta. rewrite trim_solid by (repeat constructor; auto).
  replace (is_prefixb (U "(") (l :: 45%N :: w)) with false.
  2:{ symmetry. apply not_paren_open. intros m H. inversion H. congruence. }
  cbn [andb]. rewrite ascii_byte_len by (constructor; [exact Hl|constructor; [lia|exact Ha]]).
  destruct w as [|c w]; [congruence|].
  change (Nat.ltb 2 (length (l :: 45%N :: c :: w))) with true.
  unfold slice02. rewrite (ascii_char_len l Hl).
  change (Nat.eqb (char_len 45) 1) with true. cbn [rbind skipn].
  rewrite (keysym_no_nul x (c :: w)) by now apply ascii_no_nul.
  cbn in Hin. destruct Hin as [H|[H|[H|[H|[]]]]]; inversion H; subst; reflexivity.
Qed.

(** * Key sequences: whitespace-separated words are parsed word by word. *)
Fixpoint spaced (ws : list str) : str :=
  match ws with [] => [] | w :: r => w ++ U " " ++ spaced r end.
Definition word (w : str) : Prop :=
  w <> [] /\ Forall (fun c => is_ws c = false) w /\ (forall m, w <> U "(" ++ m).

Lemma take_until_word w r : Forall (fun c => is_ws c = false) w -> take_until 32 (w ++ 32%N :: r) = w.
Proof.
  induction 1 as [|c w Hc _ IH]; [reflexivity|]. cbn.
  destruct (N.eqb_spec c 32) as [->|_]; [discriminate Hc|]. now rewrite IH.
Qed.
Lemma take_until_word_end w : Forall (fun c => is_ws c = false) w -> take_until 32 w = w.
Proof.
  induction 1 as [|c w Hc _ IH]; [reflexivity|]. cbn.
  destruct (N.eqb_spec c 32) as [->|_]; [discriminate Hc|]. now rewrite IH.
Qed.
Lemma trim_start_skip p s : Forall (fun c => is_ws c = true) p -> trim_start (p ++ s) = trim_start s.
Proof. induction 1 as [|c p Hc _ IH]; [reflexivity|]. cbn. now rewrite Hc. Qed.
Lemma trim_end_skip p s : Forall (fun c => is_ws c = true) p -> trim_end (s ++ p) = trim_end s.
Proof.
  intros H. unfold trim_end. rewrite rev_app_distr, trim_start_skip; [reflexivity|].
  now apply Forall_rev.
Qed.
Lemma trim_start_word w r : word w -> trim_start (w ++ r) = w ++ r.
Proof.
  intros (Hne & Hw & _). destruct w as [|c w]; [congruence|].
  cbn. inversion Hw; subst. now rewrite H1.
Qed.
Lemma trim_end_last a w : Forall (fun c => is_ws c = false) w -> w <> [] -> trim_end (a ++ w) = a ++ w.
Proof.
  intros Hw Hne. unfold trim_end. rewrite rev_app_distr.
  assert (Hr : Forall (fun c => is_ws c = false) (rev w)) by now apply Forall_rev.
  destruct (rev w) as [|c t] eqn:E.
  - apply (f_equal (@rev N)) in E. rewrite rev_involutive in E. now subst.
  - cbn. inversion Hr; subst. rewrite H1. 
    change (c :: t ++ rev a) with ((c :: t) ++ rev a). rewrite <- E, <- rev_app_distr, rev_involutive.
    reflexivity.
Qed.
(** Trimming a spaced list removes the last space only. *)
Lemma trim_spaced w ws : Forall word (w :: ws) ->
  exists t, trim (spaced (w :: ws)) = t /\ spaced (w :: ws) = t ++ U " "
            /\ (ws = [] -> t = w) /\ (ws <> [] -> exists t', t = w ++ 32%N :: t' /\ spaced ws = t' ++ U " ").
Proof.
  intros H. unfold trim.
  replace (trim_start (spaced (w :: ws))) with (spaced (w :: ws)).
  2:{ inversion H; subst. cbn [spaced]. symmetry. now apply trim_start_word. }
  revert w H. induction ws as [|v ws IH]; intros w H.
  - exists w. inversion H as [|? ? (Hne & Hw & _) _]; subst.
    cbn [spaced]. rewrite app_nil_r. split; [|split; [reflexivity|split; [auto|congruence]]].
    rewrite trim_end_skip by (repeat constructor). now apply (trim_end_last []).
  - inversion H as [|? ? Hw Hws]; subst.
    destruct (IH v Hws) as (t & Ht & Es & _).
    exists (w ++ 32%N :: t). split; [|split; [|split; [discriminate|intros _; now exists t]]].
    + assert (Et : trim_end (t ++ U " ") = t) by now rewrite <- Es.
      rewrite trim_end_skip in Et by repeat constructor.
      cbn [spaced] in Es |- *. rewrite Es.
      replace (w ++ U " " ++ t ++ U " ") with ((w ++ 32%N :: t) ++ U " ")
        by (rewrite <- app_assoc; reflexivity).
      rewrite trim_end_skip by repeat constructor.
      (* the last character of t is not a space *)
      unfold trim_end in *. rewrite rev_app_distr. cbn [rev].
      destruct (rev t) as [|c q] eqn:Er.
      { apply (f_equal (@rev N)) in Er. rewrite rev_involutive in Er. cbn in Er.
        exfalso. rewrite Er in Es. cbn [spaced] in Es. destruct v as [|c v].
        - inversion Hws as [|? ? (Hv & _) _]; subst. congruence.
        - apply (f_equal (@length N)) in Es. cbn in Es. rewrite app_length in Es. cbn in Es. lia. }
      assert (Hc : is_ws c = false).
      { cbn in Et. destruct (is_ws c) eqn:Ec; [|reflexivity]. exfalso.
        assert (Hlen : length (trim_start q) <= length q) by apply trim_start_length.
        apply (f_equal (@length N)) in Et, Er. rewrite !rev_length in *. cbn in Er. lia. }
      change (((c :: q) ++ [32%N]) ++ rev w) with (c :: (q ++ [32%N]) ++ rev w).
      cbn [trim_start]. rewrite Hc.
      change (c :: (q ++ [32%N]) ++ rev w) with (((c :: q) ++ [32%N]) ++ rev w).
      rewrite <- Er. rewrite !rev_app_distr, !rev_involutive. reflexivity.
    + cbn [spaced] in Es |- *. rewrite Es. rewrite <- app_assoc. reflexivity.
Qed.
Lemma trim_idem_spaced t : spaced [] = t -> trim t = [].
Proof. intros <-. reflexivity. Qed.

Lemma deser_words x ws ks : Forall word ws ->
  Forall2 (fun w k => key_from_str x w = Ok (PKey k)) ws ks ->
  forall fuel pre cur t, length ws < fuel -> Forall (fun c => is_ws c = true) pre ->
    (t = pre ++ spaced ws \/ t ++ U " " = pre ++ spaced ws) ->
    deserialize_seq_fuel x fuel t cur = Ok (Some (cur ++ ks)).
Proof.
  intros Hw H2. induction H2 as [|w k ws ks Hk H2 IH]; intros fuel pre cur t Hf Hpre Ht.
  - destruct fuel as [|fuel]; [cbn in Hf; lia|]. cbn [deserialize_seq_fuel].
    assert (E : trim t = []).
    { assert (Hall : Forall (fun c => is_ws c = true) t).
      { cbn [spaced] in Ht. rewrite app_nil_r in Ht. destruct Ht as [->|Ht]; [exact Hpre|].
        rewrite <- Ht in Hpre. apply Forall_app in Hpre. tauto. }
      unfold trim. rewrite <- (app_nil_r t), (trim_start_skip t []) by exact Hall. reflexivity. }
    rewrite E. cbn. now rewrite app_nil_r.
  - destruct fuel as [|fuel]; [cbn in Hf; lia|]. cbn [deserialize_seq_fuel].
    destruct (trim_spaced w ws Hw) as (u & Hu & Es & Hnil & Hcons).
    assert (Et : trim t = u).
    { destruct Ht as [->|Ht].
      - unfold trim. rewrite trim_start_skip by exact Hpre. exact Hu.
      - unfold trim in Hu |- *.
        assert (E1 : t = pre ++ u).
        { rewrite Es in Ht. rewrite app_assoc in Ht. now apply app_inj_tail in Ht as [-> _]. }
        rewrite E1, trim_start_skip by exact Hpre.
        replace (trim_end (trim_start u)) with (trim (spaced (w :: ws))); [exact Hu|].
        unfold trim. rewrite Es.
        assert (Ew : trim_start (u ++ U " ") = u ++ U " ").
        { rewrite <- Es. cbn [spaced]. inversion Hw; subst. now apply trim_start_word. }
        assert (Eu : trim_start u = u).
        { destruct ws as [|v ws'].
          - rewrite Hnil by reflexivity. rewrite <- (app_nil_r w).
            inversion Hw; subst. now apply trim_start_word.
          - destruct Hcons as (t' & -> & _); [discriminate|].
            inversion Hw; subst. now apply trim_start_word. }
        rewrite Ew, Eu. apply trim_end_skip. repeat constructor. }
    rewrite Et.
    pose proof (Forall_inv Hw) as Hword. pose proof (Forall_inv_tail Hw) as Hws.
    destruct Hword as (Hne & Hsolid & Hparen).
    assert (Hnil_u : is_nil u = false).
    { apply is_nil_false. destruct ws as [|v ws'].
      - rewrite Hnil by reflexivity. exact Hne.
      - destruct Hcons as (t' & -> & _); [discriminate|]. destruct w; discriminate. }
    rewrite Hnil_u.
    assert (Htok : next_tok u = Some w).
    { unfold next_tok.
      assert (Eo : is_prefixb (U "(") u = false).
      { destruct w as [|c w']; [congruence|].
        assert (Hc : c <> 40%N) by (intros ->; now apply (Hparen w')).
        destruct ws as [|v ws'].
        - rewrite Hnil by reflexivity. change (U "(") with [40%N]. cbn [is_prefixb].
          destruct (N.eqb_spec 40 c); [congruence|reflexivity].
        - destruct Hcons as (t' & -> & _); [discriminate|].
          change (U "(") with [40%N]. cbn [is_prefixb app].
          destruct (N.eqb_spec 40 c); [congruence|reflexivity]. }
      rewrite Eo. f_equal. destruct ws as [|v ws'].
      - rewrite Hnil by reflexivity. now apply take_until_word_end.
      - destruct Hcons as (t' & -> & _); [discriminate|]. now apply take_until_word. }
    rewrite Htok, Hk. cbn [rbind].
    replace (cur ++ k :: ks) with ((cur ++ [k]) ++ ks) by (rewrite <- app_assoc; reflexivity).
    destruct ws as [|v ws'].
    + rewrite Hnil by reflexivity. rewrite skipn_all.
      apply (IH Hws fuel [] _ []); [cbn in *; lia|constructor|now left].
    + destruct Hcons as (t' & -> & Es'); [discriminate|].
      rewrite skipn_app, skipn_all, Nat.sub_diag. cbn [app skipn].
      apply (IH Hws fuel [32%N] _ (32%N :: t')); [cbn in *; lia|repeat constructor|].
      right. cbn [app]. now rewrite Es'.
Qed.

Theorem C45_sequence_partial : forall x ws ks, Forall word ws ->
  Forall2 (fun w k => key_from_str x w = Ok (PKey k)) ws ks ->
  deserialize_seq x (spaced ws) = Ok (Some ks).
Proof.
  intros x ws ks Hw H2. unfold deserialize_seq.
  change (Some ks) with (Some ([] ++ ks)).
  apply (deser_words x ws ks Hw H2 _ [] [] (spaced ws)); [|constructor|now left].
  clear H2 ks. induction Hw as [|w ws (Hne & _) _ IH]; cbn [spaced length]; [lia|].
  rewrite !app_length. destruct w; [congruence|]. cbn. lia.
Qed.

(** The parser of sequences never runs out of steps, and on ASCII text never panics. *)
Lemma take_until_incl_prefix c s t : take_until_incl c s = Some t -> exists r, s = t ++ r /\ t <> [].
Proof.
  revert t; induction s as [|x s IH]; cbn; [discriminate|]. intros t.
  destruct (N.eqb x c).
  - intros [= <-]. exists s. split; [reflexivity|discriminate].
  - destruct (take_until_incl c s) as [u|]; [|discriminate]. intros [= <-].
    destruct (IH u eq_refl) as (r & -> & _). exists r. split; [reflexivity|discriminate].
Qed.
Lemma take_until_prefix c s : exists r, s = take_until c s ++ r.
Proof.
  induction s as [|x s (r & IH)]; cbn; [now exists []|].
  destruct (N.eqb x c); [now exists (x :: s)|]. exists r. cbn. now rewrite <- IH.
Qed.
Lemma next_tok_split k t : is_nil k = false -> (forall c r, k = c :: r -> is_ws c = false) ->
  next_tok k = Some t -> exists r, k = t ++ r /\ t <> [].
Proof.
  intros Hk Hc. unfold next_tok. destruct (is_prefixb (U "(") k).
  - apply take_until_incl_prefix.
  - intros [= <-]. destruct (take_until_prefix 32 k) as (r & E). exists r. split; [exact E|].
    destruct k as [|c k]; [discriminate|]. cbn.
    destruct (N.eqb_spec c 32) as [->|]; [|discriminate].
    specialize (Hc _ _ eq_refl). discriminate.
Qed.
Theorem C45_sequence_ascii_partial : forall x s, ascii s -> exists r, deserialize_seq x s = Ok r.
Proof.
  intros x s Ha. unfold deserialize_seq.
  assert (H : forall fuel s cur, ascii s -> length s < fuel ->
              exists r, deserialize_seq_fuel x fuel s cur = Ok r).
  { clear s Ha. induction fuel as [|fuel IH]; intros s cur Ha Hf; [lia|].
    cbn [deserialize_seq_fuel].
    destruct (is_nil (trim s)) eqn:En; [eauto|].
    destruct (next_tok (trim s)) as [tok|] eqn:Et; [|eauto].
    destruct (next_tok_split _ _ En (fun c r => trim_head s c r) Et) as (r & Er & Hne).
    assert (Hat : ascii (trim s)).
    { apply Forall_forall. intros c Hc. apply trim_in in Hc.
      unfold ascii in Ha. rewrite Forall_forall in Ha. auto. }
    rewrite Er in Hat. apply Forall_app in Hat as [Htok Hr].
    destruct (C45_ascii_partial x tok Htok) as (pr & ->). cbn [rbind].
    destruct pr as [|k]; [eauto|].
    rewrite Er, skipn_app, skipn_all, Nat.sub_diag. cbn [app skipn].
    apply IH; [exact Hr|].
    assert (Hl : length (trim s) <= length s) by apply trim_length.
    rewrite Er, app_length in Hl. destruct tok; [congruence|]. cbn in Hl. lia. }
  apply H; [exact Ha|lia].
Qed.

Example C45_sequence_case :
  Forall word [U "A"; U "i"; U "space"; U "C-g"] /\
  deserialize_seq ascii_xkb (U "A i space C-g ")
    = Ok (Some [mkKey 65 0; mkKey 105 0; mkKey 32 0; mkKey 103 M_CONTROL]).
Proof.
  split; [|vm_compute; reflexivity].
  repeat constructor; try discriminate.
Qed.

(** * C46: events from fcitx *)
(** Bits no flag of a key event may carry after the conversion: everything undeclared, the
    dummy flags MOD5, L_SHIFT, R_SHIFT and USLEEP. *)
Definition real_modifier_bits : list N :=
  [0; 1; 2; 3; 4; 5; 6; 8; 26; 27; 28; 31]%N.
Theorem C46_fcitx : forall sym raw rel,
  let k := from_fcitx_keyevent sym raw rel in
  (has_mod k M_RELEASE = rel)
  /\ (forall b, b <> 30%N ->
        N.testbit (kmods k) b = true <-> N.testbit raw b = true /\ In b real_modifier_bits)
  /\ (ksym k = if N.eqb sym KEY_ISO_Left_Tab then KEY_Tab else sym).
Proof.
  intros sym raw rel. cbv zeta. unfold from_fcitx_keyevent. cbn [kmods ksym].
  assert (Hm : N.land (N.land raw ALL_FLAGS) NON_DUMMY_MASK = N.land raw NON_DUMMY_MASK).
  { rewrite <- N.land_assoc. f_equal. }
  rewrite Hm.
  assert (Hbit : forall b, N.testbit NON_DUMMY_MASK b = true <-> In b real_modifier_bits).
  { intros b. split.
    - intros H. destruct (N.ltb_spec b 32) as [Hb|Hb].
      + assert (E : In b (map N.of_nat (seq 0 32))).
        { apply in_map_iff. exists (N.to_nat b). split; [apply N2Nat.id|].
          apply in_seq. lia. }
        revert H. cbn in E. 
        repeat (destruct E as [<-|E]; [vm_compute; intuition discriminate|]). destruct E.
      + exfalso. rewrite N.bits_above_log2 in H; [discriminate|].
        eapply N.lt_le_trans; [|exact Hb]. vm_compute. reflexivity.
    - cbn. intros H. repeat (destruct H as [<-|H]; [reflexivity|]). destruct H. }
  split; [|split; [|reflexivity]].
  - unfold has_mod. cbn [kmods].
    assert (Hz : N.land (N.land raw NON_DUMMY_MASK) M_RELEASE = 0%N).
    { rewrite <- N.land_assoc. change (N.land NON_DUMMY_MASK M_RELEASE) with 0%N. apply N.land_0_r. }
    destruct rel.
    + rewrite N.land_lor_distr_l, Hz, N.lor_0_l, N.land_diag. apply N.eqb_refl.
    + rewrite Hz. reflexivity.
  - intros b Hb.
    assert (Hr : N.testbit M_RELEASE b = false).
    { unfold M_RELEASE. now rewrite N.pow2_bits_false by congruence. }
    destruct rel; rewrite ?N.lor_spec, ?Hr, ?orb_false_r, N.land_spec, andb_true_iff, Hbit; reflexivity.
Qed.
Example C46_case :
  from_fcitx_keyevent KEY_ISO_Left_Tab 4294967295 true
    = mkKey KEY_Tab (N.lor NON_DUMMY_MASK M_RELEASE).
Proof. reflexivity. Qed.

(** * C47: instructions *)
(** The text form of every instruction and mode. *)
Definition imode_text (m : imode) : str :=
  match m with Hiragana => U "Hiragana" | Katakana => U "Katakana"
             | HankakuKatakana => U "HankakuKatakana" | Zenkaku => U "Zenkaku"
             | Ascii => U "Ascii" end.
Definition cmode_text (c : cmode) : str :=
  match c with Direct => U "Direct" | PreComposition => U "PreComposition"
             | PreCompositionOkurigana => U "PreCompositionOkurigana"
             | CompositionSelection => U "CompositionSelection"
             | Abbreviation => U "Abbreviation" | Register => U "Register"
             | Completion => U "Completion" end.
Definition instr_text (i : instr) : str :=
  match i with
  | IAbort => U "Abort"
  | IChangeInputMode m => U "ChangeInputMode(" ++ imode_text m ++ U ")"
  | IForceKanaConvert m => U "ForceKanaConvert(" ++ imode_text m ++ U ")"
  | IClearUnconvertedInputs => U "ClearUnconvertedInputs"
  | IClearKanaConvertedInputs => U "ClearKanaConvertedInputs"
  | IClearUnconfirmedInputs => U "ClearUnconfirmedInputs"
  | IChangeCompositionMode c => U "ChangeCompositionMode(" ++ cmode_text c ++ U ")"
  | IFinishKeyEvent => U "FinishKeyEvent"
  | IPassthroughKeyEvent => U "PassthroughKeyEvent"
  | ITryNextCandidate => U "TryNextCandidate"
  | ITryPreviousCandidate => U "TryPreviousCandidate"
  | INextCandidatePointer => U "NextCandidatePointer"
  | IPreviousCandidatePointer => U "PreviousCandidatePointer"
  | IConfirmComposition => U "ConfirmComposition"
  | IConfirmAs m => U "ConfirmAs(" ++ imode_text m ++ U ")"
  | IConfirmDirect => U "ConfirmDirect"
  | IPurge => U "Purge"
  | IDelete => U "Delete"
  | ITryNextCompletion => U "TryNextCompletion"
  | ITryPreviousCompletion => U "TryPreviousCompletion"
  end.
Theorem C47_parse_back : forall i, instr_from_str (instr_text i) = Ok (Some i).
Proof. intros [| [] | [] | | | | [] | | | | | | | | [] | | | | | ]; vm_compute; reflexivity. Qed.

(** Names kept for compatibility with old rule files. *)
Definition legacy_text (i : instr) (s : str) : Prop :=
  match i with
  | IConfirmAs Hiragana => s = U "ConfirmAsHiragana"
  | IConfirmAs Katakana => s = U "ConfirmAsKatakana"
  | IConfirmAs HankakuKatakana => s = U "ConfirmAsJISX0201"
  | IClearUnconvertedInputs => s = U "FlushPreviousCarryOver"
  | IClearKanaConvertedInputs => s = U "FlushConvertedKana"
  | IDelete => s = U "DeleteDirect" \/ s = U "DeletePrecomposition"
  | IForceKanaConvert m => s = U "OutputNNIfAny(" ++ imode_text m ++ U ")"
  | _ => False
  end.

Lemma starts_mode_spec names l m :
  starts_mode names l = Some m -> In m names /\ exists j, l = U "(" ++ m ++ U ")" ++ j.
Proof.
  unfold starts_mode. intros H. apply find_some in H as (Hin & H). split; [exact Hin|].
  apply is_prefixb_spec in H as (j & H). exists j. rewrite H.
  change ((40%N :: m) ++ [41%N]) with (40%N :: (m ++ [41%N])).
  change (U "(") with [40%N]. change (U ")") with [41%N]. cbn. now rewrite <- app_assoc.
Qed.
Lemma last_mode_spec names l p m :
  last_mode names l = Some (p, m) -> In m names /\ exists j, l = p ++ U "(" ++ m ++ U ")" ++ j.
Proof.
  revert p m; induction l as [|c l IH]; intros p m; cbn; [discriminate|].
  destruct (last_mode names l) as [[p' m']|].
  - intros [= <- <-]. destruct (IH _ _ eq_refl) as (Hin & j & ->). split; [exact Hin|].
    exists j. reflexivity.
  - destruct (starts_mode names (c :: l)) as [m'|] eqn:E; [|discriminate].
    intros [= <- <-]. apply starts_mode_spec in E. exact E.
Qed.
Lemma mode_captures_spec names s p m :
  mode_captures names s = Some (p, m) ->
  In m names /\ exists j, In (p ++ U "(" ++ m ++ U ")" ++ j) (split_on 10 s).
Proof.
  unfold mode_captures. generalize (split_on 10 s). intros ls.
  induction ls as [|l ls IH]; cbn; [discriminate|].
  destruct (last_mode names l) as [[p' m']|] eqn:E.
  - intros [= -> ->]. apply last_mode_spec in E as (Hin & j & ->). split; [exact Hin|].
    exists j. now left.
  - intros H. destruct (IH H) as (Hin & j & Hj). split; [exact Hin|]. exists j. now right.
Qed.
Lemma imode_from_name m : In m imode_names -> exists i, imode_from_str m = Some i /\ imode_text i = m.
Proof.
  cbn. intros H.
  repeat (destruct H as [<-|H]; [eexists; split; vm_compute; reflexivity|]). destruct H.
Qed.
Lemma cmode_from_name m : In m cmode_names -> exists c, cmode_from_str m = Some c /\ cmode_text c = m.
Proof.
  cbn. intros H.
  repeat (destruct H as [<-|H]; [eexists; split; vm_compute; reflexivity|]). destruct H.
Qed.
Lemma imode_from_text m i : imode_from_str m = Some i -> In m imode_names -> imode_text i = m.
Proof. intros H Hin. apply imode_from_name in Hin as (j & E & <-). congruence. Qed.
Lemma cmode_from_text m i : cmode_from_str m = Some i -> In m cmode_names -> cmode_text i = m.
Proof. intros H Hin. apply cmode_from_name in Hin as (j & E & <-). congruence. Qed.
Lemma simple_instr_spec s i : simple_instr s = Some i -> s = instr_text i \/ legacy_text i s.
Proof.
  unfold simple_instr.
  assert (G : forall l, Forall (fun e => fst e = instr_text (snd e) \/ legacy_text (snd e) (fst e)) l ->
              assoc_str s l = Some i -> s = instr_text i \/ legacy_text i s).
  { induction 1 as [|[k v] l H _ IH]; cbn; [discriminate|].
    destruct (str_eqb_spec s k) as [->|]; [intros [= <-]; exact H|exact IH]. }
  apply G.
  repeat (apply Forall_cons;
          [vm_compute; first [left; reflexivity | right; reflexivity
                                | right; left; reflexivity | right; right; reflexivity]|]).
  constructor.
Qed.

(** Parsing never panics: the captured mode names are always known. *)
Theorem C47_total : forall s, exists r, instr_from_str s = Ok r.
Proof.
  intros s. unfold instr_from_str. destruct (simple_instr s) as [i|]; [eauto|]. cbv zeta.
  assert (H2 : exists r, (match mode_captures cmode_names s with
        | Some (p, m) =>
            match cmode_from_str m with
            | None => Panic PanicExpect
            | Some c => if str_eqb p (U "ChangeCompositionMode")
                        then Ok (Some (IChangeCompositionMode c)) else Ok None
            end
        | None => Ok None
        end) = Ok r).
  { destruct (mode_captures cmode_names s) as [[p m]|] eqn:E; [|eauto].
    apply mode_captures_spec in E as (Hin & _).
    apply cmode_from_name in Hin as (c & -> & _).
    destruct (str_eqb p _); eauto. }
  destruct (mode_captures imode_names s) as [[p m]|] eqn:E; [|exact H2].
  apply mode_captures_spec in E as (Hin & _).
  apply imode_from_name in Hin as (c & -> & _).
  repeat match goal with |- context[if ?b then _ else _] => destruct b; [eauto|] end.
  exact H2.
Qed.

(** Whatever is accepted is the text of the instruction (current or legacy), except that a
    mode instruction may be followed by anything and may stand on any line. *)
Theorem C47_rejects_partial : forall s i, instr_from_str s = Ok (Some i) ->
  (s = instr_text i \/ legacy_text i s)
  \/ (exists t junk, (t = instr_text i \/ legacy_text i t) /\ In (t ++ junk) (split_on 10 s)
       /\ match i with IChangeInputMode _ | IForceKanaConvert _ | IConfirmAs _
                     | IChangeCompositionMode _ => True | _ => False end).
Proof.
  intros s i. unfold instr_from_str.
  destruct (simple_instr s) as [i'|] eqn:Es.
  { intros [= ->]. left. now apply simple_instr_spec. }
  cbv zeta. clear Es.
  assert (H2 : (match mode_captures cmode_names s with
        | Some (p, m) =>
            match cmode_from_str m with
            | None => Panic PanicExpect
            | Some c => if str_eqb p (U "ChangeCompositionMode")
                        then Ok (Some (IChangeCompositionMode c)) else Ok None
            end
        | None => Ok None
        end) = Ok (Some i) ->
     exists t junk, (t = instr_text i \/ legacy_text i t) /\ In (t ++ junk) (split_on 10 s)
       /\ match i with IChangeInputMode _ | IForceKanaConvert _ | IConfirmAs _
                     | IChangeCompositionMode _ => True | _ => False end).
  { destruct (mode_captures cmode_names s) as [[p m]|] eqn:E; [|discriminate].
    apply mode_captures_spec in E as (Hin & j & Hj).
    destruct (cmode_from_str m) as [c|] eqn:Ec; [|discriminate].
    apply cmode_from_text in Ec; [|exact Hin]. subst m.
    destruct (str_eqb_spec p (U "ChangeCompositionMode")) as [->|]; [|discriminate].
    intros [= <-]. exists (instr_text (IChangeCompositionMode c)), j.
    split; [now left|split; [|exact I]].
    cbn [instr_text]. rewrite <- !app_assoc.
    change (U "ChangeCompositionMode(") with (U "ChangeCompositionMode" ++ U "(").
    rewrite <- app_assoc. exact Hj. }
  destruct (mode_captures imode_names s) as [[p m]|] eqn:E; [|intros H; right; exact (H2 H)].
  apply mode_captures_spec in E as (Hin & j & Hj).
  destruct (imode_from_str m) as [c|] eqn:Ec; [|discriminate].
  apply imode_from_text in Ec; [|exact Hin]. subst m.
  destruct (str_eqb_spec p (U "ChangeInputMode")) as [->|].
  { intros [= <-]. right. exists (instr_text (IChangeInputMode c)), j.
    split; [now left|split; [|exact I]]. cbn [instr_text]. rewrite <- !app_assoc.
    change (U "ChangeInputMode(") with (U "ChangeInputMode" ++ U "(").
    rewrite <- app_assoc. exact Hj. }
  destruct (str_eqb_spec p (U "ForceKanaConvert")) as [->|].
  { intros [= <-]. right. exists (instr_text (IForceKanaConvert c)), j.
    split; [now left|split; [|exact I]]. cbn [instr_text]. rewrite <- !app_assoc.
    change (U "ForceKanaConvert(") with (U "ForceKanaConvert" ++ U "(").
    rewrite <- app_assoc. exact Hj. }
  destruct (str_eqb_spec p (U "ConfirmAs")) as [->|].
  { intros [= <-]. right. exists (instr_text (IConfirmAs c)), j.
    split; [now left|split; [|exact I]]. cbn [instr_text]. rewrite <- !app_assoc.
    change (U "ConfirmAs(") with (U "ConfirmAs" ++ U "(").
    rewrite <- app_assoc. exact Hj. }
  destruct (str_eqb_spec p (U "OutputNNIfAny")) as [->|].
  { intros [= <-]. right. exists (U "OutputNNIfAny(" ++ imode_text c ++ U ")"), j.
    split; [right; reflexivity|split; [|exact I]]. rewrite <- !app_assoc.
    change (U "OutputNNIfAny(") with (U "OutputNNIfAny" ++ U "(").
    rewrite <- app_assoc. exact Hj. }
  intros H. right. exact (H2 H).
Qed.

(** Text that is no instruction is accepted when it merely starts with one. *)
Theorem C47_refuted :
  let s := U "ChangeInputMode(Ascii)xyz" in
  instr_from_str s = Ok (Some (IChangeInputMode Ascii))
  /\ (forall i, s <> instr_text i) /\ (forall i, ~ legacy_text i s).
Proof.
  cbv zeta. split; [vm_compute; reflexivity|]. split.
  - intros [| [] | [] | | | | [] | | | | | | | | [] | | | | | ]; discriminate.
  - intros [| [] | [] | | | | [] | | | | | | | | [] | | | | | ] H; cbn in H;
      repeat (destruct H as [H|H]); discriminate || destruct H.
Qed.
Example C47_case :
  instr_from_str (U "NoSuchInstruction") = Ok None
  /\ instr_from_str (U "ChangeInputMode(Kanji)") = Ok None
  /\ instr_from_str (U "ConfirmAs(Katakana)") = Ok (Some (IConfirmAs Katakana)).
Proof. vm_compute. auto. Qed.
