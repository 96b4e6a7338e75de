(** Property C87: loops over a text end, each round using up some of it, and so the bounds on
    recursion in the model are never what stops them. *)
From Coq Require Import Lia.
From Verif Require Import Str Keys Modes FormChanger DictTypes Parser Dictionary T_KeyParse.
Open Scope nat_scope.

(* ------------------------------------------------------------- specification *)
(** kana_form_changer.rs:211-240, as executions: [adjusts m n s out rounds]: the recursion on [s],
    with the table [m] and keys of at most [n] characters, ends after [rounds] calls that
    consume something and writes [out]. *)
Inductive adjusts (m : list (str * str)) (n : nat) : str -> str -> nat -> Prop :=
| adj_end : adjusts m n [] [] 0
| adj_key s i rep out j : s <> [] -> 1 <= i <= n -> assoc_str (firstn i s) m = Some rep ->
    (forall i', i < i' <= n -> assoc_str (firstn i' s) m = None) ->
    adjusts m n (skipn i s) out j -> adjusts m n s (rep ++ out) (S j)
| adj_other c s out j : (forall i, 1 <= i <= n -> assoc_str (firstn i (c :: s)) m = None) ->
    adjusts m n s out j -> adjusts m n (c :: s) (c :: out) (S j).

(** keyevent.rs:241-262, as executions: [deserializes x s cur result rounds]. *)
Inductive deserializes (x : xkb) : str -> list keyev -> res (option (list keyev)) -> nat -> Prop :=
| des_end s cur : trim s = [] -> deserializes x s cur (Ok (Some cur)) 0
| des_unclosed s cur : trim s <> [] -> next_tok (trim s) = None -> deserializes x s cur (Ok None) 0
| des_wrong s cur tok : trim s <> [] -> next_tok (trim s) = Some tok -> key_from_str x tok = Ok PErr ->
    deserializes x s cur (Ok None) 0
| des_panic s cur tok e : trim s <> [] -> next_tok (trim s) = Some tok -> key_from_str x tok = Panic e ->
    deserializes x s cur (Panic e) 0
| des_key s cur tok k res j : trim s <> [] -> next_tok (trim s) = Some tok -> key_from_str x tok = Ok (PKey k) ->
    deserializes x (skipn (length tok) (trim s)) (cur ++ [k]) res j -> deserializes x s cur res (S j).

(** nom's many1 (7.1.3, multi/mod.rs), as executions: [repeats p s l rest].  A parser that succeeds
    without consuming anything makes many1 fail, so the rule asks for consumption. *)
Inductive repeats {A} (p : parser A) : str -> list A -> str -> Prop :=
| rep_stop s : p s = None -> repeats p s [] s
| rep_more s a r l rest : p s = Some (a, r) -> length r < length s ->
    repeats p r l rest -> repeats p s (a :: l) rest.

(** The regular expression of dictentry.rs:199 (a backslash, one to three octal digits as many as
    there are, an optional backslash), as a search from the left that goes on after each match. *)
Definition octal_run (ds : str) : Prop := Forall (fun c => is_octal c = true) ds /\ 1 <= length ds <= 3.
Definition greedy (ds rest : str) : Prop :=
  length ds = 3 \/ match rest with c :: _ => is_octal c = false | [] => True end.
Inductive octal_matches : str -> list str -> Prop :=
| om_end : octal_matches [] []
| om_skip c s l : (c <> 92%N \/ match s with d :: _ => is_octal d = false | [] => True end) ->
    octal_matches s l -> octal_matches (c :: s) l
| om_closed ds s l : octal_run ds -> greedy ds (92%N :: s) -> octal_matches s l ->
    octal_matches (92%N :: ds ++ 92%N :: s) ((92%N :: ds ++ [92%N]) :: l)
| om_open ds s l : octal_run ds -> greedy ds s -> hd_error s <> Some 92%N -> octal_matches s l ->
    octal_matches (92%N :: ds ++ s) ((92%N :: ds) :: l).

(* -------------------------------------------------------------------- proofs *)
Lemma longest_key_spec m s : forall n,
  match longest_key m n s with
  | Some (i, rep) => 1 <= i <= n /\ assoc_str (firstn i s) m = Some rep
                     /\ forall i', i < i' <= n -> assoc_str (firstn i' s) m = None
  | None => forall i, 1 <= i <= n -> assoc_str (firstn i s) m = None
  end.
Proof.
  induction n as [|n IH]; [cbn; lia|]. cbn [longest_key].
  destruct (assoc_str (firstn (S n) s) m) as [rep|] eqn:E.
  - split; [lia|split; [exact E|lia]].
  - destruct (longest_key m n s) as [[i rep]|].
    + destruct IH as (H1 & H2 & H3). split; [lia|split; [exact H2|]]. intros i' Hi.
      destruct (Nat.eq_dec i' (S n)) as [->|]; [exact E|]. apply H3. lia.
    + intros i Hi. destruct (Nat.eq_dec i (S n)) as [->|]; [exact E|]. apply IH. lia.
Qed.
Theorem C87_kana : forall m n s, exists rounds, rounds <= length s
  /\ adjusts m n s (adjust_recur m n (length s) s) rounds.
Proof.
  intros m n s. assert (G : forall f s, length s <= f -> exists rounds, rounds <= length s
    /\ adjusts m n s (adjust_recur m n f s) rounds); [|apply G; lia].
  clear s. induction f as [|f IH]; intros s Hf.
  - destruct s; [|cbn in Hf; lia]. exists 0. split; [lia|constructor].
  - destruct s as [|c r]; [exists 0; split; [cbn; lia|constructor]|].
    cbn [adjust_recur]. pose proof (longest_key_spec m (c :: r) n) as L.
    destruct (longest_key m n (c :: r)) as [[i rep]|].
    + destruct L as (Hi & E & Hg). assert (Hl : length (skipn i (c :: r)) < length (c :: r)) by (rewrite skipn_length; cbn [length]; lia).
      destruct (IH (skipn i (c :: r))) as (j & Hj & A); [lia|]. exists (S j). split; [lia|].
      econstructor; eauto. discriminate.
    + destruct (IH r) as (j & Hj & A); [cbn in Hf; lia|]. exists (S j). split; [cbn; lia|]. now constructor.
Qed.
(** The execution is the only one. *)
Theorem C87_kana_only : forall m n s a i b j, adjusts m n s a i -> adjusts m n s b j -> a = b /\ i = j.
Proof.
  intros m n s a i b j A. revert b j. induction A as [|s i rep out j Hs Hi E Hg A IH|c s out j Hn A IH]; intros b jb B.
  - inversion B; subst; [auto|congruence].
  - inversion B as [|s' i' rep' out' j' Hs' Hi' E' Hg' B'|c s' out' j' Hn' B']; subst; [congruence| |].
    + assert (i = i') as <-.
      { destruct (Nat.lt_trichotomy i i') as [L|[L|L]]; [|exact L|].
        - rewrite Hg in E' by lia. discriminate.
        - rewrite Hg' in E by lia. discriminate. }
      rewrite E in E'. injection E' as <-. destruct (IH _ _ B') as [-> ->]. auto.
    + rewrite Hn' in E by exact Hi. discriminate.
  - inversion B as [|s' i' rep' out' j' Hs' Hi' E' Hg' B'|c' s' out' j' Hn' B']; subst.
    + rewrite Hn in E' by exact Hi'. discriminate.
    + destruct (IH _ _ B') as [-> ->]. auto.
Qed.
Example C87_kana_case : adjust_recur [(U "う゛", U "ヴ"); (U "う", U "ウ")] 2 4 (U "う゛うx") = U "ヴウx".
Proof. vm_compute. reflexivity. Qed.

Theorem C87_keys : forall x s, exists rounds, rounds <= length s
  /\ deserializes x s [] (deserialize_seq x s) rounds.
Proof.
  intros x s. assert (G : forall f s cur, length s < f -> exists rounds, rounds <= length s
    /\ deserializes x s cur (deserialize_seq_fuel x f s cur) rounds); [|apply G; lia].
  clear s. induction f as [|f IH]; intros s cur Hf; [lia|]. cbn [deserialize_seq_fuel].
  destruct (is_nil (trim s)) eqn:En.
  { exists 0. split; [lia|]. apply des_end. now apply is_nil_true. }
  assert (Hn : trim s <> []) by (intros E; rewrite E in En; discriminate).
  destruct (next_tok (trim s)) as [tok|] eqn:Et; [|exists 0; split; [lia|now apply des_unclosed]].
  destruct (next_tok_split _ _ En (fun c r => trim_head s c r) Et) as (r & Er & Hne).
  destruct (key_from_str x tok) as [[|k]|e] eqn:Ek; cbn [rbind].
  - exists 0. split; [lia|]. eapply des_wrong; eauto.
  - assert (Hl : length (skipn (length tok) (trim s)) < length s).
    { pose proof (trim_length s) as Ht. rewrite skipn_length. rewrite Er, app_length in *. destruct tok; [congruence|]. cbn [length] in *. lia. }
    destruct (IH (skipn (length tok) (trim s)) (cur ++ [k])) as (j & Hj & D); [lia|].
    exists (S j). split; [lia|]. eapply des_key; eauto.
  - exists 0. split; [lia|]. eapply des_panic; eauto.
Qed.
Theorem C87_keys_only : forall x s cur a i b j, deserializes x s cur a i -> deserializes x s cur b j -> a = b /\ i = j.
Proof.
  intros x s cur a i b j A. revert b j.
  induction A as [s cur E|s cur Hn E|s cur tok Hn E Ek|s cur tok e Hn E Ek|s cur tok k res j Hn E Ek A IH]; intros b' j' B;
    inversion B as [s' cur' E'|s' cur' Hn' E'|s' cur' tok' Hn' E' Ek'|s' cur' tok' e' Hn' E' Ek'|s' cur' tok' k' res' j1 Hn' E' Ek' B1];
    subst; try congruence; auto; try (rewrite E in E'; injection E' as <-; rewrite Ek in Ek'; try discriminate Ek').
  - injection Ek' as <-. auto.
  - injection Ek' as <-. destruct (IH _ _ B1) as [-> ->]. auto.
Qed.
Example C87_keys_case : deserializes ascii_xkb (U " a b") [] (Ok (Some [mkKey 97 0; mkKey 98 0])) 2.
Proof.
  eapply des_key; [vm_compute; discriminate|vm_compute; reflexivity|vm_compute; reflexivity|].
  eapply des_key; [vm_compute; discriminate|vm_compute; reflexivity|vm_compute; reflexivity|].
  apply (des_end ascii_xkb (skipn (length (U "b")) (trim (U "b")))). vm_compute. reflexivity.
Qed.

(* ------------------------------------------------------------------- parsers *)
Definition eats {A} (p : parser A) : Prop := forall s a r, p s = Some (a, r) -> length r < length s.
Lemma eats_char c : eats (p_char c).
Proof. intros [|x s] a r; cbn; [discriminate|]. destruct (N.eqb x c); [|discriminate]. intros [= _ <-]. lia. Qed.
Lemma span_length f s : length (fst (span f s)) + length (snd (span f s)) = length s.
Proof. induction s as [|c s IH]; [reflexivity|]. cbn. destruct (f c); [|reflexivity]. destruct (span f s). cbn in *. lia. Qed.
Lemma eats_while f : eats (p_while1 f).
Proof.
  intros s a r. unfold p_while1. pose proof (span_length f s) as L. destruct (span f s) as [[|c x] y]; [discriminate|].
  intros [= <- <-]. cbn in *. lia.
Qed.
Lemma eats_map {A B} (p : parser A) (f : A -> B) : eats p -> eats (p_map p f).
Proof. intros H s b r. unfold p_map. destruct (p s) as [[a r']|] eqn:E; [|discriminate]. intros [= _ <-]. eauto. Qed.
Lemma eats_alt {A} (p q : parser A) : eats p -> eats q -> eats (p_alt p q).
Proof. intros H K s b r. unfold p_alt. destruct (p s) as [[a r']|] eqn:E; [intros [= _ <-]; eauto|]. apply K. Qed.
Lemma eats_perm2 {A B} (pa : parser A) (pb : parser B) : eats pa -> eats pb -> eats (perm2 pa pb).
Proof.
  intros Ha Hb. assert (G : forall f a b s x r, perm2_loop pa pb f a b s = Some (x, r) ->
    length r <= length s /\ (a = None -> length r < length s)).
  { induction f as [|f IH]; intros a b s x r; cbn [perm2_loop]; [discriminate|].
    destruct (match a with None => pa s | Some _ => None end) as [[x' r']|] eqn:Ea.
    - destruct a; [discriminate|]. apply Ha in Ea. intros E. apply IH in E as [E _]. lia.
    - destruct (match b with None => pb s | Some _ => None end) as [[x' r']|] eqn:Eb.
      + destruct b; [discriminate|]. apply Hb in Eb. intros E. apply IH in E as [E K]. split; [lia|]. intros ->. specialize (K eq_refl). lia.
      + destruct a, b; try discriminate. intros [= _ <-]. split; [lia|discriminate]. }
  intros s x r E. apply G in E as [_ E]. auto.
Qed.
Lemma eats_perm5 {A B C D E} (pa : parser A) (pb : parser B) (pc : parser C) (pd : parser D) (pe : parser E) :
  eats pa -> eats pb -> eats pc -> eats pd -> eats pe -> eats (perm5 pa pb pc pd pe).
Proof.
  intros Ha Hb Hc Hd He. assert (G : forall f a b c d e s x r, perm5_loop pa pb pc pd pe f a b c d e s = Some (x, r) ->
    length r <= length s /\ (a = None -> length r < length s)).
  { induction f as [|f IH]; intros a b c d e s x r; cbn [perm5_loop]; [discriminate|].
    destruct (match a with None => pa s | Some _ => None end) as [[x' r']|] eqn:Ea.
    { destruct a; [discriminate|]. apply Ha in Ea. intros Z. apply IH in Z as [Z _]. lia. }
    destruct (match b with None => pb s | Some _ => None end) as [[x' r']|] eqn:Eb.
    { destruct b; [discriminate|]. apply Hb in Eb. intros Z. apply IH in Z as [Z K]. split; [lia|]. intros H. specialize (K H). lia. }
    destruct (match c with None => pc s | Some _ => None end) as [[x' r']|] eqn:Ec.
    { destruct c; [discriminate|]. apply Hc in Ec. intros Z. apply IH in Z as [Z K]. split; [lia|]. intros H. specialize (K H). lia. }
    destruct (match d with None => pd s | Some _ => None end) as [[x' r']|] eqn:Ed.
    { destruct d; [discriminate|]. apply Hd in Ed. intros Z. apply IH in Z as [Z K]. split; [lia|]. intros H. specialize (K H). lia. }
    destruct (match e with None => pe s | Some _ => None end) as [[x' r']|] eqn:Ee.
    { destruct e; [discriminate|]. apply He in Ee. intros Z. apply IH in Z as [Z K]. split; [lia|]. intros H. specialize (K H). lia. }
    destruct a, b, c, d, e; try discriminate. intros [= _ <-]. split; [lia|discriminate]. }
  intros s x r Z. apply G in Z as [_ Z]. auto.
Qed.
Lemma eats_many {A} (p : parser A) : eats p -> eats (many1 p).
Proof.
  intros H s l r. unfold many1. destruct (p s) as [[a r']|] eqn:E; [|discriminate]. apply H in E.
  assert (G : forall f s, length (snd (many0_fuel p f s)) <= length s).
  { induction f as [|f IH]; intros s0; cbn; [lia|]. destruct (p s0) as [[a0 r0]|] eqn:E0; [|cbn; lia].
    apply H in E0. specialize (IH r0). destruct (many0_fuel p f r0). cbn in *. lia. }
  specialize (G (length r') r'). destruct (many0_fuel p (length r') r'). intros [= _ <-]. cbn in G. lia.
Qed.
Lemma eats_no_strict : eats p_no_strict.
Proof.
  intros s a r. unfold p_no_strict. destruct (p_till1 kouho_illegal s) as [[k r1]|] eqn:E; [|discriminate].
  apply (eats_while _ s) in E. unfold p_opt.
  destruct (perm2 (p_char 59) (p_till1 annot_illegal) r1) as [[[c x] r2]|] eqn:E2.
  - apply (eats_perm2 _ _ (eats_char _) (eats_while _)) in E2. intros [= _ <-]. lia.
  - intros [= _ <-]. exact E.
Qed.
Lemma eats_item : eats (p_map (perm2 p_no_strict (p_char 47)) fst).
Proof. apply eats_map, eats_perm2; [apply eats_no_strict|apply eats_char]. Qed.
Lemma eats_strict : eats p_strict.
Proof.
  unfold p_strict. apply eats_map, eats_perm5; try apply eats_char; [apply eats_while|]. apply eats_many, eats_item.
Qed.
Lemma eats_candidate : eats p_candidate.
Proof.
  unfold p_candidate. apply eats_map, eats_perm2; [|apply eats_char]. apply eats_alt; [apply eats_strict|].
  apply eats_map, eats_no_strict.
Qed.
Lemma many_repeats {A} (p : parser A) : eats p -> forall s l r,
  many1 p s = Some (l, r) <-> l <> [] /\ repeats p s l r.
Proof.
  intros H. assert (G : forall f s, length s <= f -> let '(l, r) := many0_fuel p f s in repeats p s l r).
  { induction f as [|f IH]; intros s Hs.
    - cbn. apply rep_stop. destruct (p s) as [[a r]|] eqn:E; [|reflexivity]. apply H in E. lia.
    - cbn [many0_fuel]. destruct (p s) as [[a r]|] eqn:E; [|now apply rep_stop]. pose proof (H _ _ _ E) as L.
      specialize (IH r ltac:(lia)). destruct (many0_fuel p f r) as [l r']. eapply rep_more; eauto. }
  assert (Det : forall s l r l' r', repeats p s l r -> repeats p s l' r' -> l = l' /\ r = r').
  { intros s l r l' r' A1. revert l' r'. induction A1 as [s E|s a r l rest E L A1 IH]; intros l' r' B.
    - inversion B; subst; [auto|congruence].
    - inversion B as [|s' a' r0 l0 rest0 E' L' B']; subst; [congruence|]. rewrite E in E'. injection E' as <- <-.
      destruct (IH _ _ B') as [-> ->]. auto. }
  intros s l r. unfold many1. split.
  - destruct (p s) as [[a r1]|] eqn:E; [|discriminate]. specialize (G (length r1) r1 ltac:(lia)).
    destruct (many0_fuel p (length r1) r1) as [l0 r0]. intros [= <- <-]. split; [discriminate|]. eapply rep_more; eauto.
  - intros [Hl R]. destruct (p s) as [[a r1]|] eqn:E.
    + specialize (G (length r1) r1 ltac:(lia)). destruct (many0_fuel p (length r1) r1) as [l0 r0].
      destruct (Det s l r (a :: l0) r0 R) as [-> ->]; [|reflexivity]. eapply rep_more; eauto.
    + inversion R; subst; congruence.
Qed.
(** The two loops of the dictionary parser (dictionary_parser.rs:63, 103) always consume, so nom
    never refuses them for making no progress, and they are these executions. *)
Theorem C87_line : forall s l r,
  (many1 p_candidate s = Some (l, r) <-> l <> [] /\ repeats p_candidate s l r).
Proof. exact (many_repeats p_candidate eats_candidate). Qed.
Theorem C87_line_strict : forall s l r,
  (many1 (p_map (perm2 p_no_strict (p_char 47)) fst) s = Some (l, r)
   <-> l <> [] /\ repeats (p_map (perm2 p_no_strict (p_char 47)) fst) s l r).
Proof. exact (many_repeats _ eats_item). Qed.
Example C87_line_case : many1 p_candidate (U "愛;love/藍/]") = Some ([([], [(U "愛", Some (U "love"))]); ([], [(U "藍", None)])], U "]").
Proof. vm_compute. reflexivity. Qed.

(* -------------------------------------------------------------- octal escapes *)
Lemma octal_digits_spec n : forall s, let '(a, b) := octal_digits n s in
  s = a ++ b /\ Forall (fun c => is_octal c = true) a /\ length a <= n
  /\ (length a = n \/ match b with c :: _ => is_octal c = false | [] => True end).
Proof.
  induction n as [|n IH]; intros s; [cbn; auto|]. destruct s as [|c s]; cbn [octal_digits]; [cbn; auto with arith|].
  destruct (is_octal c) eqn:E.
  - specialize (IH s). destruct (octal_digits n s) as [a b]. destruct IH as (-> & F & L & G).
    cbn [length app]. split; [reflexivity|split; [now constructor|split; [lia|]]]. destruct G; [left; lia|now right].
  - cbn. rewrite E. auto with arith.
Qed.
Theorem C87_octals : forall s, octal_matches s (find_octals (length s) s).
Proof.
  intros s. assert (G : forall f s, length s <= f -> octal_matches s (find_octals f s)); [|apply G; lia].
  clear s. induction f as [|f IH]; intros s Hf.
  - destruct s; [constructor|cbn in Hf; lia].
  - cbn [find_octals]. destruct s as [|c r]; [constructor|]. cbn in Hf. destruct (N.eqb_spec c 92) as [->|Hc].
    + pose proof (octal_digits_spec 3 r) as O. destruct (octal_digits 3 r) as [ds rest]. destruct O as (-> & F & L & Gr).
      destruct ds as [|d ds].
      * cbn [app] in *. apply om_skip; [right; destruct Gr as [Gr|Gr]; [discriminate|exact Gr]|]. apply IH. lia.
      * assert (R : octal_run (d :: ds)) by (split; [exact F|cbn [length] in *; lia]).
        rewrite app_length in Hf. destruct rest as [|c' rest'].
        -- apply om_open; [exact R|right; exact I|discriminate|constructor].
        -- cbn [length] in Hf. destruct (N.eqb_spec c' 92) as [->|Hc'].
           ++ apply om_closed; [exact R|destruct Gr; [now left|now right]|]. apply IH. lia.
           ++ apply om_open; [exact R|destruct Gr; [now left|now right]|cbn; congruence|]. apply IH. cbn. lia.
    + apply om_skip; [now left|]. apply IH. lia.
Qed.
Example C87_octals_case : find_octals 9 (U "a\1234\57\") = [U "\123"; U "\57\"].
Proof. vm_compute. reflexivity. Qed.
