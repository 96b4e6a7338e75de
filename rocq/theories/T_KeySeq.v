(** C45 continued: the exact grammar of key sequences and of the parenthesised key form. *)
From Verif Require Import Str Keys T_KeyParse.

(* ------------------------------------------------------------ the text of a sequence *)
Definition blank (s : str) : Prop := Forall (fun c => is_ws c = true) s.
(** [splits s ts b]: [s] consists of the key texts [ts] separated by spaces (none is needed
    after a closing parenthesis); [b = false]: after them comes an unclosed parenthesis. *)
Inductive splits : str -> list str -> bool -> Prop :=
| sp_end s : blank s -> splits s [] true
| sp_word a c w r ts b : blank a -> is_ws c = false -> c <> 40%N -> ~ In 32%N w ->
    (r = [] \/ exists r', r = 32%N :: r') -> splits r ts b -> splits (a ++ (c :: w) ++ r) ((c :: w) :: ts) b
| sp_paren a m r ts b : blank a -> ~ In 41%N m -> splits r ts b ->
    splits (a ++ 40%N :: m ++ 41%N :: r) ((40%N :: m ++ [41%N]) :: ts) b
| sp_open a m : blank a -> ~ In 41%N m -> splits (a ++ 40%N :: m) [] false.

Lemma blank_trim s : blank s -> trim s = [].
Proof. intros H. unfold trim. rewrite <- (app_nil_r s), trim_start_skip by exact H. reflexivity. Qed.
Lemma blank_trim_end s : blank s -> trim_end s = [].
Proof. intros H. change s with ([] ++ s). now rewrite trim_end_skip. Qed.
Lemma trim_end_idem s : trim_end (trim_end s) = trim_end s.
Proof.
  unfold trim_end. rewrite rev_involutive. f_equal. destruct (trim_start (rev s)) as [|c r] eqn:E; [reflexivity|].
  cbn. now rewrite (trim_start_head _ _ _ E).
Qed.
Lemma trim_end_app a s : trim_end s <> [] -> trim_end (a ++ s) = a ++ trim_end s.
Proof.
  unfold trim_end. rewrite rev_app_distr. intros H.
  assert (G : forall u v, trim_start u <> [] -> trim_start (u ++ v) = trim_start u ++ v).
  { intros u v. induction u as [|c u IH]; cbn; [congruence|]. destruct (is_ws c); [exact IH|reflexivity]. }
  rewrite G; [|intros E; apply H; now rewrite E]. now rewrite rev_app_distr, rev_involutive.
Qed.
Lemma trim_end_cons c s : is_ws c = false -> trim_end (c :: s) = c :: trim_end s.
Proof.
  intros Hc. destruct (trim_end s) as [|d r] eqn:E.
  - change (c :: s) with ([c] ++ s). assert (Hb : blank s).
    { apply (f_equal (@rev N)) in E. unfold trim_end in E. rewrite rev_involutive in E.
      destruct (trim_start_split (rev s)) as (p & Hp & Hf). rewrite E in Hp. cbn in Hp. rewrite app_nil_r in Hp.
      rewrite <- (rev_involutive s), Hp. now apply Forall_rev. }
    rewrite trim_end_skip by exact Hb. unfold trim_end. cbn. now rewrite Hc.
  - change (c :: s) with ([c] ++ s). rewrite trim_end_app by (rewrite E; discriminate). now rewrite E.
Qed.
Lemma trim_start_solid c s : is_ws c = false -> trim_start (c :: s) = c :: s.
Proof. intros H. cbn. now rewrite H. Qed.
Lemma trim_blank_front a s : blank a -> trim (a ++ s) = trim s.
Proof. intros H. unfold trim. now rewrite trim_start_skip. Qed.
Lemma trim_solid_front c s : is_ws c = false -> trim (c :: s) = c :: trim_end s.
Proof. intros H. unfold trim. now rewrite trim_start_solid, trim_end_cons by exact H. Qed.
Lemma trim_trim_end s : trim (trim_end s) = trim s.
Proof.
  destruct (trim_start_split s) as (p & Hp & Hf). destruct (trim_start s) as [|c r] eqn:E.
  - rewrite app_nil_r in Hp. subst p. rewrite (blank_trim_end s Hf). symmetry. now apply blank_trim.
  - pose proof (trim_start_head _ _ _ E) as Hc.
    rewrite Hp, trim_blank_front by exact Hf. rewrite trim_end_app by (rewrite trim_end_cons by exact Hc; discriminate).
    rewrite trim_blank_front, trim_end_cons by assumption. rewrite !trim_solid_front by exact Hc.
    now rewrite trim_end_idem.
Qed.
Lemma key_trim x s t : trim s = trim t -> key_from_str x s = key_from_str x t.
Proof. intros H. unfold key_from_str. now rewrite H. Qed.
Lemma deser_trim x fuel s t cur : trim s = trim t -> deserialize_seq_fuel x fuel s cur = deserialize_seq_fuel x fuel t cur.
Proof. intros H. destruct fuel; [reflexivity|]. cbn [deserialize_seq_fuel]. now rewrite H. Qed.
Lemma take_until_no c s : ~ In c s -> take_until c s = s.
Proof.
  induction s as [|d s IH]; cbn; [reflexivity|]. intros H. destruct (N.eqb_spec d c); [tauto|]. f_equal. apply IH. tauto.
Qed.
Lemma take_until_at c s r : ~ In c s -> take_until c (s ++ c :: r) = s.
Proof.
  induction s as [|d s IH]; cbn; [now rewrite N.eqb_refl|]. intros H. destruct (N.eqb_spec d c); [tauto|]. f_equal. apply IH. tauto.
Qed.
Lemma take_incl_at c s r : ~ In c s -> take_until_incl c (s ++ c :: r) = Some (s ++ [c]).
Proof.
  induction s as [|d s IH]; cbn; [now rewrite N.eqb_refl|]. intros H. destruct (N.eqb_spec d c); [tauto|]. rewrite IH by tauto. reflexivity.
Qed.
Lemma take_incl_no c s : ~ In c s -> take_until_incl c s = None.
Proof.
  induction s as [|d s IH]; cbn; [reflexivity|]. intros H. destruct (N.eqb_spec d c); [tauto|]. rewrite IH by tauto. reflexivity.
Qed.
Lemma trim_end_in c s : In c (trim_end s) -> In c s.
Proof.
  unfold trim_end. intros H. apply in_rev in H. destruct (trim_start_split (rev s)) as (p & Hp & _).
  apply in_rev. rewrite Hp. apply in_app_iff. now right.
Qed.
Section Go.
Context (x : xkb).
(** What the parser does with the key texts one by one. *)
Fixpoint one_by_one (ts : list str) (b : bool) (cur : list keyev) : res (option (list keyev)) :=
  match ts with
  | [] => Ok (if b then Some cur else None)
  | t :: r => rbind (key_from_str x t) (fun pr =>
      match pr with PErr => Ok None | PKey k => one_by_one r b (cur ++ [k]) end)
  end.
Lemma deser_splits s ts b : splits s ts b -> forall fuel cur, length ts < fuel ->
  deserialize_seq_fuel x fuel s cur = one_by_one ts b cur.
Proof.
  induction 1 as [s Hs|a c w r ts b Ha Hc Hp Hw Hr Hs IH|a m r ts b Ha Hm Hs IH|a m Ha Hm];
    intros [|fuel] cur Hf; cbn in Hf; try lia; cbn [deserialize_seq_fuel].
  - now rewrite blank_trim.
  - rewrite trim_blank_front by exact Ha. cbn [app]. rewrite trim_solid_front by exact Hc. cbn [is_nil].
    assert (Hpre : forall u, is_prefixb (U "(") (c :: u) = false).
    { intros u. change (U "(") with [40%N]. cbn [is_prefixb]. destruct (N.eqb_spec 40 c); [congruence|reflexivity]. }
    assert (Hc32 : c <> 32%N) by (intros ->; discriminate).
    unfold next_tok. rewrite Hpre. destruct (trim_end r) as [|d q] eqn:Er.
    + (* nothing but blanks after the word *)
      assert (Hb : blank r).
      { apply (f_equal (@rev N)) in Er. unfold trim_end in Er. rewrite rev_involutive in Er.
        destruct (trim_start_split (rev r)) as (p & Hq & Hfp). rewrite Er in Hq. cbn in Hq. rewrite app_nil_r in Hq.
        rewrite <- (rev_involutive r), Hq. now apply Forall_rev. }
      rewrite trim_end_skip by exact Hb.
      rewrite take_until_no.
      2:{ intros [E|E]; [congruence|]. now apply trim_end_in in E. }
      rewrite (key_trim x (c :: trim_end w) (c :: w)) by (rewrite <- (trim_end_cons c w Hc); apply trim_trim_end).
      cbn [one_by_one]. destruct (key_from_str x (c :: w)) as [[|k]|e]; cbn [rbind]; [reflexivity| |reflexivity].
      rewrite skipn_all. rewrite (deser_trim x fuel [] r) by (symmetry; now apply blank_trim).
      apply IH. lia.
    + destruct Hr as [->|(r' & ->)]; [discriminate|].
      rewrite trim_end_app by (rewrite Er; discriminate).
      assert (Er' : trim_end (32%N :: r') = 32%N :: trim_end r').
      { change (32%N :: r') with ([32%N] ++ r'). apply trim_end_app. intros E. 
        change (32%N :: r') with ([32%N] ++ r') in Er. unfold trim_end in Er, E. rewrite rev_app_distr in Er. cbn in Er.
        apply (f_equal (@rev N)) in E. rewrite rev_involutive in E. cbn in E.
        assert (G : forall u v, trim_start u = [] -> trim_start (u ++ v) = trim_start v).
        { intros u v. induction u as [|e u IHu]; cbn; [reflexivity|]. destruct (is_ws e); [exact IHu|discriminate]. }
        rewrite G in Er by exact E. discriminate. }
      rewrite Er' in *. change (c :: w ++ 32%N :: trim_end r') with ((c :: w) ++ 32%N :: trim_end r').
      rewrite take_until_at.
      2:{ intros [E|E]; [congruence|exact (Hw E)]. }
      cbn [one_by_one]. destruct (key_from_str x (c :: w)) as [[|k]|e]; cbn [rbind]; [reflexivity| |reflexivity].
      rewrite skipn_app, skipn_all, Nat.sub_diag. cbn [app skipn].
      rewrite (deser_trim x fuel (32%N :: trim_end r') (32%N :: r')) by (now rewrite <- Er', trim_trim_end).
      apply IH. lia.
  - rewrite trim_blank_front by exact Ha. rewrite trim_solid_front by reflexivity. cbn [is_nil].
    assert (Er : trim_end (m ++ 41%N :: r) = m ++ 41%N :: trim_end r).
    { rewrite trim_end_app; [now rewrite trim_end_cons|]. rewrite trim_end_cons by reflexivity. discriminate. }
    rewrite Er. unfold next_tok. change (is_prefixb (U "(") (40%N :: m ++ 41%N :: trim_end r)) with true. cbn iota.
    change (40%N :: m ++ 41%N :: trim_end r) with ((40%N :: m) ++ 41%N :: trim_end r).
    rewrite take_incl_at.
    2:{ intros [E|E]; [discriminate|exact (Hm E)]. }
    cbn [one_by_one]. change ((40%N :: m) ++ [41%N]) with (40%N :: m ++ [41%N]).
    destruct (key_from_str x (40%N :: m ++ [41%N])) as [[|k]|e]; cbn [rbind]; [reflexivity| |reflexivity].
    replace ((40%N :: m) ++ 41%N :: trim_end r) with ((40%N :: m ++ [41%N]) ++ trim_end r)
      by (cbn; now rewrite <- app_assoc).
    rewrite skipn_app, skipn_all, Nat.sub_diag. cbn [app skipn].
    rewrite (deser_trim x fuel (trim_end r) r) by apply trim_trim_end. apply IH. lia.
  - rewrite trim_blank_front by exact Ha. rewrite trim_solid_front by reflexivity. cbn [is_nil].
    unfold next_tok. change (is_prefixb (U "(") (40%N :: trim_end m)) with true. cbn iota.
    rewrite take_incl_no; [reflexivity|]. intros [E|E]; [discriminate|]. now apply trim_end_in in E.
Qed.
Lemma splits_length s ts b : splits s ts b -> length ts <= length s.
Proof.
  induction 1; cbn; try lia; repeat (rewrite app_length; cbn); cbn in *; lia.
Qed.
Lemma deser_go s ts b : splits s ts b -> deserialize_seq x s = one_by_one ts b [].
Proof. intros H. apply (deser_splits s ts b H). apply splits_length in H. lia. Qed.
Lemma go_good ts ks : Forall2 (fun w k => key_from_str x w = Ok (PKey k)) ts ks ->
  forall r b cur, one_by_one (ts ++ r) b cur = one_by_one r b (cur ++ ks).
Proof.
  induction 1 as [|w k ts ks Hw H IH]; intros r b cur; cbn [app one_by_one]; [now rewrite app_nil_r|].
  rewrite Hw. cbn [rbind]. rewrite IH, <- app_assoc. reflexivity.
Qed.
End Go.
(** Every text splits into key texts, in one way as far as the parser is concerned. *)
Lemma span_in (c : N) (s : str) : In c s -> exists u v, s = u ++ c :: v /\ ~ In c u.
Proof.
  induction s as [|d s IH]; cbn; [tauto|]. intros H. destruct (N.eq_dec d c) as [->|Hn].
  - exists [], s. split; [reflexivity|tauto].
  - destruct H as [->|H]; [tauto|]. destruct (IH H) as (u & v & -> & Hu). exists (d :: u), v. split; [reflexivity|].
    intros [E|E]; tauto.
Qed.
Theorem C45_every_text_splits : forall s, exists ts b, splits s ts b.
Proof.
  intros s. remember (length s) as n eqn:En. revert s En. induction n as [n IH] using lt_wf_ind. intros s ->.
  destruct (trim_start_split s) as (a & Hs & Ha). destruct (trim_start s) as [|c r] eqn:E.
  - exists [], true. constructor. rewrite app_nil_r in Hs. now subst.
  - pose proof (trim_start_head _ _ _ E) as Hc.
    assert (Hl : length s = length a + S (length r)) by (rewrite Hs, app_length; reflexivity).
    destruct (N.eq_dec c 40) as [->|Hp].
    + destruct (in_dec N.eq_dec 41%N r) as [Hin|Hin].
      * apply span_in in Hin as (m & r' & -> & Hm). rewrite app_length in Hl. cbn in Hl.
        destruct (IH (length r') ltac:(lia) r' eq_refl) as (ts & b & Hr). rewrite Hs. eexists _, b.
        now apply sp_paren; [..|exact Hr].
      * rewrite Hs. exists [], false. now apply sp_open.
    + destruct (in_dec N.eq_dec 32%N r) as [Hin|Hin].
      * apply span_in in Hin as (w & r' & -> & Hw). rewrite app_length in Hl. cbn in Hl.
        destruct (IH (length (32%N :: r')) ltac:(cbn; lia) (32%N :: r') eq_refl) as (ts & b & Hr).
        rewrite Hs. exists ((c :: w) :: ts), b.
        apply (sp_word a c w (32%N :: r')); [assumption..|right; now exists r'|exact Hr].
      * rewrite Hs. exists [c :: r], true. rewrite <- (app_nil_r (c :: r)) at 1.
        apply sp_word; [assumption..|now left|]. constructor. constructor.
Qed.
(** A sequence is accepted exactly when all its key texts are, and then it is the list of these
    keys; the first wrong key text, or an unclosed parenthesis, makes the whole an error. *)
Theorem C45_sequence_exact : forall x s ts b, splits s ts b ->
  (forall ks, Forall2 (fun w k => key_from_str x w = Ok (PKey k)) ts ks ->
     deserialize_seq x s = Ok (if b then Some ks else None))
  /\ (forall good bad rest ks, ts = good ++ bad :: rest ->
        Forall2 (fun w k => key_from_str x w = Ok (PKey k)) good ks ->
        (key_from_str x bad = Ok PErr -> deserialize_seq x s = Ok None)
        /\ (forall e, key_from_str x bad = Panic e -> deserialize_seq x s = Panic e)).
Proof.
  intros x s ts b H. rewrite (deser_go x s ts b H). split.
  - intros ks Hk. rewrite <- (app_nil_r ts), (go_good x ts ks Hk). reflexivity.
  - intros good bad rest ks -> Hk. rewrite (go_good x good ks Hk). cbn [one_by_one]. split.
    + intros ->. reflexivity.
    + intros e ->. reflexivity.
Qed.
Lemma splits_eq s ts b s' ts' : splits s' ts' b -> s = s' -> ts = ts' -> splits s ts b.
Proof. now intros H -> ->. Qed.
Example C45_splits_case :
  splits (U " a (control b)c nosuchkey ") [U "a"; U "(control b)"; U "c"; U "nosuchkey"] true
  /\ deserialize_seq ascii_xkb (U " a (control b)c nosuchkey ") = Ok None
  /\ deserialize_seq ascii_xkb (U " a (control b)c ") = Ok (Some [mkKey 97 0; mkKey 98 M_CONTROL; mkKey 99 0])
  /\ deserialize_seq ascii_xkb (U "a (control b") = Ok None.
Proof.
  split; [|vm_compute; auto].
  refine (splits_eq _ _ _ ([32%N] ++ (97%N :: []) ++ 32%N :: U "(control b)c nosuchkey ") [97%N :: []; U "(control b)"; U "c"; U "nosuchkey"] _ _ _); [|vm_compute; reflexivity|vm_compute; reflexivity].
  constructor; [repeat constructor|reflexivity|discriminate|intros []|right; now eexists|].
  refine (splits_eq _ _ _ ([32%N] ++ 40%N :: U "control b" ++ 41%N :: U "c nosuchkey ") [40%N :: U "control b" ++ [41%N]; U "c"; U "nosuchkey"] _ _ _); [|vm_compute; reflexivity|vm_compute; reflexivity].
  constructor; [repeat constructor|intros Hin; vm_compute in Hin; intuition discriminate|].
  refine (splits_eq _ _ _ ([] ++ (99%N :: []) ++ 32%N :: U "nosuchkey ") [99%N :: []; U "nosuchkey"] _ _ _); [|vm_compute; reflexivity|vm_compute; reflexivity].
  constructor; [constructor|reflexivity|discriminate|intros []|right; now eexists|].
  refine (splits_eq _ _ _ ([32%N] ++ (110%N :: U "osuchkey") ++ [32%N]) [110%N :: U "osuchkey"] _ _ _); [|vm_compute; reflexivity|vm_compute; reflexivity].
  constructor; [repeat constructor|reflexivity|discriminate|intros Hin; vm_compute in Hin; intuition discriminate|right; now eexists|].
  constructor. repeat constructor.
Qed.

(* ------------------------------------------------------- the parenthesised form *)
Definition modifier_words : list (str * N) :=
  [(U "control", M_CONTROL); (U "meta", M_META); (U "alt", M_ALT);
   (U "lshift", N.lor M_L_SHIFT M_SHIFT); (U "rshift", N.lor M_R_SHIFT M_SHIFT); (U "shift", M_SHIFT)].
Definition names_modifier (w : str) (f : N) : Prop := In (w, f) modifier_words.
Fixpoint join_words (ws : list str) : str :=
  match ws with [] => [] | [w] => w | w :: r => w ++ U " " ++ join_words r end.
Definition paren_word (w : str) : Prop := no_nul w /\ ~ In 32%N w /\ ~ In 40%N w /\ ~ In 41%N w.
Lemma names_modifier_dec w : (exists f, names_modifier w f) \/ (forall f, ~ names_modifier w f).
Proof.
  unfold names_modifier. destruct (find (fun p => str_eqb w (fst p)) modifier_words) as [[w' f]|] eqn:E.
  - left. apply find_some in E as [H1 H2]. apply str_eqb_eq in H2. cbn in H2. subst w'. now exists f.
  - right. intros f Hin. pose proof (find_none _ _ E _ Hin) as H. cbn [fst] in H. now rewrite str_eqb_refl in H.
Qed.
(** One step of the word loop. *)
Lemma paren_modifier x w f r m sym : names_modifier w f ->
  exists m', paren_words x (w :: r) m sym = paren_words x r m' sym /\ forall b, N.testbit m' b = N.testbit m b || N.testbit f b.
Proof.
  unfold names_modifier, modifier_words. intros H. cbn [In] in H. cbn [paren_words].
  destruct H as [H|[H|[H|[H|[H|[H|[]]]]]]]; injection H as <- <-;
    (eexists; split; [reflexivity|]); intros b; rewrite <- ?N.lor_assoc, N.lor_spec; reflexivity.
Qed.
Lemma paren_other x w r m sym : (forall f, ~ names_modifier w f) -> no_nul w ->
  paren_words x (w :: r) m sym = paren_words x r m (xk_from_name x w).
Proof.
  unfold names_modifier, modifier_words. intros H Hn. cbn [paren_words].
  assert (E : forall v f, In (v, f) modifier_words -> str_eqb w v = false).
  { intros v f Hin. apply str_eqb_neq. intros ->. exact (H f Hin). }
  rewrite (E (U "control") M_CONTROL), (E (U "meta") M_META), (E (U "alt") M_ALT), (E (U "lshift") (N.lor M_L_SHIFT M_SHIFT)),
    (E (U "rshift") (N.lor M_R_SHIFT M_SHIFT)), (E (U "shift") M_SHIFT) by (unfold modifier_words; cbn [In]; tauto).
  rewrite keysym_no_nul by exact Hn. reflexivity.
Qed.
Definition all_modifiers (ws : list str) : Prop := forall w, In w ws -> exists f, names_modifier w f.
Lemma modifier_inj u a b : names_modifier u a -> names_modifier u b -> a = b.
Proof.
  assert (H : forallb (fun p => forallb (fun q => negb (str_eqb (fst p) (fst q)) || N.eqb (snd p) (snd q)) modifier_words) modifier_words = true)
    by (vm_compute; reflexivity).
  unfold names_modifier. intros Ha Hb. rewrite forallb_forall in H. specialize (H _ Ha). rewrite forallb_forall in H. specialize (H _ Hb).
  cbn [fst snd] in H. rewrite str_eqb_refl in H. now apply N.eqb_eq.
Qed.
Lemma paren_loop x ws : Forall paren_word ws -> forall m sym, exists m' sym', paren_words x ws m sym = Ok (m', sym')
  /\ (forall b, N.testbit m' b = true <-> N.testbit m b = true \/ exists w f, In w ws /\ names_modifier w f /\ N.testbit f b = true)
  /\ (forall pre w post, ws = pre ++ w :: post -> (forall f, ~ names_modifier w f) -> all_modifiers post -> sym' = xk_from_name x w)
  /\ (all_modifiers ws -> sym' = sym).
Proof.
  induction 1 as [|w ws Hw Hws IH]; intros m sym.
  - exists m, sym. split; [reflexivity|]. split; [|split; [|reflexivity]].
    + intros b. split; [tauto|]. intros [H|(w & f & [] & _)]. exact H.
    + intros [|] w post E; discriminate.
  - destruct (names_modifier_dec w) as [(f & Hf)|Hf].
    + destruct (paren_modifier x w f ws m sym Hf) as (m1 & E1 & Hm1). rewrite E1.
      destruct (IH m1 sym) as (m' & sym' & E & H1 & H2 & H3). exists m', sym'. split; [exact E|]. split; [|split].
      * intros b. rewrite H1, Hm1, orb_true_iff. split.
        -- intros [[H|H]|(v & g & Hv & Hg & Hb)]; [tauto|right; exists w, f; split; [now left|tauto]|right; exists v, g; split; [now right|tauto]].
        -- intros [H|(v & g & [->|Hv] & Hg & Hb)]; [tauto| |right; now exists v, g].
           left. right. replace f with g; [exact Hb|]. clear -Hg Hf.
           exact (modifier_inj v g f Hg Hf).
      * intros [|p pre] v post E' Hv Hp.
        -- cbn in E'. injection E' as -> _. now apply Hv in Hf.
        -- cbn in E'. injection E' as -> E'. exact (H2 pre v post E' Hv Hp).
      * intros Hall. apply H3. intros v Hv. apply Hall. now right.
    + destruct Hw as [Hn _]. rewrite (paren_other x w ws m sym Hf Hn).
      destruct (IH m (xk_from_name x w)) as (m' & sym' & E & H1 & H2 & H3). exists m', sym'. split; [exact E|]. split; [|split].
      * intros b. rewrite H1. split.
        -- intros [H|(v & g & Hv & Hg & Hb)]; [tauto|right; exists v, g; split; [now right|tauto]].
        -- intros [H|(v & g & [->|Hv] & Hg & Hb)]; [tauto|now apply Hf in Hg|right; now exists v, g].
      * intros [|p pre] v post E' Hv Hp.
        -- cbn in E'. injection E' as -> ->. now apply H3.
        -- cbn in E'. injection E' as -> E'. exact (H2 pre v post E' Hv Hp).
      * intros Hall. destruct (Hall w (or_introl eq_refl)) as (f & Hff). now apply Hf in Hff.
Qed.
Lemma split_join ws : ws <> [] -> Forall (fun w => ~ In 32%N w) ws -> split_on 32 (join_words ws) = ws.
Proof.
  intros Hne H. unfold split_on.
  assert (G1 : forall w acc r, ~ In 32%N w -> split_aux 32 acc (w ++ 32%N :: r) = (rev acc ++ w) :: split_aux 32 [] r).
  { induction w as [|c w IH]; intros acc r Hw; cbn [app split_aux].
    - now rewrite N.eqb_refl, app_nil_r.
    - destruct (N.eqb_spec c 32) as [->|]; [exfalso; apply Hw; now left|].
      rewrite IH by (intros H'; apply Hw; now right). cbn. now rewrite <- app_assoc. }
  assert (G2 : forall w acc, ~ In 32%N w -> split_aux 32 acc w = [rev acc ++ w]).
  { induction w as [|c w IH]; intros acc Hw; cbn [split_aux]; [now rewrite app_nil_r|].
    destruct (N.eqb_spec c 32) as [->|]; [exfalso; apply Hw; now left|].
    rewrite IH by (intros H'; apply Hw; now right). cbn. now rewrite <- app_assoc. }
  induction H as [|w ws Hw Hws IH]; [congruence|]. destruct ws as [|v ws].
  - cbn [join_words]. now rewrite G2.
  - change (join_words (w :: v :: ws)) with (w ++ 32%N :: join_words (v :: ws)). rewrite G1 by exact Hw.
    rewrite IH by discriminate. reflexivity.
Qed.
Lemma join_no c ws : c <> 32%N -> Forall (fun w => ~ In c w) ws -> ~ In c (join_words ws).
Proof.
  intros Hc. induction 1 as [|w ws Hw Hws IH]; [intros []|]. destruct ws as [|v ws]; [exact Hw|].
  change (join_words (w :: v :: ws)) with (w ++ 32%N :: join_words (v :: ws)). intros H.
  apply in_app_iff in H as [H|[H|H]]; [exact (Hw H)|congruence|exact (IH H)].
Qed.
Lemma tsm_no k s : ~ In k s -> trim_start_matches k s = s.
Proof. destruct s as [|c s]; [reflexivity|]. cbn. destruct (N.eqb_spec c k); [tauto|reflexivity]. Qed.
(** (word word ... word): modifier words set their modifiers, the last other word is the key. *)
Theorem C45_parenthesised : forall x ws, ws <> [] -> Forall paren_word ws ->
  exists m sym, key_from_str x (U "(" ++ join_words ws ++ U ")") = Ok (finish_parse m sym)
  /\ (forall b, N.testbit m b = true <-> exists w f, In w ws /\ names_modifier w f /\ N.testbit f b = true)
  /\ (forall pre w post, ws = pre ++ w :: post -> (forall f, ~ names_modifier w f) -> all_modifiers post -> sym = xk_from_name x w)
  /\ (all_modifiers ws -> finish_parse m sym = PErr).
Proof.
  intros x ws Hne H. destruct (paren_loop x ws H 0 KEY_VoidSymbol) as (m & sym & E & H1 & H2 & H3).
  exists m, sym. split; [|split; [|split; [exact H2|]]].
  - change (U "(") with [40%N]. change (U ")") with [41%N]. unfold key_from_str. cbv zeta.
    assert (H40 : ~ In 40%N (join_words ws)).
    { apply join_no; [discriminate|]. eapply Forall_impl; [|exact H]. intros w Hw. apply Hw. }
    assert (H41 : ~ In 41%N (join_words ws)).
    { apply join_no; [discriminate|]. eapply Forall_impl; [|exact H]. intros w Hw. apply Hw. }
    assert (Et : trim ([40%N] ++ join_words ws ++ [41%N]) = 40%N :: join_words ws ++ [41%N]).
    { cbn [app]. rewrite trim_solid_front by reflexivity. f_equal. apply trim_end_last; [repeat constructor|discriminate]. }
    rewrite Et.
    replace (is_prefixb (U "(") (40%N :: join_words ws ++ [41%N]) && is_suffixb (U ")") (40%N :: join_words ws ++ [41%N])) with true.
    2:{ symmetry. apply andb_true_iff. split; [reflexivity|]. apply is_suffixb_spec. exists (40%N :: join_words ws). reflexivity. }
    assert (Ei : trim_end_matches 41 (trim_start_matches 40 (40%N :: join_words ws ++ [41%N])) = join_words ws).
    { cbn [trim_start_matches]. rewrite N.eqb_refl. rewrite tsm_no.
      2:{ intros Hin. apply in_app_iff in Hin as [Hin|[Hin|[]]]; [exact (H40 Hin)|discriminate]. }
      unfold trim_end_matches. rewrite rev_app_distr. cbn [rev app trim_start_matches]. rewrite N.eqb_refl.
      rewrite tsm_no; [apply rev_involutive|]. intros Hin. apply in_rev in Hin. exact (H41 Hin). }
    rewrite Ei, split_join, E; [reflexivity|exact Hne|]. eapply Forall_impl; [|exact H]. intros w Hw. apply Hw.
  - intros b. rewrite H1, N.bits_0. split; [intros [Hb|Hb]; [discriminate|exact Hb]|tauto].
  - intros Hall. rewrite (H3 Hall). reflexivity.
Qed.
Example C45_parenthesised_case :
  Forall paren_word [U "lshift"; U "control"; U "a"]
  /\ key_from_str ascii_xkb (U "(lshift control a)") = Ok (PKey (mkKey 97 (N.lor M_CONTROL (N.lor M_L_SHIFT M_SHIFT)))).
Proof.
  split; [|vm_compute; reflexivity].
  repeat constructor; intros Hin; vm_compute in Hin; intuition discriminate.
Qed.
