(** C44: kana form conversion. *)
From Verif Require Import Str Keys Modes FormChanger DefaultRule Demo.

(** Left to right, the longest key at each position; characters no key starts with are copied. *)
Inductive converts (m : list (str * str)) : str -> str -> Prop :=
| conv_nil : converts m [] []
| conv_key k r s out : k <> [] -> In (k, r) m ->
    (forall k' r' rest, In (k', r') m -> k ++ s = k' ++ rest -> length k' <= length k) ->
    converts m s out -> converts m (k ++ s) (r ++ out)
| conv_char c s out :
    (forall k' r' rest, In (k', r') m -> k' <> [] -> c :: s <> k' ++ rest) ->
    converts m s out -> converts m (c :: s) (c :: out).
Definition table (kf : kana_form) (i : imode) : list (str * str) :=
  match i with Katakana => kf_katakana kf | HankakuKatakana => kf_jisx0201 kf | _ => [] end.

Lemma assoc_in {A} k (m : list (str * A)) r : assoc_str k m = Some r -> In (k, r) m.
Proof.
  induction m as [|[k' v] m IH]; cbn; [discriminate|]. destruct (str_eqb_spec k k') as [->|].
  - intros [= ->]. now left.
  - intros H. right. auto.
Qed.
Lemma assoc_none {A} k (m : list (str * A)) : assoc_str k m = None -> forall r, ~ In (k, r) m.
Proof.
  induction m as [|[k' v] m IH]; cbn; [auto|]. destruct (str_eqb_spec k k') as [->|Hn]; [discriminate|].
  intros H r [[= -> _]|Hin]; [congruence|]. eapply IH; eauto.
Qed.
Lemma maxlen_bound m k r : In (k, r) m -> length k <= key_maxlen m.
Proof.
  unfold key_maxlen. induction m as [|[k' v] m IH]; cbn; [easy|]. intros [[= -> ->]|H]; [lia|]. specialize (IH H). lia.
Qed.
Lemma longest_some m s : s <> [] -> forall i n r, longest_key m i s = Some (n, r) ->
  In (firstn n s, r) m /\ firstn n s <> [] /\
  (forall k' r' rest, In (k', r') m -> s = k' ++ rest -> length k' <= i -> length k' <= length (firstn n s)).
Proof.
  intros Hs. induction i as [|i IH]; intros n r H; cbn [longest_key] in H; [discriminate|].
  destruct (assoc_str (firstn (S i) s) m) as [r0|] eqn:E.
  - injection H as <- <-. split; [apply assoc_in, E|]. split; [destruct s; [congruence|discriminate]|].
    intros k' r' rest Hin Es Hl. pose proof (f_equal (firstn (S i)) Es) as F. rewrite firstn_app in F.
    rewrite (firstn_all2 k') in F by lia. rewrite F, app_length. lia.
  - destruct (IH n r H) as (H1 & H2 & H3). split; [exact H1|]. split; [exact H2|].
    intros k' r' rest Hin Es Hl. apply Nat.le_succ_r in Hl as [Hl|Hl]; [eapply H3; eauto|].
    exfalso. eapply assoc_none; [exact E|]. instantiate (1 := r').
    rewrite Es, firstn_app, <- Hl, firstn_all, Nat.sub_diag. cbn. rewrite app_nil_r. exact Hin.
Qed.
Lemma longest_none m s : forall i, longest_key m i s = None ->
  forall k' r' rest, In (k', r') m -> k' <> [] -> length k' <= i -> s <> k' ++ rest.
Proof.
  induction i as [|i IH]; intros H k' r' rest Hin Hne Hl Es.
  - destruct k'; [congruence|cbn in Hl; lia].
  - cbn [longest_key] in H. destruct (assoc_str (firstn (S i) s) m) as [r0|] eqn:E; [discriminate|].
    apply Nat.le_succ_r in Hl as [Hl|Hl]; [eapply IH; eauto|].
    eapply assoc_none; [exact E|]. instantiate (1 := r').
    rewrite Es, firstn_app, <- Hl, firstn_all, Nat.sub_diag. cbn. rewrite app_nil_r. exact Hin.
Qed.
Lemma adjust_converts m : forall f s, length s <= f -> converts m s (adjust_recur m (key_maxlen m) f s).
Proof.
  induction f as [|f IH]; intros s Hl.
  - destruct s; [constructor|cbn in Hl; lia].
  - destruct s as [|c s]; [constructor|]. cbn [adjust_recur].
    destruct (longest_key m (key_maxlen m) (c :: s)) as [[n r]|] eqn:E.
    + destruct (longest_some m (c :: s) ltac:(discriminate) _ _ _ E) as (H1 & H2 & H3).
      rewrite <- (firstn_skipn n (c :: s)) at 1. apply conv_key; auto.
      * intros k' r' rest Hin Es. rewrite firstn_skipn in Es. eapply H3; eauto. eapply maxlen_bound; eauto.
      * apply IH. rewrite skipn_length. destruct n; [cbn in H2; congruence|]. cbn in *. lia.
    + apply conv_char.
      * intros k' r' rest Hin Hne. eapply longest_none; eauto. eapply maxlen_bound; eauto.
      * apply IH. cbn in Hl. lia.
Qed.
Theorem C44_longest_match : forall kf i s, i = Katakana \/ i = HankakuKatakana ->
  converts (table kf i) s (adjust_kana_string kf i s).
Proof. intros kf i s [->| ->]; apply adjust_converts; lia. Qed.
(** The specification leaves no choice, for tables with distinct keys. *)
Theorem C44_deterministic : forall m s out, NoDup (map fst m) -> converts m s out ->
  forall out', converts m s out' -> out = out'.
Proof.
  intros m s out Hd H. induction H as [|k r s out Hk Hin Hmax H IH|c s out Hn H IH]; intros out' H'.
  - inversion H' as [|k' r' s' o' Hk' Hin' _ _ E1|]; [reflexivity|]. destruct k'; [congruence|discriminate].
  - inversion H' as [E|k' r' s' o' Hk' Hin' Hmax' H2 E1|c' s' o' Hn' H2 E1]; subst.
    + symmetry in E. apply app_eq_nil in E as [E _]. congruence.
    + assert (L : length k = length k').
      { apply Nat.le_antisymm; [eapply Hmax'|eapply Hmax]; eauto. }
      assert (Ek : k' = k /\ s' = s).
      { revert E1 L. clear. revert k'. induction k as [|x k IHk]; intros [|y k'] E L; cbn in *; try lia; [auto|].
        injection E as -> E. destruct (IHk k' E) as [-> ->]; [lia|]. auto. }
      destruct Ek as [-> ->]. f_equal; [|apply IH; assumption].
      clear - Hd Hin Hin'. induction m as [|[a b] m IHm]; cbn in *; [easy|]. inversion Hd; subst.
      destruct Hin as [E|Hin], Hin' as [E'|Hin']; auto.
      * congruence.
      * exfalso. injection E as -> ->. apply H1. apply (in_map fst) in Hin'. exact Hin'.
      * exfalso. injection E' as -> ->. apply H1. apply (in_map fst) in Hin. exact Hin.
    + exfalso. eapply Hn'; [exact Hin|exact Hk|]. exact E1.
  - inversion H' as [|k' r' s' o' Hk' Hin' Hmax' H2 E1|c' s' o' Hn' H2]; subst.
    + exfalso. eapply Hn; [exact Hin'|exact Hk'|]. symmetry. exact E1.
    + f_equal. now apply IH.
Qed.
(** The other input modes do not change the text. *)
Theorem C44_other_modes : forall kf i s, i = Hiragana \/ i = Zenkaku \/ i = Ascii -> adjust_kana_string kf i s = s.
Proof. intros kf i s [->|[->| ->]]; reflexivity. Qed.
Example C44_case : adjust_kana_string default_kana_form Katakana (U "かゔx") = U "カヴx"
  /\ adjust_kana_string default_kana_form HankakuKatakana (U "がa") = U "ｶﾞa".
Proof. split; vm_compute; reflexivity. Qed.
