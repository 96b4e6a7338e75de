(** Property C33: writing a dictionary entry as a line and parsing it back. *)
From Coq Require Import Sorting.Sorted.
From Verif Require Import Str Keys Modes FormChanger DictTypes Parser T_Escape T_ExactEscape.

(** * Specification: entries the format can carry *)
Definition okuri_char (c : N) : Prop := (12353 <= c < 12438)%N.
Definition savable_kouho (s : str) : Prop :=
  s <> [] /\ carried s /\ ~ In 91%N s /\ ~ In 93%N s.
Definition savable_annotation (s : str) : Prop := s <> [] /\ carried s.
Definition savable_candidate (d : dcand) : Prop :=
  savable_kouho (dc_kouho d) /\ match dc_annot d with Some a => savable_annotation a | None => True end.
Definition savable_midashi (m : str) : Prop :=
  m <> [] /\ ~ In 32%N m /\ ~ In 47%N m /\ ~ In 59%N m.
(** A candidate that, printed just before a strict-okurigana block, is read as its okurigana. *)
Definition looks_like_okuri (d : dcand) : Prop :=
  dc_annot d = None /\ Forall okuri_char (dc_kouho d).
Record savable_lists (m : bmap (list dcand)) : Prop := {
  sv_sorted : StronglySorted str_lt (map fst m);
  sv_nonempty : m <> [];
  sv_lists : forall o l, In (o, l) m ->
    l <> [] /\ Forall savable_candidate l /\ (o = [] \/ Forall okuri_char o);
  sv_unambiguous : forall l d rest, m = ([], l ++ [d]) :: rest -> rest <> [] -> ~ looks_like_okuri d;
}.
Definition savable (e : entry) : Prop := savable_midashi (e_midashi e) /\ savable_lists (e_map e).

(** A midashi with an okurigana letter: its last character is one of a to z, its first is not. *)
Definition letter (c : N) : Prop := (97 <= c <= 122)%N.
Definition okuri_midashi (m : str) : Prop :=
  (exists a c, m = a ++ [c] /\ letter c) /\ ~ (exists c b, m = c :: b /\ letter c).
Lemma is_lower_spec c : is_lower_ascii c = true <-> letter c.
Proof. unfold is_lower_ascii, letter. rewrite andb_true_iff, !N.leb_le. reflexivity. Qed.
Lemma okuri_midashi_spec m : looks_okuri_ari m = true <-> okuri_midashi m.
Proof.
  unfold looks_okuri_ari, okuri_midashi. rewrite andb_true_iff, negb_true_iff. split.
  - intros (H1 & H2). split.
    + destruct (rev m) as [|c t] eqn:E; [discriminate|]. exists (rev t), c.
      split; [rewrite <- (rev_involutive m), E; reflexivity|now apply is_lower_spec].
    + intros (c & b & -> & H). apply is_lower_spec in H. congruence.
  - intros ((a & c & -> & H) & N). split.
    + destruct (a ++ [c]) as [|x t]; [reflexivity|]. destruct (is_lower_ascii x) eqn:E; [|reflexivity].
      exfalso. apply N. exists x, t. split; [reflexivity|now apply is_lower_spec].
    + rewrite rev_app_distr. cbn [rev app]. now apply is_lower_spec.
Qed.
(** The mark of an entry read from a line. *)
Lemma parsed_mark ln e : from_skkjisyo_line ln = Some e -> (e_okuri e = true <-> okuri_midashi (e_midashi e)).
Proof.
  unfold from_skkjisyo_line. destruct (p_entry ln) as [[q r]|]; [|discriminate].
  intros [= <-]. unfold entry_of_proto. cbn [e_okuri e_midashi]. apply okuri_midashi_spec.
Qed.

(** * Combinators *)
Lemma span_stop f a c r : Forall (fun x => f x = true) a -> f c = false -> span f (a ++ c :: r) = (a, c :: r).
Proof.
  intros H Hc. induction H as [|x a Hx H IH]; cbn; [now rewrite Hc|]. now rewrite Hx, IH.
Qed.
Lemma while1_stop f a c r : Forall (fun x => f x = true) a -> a <> [] -> f c = false ->
  p_while1 f (a ++ c :: r) = Some (a, c :: r).
Proof. intros H Hn Hc. unfold p_while1. rewrite span_stop by assumption. destruct a; [congruence|reflexivity]. Qed.
Lemma till1_stop f a c r : Forall (fun x => f x = false) a -> a <> [] -> f c = true ->
  p_till1 f (a ++ c :: r) = Some (a, c :: r).
Proof.
  intros H Hn Hc. apply while1_stop; [|exact Hn|now rewrite Hc].
  eapply Forall_impl; [|exact H]. cbn. intros x ->. reflexivity.
Qed.
Lemma while1_fail f c r : f c = false -> p_while1 f (c :: r) = None.
Proof. intros H. unfold p_while1. cbn. now rewrite H. Qed.
Lemma p_char_ok c r : p_char c (c :: r) = Some (c, r).
Proof. unfold p_char. now rewrite N.eqb_refl. Qed.
Lemma p_char_no c x r : x <> c -> p_char c (x :: r) = None.
Proof. intros H. unfold p_char. apply N.eqb_neq in H. now rewrite H. Qed.

Section Perm2.
  Context {A B : Type} (pa : parser A) (pb : parser B).
  Lemma perm2_seq s a r b t : pa s = Some (a, r) -> pb r = Some (b, t) -> perm2 pa pb s = Some ((a, b), t).
  Proof. intros H1 H2. unfold perm2. cbn. rewrite H1. rewrite H2. reflexivity. Qed.
  Lemma perm2_none s : pa s = None -> pb s = None -> perm2 pa pb s = None.
  Proof. intros H1 H2. unfold perm2. cbn. now rewrite H1, H2. Qed.
  Lemma perm2_first_only s a r : pa s = Some (a, r) -> pb r = None -> perm2 pa pb s = None.
  Proof. intros H1 H2. unfold perm2. cbn. rewrite H1. rewrite H2. reflexivity. Qed.
End Perm2.
Section Perm5.
  Context {A B C D E : Type} (pa : parser A) (pb : parser B) (pc : parser C) (pd : parser D) (pe : parser E).
  Notation skip x p s := (match x with None => p s | Some _ => None end).
  Notation loop := (perm5_loop pa pb pc pd pe).
  Lemma p5_a f b c d e s x r : pa s = Some (x, r) -> loop (S f) None b c d e s = loop f (Some x) b c d e r.
  Proof. intros H. cbn [perm5_loop]. now rewrite H. Qed.
  Lemma p5_b f a c d e s x r : skip a pa s = None -> pb s = Some (x, r) ->
    loop (S f) a None c d e s = loop f a (Some x) c d e r.
  Proof. intros H1 H2. cbn [perm5_loop]. now rewrite H1, H2. Qed.
  Lemma p5_c f a b d e s x r : skip a pa s = None -> skip b pb s = None -> pc s = Some (x, r) ->
    loop (S f) a b None d e s = loop f a b (Some x) d e r.
  Proof. intros H1 H2 H3. cbn [perm5_loop]. now rewrite H1, H2, H3. Qed.
  Lemma p5_d f a b c e s x r : skip a pa s = None -> skip b pb s = None -> skip c pc s = None ->
    pd s = Some (x, r) -> loop (S f) a b c None e s = loop f a b c (Some x) e r.
  Proof. intros H1 H2 H3 H4. cbn [perm5_loop]. now rewrite H1, H2, H3, H4. Qed.
  Lemma p5_e f a b c d s x r : skip a pa s = None -> skip b pb s = None -> skip c pc s = None ->
    skip d pd s = None -> pe s = Some (x, r) -> loop (S f) a b c d None s = loop f a b c d (Some x) r.
  Proof. intros H1 H2 H3 H4 H5. cbn [perm5_loop]. now rewrite H1, H2, H3, H4, H5. Qed.
  Lemma p5_end f a b c d e s : skip a pa s = None -> skip b pb s = None -> skip c pc s = None ->
    skip d pd s = None -> skip e pe s = None ->
    loop (S f) a b c d e s = match a, b, c, d, e with
      | Some x, Some y, Some z, Some w, Some v => Some ((x, y, z, w, v), s)
      | _, _, _, _, _ => None
      end.
  Proof. intros H1 H2 H3 H4 H5. cbn [perm5_loop]. now rewrite H1, H2, H3, H4, H5. Qed.
End Perm5.
Lemma many0_exact {A} (p : parser A) (tok : A -> str) (ok : A -> Prop) T :
  (forall a r, ok a -> p (tok a ++ r) = Some (a, r)) -> p T = None ->
  forall l fuel, Forall ok l -> length l <= fuel -> many0_fuel p fuel (flat_map tok l ++ T) = (l, T).
Proof.
  intros Hp HT. induction l as [|a l IH]; intros fuel Hl Hf; cbn [flat_map app].
  - destruct fuel; cbn; [reflexivity|]. now rewrite HT.
  - destruct fuel as [|fuel]; [cbn in Hf; lia|]. cbn [many0_fuel]. rewrite <- app_assoc.
    rewrite Hp by now apply Forall_inv in Hl. rewrite IH; [reflexivity|now apply Forall_inv_tail in Hl|cbn in Hf; lia].
Qed.
Lemma many1_exact {A} (p : parser A) (tok : A -> str) (ok : A -> Prop) T l :
  (forall a r, ok a -> p (tok a ++ r) = Some (a, r)) -> p T = None -> (forall a, ok a -> tok a <> []) ->
  Forall ok l -> l <> [] -> many1 p (flat_map tok l ++ T) = Some (l, T).
Proof.
  intros Hp HT Hne Hl Hn. destruct l as [|a l]; [congruence|]. unfold many1. cbn [flat_map]. rewrite <- app_assoc.
  rewrite Hp by now apply Forall_inv in Hl. apply Forall_inv_tail in Hl.
  rewrite (many0_exact p tok ok T Hp HT l); [reflexivity|exact Hl|].
  rewrite app_length. clear - Hne Hl. induction Hl as [|x l Hx Hl IH]; cbn; [lia|].
  rewrite app_length. pose proof (Hne x Hx). destruct (tok x); [congruence|]. cbn. lia.
Qed.

(** * Candidates *)
Definition plain_kouho (k : str) : Prop := k <> [] /\ Forall (fun c => kouho_illegal c = false) k.
Definition plain_annot (a : str) : Prop := a <> [] /\ Forall (fun c => annot_illegal c = false) a.
Definition plain_proto (p : proto) : Prop :=
  plain_kouho (fst p) /\ match snd p with Some a => plain_annot a | None => True end.
Definition body (p : proto) : str := fst p ++ match snd p with Some a => 59%N :: a | None => [] end.
Definition tok (p : proto) : str := body p ++ [47%N].
Lemma kouho_illegal_47 : kouho_illegal 47 = true. Proof. reflexivity. Qed.
Lemma kouho_illegal_59 : kouho_illegal 59 = true. Proof. reflexivity. Qed.
Lemma no_strict_body p r : plain_proto p -> p_no_strict (body p ++ 47%N :: r) = Some (p, 47%N :: r).
Proof.
  destruct p as [k a]. intros ((Hk & Hkf) & Ha). unfold body, p_no_strict. cbn [fst snd] in *.
  destruct a as [a|].
  - destruct Ha as (Ha & Haf). rewrite <- app_assoc. cbn [app].
    rewrite (till1_stop kouho_illegal k 59); [|assumption|assumption|reflexivity].
    unfold p_opt. rewrite (perm2_seq _ _ _ 59%N (a ++ 47%N :: r) a (47%N :: r)); [reflexivity| |].
    + apply p_char_ok.
    + apply till1_stop; auto.
  - rewrite app_nil_r. rewrite (till1_stop kouho_illegal k 47); [|assumption|assumption|reflexivity].
    unfold p_opt. rewrite perm2_none; [reflexivity| |].
    + apply p_char_no. discriminate.
    + unfold p_till1. now rewrite while1_fail.
Qed.
Definition p_item : parser proto := p_map (perm2 p_no_strict (p_char 47)) fst.
Lemma item_tok p r : plain_proto p -> p_item (tok p ++ r) = Some (p, r).
Proof.
  intros H. unfold p_item, p_map, tok. rewrite <- app_assoc. cbn [app].
  rewrite (perm2_seq _ _ _ p (47%N :: r) 47%N r); [reflexivity|now apply no_strict_body|apply p_char_ok].
Qed.
Definition stops (T : str) : Prop := match T with [] => True | c :: _ => c = 91%N \/ c = 93%N end.
Lemma no_strict_stops T : stops T -> p_no_strict T = None.
Proof.
  destruct T as [|c T]; [reflexivity|]. intros [-> | ->]; unfold p_no_strict, p_till1; now rewrite while1_fail.
Qed.
Lemma item_stops T : stops T -> p_item T = None.
Proof.
  intros H. unfold p_item, p_map. rewrite perm2_none; [reflexivity|now apply no_strict_stops|].
  destruct T as [|c T]; [reflexivity|]. apply p_char_no. destruct H as [-> | ->]; discriminate.
Qed.
Lemma tok_nonempty p : tok p <> [].
Proof. unfold tok. destruct (body p); discriminate. Qed.
Lemma items l T : Forall plain_proto l -> l <> [] -> stops T -> many1 p_item (flat_map tok l ++ T) = Some (l, T).
Proof.
  intros H Hn HT. apply (many1_exact p_item tok plain_proto); auto using item_tok, item_stops, tok_nonempty.
Qed.

(** * Strict blocks *)
Definition sblock (b : str * list proto) : str :=
  91%N :: fst b ++ 47%N :: flat_map tok (snd b) ++ [93%N; 47%N].
Definition okuri_text (o : str) : Prop := o <> [] /\ Forall okuri_char o.
Lemma okuri_char_b c : okuri_char c <-> is_okuri_kana c = true.
Proof. unfold okuri_char, is_okuri_kana. rewrite andb_true_iff, N.leb_le, N.ltb_lt. reflexivity. Qed.
Definition good_block (b : str * list proto) : Prop :=
  okuri_text (fst b) /\ snd b <> [] /\ Forall plain_proto (snd b).
Definition p5 := perm5 (p_char 91) (p_while1 is_okuri_kana) (p_char 47) (many1 p_item) (p_char 93).
Lemma p_strict_p5 s : p_strict s = match p5 s with Some ((_, o, _, l, _), r) => Some ((o, l), r) | None => None end.
Proof. unfold p_strict, p5, p_map, p_item, p_map. destruct (perm5 _ _ _ _ _ s) as [[[[[[? ?] ?] ?] ?] ?]|]; reflexivity. Qed.
Lemma okuri_span o r : okuri_text o -> p_while1 is_okuri_kana (o ++ 47%N :: r) = Some (o, 47%N :: r).
Proof.
  intros (Hn & Ho). apply while1_stop; [|exact Hn|reflexivity].
  eapply Forall_impl; [|exact Ho]. intros c. apply okuri_char_b.
Qed.
Lemma strict_block b r : good_block b -> p_strict (sblock b ++ r) = Some (b, 47%N :: r).
Proof.
  destruct b as [o l]. intros (Ho & Hl & Hp). rewrite p_strict_p5. unfold sblock, p5, perm5. cbn [fst snd app] in *.
  rewrite <- app_assoc. cbn [app]. rewrite <- app_assoc. cbn [app].
  rewrite (p5_a _ _ _ _ _ _ _ _ _ _ _ 91%N (o ++ 47%N :: flat_map tok l ++ 93%N :: 47%N :: r)) by apply p_char_ok.
  rewrite (p5_b _ _ _ _ _ _ _ _ _ _ _ o (47%N :: flat_map tok l ++ 93%N :: 47%N :: r)); [|reflexivity|now apply okuri_span].
  rewrite (p5_c _ _ _ _ _ _ _ _ _ _ _ 47%N (flat_map tok l ++ 93%N :: 47%N :: r)); [|reflexivity|reflexivity|apply p_char_ok].
  rewrite (p5_d _ _ _ _ _ _ _ _ _ _ _ l (93%N :: 47%N :: r)); [|reflexivity|reflexivity|reflexivity|].
  2:{ apply items; auto. cbn. auto. }
  rewrite (p5_e _ _ _ _ _ _ _ _ _ _ _ 93%N (47%N :: r)); [|reflexivity|reflexivity|reflexivity|reflexivity|apply p_char_ok].
  rewrite p5_end; reflexivity.
Qed.
(** * Plain candidates are not read as strict blocks *)
Definition tail_ok (T : str) : Prop :=
  T = [] \/ exists o c r, T = 91%N :: o ++ 47%N :: c :: r /\ okuri_text o /\ c <> 93%N.
Definition kana_only (p : proto) : Prop := snd p = None /\ Forall okuri_char (fst p).
Lemma tail_stops T : tail_ok T -> stops T.
Proof. intros [-> |(o & c & r & -> & _)]; cbn; auto. Qed.
Lemma okuri_not x : okuri_char x -> x <> 47%N /\ x <> 91%N /\ x <> 93%N.
Proof. unfold okuri_char. intros H. repeat split; intros ->; lia. Qed.
Lemma legal_not x : kouho_illegal x = false -> x <> 47%N /\ x <> 59%N /\ x <> 91%N /\ x <> 93%N.
Proof. intros H. repeat split; intros ->; discriminate. Qed.
Lemma span_split (f : N -> bool) s : exists u v, s = u ++ v /\ Forall (fun c => f c = true) u
  /\ match v with c :: _ => f c = false | [] => True end.
Proof.
  induction s as [|c s IH]; [exists [], []; repeat split; constructor|].
  destruct (f c) eqn:E; [|exists [], (c :: s); repeat split; auto].
  destruct IH as (u & v & -> & Hu & Hv). exists (c :: u), v. repeat split; auto.
Qed.
Lemma item_illegal c r : c <> 47%N -> kouho_illegal c = true -> p_item (c :: r) = None.
Proof.
  intros H1 H2. unfold p_item, p_map. rewrite perm2_none; [reflexivity| |now apply p_char_no].
  unfold p_no_strict, p_till1. rewrite while1_fail; [reflexivity|]. now rewrite H2.
Qed.
Lemma many1_fail {A} (p : parser A) s : p s = None -> many1 p s = None.
Proof. intros H. unfold many1. now rewrite H. Qed.
(** After the candidates were swallowed, the tail cannot complete a strict block. *)
Notation loop5 := (perm5_loop (p_char 91) (p_while1 is_okuri_kana) (p_char 47) (many1 p_item) (p_char 93)).
Lemma strict_tail_b f b c l T : tail_ok T ->
  loop5 (2 + f) None (Some b) c (Some l) None T = None.
Proof.
  intros [-> |(o & ch & r & -> & (Ho & Hok) & Hc)]; cbn [Nat.add].
  - rewrite p5_end; [reflexivity|reflexivity|reflexivity|destruct c; reflexivity|reflexivity|reflexivity].
  - destruct o as [|o1 o]; [congruence|].
    pose proof (okuri_not o1 (Forall_inv Hok)) as (N1 & N2 & N3).
    rewrite (p5_a _ _ _ _ _ _ _ _ _ _ _ 91%N ((o1 :: o) ++ 47%N :: ch :: r)) by apply p_char_ok.
    cbn [app]. rewrite p5_end; [destruct c; reflexivity|reflexivity|reflexivity| |reflexivity|now apply p_char_no].
    destruct c; [reflexivity|now apply p_char_no].
Qed.
Lemma strict_tail f l T : tail_ok T ->
  loop5 (4 + f) None None None (Some l) None T = None.
Proof.
  intros [-> |(o & ch & r & -> & (Ho & Hok) & Hc)]; cbn [Nat.add].
  - rewrite p5_end; reflexivity.
  - rewrite (p5_a _ _ _ _ _ _ _ _ _ _ _ 91%N (o ++ 47%N :: ch :: r)) by apply p_char_ok.
    rewrite (p5_b _ _ _ _ _ _ _ _ _ _ _ o (47%N :: ch :: r)); [|reflexivity|apply okuri_span; now split].
    rewrite (p5_c _ _ _ _ _ _ _ _ _ _ _ 47%N (ch :: r)); [|reflexivity|reflexivity|apply p_char_ok].
    rewrite p5_end; [reflexivity|reflexivity|reflexivity|reflexivity|reflexivity|now apply p_char_no].
Qed.
Ltac via f E := apply (eq_trans (f_equal f E)).
Lemma strict_fails p l T : Forall plain_proto (p :: l) -> tail_ok T ->
  (T <> [] -> l = [] -> ~ kana_only p) -> p_strict (flat_map tok (p :: l) ++ T) = None.
Proof.
  intros Hp HT Hamb. rewrite p_strict_p5. replace (p5 (flat_map tok (p :: l) ++ T)) with (@None ((N * str * N * list proto * N) * str)); [reflexivity|].
  symmetry. unfold p5, perm5. pose proof (tail_stops T HT) as HS.
  pose proof (Forall_inv Hp) as ((Hk & Hkf) & Ha). pose proof (Forall_inv_tail Hp) as Hl.
  destruct p as [k an]. cbn [fst snd] in *.
  destruct (span_split is_okuri_kana k) as (u & v & -> & Hu & Hv).
  destruct u as [|u1 u].
  - (* does not start with kana *)
    cbn [app] in *. destruct v as [|x v]; [congruence|].
    pose proof (legal_not x (Forall_inv Hkf)) as (N1 & N2 & N3 & N4).
    assert (Es : exists r, flat_map tok (@cons proto (x :: v, an) l) ++ T = x :: r) by (eexists; reflexivity).
    destruct Es as (r & Es).
    rewrite (p5_d _ _ _ _ _ _ _ _ _ _ _ (@cons proto (x :: v, an) l) T).
    + apply strict_tail; auto.
    + via (p_char 91) Es. now apply p_char_no.
    + via (p_while1 is_okuri_kana) Es. now apply while1_fail.
    + via (p_char 47) Es. now apply p_char_no.
    + apply items; [exact Hp|discriminate|exact HS].
  - (* starts with kana *)
    assert (Hu1 : okuri_char u1) by (apply okuri_char_b; exact (Forall_inv Hu)).
    pose proof (okuri_not u1 Hu1) as (N1 & N2 & N3).
    destruct v as [|y v].
    + rewrite app_nil_r in *. destruct an as [a|].
      * match goal with |- perm5_loop _ _ _ _ _ _ _ _ _ _ _ ?s = _ => assert (Es : s = (u1 :: u) ++ 59%N :: (a ++ [47%N]) ++ flat_map tok l ++ T) end.
        { cbn [flat_map]. unfold tok, body. cbn [fst snd]. rewrite <- !app_assoc. reflexivity. }
        rewrite Es.
        rewrite (p5_b _ _ _ _ _ _ _ _ _ _ _ (u1 :: u) (59%N :: (a ++ [47%N]) ++ flat_map tok l ++ T)).
        -- rewrite p5_end; [reflexivity|now apply p_char_no|reflexivity|now apply p_char_no| |now apply p_char_no].
           apply many1_fail, item_illegal; [discriminate|reflexivity].
        -- now apply p_char_no.
        -- apply while1_stop; [exact Hu|discriminate|reflexivity].
      * match goal with |- perm5_loop _ _ _ _ _ _ _ _ _ _ _ ?s = _ => assert (Es : s = (u1 :: u) ++ 47%N :: flat_map tok l ++ T) end.
        { cbn [flat_map]. unfold tok, body. cbn [fst snd]. rewrite <- !app_assoc. reflexivity. }
        rewrite Es.
        rewrite (p5_b _ _ _ _ _ _ _ _ _ _ _ (u1 :: u) (47%N :: flat_map tok l ++ T));
          [|now apply p_char_no|apply while1_stop; [exact Hu|discriminate|reflexivity]].
        rewrite (p5_c _ _ _ _ _ _ _ _ _ _ _ 47%N (flat_map tok l ++ T)); [|now apply p_char_no|reflexivity|apply p_char_ok].
        destruct l as [|q l].
        -- cbn [flat_map app]. destruct T as [|t T].
           ++ rewrite p5_end; reflexivity.
           ++ exfalso. apply Hamb; [discriminate|reflexivity|]. split; [reflexivity|]. cbn [fst].
              eapply Forall_impl; [|exact Hu]. intros c. apply okuri_char_b.
        -- pose proof (Forall_inv Hl) as ((Hk' & Hkf') & _). destruct q as [[|x k'] an']; cbn [fst] in *; [congruence|].
           pose proof (legal_not x (Forall_inv Hkf')) as (M1 & M2 & M3 & M4).
           assert (Es' : exists r, flat_map tok (@cons proto (x :: k', an') l) ++ T = x :: r) by (eexists; reflexivity).
           destruct Es' as (r & Es').
           rewrite (p5_d _ _ _ _ _ _ _ _ _ _ _ (@cons proto (x :: k', an') l) T).
           ++ apply (strict_tail_b 1). exact HT.
           ++ via (p_char 91) Es'. now apply p_char_no.
           ++ reflexivity.
           ++ reflexivity.
           ++ apply items; [exact Hl|discriminate|exact HS].
    + assert (Hky : kouho_illegal y = false /\ Forall (fun c => kouho_illegal c = false) (y :: v)).
      { apply Forall_app in Hkf as (_ & H). split; [exact (Forall_inv H)|exact H]. }
      destruct Hky as (Hy & Hyv). pose proof (legal_not y Hy) as (M1 & M2 & M3 & M4).
      match goal with |- perm5_loop _ _ _ _ _ _ _ _ _ _ _ ?s = _ => assert (Es : s = (u1 :: u) ++ flat_map tok (@cons proto (y :: v, an) l) ++ T) end.
      { cbn [flat_map]. unfold tok, body. cbn [fst snd]. rewrite <- !app_assoc. reflexivity. }
      assert (Es' : exists r, flat_map tok (@cons proto (y :: v, an) l) ++ T = y :: r) by (eexists; reflexivity).
      destruct Es' as (r & Es'). rewrite Es.
      rewrite (p5_b _ _ _ _ _ _ _ _ _ _ _ (u1 :: u) (flat_map tok (@cons proto (y :: v, an) l) ++ T)).
      * rewrite (p5_d _ _ _ _ _ _ _ _ _ _ _ (@cons proto (y :: v, an) l) T).
        -- apply (strict_tail_b 2). exact HT.
        -- via (p_char 91) Es'. now apply p_char_no.
        -- reflexivity.
        -- via (p_char 47) Es'. now apply p_char_no.
        -- apply items; [|discriminate|exact HS]. constructor; [|exact Hl]. split; [split; [discriminate|exact Hyv]|exact Ha].
      * now apply p_char_no.
      * match goal with |- p_while1 ?g (?a ++ _) = Some (_, ?s) => change s with (flat_map tok (@cons proto (y :: v, an) l) ++ T) end.
        rewrite Es'. apply while1_stop; [exact Hu|discriminate|exact Hv].
Qed.

(** * All candidates of a line *)
Lemma candidate_plain p l T : Forall plain_proto (p :: l) -> tail_ok T ->
  (T <> [] -> l = [] -> ~ kana_only p) ->
  p_candidate (flat_map tok (p :: l) ++ T) = Some (([], [p]), flat_map tok l ++ T).
Proof.
  intros Hp HT Hamb. unfold p_candidate, p_map.
  rewrite (perm2_seq (A := str * list proto) _ _ _ ([], [p]) (47%N :: flat_map tok l ++ T) 47%N (flat_map tok l ++ T)); [reflexivity| |apply p_char_ok].
  unfold p_alt. rewrite strict_fails by assumption.
  assert (E : flat_map tok (p :: l) ++ T = body p ++ 47%N :: flat_map tok l ++ T)
    by (cbn [flat_map]; unfold tok; rewrite <- !app_assoc; reflexivity).
  rewrite E. rewrite no_strict_body by exact (Forall_inv Hp). reflexivity.
Qed.
Lemma candidate_block b r : good_block b -> p_candidate (sblock b ++ r) = Some (b, r).
Proof.
  intros Hb. unfold p_candidate, p_map.
  rewrite (perm2_seq _ _ _ b (47%N :: r) 47%N r); [reflexivity| |apply p_char_ok].
  unfold p_alt. now rewrite strict_block.
Qed.
Lemma candidate_end : p_candidate [] = None.
Proof. reflexivity. Qed.
Lemma blocks_tail bs : Forall good_block bs -> tail_ok (flat_map sblock bs).
Proof.
  intros H. destruct H as [|b bs Hb H]; [now left|]. right. destruct b as [o l]. destruct Hb as (Ho & Hl & Hp).
  cbn [fst snd] in *. destruct l as [|q l]; [congruence|].
  pose proof (Forall_inv Hp) as ((Hk & Hkf) & _). destruct q as [[|x k] an]; cbn [fst] in *; [congruence|].
  pose proof (legal_not x (Forall_inv Hkf)) as (_ & _ & _ & N4).
  exists o, x. eexists. split; [|split; [exact Ho|exact N4]].
  cbn [flat_map]. unfold sblock. cbn [fst snd flat_map]. rewrite <- !app_comm_cons, <- !app_assoc. reflexivity.
Qed.
Lemma sblock_nonempty b : sblock b <> [].
Proof. discriminate. Qed.
Definition unambiguous (ns : list proto) (bs : list (str * list proto)) : Prop :=
  bs <> [] -> forall l d, ns = l ++ [d] -> ~ kana_only d.
Lemma unambiguous_tail p ns bs : unambiguous (p :: ns) bs -> unambiguous ns bs.
Proof. intros H Hb l d ->. apply (H Hb (p :: l) d). reflexivity. Qed.
Definition all_blocks (ns : list proto) (bs : list (str * list proto)) : list (str * list proto) :=
  map (fun p => ([], [p])) ns ++ bs.
Lemma many0_candidates ns bs : Forall plain_proto ns -> Forall good_block bs -> unambiguous ns bs ->
  forall fuel, length (flat_map tok ns ++ flat_map sblock bs) <= fuel ->
  many0_fuel p_candidate fuel (flat_map tok ns ++ flat_map sblock bs) = (all_blocks ns bs, []).
Proof.
  intros Hn Hb. induction Hn as [|p ns Hp Hn IH]; intros Hu fuel Hf.
  - cbn [flat_map app] in *. unfold all_blocks. cbn [map app].
    rewrite <- (app_nil_r (flat_map sblock bs)). apply (many0_exact p_candidate sblock good_block).
    + intros a r. apply candidate_block.
    + exact candidate_end.
    + exact Hb.
    + clear - Hf. revert fuel Hf. induction bs as [|b bs IH]; intros fuel Hf; cbn in *; [lia|].
      rewrite !app_length in Hf. cbn in Hf. destruct fuel; [lia|]. specialize (IH fuel). lia.
  - assert (Hpos : 1 <= length (tok p)) by (pose proof (tok_nonempty p); destruct (tok p); [congruence|cbn; lia]).
    assert (Hlen : length (flat_map tok (p :: ns) ++ flat_map sblock bs)
      = length (tok p) + length (flat_map tok ns ++ flat_map sblock bs))
      by (cbn [flat_map]; rewrite !app_length; lia).
    rewrite Hlen in Hf. destruct fuel as [|fuel]; [lia|]. cbn [many0_fuel].
    rewrite candidate_plain.
    + rewrite IH; [reflexivity|now apply unambiguous_tail in Hu|lia].
    + constructor; assumption.
    + now apply blocks_tail.
    + intros HT ->. apply (Hu) with (l := []); [|reflexivity]. intros ->. now apply HT.
Qed.
Lemma many1_candidates ns bs : Forall plain_proto ns -> Forall good_block bs -> unambiguous ns bs ->
  ns <> [] \/ bs <> [] ->
  many1 p_candidate (flat_map tok ns ++ flat_map sblock bs) = Some (all_blocks ns bs, []).
Proof.
  intros Hn Hb Hu Hne. unfold many1. destruct Hn as [|p ns Hp Hn].
  - destruct Hb as [|b bs Hb Hbs]; [destruct Hne; congruence|].
    cbn [flat_map app]. rewrite candidate_block by exact Hb.
    pose proof (many0_candidates [] bs (Forall_nil _) Hbs) as H. cbn [flat_map app] in H.
    rewrite H; [reflexivity| |lia]. intros _ l d E. destruct l; discriminate.
  - rewrite candidate_plain; [|constructor; assumption|now apply blocks_tail|].
    + rewrite many0_candidates; auto. now apply unambiguous_tail in Hu.
    + intros HT ->. apply (Hu) with (l := []); [|reflexivity]. intros ->. now apply HT.
Qed.

(** * From blocks to the map *)
Lemma bset_last {A} k (v : A) m : Forall (fun x => str_lt x k) (map fst m) -> bset k v m = m ++ [(k, v)].
Proof.
  induction m as [|[k' v'] m IH]; intros H; [reflexivity|]. cbn in *.
  assert (E : str_cmp k k' = Gt).
  { pose proof (Forall_inv H) as H1. unfold str_lt in H1. rewrite (str_cmp_antisym k' k), H1. reflexivity. }
  rewrite E. now rewrite IH by now apply Forall_inv_tail in H.
Qed.
Lemma bget_absent {A} k (m : bmap A) : Forall (fun x => str_lt x k) (map fst m) -> bget k m = None.
Proof.
  unfold bget. induction m as [|[k' v'] m IH]; intros H; [reflexivity|]. cbn in *.
  destruct (str_eqb_spec k k') as [->|]; [|apply IH; now apply Forall_inv_tail in H].
  exfalso. exact (str_lt_irrefl k' (Forall_inv H)).
Qed.
Lemma sorted_app_inv (a b : list str) k : StronglySorted str_lt (a ++ k :: b) -> Forall (fun x => str_lt x k) a.
Proof.
  induction a as [|x a IH]; intros H; [constructor|]. cbn in H. inversion H as [|? ? Hs Hf]; subst.
  constructor; [|now apply IH]. apply Forall_app in Hf as (_ & Hf). exact (Forall_inv Hf).
Qed.
Lemma merge_fresh bs : forall m, StronglySorted str_lt (map fst (m ++ bs)) -> fold_left merge_block bs m = m ++ bs.
Proof.
  induction bs as [|[o l] bs IH]; intros m H; cbn [fold_left]; [now rewrite app_nil_r|].
  assert (Hlt : Forall (fun x => str_lt x o) (map fst m)).
  { rewrite map_app in H. cbn in H. now apply sorted_app_inv in H. }
  unfold merge_block at 2. cbn [fst snd]. rewrite bget_absent, bset_last by exact Hlt.
  rewrite IH; rewrite <- app_assoc; [reflexivity|exact H].
Qed.
Lemma merge_plain ns : forall l, l <> [] -> 
  fold_left merge_block (map (fun p => ([], [p])) ns) [([], l)] = [([], l ++ ns)].
Proof.
  induction ns as [|p ns IH]; intros l Hl; cbn [map fold_left]; [now rewrite app_nil_r|].
  unfold merge_block at 2. cbn [fst snd bget bset assoc_str str_eqb str_cmp].
  change (bset [] (l ++ [p]) [([], l)]) with [(@nil N, l ++ [p])].
  rewrite IH; [now rewrite <- app_assoc|]. destruct l; discriminate.
Qed.
Definition with_plain (ns : list proto) (bs : list (str * list proto)) : bmap (list proto) :=
  match ns with [] => bs | _ => ([], ns) :: bs end.
Lemma merge_all ns bs : StronglySorted str_lt (map fst (with_plain ns bs)) ->
  fold_left merge_block (all_blocks ns bs) [] = with_plain ns bs.
Proof.
  intros H. unfold all_blocks. rewrite fold_left_app. destruct ns as [|p ns].
  - cbn [map fold_left]. now apply (merge_fresh bs []).
  - cbn [map fold_left]. change (merge_block [] ([], [p])) with [(@nil N, [p])].
    rewrite merge_plain by discriminate. cbn [app]. apply (merge_fresh bs [([], p :: ns)]). exact H.
Qed.
Lemma candidates_ok ns bs : Forall plain_proto ns -> Forall good_block bs -> unambiguous ns bs ->
  ns <> [] \/ bs <> [] -> StronglySorted str_lt (map fst (with_plain ns bs)) ->
  p_candidates (47%N :: flat_map tok ns ++ flat_map sblock bs) = Some (with_plain ns bs, []).
Proof.
  intros H1 H2 H3 H4 H5. unfold p_candidates, all_consuming.
  rewrite (perm2_seq _ _ _ 47%N (flat_map tok ns ++ flat_map sblock bs) (all_blocks ns bs) []);
    [|apply p_char_ok|now apply many1_candidates].
  now rewrite merge_all.
Qed.
Lemma entry_ok m ns bs : savable_midashi m ->
  Forall plain_proto ns -> Forall good_block bs -> unambiguous ns bs ->
  ns <> [] \/ bs <> [] -> StronglySorted str_lt (map fst (with_plain ns bs)) ->
  p_entry (m ++ 32%N :: 47%N :: flat_map tok ns ++ flat_map sblock bs) = Some ((m, with_plain ns bs), []).
Proof.
  intros (Hm & H32 & _) H1 H2 H3 H4 H5. unfold p_entry, all_consuming, perm3.
  assert (E1 : p_midashi (m ++ 32%N :: 47%N :: flat_map tok ns ++ flat_map sblock bs)
               = Some (m, 32%N :: 47%N :: flat_map tok ns ++ flat_map sblock bs)).
  { apply till1_stop; [|exact Hm|reflexivity]. apply Forall_forall. intros c Hc. apply N.eqb_neq. intros <-. contradiction. }
  assert (E2 : p_while1 (N.eqb 32) (32%N :: 47%N :: flat_map tok ns ++ flat_map sblock bs)
               = Some ([32%N], 47%N :: flat_map tok ns ++ flat_map sblock bs)) by reflexivity.
  assert (E3 := candidates_ok ns bs H1 H2 H3 H4 H5).
  cbn [perm3_loop]. rewrite E1. cbn [perm3_loop]. rewrite E2. cbn [perm3_loop]. rewrite E3. reflexivity.
Qed.

(** * Printing *)
Definition proto_of (d : dcand) : proto :=
  (escape_dictionary_string (dc_kouho d), option_map escape_dictionary_string (dc_annot d)).
Lemma dcand_body d : dcand_to_string d = body (proto_of d).
Proof. unfold dcand_to_string, body, proto_of. destruct (dc_annot d); cbn [fst snd option_map]; [reflexivity|now rewrite app_nil_r]. Qed.
Lemma cands_shift l r : cands_to_string l ++ 47%N :: r = 47%N :: flat_map tok (map proto_of l) ++ r.
Proof.
  unfold cands_to_string. induction l as [|d l IH]; [reflexivity|]. cbn [flat_map map app].
  rewrite <- app_assoc, IH. f_equal. rewrite dcand_body. unfold tok. rewrite <- !app_assoc. reflexivity.
Qed.
Definition protos (m : bmap (list dcand)) : bmap (list proto) := map (fun '(o, l) => (o, map proto_of l)) m.
Lemma blocks_shift bs r : Forall (fun b => fst b <> []) bs ->
  flat_map block_to_string bs ++ 47%N :: r = 47%N :: flat_map sblock (protos bs) ++ r.
Proof.
  intros H. induction H as [|[o l] bs Ho H IH]; [reflexivity|]. cbn [flat_map protos map fst] in *.
  rewrite <- app_assoc, IH. unfold block_to_string. apply is_nil_false in Ho. rewrite Ho.
  unfold sblock. cbn [fst snd]. change (U "/[") with [47%N; 91%N]. change (U "/]") with [47%N; 93%N].
  cbn [app]. do 2 f_equal. rewrite <- !app_assoc. f_equal.
  apply (eq_trans (cands_shift l (93%N :: 47%N :: flat_map sblock (protos bs) ++ r))).
  cbn [app]. f_equal. rewrite <- app_assoc. reflexivity.
Qed.

(** * Escaped texts are plain *)
Lemma escaped_char s c : In c (escape_dictionary_string s) -> In c s \/ In c (U "(concat 0573\") \/ c = 34%N \/ c = 41%N.
Proof.
  destruct (existsb after_special s) eqn:E.
  - apply existsb_exists in E as (x & Hx & Hxs). apply special_b in Hxs.
    rewrite escape_quoted by eauto. unfold quoted. rewrite !in_app_iff.
    intros [H|[H|[H|[H|H]]]].
    + right. left. vm_compute in H |- *. intuition.
    + destruct H as [<-|[]]; auto.
    + apply in_flat_map in H as (y & Hy & H). unfold enc in H.
      destruct (N.eqb_spec y 47); [right; left; cbn in H; vm_compute; intuition|].
      destruct (N.eqb_spec y 59); [right; left; cbn in H; vm_compute; intuition|].
      destruct (N.eqb_spec y 34); [destruct H as [<-|[<-|[]]]; [right; left; vm_compute; intuition|auto]|].
      destruct H as [<-|[]]. auto.
    + destruct H as [<-|[]]; auto.
    + destruct H as [<-|[]]; auto.
  - rewrite escape_id; [auto|]. intros x Hx Hxs. apply special_b in Hxs.
    assert (H : existsb after_special s = true) by (apply existsb_exists; eauto). congruence.
Qed.
Lemma escape_nonempty s : s <> [] -> escape_dictionary_string s <> [].
Proof. intros H. unfold escape_dictionary_string. destruct (_ || _); [discriminate|exact H]. Qed.
Lemma escaped_not_special s c : In c (escape_dictionary_string s) -> c <> 47%N /\ c <> 59%N.
Proof. intros H. pose proof (C34_no_separator s c H) as Hs. split; intros ->; apply Hs; [now left|now right]. Qed.
Lemma plain_of_savable d : savable_candidate d -> plain_proto (proto_of d).
Proof.
  intros ((Hk & _ & H91 & H93) & Ha). split; cbn [proto_of fst snd].
  - split; [now apply escape_nonempty|]. apply Forall_forall. intros c Hc.
    pose proof (escaped_not_special _ _ Hc) as (N1 & N2).
    assert (N3 : c <> 91%N /\ c <> 93%N).
    { destruct (escaped_char _ _ Hc) as [H|[H|[->| ->]]]; [|vm_compute in H|split; discriminate|split; discriminate].
      - split; intros ->; contradiction.
      - split; intros ->; intuition discriminate. }
    unfold kouho_illegal. cbn [existsb]. destruct N3 as (N3 & N4).
    apply N.eqb_neq in N1, N2, N3, N4. now rewrite N1, N2, N3, N4.
  - destruct (dc_annot d) as [a|]; cbn [option_map]; [|exact I]. destruct Ha as (Ha & _).
    split; [now apply escape_nonempty|]. apply Forall_forall. intros c Hc.
    pose proof (escaped_not_special _ _ Hc) as (N1 & N2).
    unfold annot_illegal. cbn [existsb]. apply N.eqb_neq in N1, N2. now rewrite N1, N2.
Qed.
Lemma kana_only_of d : kana_only (proto_of d) -> looks_like_okuri d.
Proof.
  intros (H1 & H2). cbn [proto_of fst snd] in *. split; [destruct (dc_annot d); [discriminate|reflexivity]|].
  destruct (existsb after_special (dc_kouho d)) eqn:E.
  - exfalso. apply existsb_exists in E as (x & Hx & Hxs). apply special_b in Hxs.
    rewrite escape_quoted in H2 by eauto. apply Forall_inv in H2. unfold okuri_char in H2. vm_compute in H2. intuition discriminate.
  - rewrite escape_id in H2; [exact H2|]. intros x Hx Hxs. apply special_b in Hxs.
    assert (H : existsb after_special (dc_kouho d) = true) by (apply existsb_exists; eauto). congruence.
Qed.
Lemma decode_candidate d : savable_candidate d -> dcand_of_proto (proto_of d) = d.
Proof.
  intros ((_ & Hk & _) & Ha). destruct d as [k a]. unfold dcand_of_proto, proto_of. cbn [fst snd dc_kouho dc_annot] in *.
  rewrite carried_comes_back by exact Hk. f_equal. destruct a as [a|]; [|reflexivity]. cbn [option_map].
  now rewrite carried_comes_back by apply Ha.
Qed.

(** * C33 *)
Lemma protos_keys m : map fst (protos m) = map fst m.
Proof. unfold protos. rewrite map_map. apply map_ext. now intros []. Qed.
Lemma savable_split m : savable_lists m -> exists ns bs,
  m = match ns with [] => bs | _ => ([], ns) :: bs end
  /\ (ns <> [] \/ bs <> [])
  /\ Forall savable_candidate ns
  /\ Forall (fun b => fst b <> [] /\ Forall okuri_char (fst b) /\ snd b <> [] /\ Forall savable_candidate (snd b)) bs.
Proof.
  intros S. pose proof (sv_sorted _ S) as Hs. pose proof (sv_lists _ S) as Hl. pose proof (sv_nonempty _ S) as Hne.
  assert (Tail : forall o l bs, m = (o, l) :: bs -> Forall (fun b => fst b <> [] /\ Forall okuri_char (fst b) /\ snd b <> [] /\ Forall savable_candidate (snd b)) bs).
  { intros o l bs ->. apply Forall_forall. intros [o' l'] Hin. cbn [fst snd].
    destruct (Hl o' l') as (H1 & H2 & H3); [now right|]. cbn in Hs. inversion Hs as [|? ? _ Hf]; subst.
    rewrite Forall_forall in Hf. specialize (Hf o' (in_map fst _ _ Hin)).
    assert (Hn : o' <> []) by (intros ->; destruct o; discriminate).
    destruct H3 as [->|H3]; [congruence|]. auto. }
  destruct m as [|[o l] bs]; [congruence|]. pose proof (Tail o l bs eq_refl) as Ht.
  destruct (Hl o l) as (H1 & H2 & H3); [now left|]. destruct o as [|c o].
  - exists l, bs. destruct l as [|d l]; [congruence|].
    split; [reflexivity|split; [left; discriminate|split; assumption]].
  - exists [], ((c :: o, l) :: bs).
    split; [reflexivity|split; [right; discriminate|split; [constructor|]]].
    constructor; [|exact Ht]. cbn [fst snd]. destruct H3 as [H3|H3]; [discriminate|]. repeat split; auto. discriminate.
Qed.
(** Writing an entry as a line and parsing the line gives back its midashi and its lists; the
    mark [e_okuri] is recomputed from the midashi. *)
Theorem C33_line e : savable e ->
  from_skkjisyo_line (entry_to_string e)
  = Some (mkEntry (e_midashi e) (looks_okuri_ari (e_midashi e)) (e_map e)).
Proof.
  intros (Hm & S). destruct e as [m ok mp]. cbn [e_midashi e_map] in *.
  destruct (savable_split mp S) as (ns & bs & Emp & Hne & Hns & Hbs).
  assert (Esc : escape_dictionary_string m = m).
  { apply escape_id. intros c Hc [-> | ->]; apply Hm in Hc; exact Hc. }
  assert (Eline : entry_to_string (mkEntry m ok mp)
    = m ++ 32%N :: 47%N :: flat_map tok (map proto_of ns) ++ flat_map sblock (protos bs)).
  { unfold entry_to_string. cbn [e_midashi e_map]. rewrite Esc. f_equal. change (U " ") with [32%N]. cbn [app]. f_equal.
    assert (Hnn : Forall (fun b : str * list dcand => fst b <> []) bs) by (eapply Forall_impl; [|exact Hbs]; cbn; tauto).
    pose proof (blocks_shift bs [] Hnn) as Eb. rewrite app_nil_r in Eb. change (U "/") with [47%N].
    destruct ns as [|d ns]; rewrite Emp.
    - cbn [map flat_map app]. exact Eb.
    - cbn [flat_map]. rewrite <- app_assoc. rewrite Eb. cbn [block_to_string is_nil]. apply cands_shift. }
  unfold from_skkjisyo_line. rewrite Eline.
  rewrite entry_ok.
  - unfold entry_of_proto. cbn [fst snd].
    assert (Em : process_lisp_fun m = m).
    { apply no_concat_plain. intros (a & b & E). apply (proj1 (proj2 Hm)). rewrite E, !in_app_iff. right. left.
      vm_compute. intuition. }
    rewrite Em. do 2 f_equal.
    assert (Dec : forall l, Forall savable_candidate l -> map dcand_of_proto (map proto_of l) = l).
    { intros l Hl. rewrite map_map. rewrite <- (map_id l) at 2. apply map_ext_in. intros d Hd.
      rewrite Forall_forall in Hl. now apply decode_candidate, Hl. }
    assert (DecB : map (fun '(k, l) => (k, map dcand_of_proto l)) (protos bs) = bs).
    { clear - Hbs Dec. induction Hbs as [|[o l] bs Hb Hbs IH]; [reflexivity|]. cbn [protos map]. fold (protos bs).
      rewrite IH, Dec by apply Hb. reflexivity. }
    rewrite Emp. destruct ns as [|d ns]; cbn [map with_plain]; [exact DecB|]. rewrite DecB.
    pose proof (Dec (d :: ns) Hns) as Ed. cbn [map] in Ed. now rewrite Ed.
  - exact Hm.
  - apply Forall_map. eapply Forall_impl; [|exact Hns]. intros d. apply plain_of_savable.
  - apply Forall_map. eapply Forall_impl; [|exact Hbs]. intros [o l] (H1 & H2 & H3 & H4). cbn [fst snd] in *.
    split; [split; assumption|]. cbn [fst snd]. split; [destruct l; [congruence|discriminate]|].
    apply Forall_map. eapply Forall_impl; [|exact H4]. intros d. apply plain_of_savable.
  - intros Hb l d El Hk.
    destruct ns as [|n0 ns0] using rev_ind; [destruct l; discriminate|].
    rewrite map_app in El. cbn [map] in El. apply app_inj_tail in El as (_ & El). subst d.
    apply kana_only_of in Hk. apply (sv_unambiguous _ S ns0 n0 bs); [|intros ->; now apply Hb|exact Hk].
    rewrite Emp. destruct (ns0 ++ [n0]) eqn:E0; [destruct ns0; discriminate|reflexivity].
  - destruct Hne as [H|H]; [left; destruct ns; [congruence|discriminate]|right; destruct bs; [congruence|discriminate]].
  - pose proof (sv_sorted _ S) as Hs. rewrite Emp in Hs. destruct ns as [|d ns].
    + cbn [map with_plain]. now rewrite protos_keys.
    + cbn [map with_plain fst]. now rewrite protos_keys.
Qed.
(** In particular the whole entry, when its mark agrees with its midashi, as it does for every
    entry read from a file. *)
Theorem C33_round_trip e : savable e -> (e_okuri e = true <-> okuri_midashi (e_midashi e)) ->
  from_skkjisyo_line (entry_to_string e) = Some e.
Proof.
  intros H E. rewrite C33_line by exact H. rewrite <- okuri_midashi_spec in E.
  destruct e as [m o l]. cbn [e_okuri e_midashi e_map] in *.
  destruct o, (looks_okuri_ari m); try reflexivity; intuition discriminate.
Qed.
(** The mark of an entry read from a line is that of its midashi. *)
Theorem C33_mark ln e : from_skkjisyo_line ln = Some e -> (e_okuri e = true <-> okuri_midashi (e_midashi e)).
Proof. apply parsed_mark. Qed.
Example C33_mark_example : okuri_midashi (U "おおk") /\ okuri_midashi (U "いa") /\ okuri_midashi (U "いz")
  /\ ~ okuri_midashi (U "おお") /\ ~ okuri_midashi (U "abc") /\ ~ okuri_midashi (U "いA") /\ ~ okuri_midashi (U "a").
Proof. rewrite <- !okuri_midashi_spec. vm_compute. intuition discriminate. Qed.
Example C33_example : savable (mkEntry (U "おおk") true
    [([], [mkDC (U "大") None; mkDC (U "多/い") (Some (U "a;b[]"))]); (U "い", [mkDC (U "多") (Some (U "数"))]); (U "き", [mkDC (U "大") None])]).
Proof.
  assert (E : forall s, s <> [] -> escapableb s = true -> savable_annotation s) by (intros; split; [assumption|now apply escapable_carried, escapableb_spec]).
  assert (K : forall s, s <> [] -> escapableb s = true -> existsb (N.eqb 91) s = false -> existsb (N.eqb 93) s = false -> savable_kouho s)
    by (intros; split; [assumption|split; [now apply escapable_carried, escapableb_spec|split; now apply notin_b]]).
  split.
  - cbn [e_midashi]. split; [discriminate|]. repeat split; apply notin_b; vm_compute; reflexivity.
  - constructor; cbn [e_map].
    + cbn [map fst]. repeat constructor; vm_compute; reflexivity.
    + discriminate.
    + intros o l [[= <- <-]|[[= <- <-]|[[= <- <-]|[]]]];
        (split; [discriminate|split; [repeat apply Forall_cons; try apply Forall_nil;
          (split; cbn [dc_kouho dc_annot]; [apply K; [discriminate|vm_compute; reflexivity..]|
             first [exact I|apply E; [discriminate|vm_compute; reflexivity]]])|]]);
        first [left; reflexivity|right; repeat apply Forall_cons; try apply Forall_nil; apply okuri_char_b; vm_compute; reflexivity].
    + intros l d rest [= El _] _ (H & _). destruct l as [|x [|y l]]; try discriminate.
      * injection El as _ <-. discriminate.
      * injection El as _ _ El. destruct l; discriminate.
Qed.
(** What the format cannot carry (the property without the restriction is false). *)
Theorem C33_refuted :
  (* a bracket in a candidate *)
  from_skkjisyo_line (entry_to_string (mkEntry (U "か") false [([], [mkDC (U "[か]") None])])) = None
  (* a slash in the midashi *)
  /\ from_skkjisyo_line (entry_to_string (mkEntry (U "a/b") false [([], [mkDC (U "x") None])])) = None
  (* a strict okurigana list emptied by a purge *)
  /\ from_skkjisyo_line (entry_to_string (mkEntry (U "かs") true [([], [mkDC (U "漢") None]); (U "す", [])]))
     = Some (mkEntry (U "かs") true [(U "す", [mkDC (U "漢") None])])
  (* a hiragana candidate just before a strict list *)
  /\ from_skkjisyo_line (entry_to_string (mkEntry (U "いt") true [([], [mkDC (U "要") None; mkDC (U "いる") None]); (U "って", [mkDC (U "要") None])]))
     = Some (mkEntry (U "いt") true [([], [mkDC (U "要") None]); (U "いる", [mkDC (U "って") None; mkDC (U "要") None])]).
Proof. repeat split; vm_compute; reflexivity. Qed.
