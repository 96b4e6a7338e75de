(** C74: sessions exist - the grammar of T_Session followed by a program, and concrete sessions. *)
From Verif Require Import Str Keys Modes KanaBuilder FormChanger DictTypes Parser Lru
  Dictionary CState Context DefaultRule Demo Spec P_Monad P_Frames P_Inv P_Kana P_Step T_Keys T_Predict T_Dedup T_Offered T_Convert.
From Verif Require Import T_Frames T_Romaji T_Word T_Sentence T_Delete T_Session.
From Verif Require T_Auto.

(** ** Following keys by the grammar, executable: to show that sessions exist *)
Section Follow.
Context (X : xkb) (r : rule) (cr : command_rule) (kf : kana_form) (am : ascii_map) (cf : config) (ids : list nat).
Inductive kind :=
| KSwitch (i0 i1 : imode) | KMode (i1 : imode) | KDelete | KFinish | KBegin (c : cmode) | KConfirmForced (i1 i2 : imode) | KConfirmAs (i2 : imode)
| KGiveUp | KAsk | KPrevious | KComplete | KForward | KBackward | KAbort | KConfirm | KConfirmDirect' | KConfirmMode (i1 : imode) | KConfirmErase | KPurge | KTake | KOther.
Definition kind_of (l : list instr) : kind :=
  match l with
  | [IForceKanaConvert i0; IChangeInputMode i1; IClearUnconfirmedInputs] => KSwitch i0 i1
  | [IForceKanaConvert i1; IConfirmAs i2; IChangeCompositionMode Direct] => KConfirmForced i1 i2
  | [IConfirmAs i2; IChangeCompositionMode Direct] => KConfirmAs i2
  | [IClearUnconfirmedInputs; IAbort] => KGiveUp
  | [IConfirmComposition; IChangeCompositionMode Direct] => KConfirmDirect'
  | [IConfirmComposition; IChangeInputMode i1] => KConfirmMode i1
  | [IConfirmComposition; IDelete] => KConfirmErase
  | [IPurge; IChangeCompositionMode Direct] => KPurge
  | [IChangeInputMode i1] => KMode i1
  | [IDelete] => KDelete
  | [IFinishKeyEvent] => KFinish
  | [IChangeCompositionMode c] => KBegin c
  | [ITryNextCandidate] => KAsk
  | [ITryPreviousCandidate] => KPrevious
  | [ITryNextCompletion] => KComplete
  | [INextCandidatePointer] => KForward
  | [IPreviousCandidatePointer] => KBackward
  | [IAbort] => KAbort
  | [IConfirmComposition] => KConfirm
  | [IConfirmDirect] => KTake
  | _ => KOther
  end.
Definition list_of (k : kind) : list instr :=
  match k with
  | KSwitch i0 i1 => [IForceKanaConvert i0; IChangeInputMode i1; IClearUnconfirmedInputs]
  | KConfirmForced i1 i2 => [IForceKanaConvert i1; IConfirmAs i2; IChangeCompositionMode Direct]
  | KConfirmAs i2 => [IConfirmAs i2; IChangeCompositionMode Direct]
  | KGiveUp => [IClearUnconfirmedInputs; IAbort]
  | KConfirmDirect' => [IConfirmComposition; IChangeCompositionMode Direct]
  | KConfirmMode i1 => [IConfirmComposition; IChangeInputMode i1]
  | KConfirmErase => [IConfirmComposition; IDelete]
  | KPurge => [IPurge; IChangeCompositionMode Direct]
  | KMode i1 => [IChangeInputMode i1]
  | KDelete => [IDelete]
  | KFinish => [IFinishKeyEvent]
  | KBegin c => [IChangeCompositionMode c]
  | KAsk => [ITryNextCandidate]
  | KPrevious => [ITryPreviousCandidate]
  | KComplete => [ITryNextCompletion]
  | KForward => [INextCandidatePointer]
  | KBackward => [IPreviousCandidatePointer]
  | KAbort => [IAbort]
  | KConfirm => [IConfirmComposition]
  | KTake => [IConfirmDirect]
  | KOther => []
  end.
Lemma kind_of_list l : kind_of l <> KOther -> l = list_of (kind_of l).
Proof.
  intros H. destruct (kind_of l) eqn:E; [..|congruence]; clear H; unfold kind_of in E;
  repeat (match type of E with context [match ?x with _ => _ end] => is_var x; destruct x; try discriminate E end); first [reflexivity|injection E; intros; subst; reflexivity].
Qed.
Definition kind_at (c : cmode) (i : imode) (k : keyev) : kind := match command_of cr i c k with Some l => kind_of l | None => KOther end.
Lemma kind_at_spec c i k x : kind_at c i k = x -> x <> KOther -> commands cr c i k (list_of x).
Proof.
  unfold kind_at. destruct (command_of cr i c k) as [l|] eqn:E; [|intros <-; congruence]. intros <- H. rewrite <- (kind_of_list l H). now apply command_of_spec.
Qed.
Definition word_mode_b (c : cmode) : bool := match c with PreComposition | Abbreviation => true | _ => false end.
Lemma word_mode_b_spec c : word_mode_b c = true -> word_mode c.
Proof. unfold word_mode. destruct c; auto; discriminate. Qed.
Definition kana_outside (i : imode) (v : list N) (k : keyev) : bool := negb (kana_mode_b i) || outside_b X r v k.
Lemma kana_outside_spec i v k : kana_outside i v k = true -> kana_mode i -> outside X r v k.
Proof.
  unfold kana_outside. intros H Hi. apply orb_prop in H as [H|H]; [|now apply outside_b_spec]. exfalso. destruct Hi as [->|[->| ->]]; discriminate.
Qed.
Definition char_of (k : keyev) : option N :=
  if N.eqb (kmods k) 0 && N.leb 32 (ksym k) && N.leb (ksym k) 126 then xk_char X (ksym k) else None.
Lemma char_of_spec k ch : char_of k = Some ch -> types X k ch /\ k = mkKey (ksym k) 0.
Proof.
  destruct k as [sym m]. unfold char_of. cbn [ksym kmods]. destruct (_ && _) eqn:E; [|discriminate]. intros H. apply andb_prop in E as [E E3]. apply andb_prop in E as [E1 E2].
  apply N.eqb_eq in E1 as ->. apply N.leb_le in E2, E3. split; [|reflexivity]. split; [now left|]. split; [cbn; lia|exact H].
Qed.
(* no keyword completed by writing [more] behind [yomi] *)
Definition calm_b (yomi more : str) : bool :=
  forallb (fun n => forallb (fun kw => negb (is_suffixb kw (yomi ++ firstn n more)) || Nat.eqb (length kw) (length (yomi ++ firstn n more))) (cf_auto cf)) (seq 0 (S (length more))).
Lemma calm_b_spec yomi more : calm_b yomi more = true -> calm cf yomi more.
Proof.
  intros H p q kw before E Hin Ep. unfold calm_b in H. rewrite forallb_forall in H.
  assert (Hp : In (length p) (seq 0 (S (length more)))) by (apply in_seq; rewrite E, app_length; lia).
  specialize (H (length p) Hp). rewrite E in H. rewrite firstn_app, Nat.sub_diag, firstn_all, firstn_O, app_nil_r in H.
  rewrite forallb_forall in H. specialize (H _ Hin). apply orb_prop in H as [H|H].
  - apply negb_true_iff in H. assert (is_suffixb kw (yomi ++ p) = true) by (apply is_suffixb_spec; eauto). congruence.
  - apply Nat.eqb_eq in H. rewrite Ep, app_length in H. destruct before; [reflexivity|cbn in H; lia].
Qed.
(* one key while idle *)
Definition idle_key (i : imode) (v : list N) (t : str) (b : list cmode) (st : list dict) (k : keyev) : option scene :=
  if kana_outside i v k && negb (match kind_at Direct i k with KOther => true | _ => false end) then
    match kind_at Direct i k with
    | KSwitch i0 i1 => if kana_mode_b i then Some (mkSc i1 Idle [] false (t ++ adjust_kana_string kf i0 (extra_of X r v)) b st) else None
    | KMode i1 => Some (mkSc i1 Idle v false t b st)
    | KDelete => if is_nil v then if is_nil t then None else Some (mkSc i Idle [] false (removelast t) b st) else Some (mkSc i Idle (removelast v) false t b st)
    | KFinish => Some (mkSc i Idle v false t b st)
    | KBegin c => if kana_mode_b i && is_nil v && word_mode_b c then Some (mkSc i (Reading c []) [] false t [Direct] st) else None
    | _ => None
    end
  else if negb (N.eqb (kmods k) 0) then None else
    match i with
    | Ascii => match char_of k with Some ch => if is_nil v && unbound_b cr i Direct (ksym k) then Some (mkSc i Idle [] false (t ++ [ch]) b st) else None | None => None end
    | Zenkaku => match char_of k with Some ch => if is_nil v && unbound_b cr i Direct (ksym k) then Some (mkSc i Idle [] false (t ++ concat (map (adjust_ascii_char am) [ch])) b st) else None | None => None end
    | _ =>
        if N.leb 65 (ksym k) && N.leb (ksym k) 90 then
          match shift_of X r cr i Direct v [(ksym k + 32)%N], spell X r cr kf cf i PreComposition false [] [(ksym k + 32)%N] with
          | Some f, Some (ps, v') =>
              if no_keyword_b (cf_auto cf) (concat ps) then Some (mkSc i (Reading PreComposition (concat ps)) v' (negb (is_nil v')) (t ++ adjust_kana_string kf i f) [Direct] st) else None
          | _, _ =>
              if late_b X r cr i Direct v (ksym k + 32) then
                match spell X r cr kf cf i PreComposition false v [(ksym k + 32)%N] with
                | Some (ps, v') => if no_keyword_b (cf_auto cf) (concat ps) then Some (mkSc i (Reading PreComposition (concat ps)) v' (negb (is_nil v')) t [Direct] st) else None
                | None => None
                end
              else None
          end
        else match spell X r cr kf cf i Direct false v [ksym k] with
             | Some (ps, v') => Some (mkSc i Idle v' false (t ++ concat (map (adjust_kana_string kf i) ps)) b st)
             | None => None
             end
    end.
Lemma session_one n i ph v cap t b st k S' : session X r cr kf am cf ids n (mkSc i ph v cap t b st) (map OKey [k]) S' -> session X r cr kf am cf ids n (mkSc i ph v cap t b st) [OKey k] S'.
Proof. exact (fun H => H). Qed.
Lemma snoc_last {A} (l : list A) : is_nil l = false -> exists l0 x, l = l0 ++ [x] /\ removelast l = l0.
Proof. intros H. destruct (exists_last (l := l)) as (l0 & x & ->); [now destruct l|]. exists l0, x. split; [reflexivity|apply removelast_last]. Qed.
Lemma idle_key_spec n i v t b st k S' : idle_key i v t b st k = Some S' -> session X r cr kf am cf ids n (mkSc i Idle v false t b st) [OKey k] S'.
Proof.
  unfold idle_key. destruct (kana_outside i v k && negb (match kind_at Direct i k with KOther => true | _ => false end)) eqn:E0.
  - apply andb_prop in E0 as [Ho _]. pose proof (kana_outside_spec _ _ _ Ho) as Ho'. clear Ho.
    destruct (kind_at Direct i k) eqn:Ek; try discriminate; apply kind_at_spec in Ek; try discriminate; cbn [list_of] in Ek.
    + destruct (kana_mode_b i) eqn:Ei; [|discriminate]. apply kana_mode_b_spec in Ei. intros [= <-]. destruct (extra_of_spec X r v) as [v' Hv]. eapply i_switch; eauto.
    + intros [= <-]. apply i_switch_plain; auto.
    + destruct (is_nil v) eqn:Ev.
      * apply is_nil_true in Ev as ->. destruct (is_nil t) eqn:Et; [discriminate|]. intros [= <-]. destruct (snoc_last t Et) as (t0 & x & -> & ->). now apply i_erase.
      * intros [= <-]. destruct (snoc_last v Ev) as (v0 & x & -> & ->). now apply i_erase_key.
    + intros [= <-]. now apply i_ignore.
    + destruct (kana_mode_b i && is_nil v && word_mode_b c) eqn:E; [|discriminate]. apply andb_prop in E as [E E3]. apply andb_prop in E as [E1 E2].
      apply kana_mode_b_spec in E1. apply is_nil_true in E2 as ->. apply word_mode_b_spec in E3. intros [= <-]. apply i_begin; auto.
  - destruct (N.eqb_spec (kmods k) 0) as [Em|]; [|discriminate]. cbn [negb].
    assert (Hk : k = mkKey (ksym k) 0) by (destruct k; cbn in *; now subst).
    assert (Hkana : kana_mode i -> (if N.leb 65 (ksym k) && N.leb (ksym k) 90 then
          match shift_of X r cr i Direct v [(ksym k + 32)%N], spell X r cr kf cf i PreComposition false [] [(ksym k + 32)%N] with
          | Some f, Some (ps, v') =>
              if no_keyword_b (cf_auto cf) (concat ps) then Some (mkSc i (Reading PreComposition (concat ps)) v' (negb (is_nil v')) (t ++ adjust_kana_string kf i f) [Direct] st) else None
          | _, _ =>
              if late_b X r cr i Direct v (ksym k + 32) then
                match spell X r cr kf cf i PreComposition false v [(ksym k + 32)%N] with
                | Some (ps, v') => if no_keyword_b (cf_auto cf) (concat ps) then Some (mkSc i (Reading PreComposition (concat ps)) v' (negb (is_nil v')) t [Direct] st) else None
                | None => None
                end
              else None
          end
        else match spell X r cr kf cf i Direct false v [ksym k] with
             | Some (ps, v') => Some (mkSc i Idle v' false (t ++ concat (map (adjust_kana_string kf i) ps)) b st)
             | None => None
             end) = Some S' -> session X r cr kf am cf ids n (mkSc i Idle v false t b st) [OKey k] S').
    { intros Hi. destruct (N.leb 65 (ksym k) && N.leb (ksym k) 90) eqn:Eu.
      - assert (Hlate : (if late_b X r cr i Direct v (ksym k + 32) then
                match spell X r cr kf cf i PreComposition false v [(ksym k + 32)%N] with
                | Some (ps, v') => if no_keyword_b (cf_auto cf) (concat ps) then Some (mkSc i (Reading PreComposition (concat ps)) v' (negb (is_nil v')) t [Direct] st) else None
                | None => None
                end
              else None) = Some S' -> session X r cr kf am cf ids n (mkSc i Idle v false t b st) [OKey k] S').
        { destruct (late_b X r cr i Direct v (ksym k + 32)) eqn:El; [|discriminate]. apply late_b_spec in El.
          destruct (spell X r cr kf cf i PreComposition false v [(ksym k + 32)%N]) as [[ps v']|] eqn:Es; [|discriminate].
          destruct (no_keyword_b (cf_auto cf) (concat ps)) eqn:En; [|discriminate]. intros [= <-]. apply spell_spec in Es. apply no_keyword_b_spec in En.
          pose proof (i_late X r cr kf am cf ids n i v t b st _ [] v' ps Hi Es El En) as H. cbn [map] in H. unfold press in H.
          replace (ksym k + 32 - 32)%N with (ksym k) in H by lia. rewrite <- Hk in H. exact H. }
        destruct (shift_of X r cr i Direct v [(ksym k + 32)%N]) as [f|] eqn:Ef; [|exact Hlate].
        destruct (spell X r cr kf cf i PreComposition false [] [(ksym k + 32)%N]) as [[ps v']|] eqn:Es; [|exact Hlate]. clear Hlate.
        destruct (no_keyword_b (cf_auto cf) (concat ps)) eqn:En; [|discriminate]. intros [= <-].
        apply shift_of_spec in Ef. apply spell_spec in Es. apply no_keyword_b_spec in En. cbn [caps] in Ef.
        replace (ksym k + 32 - 32)%N with (ksym k) in Ef by lia.
        pose proof (i_capital X r cr kf am cf ids n i v t b st f _ _ v' ps Hi Es Ef En) as H. cbn [map] in H. unfold press in H. rewrite <- Hk in H. exact H.
      - destruct (spell X r cr kf cf i Direct false v [ksym k]) as [[ps v']|] eqn:Es; [|discriminate]. intros [= <-]. apply spell_spec in Es.
        pose proof (i_kana X r cr kf am cf ids n i v t b st _ v' ps Hi Es) as H. cbn [map] in H. unfold press in H. rewrite <- Hk in H. exact H. }
    destruct i; try (apply Hkana; unfold kana_mode; auto); clear Hkana; (destruct (char_of k) as [ch|] eqn:Ec; [|discriminate]);
      apply char_of_spec in Ec as [Hty _]; (destruct (is_nil v) eqn:Ev; [|discriminate]); apply is_nil_true in Ev as ->; cbn [andb].
    + destruct (unbound_b cr Zenkaku Direct (ksym k)) eqn:Eu; [|discriminate]. apply unbound_b_spec in Eu. rewrite <- Hk in Eu. intros [= <-].
      apply (i_zenkaku X r cr kf am cf ids n t b st [k] [ch] (map (adjust_ascii_char am) [ch])); [now constructor|apply full_of|now constructor].
    + destruct (unbound_b cr Ascii Direct (ksym k)) eqn:Eu; [|discriminate]. apply unbound_b_spec in Eu. rewrite <- Hk in Eu. intros [= <-].
      apply (i_ascii X r cr kf am cf ids n t b st [k] [ch]); now constructor.
Qed.
Definition resumed (m : cmode) : option cmode :=
  match m with PreComposition | PreCompositionOkurigana => Some PreComposition | Abbreviation => Some Abbreviation | _ => None end.
Lemma resumed_spec m c : resumed m = Some c -> resumes m c.
Proof. destruct m; cbn; intros H; try discriminate; injection H as <-; constructor. Qed.
Definition complete_of (st : list dict) (key : ckey) : option (list candidate) :=
  match get_all_complete (map (fun n => nth n st empty_dict) ids) key with
  | Ok cs => if N.ltb (N.of_nat (length cs)) (2 ^ 64) then Some cs else None
  | Panic _ => None
  end.
Lemma complete_of_spec st key cs : complete_of st key = Some cs -> completions ids st key cs.
Proof.
  unfold complete_of, completions. destruct (get_all_complete _ _) as [cs'|]; [|discriminate]. destruct (N.ltb_spec (N.of_nat (length cs')) (2 ^ 64)); [|discriminate].
  intros [= <-]. auto.
Qed.
Definition force_of (v : list N) : str * list N := (extra_of X r v, left_of X r v).
Lemma force_of_spec v : forced X r v (fst (force_of v)) (snd (force_of v)). Proof. apply forced_of. Qed.
Lemma cmode_is c d : cmode_eqb c d = true -> c = d. Proof. destruct c, d; intros H; first [reflexivity|discriminate]. Qed.
(* a capital in a reading begins the okurigana *)
Definition capital_key (i : imode) (y : str) (v : list N) (t : str) (b : list cmode) (st : list dict) (l : N) : option scene :=
  match shift_of X r cr i PreComposition v [l], next_of X r [l] with
  | Some f, Some _ => Some (mkSc i (Tail (y ++ f) []) [l] (is_nil v) t (b ++ [PreComposition]) st)
  | _, _ =>
      if negb (late_b X r cr i PreComposition v l) then None else
      match next_of X r (v ++ [l]), entry_of X r (v ++ [l]) with
      | Some _, _ => Some (mkSc i (Tail y []) (v ++ [l]) true t (b ++ [PreComposition]) st)
      | None, Some (f, carry) => if negb (is_nil v) && negb (is_nil carry) then Some (mkSc i (Tail (y ++ f) []) carry true t (b ++ [PreComposition]) st) else None
      | None, None => None
      end
  end.
Lemma capital_key_spec n i y v t b st l S' : kana_mode i -> y <> [] -> length b < 20 -> capital_key i y v t b st l = Some S' ->
  session X r cr kf am cf ids n (mkSc i (Reading PreComposition y) v false t b st) [press (l - 32)%N] S'.
Proof.
  intros Hi Hy Hb. unfold capital_key.
  assert (Hlate : (if negb (late_b X r cr i PreComposition v l) then None else
      match next_of X r (v ++ [l]), entry_of X r (v ++ [l]) with
      | Some _, _ => Some (mkSc i (Tail y []) (v ++ [l]) true t (b ++ [PreComposition]) st)
      | None, Some (f, carry) => if negb (is_nil v) && negb (is_nil carry) then Some (mkSc i (Tail (y ++ f) []) carry true t (b ++ [PreComposition]) st) else None
      | None, None => None
      end) = Some S' -> session X r cr kf am cf ids n (mkSc i (Reading PreComposition y) v false t b st) [press (l - 32)%N] S').
  { destruct (late_b X r cr i PreComposition v l) eqn:El; [|discriminate]. cbn [negb]. apply late_b_spec in El.
    destruct (next_of X r (v ++ [l])) as [x|] eqn:En; [intros [= <-]; apply next_of_some in En; eapply o_late; eauto|].
    destruct (entry_of X r (v ++ [l])) as [[f carry]|] eqn:Ee; [|discriminate]. destruct (_ && _) eqn:E; [|discriminate]. intros [= <-].
    apply andb_prop in E as [E1 E2]. apply negb_true_iff in E1, E2. apply is_nil_false in E1, E2.
    apply (o_double X r cr kf am cf ids n i y v t b st l f carry); [exact Hi|exact Hy|exact E1|exact El|now apply entry_of_spec|now apply next_of_none|exact E2|exact Hb]. }
  destruct (shift_of X r cr i PreComposition v [l]) as [f|] eqn:Ef; [|exact Hlate]. destruct (next_of X r [l]) as [x|] eqn:En; [|exact Hlate]. clear Hlate.
  intros [= <-]. apply shift_of_spec in Ef. apply next_of_some in En. exact (o_begin X r cr kf am cf ids n i y v t b st l x f _ Hi Hy En Ef Hb).
Qed.
(* one key in a reading *)
Definition reading_key (i : imode) (c : cmode) (y : str) (v : list N) (cap : bool) (t : str) (b : list cmode) (st : list dict) (k : keyev) : option scene :=
  if negb (word_mode_b c) then None else
  if outside_b X r v k && negb (match kind_at c i k with KOther => true | _ => false end) then
    match kind_at c i k with
    | KDelete =>
        if is_nil v then if is_nil y then if cap then None else Some (mkSc i Idle [] false t b st) else Some (mkSc i (Reading c (removelast y)) [] cap t b st)
        else Some (mkSc i (Reading c y) (removelast v) cap t b st)
    | KFinish => Some (mkSc i (Reading c y) v cap t b st)
    | KConfirmForced i1 i2 => Some (mkSc i Idle [] false (t ++ in_form kf am i2 (y ++ extra_of X r v)) [] st)
    | KConfirmAs i2 => Some (mkSc i Idle [] false (t ++ in_form kf am i2 y) [] st)
    | KGiveUp =>
        if is_nil b then None else
        match last b Direct with
        | Direct => Some (mkSc i Idle [] false t (removelast b) st)
        | m => match resumed m with Some c' => Some (mkSc i (Reading c' []) [] false t (removelast b) st) | None => None end
        end
    | KComplete =>
        let '(extra, v') := force_of v in
        match complete_of st (mkCK (y ++ extra) None) with
        | Some [] => Some (mkSc i (Reading c (y ++ extra)) v' cap t b st)
        | Some cs => if Nat.ltb (length b) 20 then Some (mkSc i (Choosing Completion (mkCK (y ++ extra) None) [] cs 0) v' cap t (b ++ [c]) st) else None
        | None => None
        end
    | _ => None
    end
  else if negb (N.eqb (kmods k) 0) then None else
    match c with
    | PreComposition =>
        if negb (kana_mode_b i) then None else
        if N.leb 65 (ksym k) && N.leb (ksym k) 90 then
          if negb cap && negb (is_nil y) && Nat.ltb (length b) 20 then capital_key i y v t b st (ksym k + 32) else None
        else
          match spell X r cr kf cf i PreComposition false v [ksym k] with
          | Some (ps, v') => if calm_b y (concat ps) then Some (mkSc i (Reading PreComposition (y ++ concat ps)) v' (cap && (negb (is_nil v') || false)) t b st) else None
          | None => None
          end
    | _ => match char_of k with
           | Some ch => if is_nil v && negb cap && unbound_b cr i Abbreviation (ksym k) then Some (mkSc i (Reading Abbreviation (y ++ [ch])) [] false t b st) else None
           | None => None
           end
    end.
Lemma snoc_of {A} (l : list A) d : is_nil l = false -> l = removelast l ++ [last l d].
Proof. intros H. apply app_removelast_last. now destruct l. Qed.
Lemma reading_key_spec n i c y v cap t b st k S' : reading_key i c y v cap t b st k = Some S' ->
  session X r cr kf am cf ids n (mkSc i (Reading c y) v cap t b st) [OKey k] S'.
Proof.
  unfold reading_key. destruct (word_mode_b c) eqn:Ec; [|discriminate]. cbn [negb]. apply word_mode_b_spec in Ec.
  destruct (outside_b X r v k && negb (match kind_at c i k with KOther => true | _ => false end)) eqn:E0.
  - apply andb_prop in E0 as [Ho _]. apply outside_b_spec in Ho.
    destruct (kind_at c i k) eqn:Ek; try discriminate; apply kind_at_spec in Ek; try discriminate; cbn [list_of] in Ek.
    + destruct (is_nil v) eqn:Ev.
      * apply is_nil_true in Ev as ->. destruct (is_nil y) eqn:Ey.
        -- apply is_nil_true in Ey as ->. destruct cap; [discriminate|]. intros [= <-]. now apply r_leave.
        -- intros [= <-]. destruct (snoc_last y Ey) as (y0 & x & -> & ->). now apply r_erase.
      * intros [= <-]. destruct (snoc_last v Ev) as (v0 & x & -> & ->). now apply r_erase_key.
    + intros [= <-]. now apply r_ignore.
    + intros [= <-]. destruct (extra_of_spec X r v) as [v' Hv]. eapply r_confirm; eauto.
    + intros [= <-]. eapply r_confirm_plain; eauto.
    + destruct (is_nil b) eqn:Eb; [discriminate|]. intros H. rewrite (snoc_of b Direct Eb). remember (removelast b) as b0. remember (last b Direct) as m. clear Heqb0 Heqm Eb b.
      destruct m; try discriminate; cbn [resumed] in H; injection H as <-; try (now apply r_give_up); eapply r_give_up_to; eauto; constructor.
    + destruct (force_of v) as [extra v'] eqn:Ef. pose proof (force_of_spec v) as Hf. rewrite Ef in Hf. cbn [fst snd] in Hf.
      destruct (complete_of st (mkCK (y ++ extra) None)) as [[|c0 cs]|] eqn:Eo; [| |discriminate]; apply complete_of_spec in Eo.
      * intros [= <-]. eapply r_complete_none; eauto.
      * destruct (Nat.ltb_spec (length b) 20) as [Hb|]; [|discriminate]. intros [= <-]. eapply r_complete; eauto. discriminate.
  - destruct (N.eqb_spec (kmods k) 0) as [Em|]; [|discriminate]. cbn [negb].
    assert (Hk : k = mkKey (ksym k) 0) by (destruct k; cbn in *; now subst).
    destruct Ec as [->| ->].
    + destruct (kana_mode_b i) eqn:E1; [|discriminate]. apply kana_mode_b_spec in E1. cbn [negb].
      destruct (N.leb 65 (ksym k) && N.leb (ksym k) 90).
      { destruct (negb cap && negb (is_nil y) && Nat.ltb (length b) 20) eqn:E; [|discriminate]. apply andb_prop in E as [E E4]. apply andb_prop in E as [E2 E3]. destruct cap; [discriminate|].
        apply negb_true_iff in E3. apply is_nil_false in E3. apply Nat.ltb_lt in E4. intros H. apply (capital_key_spec n) in H; [|exact E1|exact E3|exact E4].
        unfold press in H. replace (ksym k + 32 - 32)%N with (ksym k) in H by lia. rewrite <- Hk in H. exact H. }
      destruct (spell X r cr kf cf i PreComposition false v [ksym k]) as [[ps v']|] eqn:Es; [|discriminate].
      destruct (calm_b y (concat ps)) eqn:Ecalm; [|discriminate]. intros [= <-]. apply spell_spec in Es. apply calm_b_spec in Ecalm.
      pose proof (r_kana X r cr kf am cf ids n i y v cap t b st _ v' ps E1 Es Ecalm) as H. cbn [map is_nil] in H. unfold press in H. rewrite <- Hk in H. exact H.
    + destruct (char_of k) as [ch|] eqn:Ech; [|discriminate]. apply char_of_spec in Ech as [Hty _].
      destruct (is_nil v && negb cap && unbound_b cr i Abbreviation (ksym k)) eqn:E; [|discriminate]. apply andb_prop in E as [E E3]. apply andb_prop in E as [E1 E2].
      apply is_nil_true in E1 as ->. destruct cap; [discriminate|]. apply unbound_b_spec in E3. rewrite <- Hk in E3. intros [= <-].
      apply (r_letters X r cr kf am cf ids n i y t b st [k] [ch]); now constructor.
Qed.
(* one key in the okurigana *)
Definition tail_key (i : imode) (y o : str) (v : list N) (cap : bool) (t : str) (b : list cmode) (st : list dict) (k : keyev) : option scene :=
  if outside_b X r v k && negb (match kind_at PreCompositionOkurigana i k with KOther => true | _ => false end) then
    match kind_at PreCompositionOkurigana i k with
    | KDelete =>
        if is_nil v then None else
        if is_nil (removelast v) && is_nil o then Some (mkSc i (Reading PreComposition y) [] cap t b st) else Some (mkSc i (Tail y o) (removelast v) cap t b st)
    | KFinish => Some (mkSc i (Tail y o) v cap t b st)
    | KConfirmForced i1 i2 => Some (mkSc i Idle [] false (t ++ in_form kf am i2 y) [] st)
    | KConfirmAs i2 => Some (mkSc i Idle [] false (t ++ in_form kf am i2 y) [] st)
    | KGiveUp =>
        if is_nil b || is_nil (removelast b) || negb (cmode_eqb (last b Direct) PreComposition) then None else
        match last (removelast b) Direct with
        | Direct => Some (mkSc i Idle [] false t (removelast (removelast b)) st)
        | m => match resumed m with Some c' => Some (mkSc i (Reading c' []) [] false t (removelast (removelast b)) st) | None => None end
        end
    | _ => None
    end
  else if negb (N.eqb (kmods k) 0) || negb (kana_mode_b i) then None else
    match spell X r cr kf cf i PreCompositionOkurigana true v [ksym k] with
    | Some (ps, v') => if negb (is_nil v') && (is_nil ps || negb (is_nil (o ++ concat ps))) then Some (mkSc i (Tail y (o ++ concat ps)) v' cap t b st) else None
    | None => None
    end.
Lemma tail_key_spec n i y o v cap t b st k S' : tail_key i y o v cap t b st k = Some S' ->
  session X r cr kf am cf ids n (mkSc i (Tail y o) v cap t b st) [OKey k] S'.
Proof.
  unfold tail_key.
  destruct (outside_b X r v k && negb (match kind_at PreCompositionOkurigana i k with KOther => true | _ => false end)) eqn:E0.
  - apply andb_prop in E0 as [Ho _]. apply outside_b_spec in Ho.
    destruct (kind_at PreCompositionOkurigana i k) eqn:Ek; try discriminate; apply kind_at_spec in Ek; try discriminate; cbn [list_of] in Ek.
    + destruct (is_nil v) eqn:Ev; [discriminate|]. destruct (snoc_last v Ev) as (v0 & x & -> & E). rewrite E. clear Ev E. destruct (is_nil v0 && is_nil o) eqn:E; intros [= <-].
      * apply andb_prop in E as [E1 E2]. apply is_nil_true in E1 as ->. apply is_nil_true in E2 as ->. now apply o_erase_last.
      * apply o_erase_key; [exact Ek|exact Ho|]. apply andb_false_iff in E as [E|E]; apply is_nil_false in E; auto.
    + intros [= <-]. now apply o_ignore.
    + intros [= <-]. eapply o_confirm; eauto.
    + intros [= <-]. eapply o_confirm_plain; eauto.
    + destruct (is_nil b || is_nil (removelast b) || negb (cmode_eqb (last b Direct) PreComposition)) eqn:Eb; [discriminate|].
      apply orb_false_elim in Eb as [Eb E3]. apply orb_false_elim in Eb as [E1 E2]. apply negb_false_iff in E3. apply cmode_is in E3.
      intros H. rewrite (snoc_of b Direct E1), E3, (snoc_of (removelast b) Direct E2). remember (removelast (removelast b)) as b0. remember (last (removelast b) Direct) as m.
      clear Heqb0 Heqm E1 E2 E3 b. rewrite <- app_assoc. cbn [app].
      destruct m; try discriminate; cbn [resumed] in H; injection H as <-; try (now apply o_give_up); eapply o_give_up_to; eauto; constructor.
  - destruct (negb (N.eqb (kmods k) 0) || negb (kana_mode_b i)) eqn:E; [discriminate|]. apply orb_false_elim in E as [Em Ei]. apply negb_false_iff in Em, Ei.
    apply N.eqb_eq in Em. apply kana_mode_b_spec in Ei. assert (Hk : k = mkKey (ksym k) 0) by (destruct k; cbn in *; now subst).
    destruct (spell X r cr kf cf i PreCompositionOkurigana true v [ksym k]) as [[ps v']|] eqn:Es; [|discriminate]. destruct (negb (is_nil v') && (is_nil ps || negb (is_nil (o ++ concat ps)))) eqn:E; [|discriminate]. intros [= <-].
    apply andb_prop in E as [E1 E2]. apply negb_true_iff in E1. apply is_nil_false in E1. apply spell_spec in Es.
    assert (Hps : ps <> [] -> o ++ concat ps <> []).
    { intros Hn. apply orb_prop in E2 as [E2|E2]; [apply is_nil_true in E2; contradiction|]. apply negb_true_iff in E2. now apply is_nil_false. }
    pose proof (o_kana X r cr kf am cf ids n i y o v cap t b st _ v' ps Ei E1 Es Hps) as H. cbn [map] in H. unfold press in H. rewrite <- Hk in H. exact H.
Qed.
(* one key among candidates *)
Definition list_mode_b (m : cmode) : bool := match m with CompositionSelection | Completion => true | _ => false end.
Lemma list_mode_b_spec m : list_mode_b m = true -> list_mode m.
Proof. unfold list_mode. destruct m; auto; discriminate. Qed.
Definition list_key (i : imode) (m : cmode) (key : ckey) (o : str) (cs : list candidate) (j : nat) (v : list N) (cap : bool) (t : str) (b : list cmode) (st : list dict) (k : keyev) : option scene :=
  if negb (list_mode_b m) then None else
  match nth_error cs j with
  | None => None
  | Some c =>
    let t1 := t ++ c_output c ++ adjust_kana_string kf i o in
    let st1 := taught ids c st in
    match kind_at m i k with
    | KAsk => if cmode_eqb m CompositionSelection && Nat.ltb (S j) (length cs) then Some (mkSc i (Choosing m key o cs (S j)) v cap t b st) else None
    | KPrevious =>
        if negb (cmode_eqb m CompositionSelection) then None else
        match j with
        | O => if Nat.ltb (length b) 20 then Some (mkSc i (Reading PreComposition (ck_to key ++ o)) v cap t (b ++ [CompositionSelection]) st) else None
        | S j' => Some (mkSc i (Choosing m key o cs j') v cap t b st)
        end
    | KForward => Some (mkSc i (Choosing m key o cs (if Nat.ltb (S j) (length cs) then S j else j)) v cap t b st)
    | KBackward => Some (mkSc i (Choosing m key o cs (j - 1)) v cap t b st)
    | KAbort => if is_nil b then None else
        match resumed (last b Direct) with Some c' => Some (mkSc i (Reading c' (ck_to key ++ o)) [] false t (removelast b) st) | None => None end
    | KConfirm | KConfirmDirect' => Some (mkSc i Idle [] false t1 [] st1)
    | KConfirmMode i1 => Some (mkSc i1 Idle [] false t1 [] st1)
    | KConfirmErase => if is_nil t1 then None else Some (mkSc i Idle [] false (removelast t1) [] st1)
    | KPurge => Some (mkSc i Idle [] false [] [] (purged ids key c st))
    | KOther =>
        match char_of k with
        | Some _ => if is_nil v && unbound_b cr i m (ksym k) && unbound_b cr i Direct (ksym k) then idle_key i [] t1 [] st1 k else None
        | None => None
        end
    | _ => None
    end
  end.
Lemma list_key_spec n i m key o cs j v cap t b st k S' : list_key i m key o cs j v cap t b st k = Some S' ->
  session X r cr kf am cf ids n (mkSc i (Choosing m key o cs j) v cap t b st) [OKey k] S'.
Proof.
  unfold list_key. destruct (list_mode_b m) eqn:Em; [|discriminate]. apply list_mode_b_spec in Em. cbn [negb].
  destruct (nth_error cs j) as [c|] eqn:Ec; [|discriminate]. cbv zeta. set (t1 := t ++ c_output c ++ adjust_kana_string kf i o).
  destruct (kind_at m i k) eqn:Ek; try discriminate; try (apply kind_at_spec in Ek; [|discriminate]; cbn [list_of] in Ek).
  - destruct (cmode_eqb m CompositionSelection && Nat.ltb (S j) (length cs)) eqn:E; [|discriminate]. apply andb_prop in E as [E1 E2].
    assert (m = CompositionSelection) as -> by (destruct Em as [->| ->]; [reflexivity|discriminate]). apply Nat.ltb_lt in E2. intros [= <-]. now apply c_next.
  - destruct (cmode_eqb m CompositionSelection) eqn:E; [|discriminate]. cbn [negb].
    assert (m = CompositionSelection) as -> by (destruct Em as [->| ->]; [reflexivity|discriminate]).
    destruct j as [|j']; [destruct (Nat.ltb_spec (length b) 20); [|discriminate]|]; intros [= <-]; [now apply c_back|now apply c_previous].
  - intros [= <-]. now apply c_forward.
  - intros [= <-]. now apply c_backward.
  - destruct (is_nil b) eqn:Eb; [discriminate|]. destruct (resumed (last b Direct)) as [c'|] eqn:Er; [|discriminate]. intros [= <-]. apply resumed_spec in Er.
    rewrite (snoc_of b Direct Eb) at 1. now eapply c_cancel; eauto.
  - intros [= <-]. eapply c_confirm; eauto. constructor.
  - intros [= <-]. eapply c_confirm; eauto. constructor.
  - intros [= <-]. eapply c_confirm; eauto. constructor.
  - destruct (is_nil t1) eqn:Et; [discriminate|]. intros [= <-]. eapply c_confirm; eauto. destruct (snoc_last t1 Et) as (t0 & x & E1 & ->). econstructor. exact E1.
  - intros [= <-]. eapply c_purge; eauto.
  - destruct (char_of k) as [ch|] eqn:Ech; [|discriminate]. apply char_of_spec in Ech as [Hty Hk].
    destruct (is_nil v && unbound_b cr i m (ksym k) && unbound_b cr i Direct (ksym k)) eqn:E; [|discriminate]. apply andb_prop in E as [E E3]. apply andb_prop in E as [E1 E2].
    apply is_nil_true in E1 as ->. apply unbound_b_spec in E2, E3. rewrite <- Hk in E2, E3. intros H. apply (idle_key_spec n) in H. eapply c_go_on; eauto.
Qed.
(* asking *)
Inductive look := LKey (k : keyev) | LOkuri (keys : list N) | LLate (l : N) (rest : list N) | LAuto (k : N) | LTail (keys : list N).
Definition writes_of (i : imode) (v : list N) (k : N) : option str :=
  match next_of X r (v ++ [k]) with
  | Some _ => None
  | None =>
    match entry_of X r (v ++ [k]) with
    | Some (t, []) => Some t
    | Some _ => None
    | None => if completable_b X r (v ++ [k]) || completable_b X r [k] then None else
              match sign_of X cr kf cf i PreComposition k with Some t1 => Some (extra_of X r v ++ t1) | None => None end
    end
  end.
Lemma writes_of_spec i v k t : writes_of i v k = Some t -> writes X r cr kf cf i v k t.
Proof.
  unfold writes_of. destruct (next_of X r (v ++ [k])) eqn:En; [discriminate|]. destruct (entry_of X r (v ++ [k])) as [[t0 [|? ?]]|] eqn:Ee; [|discriminate|].
  - intros [= <-]. left. split; [now apply entry_of_spec|now apply next_of_none].
  - destruct (completable_b X r (v ++ [k]) || completable_b X r [k]) eqn:Ec; [discriminate|]. apply orb_false_elim in Ec as [E1 E2].
    destruct (sign_of X cr kf cf i PreComposition k) as [t1|] eqn:Et; [|discriminate]. intros [= <-]. right. destruct (extra_of_spec X r v) as [v' Hv].
    exists (extra_of X r v), v', t1. split; [exact Hv|]. split; [now apply completable_b_spec|]. split; [now apply completable_b_spec|]. split; [now apply sign_of_spec|reflexivity].
Qed.
Lemma matching_first kws t kw : matching_keyword kws t = Some kw -> exists body, t = body ++ kw /\ T_Auto.first_keyword kws body kw.
Proof.
  unfold matching_keyword. intros H. assert (H0 := H). apply find_some in H0 as [_ H0]. apply andb_prop in H0 as [H1 H2]. apply is_suffixb_spec in H2 as [body ->].
  exists body. split; [reflexivity|]. split; [intros ->; cbn [app] in H1; rewrite str_eqb_refl in H1; discriminate|].
  induction kws as [|k0 kws IH]; [discriminate|]. cbn [find] in H. destruct (negb (str_eqb (body ++ kw) k0) && is_suffixb k0 (body ++ kw)) eqn:E.
  - injection H as ->. exists [], kws. split; [reflexivity|]. intros ? [].
  - destruct (IH H) as (bef & aft & -> & Hb). exists (k0 :: bef), aft. split; [reflexivity|]. intros kw' [<-|Hin]; [|now apply Hb].
    intros kw1 [<-|[]] Hne p Hp. apply andb_false_iff in E as [E|E].
    + apply negb_false_iff in E. apply str_eqb_eq in E. congruence.
    + assert (is_suffixb k0 (body ++ kw) = true) by (apply is_suffixb_spec; eauto). congruence.
Qed.
Definition look_of (i : imode) (v : list N) (cap : bool) (ph : phase) (l : look) : option (list op * ckey * str * list N * bool * list cmode) :=
  match l, ph with
  | LKey k, Reading c y =>
      let '(extra, v') := force_of v in
      match kind_at c i k with
      | KAsk => if outside_b X r v k then Some ([OKey k], mkCK (y ++ extra) None, [], v', cap, [c]) else None
      | _ => None
      end
  | LOkuri keys, Reading PreComposition y =>
      match spell X r cr kf cf i PreCompositionOkurigana true [] keys, shift_of X r cr i PreComposition v keys with
      | Some (ps, []), Some f =>
          if negb cap && negb (is_nil y) && negb (is_nil (concat ps)) then
            Some (map press (caps keys), mkCK (y ++ f) (Some (concat ps)), concat ps, [], false, [PreComposition; PreCompositionOkurigana])
          else None
      | _, _ => None
      end
  | LLate l rest, Reading PreComposition y =>
      match late_okuri_of X r cr kf cf i v l rest with
      | Some (f, ps) =>
          if negb cap && negb (is_nil y) && negb (is_nil (concat ps)) then
            Some (map press ((l - 32)%N :: rest), mkCK (y ++ f) (Some (concat ps)), concat ps, [], false, [PreComposition; PreCompositionOkurigana])
          else None
      | None => None
      end
  | LAuto k, Reading PreComposition y =>
      match writes_of i v k with
      | Some t => match matching_keyword (cf_auto cf) (y ++ t) with
                  | Some kw => Some ([press k], mkCK (firstn (length (y ++ t) - length kw) (y ++ t)) None, kw, [], false, [PreComposition])
                  | None => None
                  end
      | None => None
      end
  | LKey k, Tail y o =>
      let '(extra, v') := force_of v in
      match kind_at PreCompositionOkurigana i k with
      | KAsk => if outside_b X r v k && (negb (is_nil (o ++ extra)) || match entry_of X r v with Some _ => false | None => true end)
                then Some ([OKey k], okuri_key y (o ++ extra), o ++ extra, v', cap, [PreCompositionOkurigana]) else None
      | _ => None
      end
  | LTail keys, Tail y o =>
      match spell X r cr kf cf i PreCompositionOkurigana true v keys with
      | Some (ps, []) => if negb (is_nil keys) && negb (is_nil (o ++ concat ps)) then Some (map press keys, mkCK y (Some (o ++ concat ps)), o ++ concat ps, [], false, [PreCompositionOkurigana]) else None
      | _ => None
      end
  | _, _ => None
  end.
Lemma look_of_spec i v cap ph l ops key o v' cap' p : look_of i v cap ph l = Some (ops, key, o, v', cap', p) ->
  looks_up X r cr kf cf i v cap ph ops key o v' cap' p.
Proof.
  destruct ph as [|c y|y o0|]; [destruct l; discriminate| | |destruct l; discriminate].
  - assert (Hkey : forall k, look_of i v cap (Reading c y) (LKey k) = Some (ops, key, o, v', cap', p) -> looks_up X r cr kf cf i v cap (Reading c y) ops key o v' cap' p).
    { intros k. cbn [look_of]. destruct (force_of v) as [extra v2] eqn:Ef. pose proof (force_of_spec v) as Hf. rewrite Ef in Hf. cbn [fst snd] in Hf.
      destruct (kind_at c i k) eqn:Ek; try discriminate. apply kind_at_spec in Ek; [|discriminate]. destruct (outside_b X r v k) eqn:Eo; [|discriminate].
      intros [= <- <- <- <- <- <-]. apply outside_b_spec in Eo. eapply by_key; eauto. }
    destruct l as [k|keys|l rest|k|keys]; [apply Hkey|..]; clear Hkey; (destruct c; try discriminate); cbn [look_of].
    + destruct (spell X r cr kf cf i PreCompositionOkurigana true [] keys) as [[ps [|? ?]]|] eqn:E1; try discriminate.
      destruct (shift_of X r cr i PreComposition v keys) as [f|] eqn:E2; [|discriminate].
      match goal with |- context [if ?x then _ else _] => destruct x eqn:E end; [|discriminate]. intros [= <- <- <- <- <- <-].
      apply andb_prop in E as [E A4]. apply andb_prop in E as [A2 A3].
      destruct cap; [discriminate|]. apply negb_true_iff in A3, A4. apply is_nil_false in A3, A4.
      apply spell_spec in E1. apply shift_of_spec in E2. eapply by_okuri; eauto.
    + destruct (late_okuri_of X r cr kf cf i v l rest) as [[f ps]|] eqn:E1; [|discriminate].
      match goal with |- context [if ?x then _ else _] => destruct x eqn:E end; [|discriminate]. intros H. injection H as <- <- <- <- <- <-.
      apply andb_prop in E as [E A4]. apply andb_prop in E as [A2 A3].
      destruct cap; [discriminate|]. apply negb_true_iff in A3, A4. apply is_nil_false in A3, A4.
      apply late_okuri_of_spec in E1. eapply by_late_okuri; eauto.
    + destruct (writes_of i v k) as [t|] eqn:Ew; [|discriminate]. apply writes_of_spec in Ew. destruct (matching_keyword (cf_auto cf) (y ++ t)) as [kw|] eqn:Em; [|discriminate].
      apply matching_first in Em as (body & Eb & Hk). intros [= <- <- <- <- <- <-].
      assert (Ef : firstn (length (y ++ t) - length kw) (y ++ t) = body).
      { rewrite Eb, app_length. replace (length body + length kw - length kw) with (length body) by lia. now rewrite firstn_app, Nat.sub_diag, firstn_all, firstn_O, app_nil_r. }
      rewrite Ef. eapply by_keyword; eauto.
  - destruct l as [k|keys|l rest|k|keys]; try discriminate; cbn [look_of].
    + destruct (force_of v) as [extra v2] eqn:Ef. pose proof (force_of_spec v) as Hf. rewrite Ef in Hf. cbn [fst snd] in Hf.
      destruct (kind_at PreCompositionOkurigana i k) eqn:Ek; try discriminate. apply kind_at_spec in Ek; [|discriminate]. destruct (_ && _) eqn:E; [|discriminate].
      apply andb_prop in E as [Eo E]. intros [= <- <- <- <- <- <-]. apply outside_b_spec in Eo. eapply by_tail_key; [exact Ek|exact Eo|exact Hf|].
      intros En. rewrite En in E. cbn [is_nil negb orb] in E. destruct (entry_of X r v) eqn:Ee; [discriminate|]. now apply entry_of_none.
    + destruct (spell X r cr kf cf i PreCompositionOkurigana true v keys) as [[ps [|? ?]]|] eqn:E1; try discriminate.
      destruct (_ && _) eqn:E; [|discriminate]. intros [= <- <- <- <- <- <-]. apply andb_prop in E as [A1 A2]. apply negb_true_iff in A1, A2. apply is_nil_false in A1, A2.
      apply spell_spec in E1. now apply by_tail.
Qed.
(* a whole script *)
Inductive act :=
| AKey (k : keyev)
| AAsk (l : look)
| ARegister (l : look) (inside : list act) (k : keyev)
| ABehind (next : keyev) (inside : list act) (k : keyev).
Definition takes (i3 : imode) (v3 : list N) (t3 : str) (k : keyev) : bool :=
  kana_outside i3 v3 k && is_nil v3 && negb (is_nil t3) && Nat.eqb (numeric_entry_count t3) 0 && match kind_at Direct i3 k with KTake => true | _ => false end.
Definition refuses_b (i3 : imode) (v3 : list N) (t3 : str) (k : keyev) : bool :=
  kana_outside i3 v3 k && match kind_at Direct i3 k with KAbort => true | KTake => is_nil t3 | _ => false end.
Lemma takes_spec i3 v3 t3 k : takes i3 v3 t3 k = true ->
  v3 = [] /\ t3 <> [] /\ numeric_entry_count t3 = 0 /\ commands cr Direct i3 k [IConfirmDirect] /\ (kana_mode i3 -> outside X r [] k).
Proof.
  unfold takes. intros H. apply andb_prop in H as [H H4]. apply andb_prop in H as [H H3]. apply andb_prop in H as [H H2]. apply andb_prop in H as [H H1].
  apply is_nil_true in H1 as ->. split; [reflexivity|]. split; [now destruct t3|]. split; [now apply Nat.eqb_eq|]. split; [|now apply kana_outside_spec].
  destruct (kind_at Direct i3 k) eqn:E; try discriminate. now apply kind_at_spec in E.
Qed.
Lemma refuses_b_spec i3 v3 t3 k : refuses_b i3 v3 t3 k = true -> refuses cr i3 t3 k /\ (kana_mode i3 -> outside X r v3 k).
Proof.
  unfold refuses_b. intros H. apply andb_prop in H as [H H1]. split; [|now apply kana_outside_spec].
  destruct (kind_at Direct i3 k) eqn:E; try discriminate; apply kind_at_spec in E; try discriminate; [now left|right]. apply is_nil_true in H1. auto.
Qed.
Fixpoint follow (fuel : nat) (n : nat) (S : scene) (l : list act) : option (list op * scene) :=
  match fuel, l with
  | O, _ => None
  | Datatypes.S fuel, [] => Some ([], S)
  | Datatypes.S fuel, a :: l =>
    let '(mkSc i ph v cap t b st) := S in
    let one := match a with
      | AKey k =>
          match (match ph with Idle => if cap then None else idle_key i v t b st k | Reading c y => reading_key i c y v cap t b st k | Tail y o => tail_key i y o v cap t b st k
                             | Choosing m key o cs j => list_key i m key o cs j v cap t b st k end) with
          | Some S' => Some ([OKey k], S')
          | None => None
          end
      | AAsk q =>
          match look_of i v cap ph q with
          | Some (ops, key, o, v', cap', p) =>
              match offers ids st key with
              | Some cs => if kana_mode_b i && negb (is_nil cs) && Nat.leb (length (b ++ p)) 20 then Some (ops, mkSc i (Choosing CompositionSelection key o cs 0) v' cap' t (b ++ p) st) else None
              | None => None
              end
          | None => None
          end
      | ARegister q inside k =>
              match look_of i v cap ph q with
              | Some (ops, key, o, v', cap', p) =>
                  match offers ids st key, follow fuel (Datatypes.S n) (mkSc Hiragana Idle [] false [] [] st) inside with
                  | Some [], Some (ops3, mkSc i3 Idle v3 false t3 b3 st3) =>
                      if kana_mode_b i && negb (is_nil (ck_to key)) && Nat.ltb n 10 then
                        if takes i3 v3 t3 k then Some (ops ++ ops3 ++ [OKey k], mkSc i Idle [] false (t ++ t3 ++ adjust_kana_string kf i o) [] (taught ids (new_word key o t3) st3))
                        else if refuses_b i3 v3 t3 k && Nat.leb (length (b ++ p)) 20 && negb (is_nil p) && (cmode_eqb (last p Direct) PreCompositionOkurigana || is_nil o) then
                          match resumed (last p Direct) with
                          | Some c' => Some (ops ++ ops3 ++ [OKey k], mkSc i (Reading c' (ck_to key ++ o)) v' cap' t (b ++ removelast p) st3)
                          | None => None
                          end
                        else None
                      else None
                  | _, _ => None
                  end
              | None => None
              end
      | ABehind next inside k =>
          match ph with
          | Choosing CompositionSelection key o cs j =>
              match kind_at CompositionSelection i next, follow fuel (Datatypes.S n) (mkSc Hiragana Idle [] false [] [] st) inside with
              | KAsk, Some (ops3, mkSc i3 Idle v3 false t3 b3 st3) =>
                  if Nat.eqb (Datatypes.S j) (length cs) && Nat.ltb n 10 then
                    if takes i3 v3 t3 k then Some (OKey next :: ops3 ++ [OKey k], mkSc i Idle [] false (t ++ t3 ++ adjust_kana_string kf i o) [] (taught ids (new_word key o t3) st3))
                    else if refuses_b i3 v3 t3 k && Nat.ltb (length b) 20 then Some (OKey next :: ops3 ++ [OKey k], mkSc i (Choosing CompositionSelection key o cs j) v cap t b st3)
                    else None
                  else None
              | _, _ => None
              end
          | _ => None
          end
      end in
    match one with
    | Some (o1, S1) => match follow fuel n S1 l with Some (o2, S2) => Some (o1 ++ o2, S2) | None => None end
    | None => None
    end
  end.
Lemma follow_spec fuel : forall n S l ops S', follow fuel n S l = Some (ops, S') -> session X r cr kf am cf ids n S ops S'.
Proof.
  induction fuel as [|fuel IH]; [discriminate|]. intros n S l ops S' H. destruct l as [|a l]; cbn [follow] in H; [injection H as <- <-; constructor|].
  destruct S as [i ph v cap t b st]. cbv zeta in H.
  match type of H with match ?one with _ => _ end = _ => assert (Hx : forall o1 S1, one = Some (o1, S1) -> session X r cr kf am cf ids n (mkSc i ph v cap t b st) o1 S1) end.
  { intros o1 S1 E. destruct a as [k|q|q inside k|next inside k].
    - destruct (match ph with Idle => if cap then None else idle_key i v t b st k | Reading c y => reading_key i c y v cap t b st k | Tail y o => tail_key i y o v cap t b st k
                             | Choosing m key o cs j => list_key i m key o cs j v cap t b st k end) as [S2|] eqn:E2; [|discriminate]. injection E as <- <-.
      destruct ph as [|c y|y o|m key o cs j]; [destruct cap; [discriminate|]; now apply idle_key_spec|now apply reading_key_spec|now apply tail_key_spec|now apply list_key_spec].
    - destruct (look_of i v cap ph q) as [[[[[[ops1 key] o] v'] cap'] p]|] eqn:El; [|discriminate].
      destruct (offers ids st key) as [cs|] eqn:Eo; [|discriminate]. destruct (kana_mode_b i && negb (is_nil cs) && Nat.leb (length (b ++ p)) 20) eqn:E3; [|discriminate].
      injection E as <- <-. apply andb_prop in E3 as [E3 B4]. apply andb_prop in E3 as [B1 B3].
      apply look_of_spec in El. apply offers_spec in Eo. apply Nat.leb_le in B4.
      eapply r_ask; [now apply kana_mode_b_spec|exact El|exact Eo|now destruct cs|exact B4].
    - destruct (look_of i v cap ph q) as [[[[[[ops1 key] o] v'] cap'] p]|] eqn:El; [|discriminate].
      destruct (offers ids st key) as [[|? ?]|] eqn:Eo; try discriminate.
      destruct (follow fuel (Datatypes.S n) (mkSc Hiragana Idle [] false [] [] st) inside) as [[ops3 [i3 [| | |] v3 [|] t3 b3 st3]]|] eqn:Ef; try discriminate. apply IH in Ef.
      destruct (kana_mode_b i && negb (is_nil (ck_to key)) && Nat.ltb n 10) eqn:E3; [|discriminate].
      apply andb_prop in E3 as [E3 B4]. apply andb_prop in E3 as [B1 B3]. apply Nat.ltb_lt in B4. apply negb_true_iff in B3. apply is_nil_false in B3.
      apply look_of_spec in El. apply offers_spec in Eo. apply kana_mode_b_spec in B1.
      destruct (takes i3 v3 t3 k) eqn:Et.
      + injection E as <- <-. apply takes_spec in Et as (-> & T1 & T2 & T3 & T4).
        eapply r_register; [exact B1|exact El|exact Eo|exact B3|exact B4|exact Ef|exact T1|exact T2|exact T3|exact T4].
      + destruct (refuses_b i3 v3 t3 k && Nat.leb (length (b ++ p)) 20 && negb (is_nil p) && (cmode_eqb (last p Direct) PreCompositionOkurigana || is_nil o)) eqn:E4; [|discriminate].
        apply andb_prop in E4 as [E4 A4]. apply andb_prop in E4 as [E4 A3]. apply andb_prop in E4 as [A1 A2]. apply negb_true_iff in A3. apply Nat.leb_le in A2. apply refuses_b_spec in A1 as [R1 R2].
        destruct (resumed (last p Direct)) as [c'|] eqn:Er; [|discriminate]. apply resumed_spec in Er. injection E as <- <-.
        rewrite (snoc_of p Direct A3) in El, A2. remember (removelast p) as p0. remember (last p Direct) as m. clear Heqp0 Heqm A3 p.
        eapply r_refuse; [exact B1|exact El|exact Eo|exact B3|exact B4|exact A2|exact Er| |exact Ef|exact R1|exact R2].
        intros Hm. apply orb_prop in A4 as [A4|A4]; [apply cmode_is in A4; congruence|now apply is_nil_true].
    - destruct ph as [| | |[] key o cs j]; try discriminate. destruct (kind_at CompositionSelection i next) eqn:Ek; try discriminate. apply kind_at_spec in Ek; [|discriminate]. cbn [list_of] in Ek.
      destruct (follow fuel (Datatypes.S n) (mkSc Hiragana Idle [] false [] [] st) inside) as [[ops3 [i3 [| | |] v3 [|] t3 b3 st3]]|] eqn:Ef; try discriminate. apply IH in Ef.
      destruct (Nat.eqb (Datatypes.S j) (length cs) && Nat.ltb n 10) eqn:E3; [|discriminate]. apply andb_prop in E3 as [B1 B2]. apply Nat.eqb_eq in B1. apply Nat.ltb_lt in B2.
      destruct (takes i3 v3 t3 k) eqn:Et.
      + injection E as <- <-. apply takes_spec in Et as (-> & T1 & T2 & T3 & T4). eapply c_register; [exact Ek|exact B1|exact B2|exact Ef|exact T1|exact T2|exact T3|exact T4].
      + destruct (refuses_b i3 v3 t3 k && Nat.ltb (length b) 20) eqn:E4; [|discriminate]. apply andb_prop in E4 as [A1 A2]. apply Nat.ltb_lt in A2. apply refuses_b_spec in A1 as [R1 R2].
        injection E as <- <-. eapply c_refuse; [exact Ek|exact B1|exact B2|exact A2|exact Ef|exact R1|exact R2]. }
  match type of H with match ?one with _ => _ end = _ => destruct one as [[o1 S1]|] eqn:E; [|discriminate] end. specialize (Hx _ _ eq_refl).
  destruct (follow fuel n S1 l) as [[o2 S2]|] eqn:E2; [|discriminate]. injection H as <- <-. apply IH in E2. eapply andthen; eauto.
Qed.
End Follow.

(** Met, by 105 keys under the shipped rule: okurigana begun, erased, finished after an erased key, given up, left away by C-j (the t
    is lost) and by the conversion key,
    typing and BackSpace, capitals pressed late, a word with x back to its reading, C-g, completion, okurigana, an abbreviation, purging,
    katakana and the other modes, refusing and making registrations, one inside the other. *)
Definition ascii_keys (s : str) : list act := map (fun c => AKey (mkKey c 0)) s.
Definition bs := AKey backspace_key.
Definition ctrl (c : N) := AKey (with_ctrl c).
Definition tab := AKey (mkKey 65289 0).
Definition spc := AKey space_key.
Definition ret_key := AKey return_key.
Definition tails : list act :=
  ascii_keys (U "KaK") ++ [bs] ++ ascii_keys (U "na") ++ [AAsk (LKey space_key)] ++ ascii_keys (U "KaKy") ++ [bs; AAsk (LTail (U "u"))]
  ++ ascii_keys (U "OkuT") ++ [ctrl 103] ++ ascii_keys (U "AiT") ++ [ctrl 106] ++ ascii_keys (U "AiTs") ++ [AAsk (LKey space_key); spc; ret_key].
Definition script : list act :=
  tails ++ ascii_keys (U "kakk") ++ [bs; bs] ++ ascii_keys (U "nnAi") ++ [AAsk (LKey space_key)] ++ ascii_keys (U " x ") ++ [ctrl 103] ++ [AAsk (LKey space_key)]
  ++ ascii_keys (U " ttekA") ++ [AAsk (LOkuri (U "ku"))] ++ ascii_keys (U "Kak") ++ [AAsk (LLate 117 [])] ++ ascii_keys (U "Kak") ++ [ARegister (LLate 107 (U "u")) (ascii_keys (U "ka")) (with_ctrl 103); ctrl 106] ++ ascii_keys (U "qkaqA") ++ [tab; AKey (mkKey 46 0); ret_key]
  ++ ascii_keys (U "Mi") ++ [ARegister (LKey space_key) (ascii_keys (U "ka")) (with_ctrl 103)] ++ ascii_keys (U "mi")
  ++ [ARegister (LKey space_key) (ascii_keys (U "Kana") ++ [AAsk (LKey space_key); ABehind space_key (ascii_keys (U "te")) return_key]) return_key]
  ++ ascii_keys (U "lab") ++ [ctrl 106] ++ ascii_keys (U "Ai") ++ [AAsk (LAuto 46)] ++ ascii_keys (U "x") ++ [bs] ++ ascii_keys (U "kak").
Definition demo_follow (n : nat) (l : list act) :=
  follow ascii_xkb default_rule (r_command default_rule) default_kana_form default_ascii_map (x_cfg (demo_ctx [0])) [0] 200 n (mkSc Hiragana Idle [] false [] [] [user_dict dic_small]) l.
Lemma follow_case X r cr kf am cf ids fuel n S l len ph v t : 
  option_map (fun x => (length (fst x), sc_phase (snd x), sc_keys (snd x), sc_text (snd x))) (follow X r cr kf am cf ids fuel n S l) = Some (len, ph, v, t) ->
  exists ops S', length ops = len /\ sc_phase S' = ph /\ sc_keys S' = v /\ sc_text S' = t /\ session X r cr kf am cf ids n S ops S'.
Proof.
  destruct (follow X r cr kf am cf ids fuel n S l) as [[ops S']|] eqn:E; [|discriminate]. cbn [option_map fst snd]. intros [= <- <- <- <-].
  exists ops, S'. do 4 (split; [reflexivity|]). exact (follow_spec _ _ _ _ _ _ _ _ _ _ _ _ _ E).
Qed.
Example C74_case : exists s ops S',
  distinct_keys ascii_xkb default_rule /\ rows_have_keys ascii_xkb default_rule
  /\ x_kb (w_ctx (demo [user_dict dic_small])) = kb_new ascii_xkb default_rule
  /\ frames (demo [user_dict dic_small]) = [s] /\ shows_scene (mkSc Hiragana Idle [] false [] [] [user_dict dic_small]) s
  /\ length ops = 105 /\ sc_phase S' = Reading PreComposition (U "あいか") /\ sc_keys S' = U "k" /\ sc_text S' = U "仮名書くあい哀かん愛って書く書くかっくカ哀てab"
  /\ session ascii_xkb default_rule (r_command default_rule) default_kana_form default_ascii_map (x_cfg (demo_ctx [0])) [0] 1
       (mkSc Hiragana Idle [] false [] [] [user_dict dic_small]) ops S'.
Proof.
  destruct (follow_case ascii_xkb default_rule (r_command default_rule) default_kana_form default_ascii_map (x_cfg (demo_ctx [0])) [0] 200 1
    (mkSc Hiragana Idle [] false [] [] [user_dict dic_small]) script 105 (Reading PreComposition (U "あいか")) (U "k") (U "仮名書くあい哀かん愛って書く書くかっくカ哀てab")) as (ops & S' & F1 & F2 & F3 & F4 & H);
    [vm_compute; reflexivity|].
  exists (st_new Hiragana Direct), ops, S'.
  split; [exact (proj1 C11_case)|]. split; [exact default_rows_have_keys|]. split; [reflexivity|]. split; [reflexivity|]. split; [apply new_scene|]. auto.
Qed.
(** Met: after み with the okurigana む, which has no candidate, 仮名 is chosen inside the brackets and k typed: the display
    is ▼み*む【仮名k】; a context shows so much after the keys M i M u K a n a space k. *)
Lemma looks_case X r cr kf cf i v cap ph l key o v' cap' p :
  option_map (fun x => (snd (fst (fst (fst (fst x)))), snd (fst (fst (fst x))), snd (fst (fst x)), snd (fst x), snd x)) (look_of X r cr kf cf i v cap ph l) = Some (key, o, v', cap', p) ->
  exists ops, looks_up X r cr kf cf i v cap ph ops key o v' cap' p.
Proof.
  destruct (look_of X r cr kf cf i v cap ph l) as [[[[[[ops k0] o0] v0] c0] p0]|] eqn:E; [|discriminate]. cbn [option_map fst snd]. intros [= <- <- <- <- <-].
  exists ops. exact (look_of_spec _ _ _ _ _ _ _ _ _ _ _ _ _ _ _ _ E).
Qed.
Example C74_registering_case : exists ops ops3 S3,
  opens ascii_xkb default_rule (r_command default_rule) default_kana_form (x_cfg (demo_ctx [0])) [0]
    (mkSc Hiragana (Reading PreComposition (U "み")) [] false [] [Direct] [user_dict dic_small]) ops (mkCK (U "み") (Some (U "む"))) (U "む")
  /\ session ascii_xkb default_rule (r_command default_rule) default_kana_form default_ascii_map (x_cfg (demo_ctx [0])) [0] 2
       (mkSc Hiragana Idle [] false [] [] [user_dict dic_small]) ops3 S3
  /\ sc_phase S3 = Idle /\ sc_text S3 = U "仮名" /\ sc_keys S3 = U "k"
  /\ option_map (fun x => get_preedit ascii_xkb (w_ctx (snd x))) (match typed false (U "M i M u K a n a space k") (demo [user_dict dic_small]) with Ok x => Some x | Panic _ => None end)
     = Some (U "▼み*む【仮名k】").
Proof.
  destruct (looks_case ascii_xkb default_rule (r_command default_rule) default_kana_form (x_cfg (demo_ctx [0])) Hiragana [] false (Reading PreComposition (U "み")) (LOkuri (U "mu"))
    (mkCK (U "み") (Some (U "む"))) (U "む") [] false [PreComposition; PreCompositionOkurigana]) as (ops & Hl); [vm_compute; reflexivity|].
  destruct (follow_case ascii_xkb default_rule (r_command default_rule) default_kana_form default_ascii_map (x_cfg (demo_ctx [0])) [0] 200 2
    (mkSc Hiragana Idle [] false [] [] [user_dict dic_small]) (ascii_keys (U "Kana") ++ [AAsk (LKey space_key)] ++ ascii_keys (U "k")) 6 Idle (U "k") (U "仮名")) as (ops3 & S3 & F1 & F2 & F3 & F4 & H);
    [vm_compute; reflexivity|].
  exists ops, ops3, S3. split; [|split; [exact H|split; [exact F2|split; [exact F4|split; [exact F3|vm_compute; reflexivity]]]]].
  eapply opens_asking; [now left|exact Hl|apply offers_spec; vm_compute; reflexivity|discriminate].
Qed.
