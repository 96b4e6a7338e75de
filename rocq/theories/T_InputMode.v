(** Property C90: the input mode changes only when asked. *)
From Coq Require Import Lia.
From Verif Require Import Str Keys Modes KanaBuilder FormChanger DictTypes Parser Lru Dictionary CState Context DefaultRule Demo Spec
  P_Monad P_Frames P_Inv P_Confirmed.

(* ------------------------------------------------------------- specification *)
(** The input modes of the frames, the current one first (get_input_mode answers the first). *)
Definition modes (w : world) : list imode := map s_imode (frames w).
(** From [l] to [l']: some frames were closed and others opened, all frames around them have the modes
    they had; the frame in between has its own mode or one of [P], those opened Hiragana or one of [P]. *)
Definition moved (P : imode -> Prop) (l l' : list imode) : Prop :=
  exists closed m opened m' rest, l = closed ++ m :: rest /\ l' = opened ++ m' :: rest
    /\ (m' = m \/ P m') /\ Forall (fun x => x = Hiragana \/ P x) opened.
Definition none (_ : imode) : Prop := False.
(** The modes a key asks for: those in the command list the rule binds to it in the current modes. *)
Definition changes_to (w : world) (k : keyev) (i : imode) : Prop :=
  exists s r l, frames w = s :: r /\ bound (x_cmd (w_ctx w)) (s_cmode s) (s_imode s) k l /\ In (IChangeInputMode i) l.
(** Calls that do not ask for another input mode. *)
Definition asks_nothing (o : op) (w : world) : Prop :=
  match o with
  | OSetInputMode _ => False
  | OKey k => forall i, ~ changes_to w k i
  | _ => True
  end.

(* -------------------------------------------------------------------- proofs *)
Lemma moved_refl P l : l <> [] -> moved P l l.
Proof. destruct l as [|m l]; [congruence|]. intros _. exists [], m, [], m, l. repeat split; auto. Qed.
Lemma delete_imode s : s_imode (snd (st_delete s)) = s_imode s.
Proof.
  unfold st_delete. destruct (s_cmode s); cbn; repeat match goal with |- context [if ?x then _ else _] => destruct x; cbn end; reflexivity.
Qed.
Lemma iter_imode n s : s_imode (Nat.iter n (fun s => snd (st_delete s)) s) = s_imode s.
Proof. induction n as [|n IH]; [reflexivity|]. cbn [Nat.iter nat_rect]. change (nat_rect _ _ _ n) with (Nat.iter n (fun s => snd (st_delete s)) s). now rewrite delete_imode. Qed.
Lemma step_imode fl dbg b s s' : astep fl dbg b s s' -> s_imode s' = s_imode s \/ fl_imode fl (s_imode s').
Proof.
  intros H; destruct H; auto; left; try reflexivity; try apply delete_imode; try apply iter_imode.
  all: try (unfold change_from_old_mode, abort_to_previous_mode, reset_to_default, push_string_for, set_candidate_pointer, clear_unconfirmed, clear_all;
    repeat (match goal with |- context [match ?x with _ => _ end] => destruct x end; cbn); reflexivity).
  unfold st_forward in H. destruct (cl_forward dbg (s_list s)); cbn in H; [|discriminate]. now injection H as <-.
Qed.
Lemma sstep_moved fl dbg b l l1 l2 : sstep fl dbg b l1 l2 -> moved (fl_imode fl) (map s_imode l) (map s_imode l1) -> moved (fl_imode fl) (map s_imode l) (map s_imode l2).
Proof.
  intros H (cl & m & op & m' & rest & E & E1 & Hm & Ho). destruct H as [s s' r H|s r prev _|s s' r|l0 s _].
  - cbn [map] in *. apply step_imode in H. destruct op as [|x op]; cbn [app] in E1; injection E1 as E1 E2.
    + exists cl, m, [], (s_imode s'), rest. split; [exact E|]. rewrite E2. split; [reflexivity|]. split; [|constructor].
      destruct H as [->|H]; [rewrite E1; exact Hm|now right].
    + exists cl, m, (s_imode s' :: op), m', rest. split; [exact E|]. rewrite E2. split; [reflexivity|]. split; [exact Hm|].
      inversion Ho as [|? ? Hx Ho']; subst. constructor; [|exact Ho']. destruct H as [->|H]; [exact Hx|now right].
  - exists cl, m, (Hiragana :: op), m', rest. split; [exact E|]. split; [|split; [exact Hm|constructor; auto]].
    cbn [map app] in *. rewrite <- E1. reflexivity.
  - cbn [map] in *. destruct op as [|x op]; cbn [app] in E1; injection E1 as E1 E2.
    + destruct rest as [|y rest]; [discriminate|]. injection E2 as E2 E3. exists (cl ++ [m]), y, [], y, rest.
      split; [rewrite E, <- app_assoc; reflexivity|]. split; [cbn [app]; congruence|split; [now left|constructor]].
    + exists cl, m, op, m', rest. split; [exact E|]. split; [exact E2|split; [exact Hm|now inversion Ho]].
  - exists cl, m, op, m', rest. split; [exact E|]. split; [|split; [exact Hm|exact Ho]]. rewrite <- E1, !map_app. reflexivity.
Qed.
Lemma srel_moved fl dbg b l l' : srel fl dbg b l l' -> l <> [] -> moved (fl_imode fl) (map s_imode l) (map s_imode l').
Proof.
  intros H Hn. induction H as [l|l1 l2 l3 H IH H2].
  - apply moved_refl. destruct l; [congruence|discriminate].
  - eapply sstep_moved; [exact H2|now apply IH].
Qed.
Definition only (P : imode -> Prop) : flags := mkFlags True True True True P.
Lemma exec_moved X dbg P o w x w' : frames w <> [] -> op_allowed dbg (only P) o w -> exec X dbg o w = Ok (x, w') -> moved P (modes w) (modes w').
Proof.
  intros Hn Ha E. pose proof (exec_step_fl X dbg (only P) o w Ha Hn) as H. unfold wp in H. rewrite E in H.
  unfold modes, frames in *. destruct H as [H|(H & _)].
  - apply (srel_moved (only P) dbg (x_kb (w_ctx w))); [apply H|exact Hn].
  - rewrite H. apply moved_refl. destruct (x_stack (w_ctx w)); [congruence|discriminate].
Qed.
Lemma key_moved X dbg (P : imode -> Prop) k w x w' : frames w <> [] -> (forall i, changes_to w k i -> P i) ->
  exec X dbg (OKey k) w = Ok (x, w') -> moved P (modes w) (modes w').
Proof.
  intros Hn HP E.
  assert (W : wp not_empty_stack (process_key_event_inner X dbg k) (fun _ w' => wrel (only P) dbg w w') w).
  { unfold process_key_event_inner. apply wp_bind, wp_cur; [|intros F; now destruct (Hn F)].
    intros s r F. apply wp_bind, wp_get. cbn zeta.
    destruct (skip_command _ _ _ _ _).
    - apply (r_input_key X (only P) dbg (x_kb (w_ctx w)) (x_cmd (w_ctx w))); [split; reflexivity|exact Hn].
    - apply wp_bind, wp_lift; [|apply safe_instruction]. intros [l|] Hl.
      + apply (r_instructions (only P) dbg (x_kb (w_ctx w)) (x_cmd (w_ctx w))); [|split; reflexivity|exact Hn].
        apply Forall_forall. intros y Hy. destruct y; cbn; auto. apply HP. exists s, r, l. split; [exact F|]. split; [|exact Hy].
        unfold get_instruction in Hl. unfold bound. destruct (s_cmode s); try (injection Hl as Hl; exact Hl); destruct dbg; discriminate.
      + apply (r_input_key X (only P) dbg (x_kb (w_ctx w)) (x_cmd (w_ctx w))); [split; reflexivity|exact Hn]. }
  cbn [exec] in E. unfold bind, process_key_event in E. destruct (has_mod k M_RELEASE).
  - injection E as _ <-. apply moved_refl. unfold modes, frames in *. destruct (x_stack (w_ctx w)); [now destruct Hn|discriminate].
  - unfold wp in W. destruct (process_key_event_inner X dbg k w) as [[y w1]|]; [|discriminate]. injection E as _ <-.
    unfold modes, frames in *. apply (srel_moved (only P) dbg (x_kb (w_ctx w))); [apply W|exact Hn].
Qed.
(** C90: a key changes the input mode of a frame only to one it is bound to; frames it opens start in
    Hiragana; the frames around those it works in keep theirs. *)
Theorem C90_key : forall X dbg w k x w', reachable X dbg w -> exec X dbg (OKey k) w = Ok (x, w') ->
  moved (changes_to w k) (modes w) (modes w').
Proof.
  intros X dbg w k x w' Hr E. apply reachable_nonempty in Hr. now apply (key_moved X dbg _ k w x w').
Qed.
(** Every other call but set_input_mode leaves the modes alone: it may open a frame (in Hiragana) and,
    a reset, close all but the outermost. *)
Theorem C90_call : forall X dbg w o x w', reachable X dbg w -> (forall k, o <> OKey k) -> (forall i, o <> OSetInputMode i) ->
  exec X dbg o w = Ok (x, w') -> moved none (modes w) (modes w').
Proof.
  intros X dbg w o x w' Hr Hk Hi E. apply reachable_nonempty in Hr. eapply exec_moved; [exact Hr| |exact E].
  destruct o; cbn; auto; [now destruct (Hk k)|now destruct (Hi i)].
Qed.
(** set_input_mode: the current frame, and nothing else. *)
Theorem C90_set : forall X dbg w i s r, frames w = s :: r -> exec X dbg (OSetInputMode i) w = Ok (OutUnit, with_frames (set_imode i s :: r) w).
Proof. intros X dbg w i s r F. unfold frames in F. cbn. unfold bind, set_input_mode, modcur. now rewrite F. Qed.
(** Whole histories without a call that asks for another mode. *)
Lemma moved_none_trans l1 l2 l3 : moved none l1 l2 -> moved none l2 l3 -> moved none l1 l3.
Proof.
  intros (c1 & m1 & o1 & m1' & r1 & E1 & E2 & [->|[]] & F1) (c2 & m2 & o2 & m2' & r2 & E3 & E4 & [->|[]] & F2).
  subst l1 l3. rewrite E2 in E3. assert (S : exists x, (o1 = c2 ++ m2 :: x /\ r2 = x ++ m1 :: r1) \/ (c2 = o1 ++ x /\ m1 :: r1 = x ++ m2 :: r2)).
  { clear F1 F2 E2. revert c2 E3. induction o1 as [|a o1 IH]; intros c2 E3.
    - exists c2. right. split; [reflexivity|exact E3].
    - destruct c2 as [|b c2]; cbn [app] in E3; injection E3 as -> E3.
      + exists o1. left. split; [reflexivity|now symmetry].
      + destruct (IH c2 E3) as (x & [(-> & ->)|(-> & E)]); exists x; [left|right]; split; auto. }
  destruct S as (x & [(-> & ->)|(-> & E)]).
  - exists c1, m1, (o2 ++ m2 :: x), m1, r1. split; [reflexivity|]. rewrite <- app_assoc. split; [reflexivity|]. split; [now left|].
    apply Forall_app. split; [exact F2|]. apply Forall_app in F1 as (_ & F1). exact F1.
  - exists (c1 ++ x), m2, o2, m2, r2. rewrite <- app_assoc, <- E. repeat split; auto.
Qed.
Fixpoint all_ask_nothing (X : xkb) (dbg : bool) (ops : list op) (w : world) : Prop :=
  match ops with
  | [] => True
  | o :: r => asks_nothing o w /\ forall x w', exec X dbg o w = Ok (x, w') -> all_ask_nothing X dbg r w'
  end.
Theorem C90_history : forall X dbg ops w outs w', reachable X dbg w -> all_ask_nothing X dbg ops w ->
  run X dbg ops w = Ok (outs, w') -> moved none (modes w) (modes w').
Proof.
  intros X dbg ops. induction ops as [|o ops IH]; intros w outs w' Hr Ha E.
  - injection E as _ <-. apply moved_refl. apply reachable_nonempty in Hr. unfold modes, frames. destruct (x_stack (w_ctx w)); [congruence|discriminate].
  - cbn [run] in E. unfold bind in E. destruct (exec X dbg o w) as [[x w1]|] eqn:E1; [|discriminate].
    destruct (run X dbg ops w1) as [[xs w2]|] eqn:E2; [|discriminate]. injection E as _ <-.
    destruct Ha as (Ha & Hn). assert (Hr1 : reachable X dbg w1).
    { apply (reachable_step X dbg w [o] [x] w1 Hr). cbn [run]. unfold bind. now rewrite E1. }
    apply (moved_none_trans _ (modes w1)); [|exact (IH w1 xs w2 Hr1 (Hn _ _ E1) E2)].
    apply reachable_nonempty in Hr.
    assert (D : (exists k, o = OKey k) \/ forall k, o <> OKey k) by (destruct o; eauto; right; congruence).
    destruct D as [(k & ->)|D].
    + apply (key_moved X dbg none k w x w1 Hr Ha E1).
    + eapply exec_moved; [exact Hr| |exact E1]. destruct o; cbn in *; auto. now destruct (D k).
Qed.
(** So from one frame: whatever is typed, converted, registered, given up or reset, back in the one
    frame the input mode is the one the user chose; and a word being registered is typed in Hiragana. *)
Theorem C90_back : forall X dbg ops w outs w' m, reachable X dbg w -> all_ask_nothing X dbg ops w ->
  run X dbg ops w = Ok (outs, w') -> modes w = [m] ->
  exists n, modes w' = repeat Hiragana n ++ [m].
Proof.
  intros X dbg ops w outs w' m Hr Ha E F. destruct (C90_history _ _ _ _ _ _ Hr Ha E) as (c & m1 & o & m2 & r & E1 & E2 & [->|[]] & Fo).
  rewrite F in E1. destruct c as [|a c]; [|destruct c; discriminate]. injection E1 as <- <-.
  exists (length o). rewrite E2. f_equal. clear E2. induction Fo as [|x o [->|[]] _ IH]; [reflexivity|]. cbn. f_equal. exact IH.
Qed.

(** In the shipped rules, [sw] being q (default) or the at sign (AZIK): in a kana mode, while nothing is
    composed or a candidate is selected, [sw] goes to and fro between hiragana and katakana and C-[sw]
    between the two widths of katakana; while nothing is composed l leads to ASCII, L to full-width ASCII;
    from these, C-j leads back to Hiragana.  Nothing else changes the mode. *)
Definition shipped_asks (sw : N) (c : cmode) (i : imode) (k : keyev) (j : imode) : Prop :=
  (kana_mode i /\ (c = Direct \/ c = CompositionSelection) /\ k = mkKey sw M_NONE
     /\ j = match i with Hiragana => Katakana | _ => Hiragana end)
  \/ (kana_mode i /\ (c = Direct \/ c = CompositionSelection) /\ k = mkKey sw M_CONTROL
     /\ j = match i with HankakuKatakana => Katakana | _ => HankakuKatakana end)
  \/ (kana_mode i /\ c = Direct /\ k = mkKey 108 M_NONE /\ j = Ascii)
  \/ (kana_mode i /\ c = Direct /\ k = mkKey 76 M_NONE /\ j = Zenkaku)
  \/ (~ kana_mode i /\ c = Direct /\ k = mkKey 106 M_CONTROL /\ j = Hiragana).
Definition kana_b (i : imode) : bool := match i with Ascii | Zenkaku => false | _ => true end.
Definition asks_b (sw : N) (c : cmode) (i : imode) (k : keyev) (j : imode) : bool :=
  let plain := cmode_eqb c Direct in let both := plain || cmode_eqb c CompositionSelection in
  (kana_b i && both && key_eqb k (mkKey sw M_NONE) && imode_eqb j (match i with Hiragana => Katakana | _ => Hiragana end))
  || (kana_b i && both && key_eqb k (mkKey sw M_CONTROL) && imode_eqb j (match i with HankakuKatakana => Katakana | _ => HankakuKatakana end))
  || (kana_b i && plain && key_eqb k (mkKey 108 M_NONE) && imode_eqb j Ascii)
  || (kana_b i && plain && key_eqb k (mkKey 76 M_NONE) && imode_eqb j Zenkaku)
  || (negb (kana_b i) && plain && key_eqb k (mkKey 106 M_CONTROL) && imode_eqb j Hiragana).
Lemma kana_b_spec i : kana_b i = true <-> kana_mode i.
Proof. unfold kana_mode. destruct i; cbn; split; intros H; auto; try discriminate; destruct H as [H|[H|H]]; discriminate. Qed.
Lemma key_eqb_iff k k' : key_eqb k k' = true <-> k = k'.
Proof.
  unfold key_eqb. destruct k as [a b], k' as [a' b']; cbn. rewrite andb_true_iff, !N.eqb_eq.
  split; [intros (-> & ->); reflexivity|now injection 1].
Qed.
Lemma cmode_eqb_iff a b : cmode_eqb a b = true <-> a = b.
Proof. destruct a, b; cbn; split; auto; discriminate. Qed.
Lemma imode_eqb_iff a b : imode_eqb a b = true <-> a = b.
Proof. destruct a, b; cbn; split; auto; discriminate. Qed.
Lemma asks_b_spec sw c i k j : asks_b sw c i k j = true <-> shipped_asks sw c i k j.
Proof.
  unfold asks_b, shipped_asks. rewrite !orb_true_iff, !andb_true_iff, !orb_true_iff, !cmode_eqb_iff, !key_eqb_iff, !imode_eqb_iff, !kana_b_spec, negb_true_iff.
  assert (N : kana_b i = false <-> ~ kana_mode i).
  { rewrite <- kana_b_spec. destruct (kana_b i); split; auto; try discriminate. intros H; now destruct H. }
  rewrite N. clear N. tauto.
Qed.
Definition rule_asks_b (sw : N) (r : rule) : bool :=
  forallb (fun c => forallb (fun i =>
    forallb (fun e : keyev * list instr => forallb (fun j => Bool.eqb (asks_b sw c i (fst e) j) (existsb (fun x => match x with IChangeInputMode j' => imode_eqb j j' | _ => false end) (snd e)))
      [Hiragana; Katakana; HankakuKatakana; Zenkaku; Ascii]) (r_command r c i)
    && forallb (fun j => forallb (fun k => implb (asks_b sw c i k j) (match assoc_key k (r_command r c i) with Some _ => true | None => false end))
      [mkKey sw M_NONE; mkKey sw M_CONTROL; mkKey 108 M_NONE; mkKey 76 M_NONE; mkKey 106 M_CONTROL]) [Hiragana; Katakana; HankakuKatakana; Zenkaku; Ascii])
    [Hiragana; Katakana; HankakuKatakana; Zenkaku; Ascii])
    [Direct; PreComposition; PreCompositionOkurigana; CompositionSelection; Abbreviation; Register; Completion].
Lemma default_asks_b : rule_asks_b 113 default_rule = true.
Proof. vm_compute. reflexivity. Qed.
Lemma azik_asks_b : rule_asks_b 64 azik_rule = true.
Proof. vm_compute. reflexivity. Qed.
Lemma rule_asks sw r : rule_asks_b sw r = true -> forall c i k j,
  (exists l, assoc_key k (r_command r c i) = Some l /\ In (IChangeInputMode j) l) <-> shipped_asks sw c i k j.
Proof.
  unfold rule_asks_b. rewrite forallb_forall. intros H c i k j.
  assert (Hc : In c [Direct; PreComposition; PreCompositionOkurigana; CompositionSelection; Abbreviation; Register; Completion]) by (destruct c; cbn; tauto).
  specialize (H c Hc). rewrite forallb_forall in H.
  assert (Hi : In i [Hiragana; Katakana; HankakuKatakana; Zenkaku; Ascii]) by (destruct i; cbn; tauto).
  specialize (H i Hi). apply andb_true_iff in H as (H1 & H2). rewrite forallb_forall in H1, H2.
  assert (Hj : In j [Hiragana; Katakana; HankakuKatakana; Zenkaku; Ascii]) by (destruct j; cbn; tauto).
  specialize (H2 j Hj). rewrite forallb_forall in H2.
  assert (W : forall l, assoc_key k (r_command r c i) = Some l -> (In (IChangeInputMode j) l <-> shipped_asks sw c i k j)).
  { intros l E. apply assoc_key_in' in E as (k' & Hin & Hk). apply key_eqb_iff in Hk. subst k'.
    specialize (H1 _ Hin). rewrite forallb_forall in H1. specialize (H1 j Hj). apply Bool.eqb_prop in H1. cbn [fst snd] in H1.
    rewrite <- asks_b_spec, H1, existsb_exists. split.
    - intros Hx. exists (IChangeInputMode j). split; [exact Hx|now apply imode_eqb_iff].
    - intros (x & Hx & E). destruct x; try discriminate. apply imode_eqb_iff in E. now subst. }
  split.
  - intros (l & E & Hx). now apply (W l E).
  - intros Hs. assert (Hk : In k [mkKey sw M_NONE; mkKey sw M_CONTROL; mkKey 108 M_NONE; mkKey 76 M_NONE; mkKey 106 M_CONTROL]).
    { unfold shipped_asks in Hs. cbn. destruct Hs as [H|[H|[H|[H|H]]]]; destruct H as (_ & H); destruct H as (_ & H & _); subst k; auto 6. }
    specialize (H2 k Hk). apply asks_b_spec in Hs as Hb. rewrite Hb in H2. cbn [implb] in H2.
    destruct (assoc_key k (r_command r c i)) as [l|] eqn:E; [|discriminate]. exists l. split; [reflexivity|]. now apply W.
Qed.
Theorem C90_shipped : forall w s fr k j, frames w = s :: fr ->
  (x_cmd (w_ctx w) = r_command default_rule -> (changes_to w k j <-> shipped_asks 113 (s_cmode s) (s_imode s) (command_key k) j))
  /\ (x_cmd (w_ctx w) = r_command azik_rule -> (changes_to w k j <-> shipped_asks 64 (s_cmode s) (s_imode s) (command_key k) j)).
Proof.
  intros w s fr k j F.
  assert (G : forall r sw, rule_asks_b sw r = true -> x_cmd (w_ctx w) = r_command r ->
    (changes_to w k j <-> shipped_asks sw (s_cmode s) (s_imode s) (command_key k) j)).
  { intros r sw Hb Hc. rewrite <- (rule_asks sw r Hb). unfold changes_to, bound. rewrite Hc, F. split.
    - intros (s' & r' & l & E & H). injection E as <- <-. exists l. exact H.
    - intros (l & H). exists s, fr, l. split; [reflexivity|exact H]. }
  split; apply G; [exact default_asks_b|exact azik_asks_b].
Qed.
(** Not vacuous: q chooses katakana; registering a word is typed in hiragana; giving it up, the mode is
    katakana again. *)
Example C90_case : exists o1 w1 o2 w2 o3 w3,
  typed true (U "q") (demo []) = Ok (o1, w1) /\ typed true (U "K a space") w1 = Ok (o2, w2)
  /\ typed true (U "k i C-g") w2 = Ok (o3, w3)
  /\ (modes w1, modes w2, modes w3) = ([Katakana], [Hiragana; Katakana], [Katakana]).
Proof.
  destruct (run_case (typed true (U "q") (demo []))
    (fun w1 => (modes w1, match typed true (U "K a space") w1 with
      | Ok (_, w2) => (modes w2, match typed true (U "k i C-g") w2 with Ok (_, w3) => modes w3 | _ => [] end) | _ => ([], []) end))
    ([Katakana], ([Hiragana; Katakana], [Katakana])) ltac:(vm_compute; reflexivity)) as (o1 & w1 & R1 & E). cbv beta in E.
  destruct (typed true (U "K a space") w1) as [[o2 w2]|] eqn:R2; [|discriminate].
  destruct (typed true (U "k i C-g") w2) as [[o3 w3]|] eqn:R3; [|discriminate].
  injection E as E1 E2 E3. exists o1, w1, o2, w2, o3, w3. rewrite E1, E2, E3. auto.
Qed.
