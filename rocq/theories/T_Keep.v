(** Property C91: turning what is typed into kana, and leaving a kana mode, keeps all of it. *)
From Verif Require Import Str Keys Modes KanaBuilder FormChanger DictTypes Parser Lru Dictionary CState Context DefaultRule Demo Spec
  P_Monad P_Frames P_Step T_InputMode.
From Verif Require Import T_Frames T_Romaji T_Word T_Sentence.
From Verif Require T_Encoding.

(* ------------------------------------------------------------- specification *)
(** Nothing of a word is left in the frame. *)
Definition settled (s : cstate) : Prop :=
  s_cmode s = Direct /\ s_pre s = [] /\ s_comp s = [] /\ s_raw s = [] /\ s_okuri s = [] /\ candidate_count s = 0%N.
(** Command lists that write the pending keys before leaving the mode, and before confirming the reading. *)
Definition leaves (i j : imode) (l : list instr) : Prop :=
  exists x, l = [IForceKanaConvert i; IChangeInputMode j; x] /\ (x = IClearUnconfirmedInputs \/ x = IClearUnconvertedInputs).
Definition kana_out (j : imode) (l : list instr) : Prop := exists i, l = [IForceKanaConvert i; IConfirmAs j; IChangeCompositionMode Direct].

(** C91, leaving the mode: the keys [v] that wait are written first, as the kana [e] of their row, in
    the kana of the mode that is left. *)
Theorem C91_leave_partial : forall X dbg r w s fr k j l e v', distinct_keys X r -> x_kb (w_ctx w) = kb_new X r -> frames w = s :: fr ->
  kana_mode (s_imode s) -> s_cmode s = Direct ->
  commands (x_cmd (w_ctx w)) Direct (s_imode s) k l -> leaves (s_imode s) j l -> outside X r (s_pre s) k -> forced X r (s_pre s) e v' ->
  exists s', exec X dbg (OKey k) w = Ok (OutBool true, with_frames (s' :: fr) w)
    /\ s_cmode s' = Direct /\ s_pre s' = [] /\ s_imode s' = j /\ s_conf s' = s_conf s ++ adjust_kana_string (x_kf (w_ctx w)) (s_imode s) e.
Proof.
  intros X dbg r w s fr k j l e v' Hd Hb F Hi Hm Hk (x & -> & Hx) Ho Hf.
  assert (W : w = with_frames (s :: fr) w) by (destruct w as [st [sk c b kf am ds cf]]; cbn in *; unfold frames in F; cbn in F; subst sk; reflexivity).
  enough (G : exists s', process_key_event X dbg k (with_frames (s :: fr) w) = Ok (true, with_frames (s' :: fr) w)
    /\ s_cmode s' = Direct /\ s_pre s' = [] /\ s_imode s' = j /\ s_conf s' = s_conf s ++ adjust_kana_string (x_kf (w_ctx w)) (s_imode s) e).
  { destruct G as (s' & E & G). exists s'. split; [|exact G]. rewrite <- W in E. apply exec_key, E. }
  rewrite (command_step X dbg r Hd w s fr k _ Direct (s_imode s) Hb Hm eq_refl ltac:(discriminate) Ho Hk).
  unfold process_instructions. cbn [run_instrs run_instr is_nil negb].
  unfold output_converted_kana_if_any. unfold bind at 1. unfold bind at 1. unfold bind at 1. unfold bind at 1, cur at 1. cbn [x_stack w_ctx with_frames].
  unfold bind at 1, get at 1. cbn [x_kb x_kf w_ctx with_frames]. rewrite Hb.
  destruct (forced_some X r Hd _ _ _ Hf) as [[E He]|(E & -> & ->)]; rewrite E.
  - destruct Hx as [->| ->]; (eexists; split; [reflexivity|]); cbn [push_string_for]; destruct v' as [|y v']; (split; [exact Hm|]); repeat split; reflexivity.
  - rewrite adjust_nil, app_nil_r. destruct Hx as [->| ->]; (eexists; split; [reflexivity|]); (split; [exact Hm|]); repeat split; reflexivity.
Qed.
(** C91, confirming a reading as kana: all of it, the pending keys included, in the kana asked for. *)
Theorem C91_reading_partial : forall X dbg r w s fr k j l e v', distinct_keys X r -> x_kb (w_ctx w) = kb_new X r -> frames w = s :: fr ->
  s_cmode s = PreComposition -> kana_mode j ->
  commands (x_cmd (w_ctx w)) PreComposition (s_imode s) k l -> kana_out j l -> outside X r (s_pre s) k -> forced X r (s_pre s) e v' ->
  exists s', exec X dbg (OKey k) w = Ok (OutBool true, with_frames (s' :: fr) w)
    /\ settled s' /\ s_imode s' = s_imode s /\ s_conf s' = s_conf s ++ adjust_kana_string (x_kf (w_ctx w)) j (s_comp s ++ e).
Proof.
  intros X dbg r w s fr k j l e v' Hd Hb F Hm Hj Hk (i & ->) Ho Hf.
  assert (W : w = with_frames (s :: fr) w) by (destruct w as [st [sk c b kf am ds cf]]; cbn in *; unfold frames in F; cbn in F; subst sk; reflexivity).
  enough (G : exists s', process_key_event X dbg k (with_frames (s :: fr) w) = Ok (true, with_frames (s' :: fr) w)
    /\ settled s' /\ s_imode s' = s_imode s /\ s_conf s' = s_conf s ++ adjust_kana_string (x_kf (w_ctx w)) j (s_comp s ++ e)).
  { destruct G as (s' & E & G). exists s'. split; [|exact G]. rewrite <- W in E. apply exec_key, E. }
  rewrite (command_step X dbg r Hd w s fr k _ PreComposition (s_imode s) Hb Hm eq_refl ltac:(discriminate) Ho Hk).
  unfold process_instructions. cbn [run_instrs run_instr is_nil negb].
  unfold output_converted_kana_if_any. unfold bind at 1. unfold bind at 1. unfold bind at 1. unfold bind at 1, cur at 1. cbn [x_stack w_ctx with_frames].
  unfold bind at 1, get at 1. cbn [x_kb x_kf w_ctx with_frames]. rewrite Hb.
  destruct (forced_some X r Hd _ _ _ Hf) as [[E He]|(E & -> & ->)]; rewrite E.
  - destruct v' as [|y v']; (eexists; split; [reflexivity|split; [repeat split; reflexivity|split; [reflexivity|]]]); destruct Hj as [->|[->| ->]]; reflexivity.
  - rewrite app_nil_r. eexists. split; [reflexivity|]. split; [repeat split; reflexivity|]. split; [reflexivity|]. destruct Hj as [->|[->| ->]]; reflexivity.
Qed.
(** With okurigana begun, exactly the reading before it comes out: the okurigana and the keys that wait are lost. *)
Theorem C91_okurigana_exact : forall X dbg r w s fr k j l e v', distinct_keys X r -> x_kb (w_ctx w) = kb_new X r -> frames w = s :: fr ->
  s_cmode s = PreCompositionOkurigana -> kana_mode j ->
  commands (x_cmd (w_ctx w)) PreCompositionOkurigana (s_imode s) k l -> kana_out j l -> outside X r (s_pre s) k -> forced X r (s_pre s) e v' ->
  exists s', exec X dbg (OKey k) w = Ok (OutBool true, with_frames (s' :: fr) w)
    /\ settled s' /\ s_imode s' = s_imode s /\ s_conf s' = s_conf s ++ adjust_kana_string (x_kf (w_ctx w)) j (s_comp s).
Proof.
  intros X dbg r w s fr k j l e v' Hd Hb F Hm Hj Hk (i & ->) Ho Hf.
  assert (W : w = with_frames (s :: fr) w) by (destruct w as [st [sk c b kf am ds cf]]; cbn in *; unfold frames in F; cbn in F; subst sk; reflexivity).
  enough (G : exists s', process_key_event X dbg k (with_frames (s :: fr) w) = Ok (true, with_frames (s' :: fr) w)
    /\ settled s' /\ s_imode s' = s_imode s /\ s_conf s' = s_conf s ++ adjust_kana_string (x_kf (w_ctx w)) j (s_comp s)).
  { destruct G as (s' & E & G). exists s'. split; [|exact G]. rewrite <- W in E. apply exec_key, E. }
  rewrite (command_step X dbg r Hd w s fr k _ PreCompositionOkurigana (s_imode s) Hb Hm eq_refl ltac:(discriminate) Ho Hk).
  unfold process_instructions. cbn [run_instrs run_instr is_nil negb].
  unfold output_converted_kana_if_any. unfold bind at 1. unfold bind at 1. unfold bind at 1. unfold bind at 1, cur at 1. cbn [x_stack w_ctx with_frames].
  unfold bind at 1, get at 1. cbn [x_kb x_kf w_ctx with_frames]. rewrite Hb.
  destruct (forced_some X r Hd _ _ _ Hf) as [[E He]|(E & -> & ->)]; rewrite E.
  - destruct v' as [|y v']; (eexists; split; [reflexivity|split; [repeat split; reflexivity|split; [reflexivity|]]]); destruct Hj as [->|[->| ->]]; reflexivity.
  - eexists. split; [reflexivity|]. split; [repeat split; reflexivity|]. split; [reflexivity|]. destruct Hj as [->|[->| ->]]; reflexivity.
Qed.
(** The claim is false for three keys of the shipped rule.
    - katakana, n, C-q: the katakana syllable is written in hiragana;
    - a reading with a pending n, C-q: it is dropped;
    - a reading with okurigana, any of the kana keys: the okurigana is dropped. *)
Theorem C91_refuted :
  (exists o w, typed true (U "q n C-q") (demo []) = Ok (o, w) /\ (confirmed_text w, modes w) = (U "ん", [HankakuKatakana]))
  /\ (exists o w, typed true (U "K a n C-q") (demo []) = Ok (o, w) /\ (confirmed_text w, map s_cmode (frames w)) = (U "ｶ", [Direct]))
  /\ (exists o w, typed true (U "K a N q") (demo []) = Ok (o, w) /\ (confirmed_text w, map s_cmode (frames w)) = (U "カ", [Direct]))
  /\ (exists o w, typed true (U "K a N C-j") (demo []) = Ok (o, w) /\ (confirmed_text w, map s_cmode (frames w)) = (U "か", [Direct])).
Proof. repeat split; apply run_case; vm_compute; reflexivity. Qed.
(** Which keys of the shipped rules are which: in the default rule all but C-q in katakana and C-q in a
    reading, in AZIK all but C-at in a reading. *)
Definition rule_leaves_b (bad : imode -> keyev -> bool) (r : rule) : bool :=
  forallb (fun i => forallb (fun e : keyev * list instr => match snd e with
    | [IForceKanaConvert i0; IChangeInputMode _; IClearUnconfirmedInputs] | [IForceKanaConvert i0; IChangeInputMode _; IClearUnconvertedInputs] =>
        imode_eqb i0 i || bad i (fst e)
    | l => negb (existsb (fun x => match x with IChangeInputMode _ => true | _ => false end) l) end) (r_command r Direct i)) [Hiragana; Katakana; HankakuKatakana].
Definition rule_out_b (sw : N) (r : rule) : bool :=
  forallb (fun i => forallb (fun e : keyev * list instr => match snd e with
    | [IForceKanaConvert _; IConfirmAs _; IChangeCompositionMode Direct] => negb (key_eqb (fst e) (mkKey sw M_CONTROL))
    | [IConfirmAs _; IChangeCompositionMode Direct] => key_eqb (fst e) (mkKey sw M_CONTROL)
    | l => negb (existsb (fun x => match x with IConfirmAs _ => true | _ => false end) l) end) (r_command r PreComposition i)) [Hiragana; Katakana; HankakuKatakana].
Definition katakana_cq (i : imode) (k : keyev) : bool := imode_eqb i Katakana && key_eqb k (mkKey 113 M_CONTROL).
Lemma default_leaves_b : rule_leaves_b katakana_cq default_rule = true. Proof. vm_compute. reflexivity. Qed.
Lemma azik_leaves_b : rule_leaves_b (fun _ _ => false) azik_rule = true. Proof. vm_compute. reflexivity. Qed.
Lemma default_out_b : rule_out_b 113 default_rule = true. Proof. vm_compute. reflexivity. Qed.
Lemma azik_out_b : rule_out_b 64 azik_rule = true. Proof. vm_compute. reflexivity. Qed.
Lemma rule_leaves bad r : rule_leaves_b bad r = true -> forall i k l j, kana_mode i -> In (k, l) (r_command r Direct i) -> In (IChangeInputMode j) l ->
  leaves i j l \/ bad i k = true.
Proof.
  intros H i k l j Hi Hin Hx. unfold rule_leaves_b in H. rewrite forallb_forall in H.
  assert (Hi' : In i [Hiragana; Katakana; HankakuKatakana]) by (destruct Hi as [->|[->| ->]]; cbn; auto).
  specialize (H i Hi'). rewrite forallb_forall in H. specialize (H _ Hin). cbn [fst snd] in H. unfold leaves.
  assert (N : negb (existsb (fun x => match x with IChangeInputMode _ => true | _ => false end) l) = true -> False).
  { intros N. apply negb_true_iff in N. assert (T : existsb (fun x => match x with IChangeInputMode _ => true | _ => false end) l = true); [|rewrite N in T; discriminate].
    apply existsb_exists. exists (IChangeInputMode j). auto. }
  destruct l as [|x1 l]; [now destruct (N H)|]. destruct x1; try (now destruct (N H)).
  destruct l as [|x2 l]; [now destruct (N H)|]. destruct x2; try (now destruct (N H)).
  destruct l as [|x3 l]; [now destruct (N H)|]. destruct x3; try (now destruct (N H)).
  all: destruct l as [|x4 l]; [|now destruct (N H)]; apply orb_true_iff in H as [H|H]; [|auto].
  all: apply imode_eqb_iff in H as ->; left; destruct Hx as [Hx|[Hx|[Hx|[]]]]; [discriminate|injection Hx as ->; eauto|discriminate].
Qed.
Theorem C91_shipped_leaves : forall i k l j, kana_mode i -> In (IChangeInputMode j) l ->
  (In (k, l) (r_command default_rule Direct i) -> leaves i j l \/ (i = Katakana /\ k = mkKey 113 M_CONTROL))
  /\ (In (k, l) (r_command azik_rule Direct i) -> leaves i j l).
Proof.
  intros i k l j Hi Hx. split; intros Hin.
  - destruct (rule_leaves _ _ default_leaves_b i k l j Hi Hin Hx) as [H|H]; [auto|right].
    apply andb_true_iff in H as (H1 & H2). apply imode_eqb_iff in H1. apply key_eqb_iff in H2. auto.
  - destruct (rule_leaves _ _ azik_leaves_b i k l j Hi Hin Hx) as [H|H]; [auto|discriminate].
Qed.
Lemma rule_out sw r : rule_out_b sw r = true -> forall i k l j, kana_mode i -> In (k, l) (r_command r PreComposition i) -> In (IConfirmAs j) l ->
  kana_out j l \/ k = mkKey sw M_CONTROL.
Proof.
  intros H i k l j Hi Hin Hx. unfold rule_out_b in H. rewrite forallb_forall in H.
  assert (Hi' : In i [Hiragana; Katakana; HankakuKatakana]) by (destruct Hi as [->|[->| ->]]; cbn; auto).
  specialize (H i Hi'). rewrite forallb_forall in H. specialize (H _ Hin). cbn [fst snd] in H. unfold kana_out.
  assert (N : negb (existsb (fun x => match x with IConfirmAs _ => true | _ => false end) l) = true -> False).
  { intros N. apply negb_true_iff in N. assert (T : existsb (fun x => match x with IConfirmAs _ => true | _ => false end) l = true); [|rewrite N in T; discriminate].
    apply existsb_exists. exists (IConfirmAs j). auto. }
  destruct l as [|x1 l]; [now destruct (N H)|]. destruct x1; try (now destruct (N H)).
  - destruct l as [|x2 l]; [now destruct (N H)|]. destruct x2; try (now destruct (N H)).
    destruct l as [|x3 l]; [now destruct (N H)|]. destruct x3 as [c| | | | | | | | | | | | | | | | | | |]; try (now destruct (N H)). destruct c; try (now destruct (N H)).
    destruct l as [|x4 l]; [|now destruct (N H)]. left. destruct Hx as [Hx|[Hx|[Hx|[]]]]; [discriminate|injection Hx as ->; eauto|discriminate].
  - destruct l as [|x2 l]; [now destruct (N H)|]. destruct x2 as [c| | | | | | | | | | | | | | | | | | |]; try (now destruct (N H)). destruct c; try (now destruct (N H)).
    destruct l as [|x3 l]; [|now destruct (N H)]. right. now apply key_eqb_iff.
Qed.
Theorem C91_shipped_reading : forall i k l j, kana_mode i -> In (IConfirmAs j) l ->
  (In (k, l) (r_command default_rule PreComposition i) -> kana_out j l \/ k = mkKey 113 M_CONTROL)
  /\ (In (k, l) (r_command azik_rule PreComposition i) -> kana_out j l \/ k = mkKey 64 M_CONTROL).
Proof. intros i k l j Hi Hx. split; intros Hin; [exact (rule_out _ _ default_out_b i k l j Hi Hin Hx)|exact (rule_out _ _ azik_out_b i k l j Hi Hin Hx)]. Qed.
(** Not vacuous. *)
Example C91_case : exists o1 w1 s, typed true (U "K a n") (demo []) = Ok (o1, w1) /\ frames w1 = [s]
  /\ commands (x_cmd (w_ctx w1)) PreComposition (s_imode s) (mkKey 113 0) [IForceKanaConvert Katakana; IConfirmAs Katakana; IChangeCompositionMode Direct]
  /\ (s_cmode s, s_comp s, s_pre s, rmap (fun x => confirmed_text (snd x)) (exec ascii_xkb true (OKey (mkKey 113 0)) w1))
     = (PreComposition, U "か", U "n", Ok (U "カン")).
Proof.
  destruct (run_case (typed true (U "K a n") (demo [])) (fun w => (map (fun s => (s_imode s, assoc_key (mkKey 113 0) (x_cmd (w_ctx w) PreComposition (s_imode s)), s_cmode s, s_comp s, s_pre s)) (frames w),
      rmap (fun x => confirmed_text (snd x)) (exec ascii_xkb true (OKey (mkKey 113 0)) w)))
    ([(Hiragana, Some [IForceKanaConvert Katakana; IConfirmAs Katakana; IChangeCompositionMode Direct], PreComposition, U "か", U "n")], Ok (U "カン")) ltac:(vm_compute; reflexivity)) as (o & w & R & E).
  cbv beta in E. assert (E1 := f_equal fst E). assert (E2 := f_equal snd E). cbn [fst snd] in E1, E2. clear E.
  destruct (frames w) as [|s [|]] eqn:F; [discriminate| |discriminate]. cbn [map] in E1.
  exists o, w, s. split; [exact R|]. split; [exact F|]. rewrite E2.
  assert (E3 := f_equal (fun l => match l with x :: _ => Some x | _ => None end) E1). cbv beta iota in E3. apply T_Encoding.some_inj in E3.
  assert (A := f_equal (fun x => snd (fst (fst (fst x)))) E3). assert (B := f_equal (fun x => snd (fst (fst x))) E3).
  assert (C := f_equal (fun x => snd (fst x)) E3). assert (D := f_equal snd E3). cbn [fst snd] in A, B, C, D.
  split; [split; [reflexivity|exact A]|]. rewrite B, C, D. reflexivity.
Qed.
