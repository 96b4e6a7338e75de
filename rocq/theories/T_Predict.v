(** C49: will_process predicts process_key_event. *)
From Verif Require Import Str Keys Modes KanaBuilder FormChanger DictTypes Parser Lru
  Dictionary CState Context DefaultRule Demo Spec P_Monad P_Frames P_Inv P_Keeps P_Register P_Step T_Unhandled.
From Verif Require T_Frames.

(* ------------------------------------------------------------ vocabulary *)
(** The key types a comma or a period. *)
Definition types_punctuation (X : xkb) (k : keyev) : bool :=
  match get_symbol_char X k with Some ch => N.eqb ch 46 || N.eqb ch 44 | None => false end.
(** Modes that take text: kana input, direct input, the abbreviation mode, and a candidate list
    that shows a candidate (which the text confirms). *)
Definition takes_text (s : cstate) : bool :=
  has_rom2kana_conversion (s_imode s) (s_cmode s)
  || match s_cmode s with
     | Direct | Abbreviation => true
     | CompositionSelection | Completion => match cl_current (s_list s) with Some _ => true | None => false end
     | _ => false
     end.
(** What kana input takes although will_process does not say so. *)
Definition taken_anyway (X : xkb) (s : cstate) (k : keyev) : bool :=
  has_rom2kana_conversion (s_imode s) (s_cmode s) && is_modifierless_input k
  && (is_ascii_inputtable k || types_punctuation X k).
(** The key completes a conversion (also as a small letter): the conversion comes before commands. *)
Definition completes (w : world) (s : cstate) (k : keyev) : bool :=
  skip_command (x_kb (w_ctx w)) k (s_imode s) (s_cmode s) (s_pre s).
(** There is something to delete. *)
Definition deletable (s : cstate) : bool :=
  match s_cmode s with
  | Direct => negb (is_nil (s_pre s)) || negb (is_nil (s_conf s))
  | PreComposition | Abbreviation => true
  | PreCompositionOkurigana => negb (is_nil (s_pre s)) || negb (is_nil (s_okuri s))
  | _ => false
  end.

(* ------------------------------------------------------------ proofs *)
Definition says (b : bool) (m : M bool) (w : world) : Prop := forall b' w', m w = Ok (b', w') -> b' = b.
Lemma truly_says m w : truly m w -> says true m w.
Proof. intros H [] w' E; [reflexivity|]. destruct (H w' E). Qed.
Lemma says_ret b w : says b (ret b) w.
Proof. now intros b' w' [= <- _]. Qed.
Lemma node_continues b k u v : convert_non_partial b (combine_raw k u) = Some v -> can_continue b k u = true.
Proof. unfold convert_non_partial, can_continue. destruct (get_node _ _); [reflexivity|discriminate]. Qed.
Lemma lower_raw k u : is_upper k = false -> combine_lower k u = combine_raw k u.
Proof. unfold is_upper, combine_lower, combine_raw, uncapitalize. now intros ->. Qed.
Lemma upper_ascii k : is_upper k = true -> is_ascii_inputtable k = true.
Proof.
  unfold is_upper, is_ascii_inputtable, KEY_A, KEY_Z, KEY_space, KEY_asciitilde. rewrite !andb_true_iff, !N.leb_le. lia.
Qed.
Section S.
Context (X : xkb) (dbg : bool).
Ltac tb := apply truly_bind; intros ? ? ?.
Definition kana_takes (w : world) (k : keyev) (u : list N) : bool :=
  can_continue (x_kb (w_ctx w)) k u || can_continue (x_kb (w_ctx w)) k [] || is_ascii_inputtable k || types_punctuation X k.
Lemma unconverted_says k u ch c w : mode_is input_mode w -> get_symbol_char X k = Some ch ->
  says (kana_takes w k u) (input_unconverted dbg k u ch c) w.
Proof.
  intros Hw Hch. pose proof Hw as (s & r & Hs & Hm).
  assert (G : forall m : M bool, kana_takes w k u = true -> truly m w -> says (kana_takes w k u) m w).
  { intros m -> H. now apply truly_says. }
  destruct (is_ascii_inputtable k) eqn:Ea.
  { apply G; [unfold kana_takes; rewrite Ea, !orb_true_r; reflexivity|].
    now apply (proj2 (unconverted_inert dbg k u ch c w Hw)). }
  assert (Eu : is_upper k = false) by (destruct (is_upper k) eqn:E; [apply upper_ascii in E; congruence|reflexivity]).
  unfold input_unconverted.
  assert (Ec : forall f : cstate -> M bool, says (kana_takes w k u) (f s) w -> says (kana_takes w k u) (bind cur f) w).
  { intros f. unfold says, bind, cur. rewrite Hs. auto. }
  apply Ec. change (says ?x (bind get ?f) w) with (says x (f w) w). cbn beta zeta.
  destruct (convert_periods _ _ _) eqn:Ep.
  { apply G; [|apply periods_truly, Hw]. unfold kana_takes, types_punctuation. rewrite Hch.
    unfold convert_periods in Ep. destruct (N.eqb ch 46); [now rewrite !orb_true_r|]. destruct (N.eqb ch 44); [now rewrite !orb_true_r|discriminate]. }
  assert (Et : types_punctuation X k = false).
  { unfold types_punctuation. rewrite Hch. unfold convert_periods in Ep. destruct (N.eqb ch 46), (N.eqb ch 44); try discriminate; reflexivity. }
  destruct (can_continue _ k u) eqn:E1.
  { apply G; [unfold kana_takes; now rewrite E1|]. repeat (first [apply finish_truly|tb]). }
  rewrite Eu. cbn [andb].
  destruct (convert_non_partial _ (combine_raw k [])) as [[conv carry]|] eqn:E2.
  { apply G; [unfold kana_takes; rewrite (node_continues _ _ _ _ E2), orb_true_r; reflexivity|]. apply truly_then_ret. }
  rewrite (lower_raw k [] Eu), E2.
  destruct (can_continue _ k []) eqn:E3.
  { apply G; [unfold kana_takes; rewrite E3, orb_true_r; reflexivity|]. repeat (first [apply finish_truly|tb]). }
  assert (can_continue_lower (x_kb (w_ctx w)) k [] = false) as ->.
  { unfold can_continue_lower. rewrite (lower_raw k [] Eu). exact E3. }
  unfold input_direct_char. rewrite Ea. unfold kana_takes. rewrite E1, E3, Ea, Et. apply says_ret.
Qed.
Lemma kana_says k u w : mode_is input_mode w -> get_symbol_char X k <> None ->
  says (kana_takes w k u) (input_kana X dbg k u) w.
Proof.
  intros Hw Hch. pose proof Hw as (s & r & Hs & Hm). unfold input_kana.
  assert (Ec : forall f : cstate -> M bool, says (kana_takes w k u) (f s) w -> says (kana_takes w k u) (bind cur f) w).
  { intros f. unfold says, bind, cur. rewrite Hs. auto. }
  apply Ec. change (says ?x (bind get ?f) w) with (says x (f w) w). cbn beta zeta.
  destruct (get_symbol_char X k) as [ch|] eqn:Ech; [|congruence].
  assert (G : forall m : M bool, kana_takes w k u = true -> truly m w -> says (kana_takes w k u) m w).
  { intros m -> H. now apply truly_says. }
  destruct (convert_non_partial _ (combine_raw k u)) as [[conv carry]|] eqn:E1.
  { apply G; [unfold kana_takes; now rewrite (node_continues _ _ _ _ E1)|]. apply truly_then_ret. }
  destruct (is_upper k) eqn:Eu; [|now apply unconverted_says].
  destruct (convert_non_partial _ (combine_lower k u)) as [[conv carry]|]; [|now apply unconverted_says].
  apply G; [unfold kana_takes; rewrite (upper_ascii _ Eu), !orb_true_r; reflexivity|]. apply truly_bind; intros; apply truly_then_ret.
Qed.
Lemma plain_says k w s r : x_stack (w_ctx w) = s :: r -> get_symbol_char X k <> None ->
  has_rom2kana_conversion (s_imode s) (s_cmode s) = false ->
  says (match s_cmode s with Direct | Abbreviation => true | _ => false end) (input_plain X k) w.
Proof.
  intros Hs Hch Hi b w'. unfold input_plain, bind, cur, get. rewrite Hs.
  destruct (s_cmode s); try (intros [= <- _]; reflexivity).
  - destruct (get_symbol_char X k); [|congruence]. destruct (s_imode s); try discriminate.
    all: unfold append_converted, modcur; rewrite Hs; intros [= <- _]; reflexivity.
  - destruct (get_symbol_char X k); [|congruence]. unfold modcur; rewrite Hs; intros [= <- _]; reflexivity.
Qed.
Definition used (w : world) (s : cstate) (k : keyev) : bool :=
  is_modifierless_input k
  && (has_rom2kana_conversion (s_imode s) (s_cmode s) && kana_takes w k (s_pre s)
      || negb (has_rom2kana_conversion (s_imode s) (s_cmode s)) && is_ascii_inputtable k)
  && takes_text s.
Lemma input_key_says k w s r : x_stack (w_ctx w) = s :: r -> s_default s = Direct -> get_symbol_char X k <> None ->
  says (used w s k) (input_key X dbg k (s_cmode s) (s_pre s)) w.
Proof.
  intros Hs Hd Hch b w'. unfold input_key, used. destruct (is_modifierless_input k) eqn:Em; cbn [negb andb]; [|intros [= <- _]; reflexivity].
  unfold bind at 1. unfold cur at 1. rewrite Hs. cbn beta iota. unfold bind at 1. unfold get at 1. cbn beta iota.
  assert (Kana : forall c i, has_rom2kana_conversion i c = true -> input_mode c).
  { intros c i E. unfold has_rom2kana_conversion in E. unfold input_mode. destruct c; auto; destruct i; discriminate. }
  destruct (has_rom2kana_conversion (s_imode s) (s_cmode s)) eqn:Eh.
  { assert (El : match s_cmode s with CompositionSelection | Completion => true | _ => false end = false)
      by (destruct (Kana _ _ Eh) as [-> |[-> | ->]]; reflexivity).
    rewrite El. cbn [andb orb negb]. unfold bind, ret, cur. rewrite Hs. cbn beta iota. rewrite Eh. cbn [andb].
    intros H. unfold takes_text. rewrite Eh. cbn [orb]. rewrite orb_false_r, andb_true_r.
    eapply kana_says; [|exact Hch|exact H]. exists s, r. split; [exact Hs|]. now apply (Kana _ (s_imode s)). }
  cbn [andb orb negb].
  destruct (is_ascii_inputtable k) eqn:Ea; cbn [andb].
  - destruct (match s_cmode s with CompositionSelection | Completion => true | _ => false end) eqn:El; cbn [andb].
    + unfold will_be_processed. rewrite Eh, Ea, Em. cbn [andb orb negb].
      unfold bind at 1. destruct (confirm_current w) as [[[] w1]|] eqn:Ec; [|discriminate].
      apply (confirm_outcome w s r) in Ec; [|exact Hs].
      destruct Ec as [[Hc ->]|(c & s' & Hc & Hs' & Hm' & Hi' & Hp' & _)].
      * unfold bind, cur. rewrite Hs. rewrite Eh. cbn [andb]. intros H. apply (plain_says k w s r Hs Hch Eh) in H as ->.
        unfold takes_text. rewrite Eh, Hc. destruct (s_cmode s); try reflexivity; discriminate.
      * unfold bind, cur. rewrite Hs'. intros H.
        assert (takes_text s = true) as -> by (unfold takes_text; rewrite Eh, Hc; destruct (s_cmode s); try reflexivity; discriminate).
        destruct (has_rom2kana_conversion (s_imode s') (s_cmode s')) eqn:Eh'; cbn [andb] in H.
        -- assert (Hm1 : mode_is input_mode w1) by (exists s', r; split; [exact Hs'|]; now apply (Kana _ (s_imode s'))).
           eapply (kana_says k (s_pre s) w1 Hm1 Hch) in H as ->. unfold kana_takes. rewrite Ea, !orb_true_r. reflexivity.
        -- apply (plain_says k w1 s' r Hs' Hch Eh') in H as ->. rewrite Hm', Hd. reflexivity.
    + unfold bind, ret, cur. rewrite Hs. cbn beta iota. rewrite Eh. cbn [andb]. intros H. apply (plain_says k w s r Hs Hch Eh) in H as ->.
      unfold takes_text. rewrite Eh. destruct (s_cmode s); try reflexivity; discriminate.
  - assert (will_be_processed (x_kb (w_ctx w)) k (s_imode s) (s_cmode s) (s_pre s) = false) as ->.
    { unfold will_be_processed. rewrite Eh, Ea. cbn. now rewrite andb_false_r. }
    rewrite andb_false_r. unfold bind, ret, cur. rewrite Hs. cbn beta iota. rewrite Eh. cbn [andb]. intros [= <- _]. reflexivity.
Qed.
Lemma completes_used w s k : completes w s k = true -> used w s k = true.
Proof.
  unfold completes, skip_command, used, takes_text. intros G. apply andb_prop in G as [-> G]. apply andb_prop in G as [-> H].
  apply orb_true_iff in H. cbn [negb andb orb].
  rewrite ?orb_false_r, ?andb_true_r. unfold kana_takes. destruct (is_upper k) eqn:Eu.
  - rewrite (upper_ascii _ Eu), !orb_true_r. reflexivity.
  - rewrite (lower_raw _ _ Eu) in H.
    destruct (convert_non_partial (x_kb (w_ctx w)) (combine_raw k (s_pre s))) eqn:E; [|destruct H; discriminate].
    rewrite (node_continues _ _ _ _ E). reflexivity.
Qed.
End S.

(* ------------------------------------------------------------ theorems *)
(** Text keys (keys with a character, not bound to a command in the current mode): what
    process_key_event answers, exactly, in terms of what will_process answers.  [s_default] is the
    mode a frame returns to, always Direct unless a frame was created otherwise. *)
Theorem C49_text_partial : forall X dbg k w s p b w',
  current w = Some s -> s_cmode s <> Register -> s_default s = Direct ->
  has_mod k M_RELEASE = false -> get_symbol_char X k <> None ->
  unbound (x_cmd (w_ctx w)) (s_cmode s) (s_imode s) k ->
  will_process dbg k w = Ok p -> process_key_event X dbg k w = Ok (b, w') ->
  b = (p || taken_anyway X s k) && takes_text s.
Proof.
  intros X dbg k w s p b w' Hs Hr Hd Hk Hch Hu Hp Hb. unfold current in Hs. destruct (x_stack (w_ctx w)) as [|s0 r] eqn:E; [discriminate|]. injection Hs as ->.
  rewrite (key_unbound X dbg k w s r E Hk Hr Hu) in Hb. apply (input_key_says X dbg k w s r E Hd Hch) in Hb as ->.
  unfold will_process in Hp. rewrite E, (instruction_unbound dbg _ _ _ _ Hr Hu) in Hp. cbn [rmap] in Hp. injection Hp as <-.
  unfold used, taken_anyway, kana_takes. f_equal. destruct (is_modifierless_input k), (has_rom2kana_conversion (s_imode s) (s_cmode s)); cbn [andb orb negb]; try reflexivity;
    rewrite ?orb_false_r, ?orb_assoc; reflexivity.
Qed.
(** So in a mode that takes text a promise is kept, and outside kana input the answers agree. *)
Theorem C49_promise_partial : forall X dbg k w s b w',
  current w = Some s -> s_cmode s <> Register -> s_default s = Direct -> takes_text s = true ->
  has_mod k M_RELEASE = false -> get_symbol_char X k <> None ->
  unbound (x_cmd (w_ctx w)) (s_cmode s) (s_imode s) k ->
  will_process dbg k w = Ok true -> process_key_event X dbg k w = Ok (b, w') -> b = true.
Proof.
  intros X dbg k w s b w' Hs Hr Hd Ht Hk Hch Hu Hp Hb.
  pose proof (C49_text_partial X dbg k w s true b w' Hs Hr Hd Hk Hch Hu Hp Hb) as ->. now rewrite Ht.
Qed.
Theorem C49_agree_partial : forall X dbg k w s p b w',
  current w = Some s -> s_cmode s <> Register -> s_default s = Direct -> takes_text s = true ->
  has_rom2kana_conversion (s_imode s) (s_cmode s) = false ->
  has_mod k M_RELEASE = false -> get_symbol_char X k <> None ->
  unbound (x_cmd (w_ctx w)) (s_cmode s) (s_imode s) k ->
  will_process dbg k w = Ok p -> process_key_event X dbg k w = Ok (b, w') -> b = p.
Proof.
  intros X dbg k w s p b w' Hs Hr Hd Ht Hh Hk Hch Hu Hp Hb.
  pose proof (C49_text_partial X dbg k w s p b w' Hs Hr Hd Hk Hch Hu Hp Hb) as ->. rewrite Ht. unfold taken_anyway. rewrite Hh. cbn [andb]. now rewrite orb_false_r, andb_true_r.
Qed.
(** A key that completes a conversion is used, command or not. *)
Theorem C49_conversion_partial : forall X dbg k w s b w',
  current w = Some s -> s_default s = Direct -> get_symbol_char X k <> None ->
  completes w s k = true -> process_key_event X dbg k w = Ok (b, w') -> b = true.
Proof.
  intros X dbg k w s b w' Hs Hd Hch Hc Hb. unfold current in Hs. destruct (x_stack (w_ctx w)) as [|s0 r] eqn:E; [discriminate|]. injection Hs as ->.
  rewrite (key_skip X dbg k w s r E) in Hb; [| |exact Hc].
  - apply (input_key_says X dbg k w s r E Hd Hch) in Hb as ->. now apply completes_used.
  - apply modifierless_no_release. unfold completes, skip_command in Hc. now apply andb_prop in Hc as [Hc _].
Qed.
(** Commands: will_process always promises; whether the promise is kept is up to the command. *)
Theorem C49_command_partial : forall X dbg k w s l b w',
  current w = Some s -> s_cmode s <> Register -> has_mod k M_RELEASE = false -> completes w s k = false ->
  bound (x_cmd (w_ctx w)) (s_cmode s) (s_imode s) k l ->
  process_key_event X dbg k w = Ok (b, w') ->
  will_process dbg k w = Ok true
  /\ (existsb terminal l = false -> b = negb (is_nil l))
  /\ forall l', (l = IDelete :: l' -> b = deletable s)
             /\ (l = IConfirmDirect :: l' -> b = Nat.ltb 1 (length (frames w)))
             /\ (l = IPassthroughKeyEvent :: l' -> b = false).
Proof.
  intros X dbg k w s l b w' Hs Hr Hk Hc Hl. unfold current in Hs. destruct (x_stack (w_ctx w)) as [|s0 r] eqn:E; [discriminate|]. injection Hs as ->.
  unfold process_key_event. rewrite Hk. unfold process_key_event_inner, bind, cur, get. rewrite E. cbn zeta.
  unfold completes in Hc. rewrite Hc, (instruction_bound dbg _ _ _ _ _ Hr Hl). cbn [lift]. unfold lift. unfold process_instructions. intros Hb.
  split; [|split].
  - unfold will_process. rewrite E, (instruction_bound dbg _ _ _ _ _ Hr Hl). reflexivity.
  - intros Ht. destruct l as [|x l]; [now injection Hb as <- _|]. cbn [is_nil negb] in *.
    destruct b; [reflexivity|]. destruct (run_instrs_true dbg _ _ _ Ht w w' Hb).
  - intros l'. split; [|split]; intros ->.
    + cbn [is_nil negb] in Hb. rewrite (delete_run dbg _ _ _ _ _ _ _ E) in Hb. injection Hb as <- _.
      unfold st_delete, deletable. destruct (s_cmode s); try reflexivity; destruct (s_pre s); try reflexivity;
        first [destruct (s_conf s); reflexivity|destruct (s_okuri s); reflexivity].
    + cbn [is_nil negb run_instrs run_instr] in Hb. unfold bind, get, cur in Hb. rewrite E in Hb. unfold frames. rewrite E.
      destruct (Nat.ltb 1 (length (s :: r))); [|now injection Hb as <- _].
      rewrite E in Hb. destruct (exit_register_mode (s_conf s) w) as [[]|]; cbn in Hb; [|discriminate]. now injection Hb as <- _.
    + now injection Hb as <- _.
Qed.
(** Releases (unless bound to a command, which no key sequence of the default rule is): both no. *)
Theorem C49_release_partial : forall X dbg k w s,
  current w = Some s -> s_cmode s <> Register -> has_mod k M_RELEASE = true ->
  unbound (x_cmd (w_ctx w)) (s_cmode s) (s_imode s) k ->
  will_process dbg k w = Ok false /\ process_key_event X dbg k w = Ok (false, w).
Proof.
  intros X dbg k w s Hs Hr Hk Hu. unfold current in Hs. destruct (x_stack (w_ctx w)) as [|s0 r] eqn:E; [discriminate|]. injection Hs as ->.
  split.
  - unfold will_process. rewrite E, (instruction_unbound dbg _ _ _ _ Hr Hu). cbn [rmap].
    destruct (is_modifierless_input k) eqn:Em; [|reflexivity]. apply modifierless_no_release in Em. congruence.
  - unfold process_key_event. now rewrite Hk.
Qed.
(** The hypotheses are met: full-width input, an ordinary letter. *)
Example C49_case : exists outs w s w', typed false (U "L a") (demo [user_dict dic_small]) = Ok (outs, w)
  /\ current w = Some s /\ s_imode s = Zenkaku /\ s_default s = Direct /\ takes_text s = true
  /\ has_rom2kana_conversion (s_imode s) (s_cmode s) = false
  /\ assoc_key (mkKey 98 M_NONE) (x_cmd (w_ctx w) (s_cmode s) (s_imode s)) = None
  /\ will_process false (mkKey 98 M_NONE) w = Ok true
  /\ process_key_event ascii_xkb false (mkKey 98 M_NONE) w = Ok (true, w').
Proof.
  destruct (run_case (typed false (U "L a") (demo [user_dict dic_small]))
    (fun w => (option_map (fun s => (s_imode s, s_default s, takes_text s, has_rom2kana_conversion (s_imode s) (s_cmode s),
        assoc_key (mkKey 98 M_NONE) (x_cmd (w_ctx w) (s_cmode s) (s_imode s)))) (current w),
       will_process false (mkKey 98 M_NONE) w,
       match process_key_event ascii_xkb false (mkKey 98 M_NONE) w with Ok (b, _) => Some b | Panic _ => None end))
    (Some (Zenkaku, Direct, true, false, None), Ok true, Some true)) as (outs & w & E & F); [vm_compute; reflexivity|].
  destruct (current w) as [s|] eqn:Ec; [|discriminate].
  destruct (process_key_event ascii_xkb false (mkKey 98 M_NONE) w) as [[b w']|] eqn:Ek; [|discriminate].
  cbn [option_map] in F. injection F as F1 F2 F3 F4 F5 F6 F7. subst b. exists outs, w, s, w'. auto 10.
Qed.
(** The full claim is false, both ways, at the very start of typing with the default rule: a
    capital is used although will_process says no, Return is not used although it says yes. *)
Theorem C49_refuted : exists wA wR, 
  will_process false (mkKey 65 M_SHIFT) (demo [user_dict dic_small]) = Ok false
  /\ process_key_event ascii_xkb false (mkKey 65 M_SHIFT) (demo [user_dict dic_small]) = Ok (true, wA)
  /\ will_process false (mkKey 65293 M_NONE) (demo [user_dict dic_small]) = Ok true
  /\ process_key_event ascii_xkb false (mkKey 65293 M_NONE) (demo [user_dict dic_small]) = Ok (false, wR).
Proof.
  destruct (run_case (process_key_event ascii_xkb false (mkKey 65 M_SHIFT) (demo [user_dict dic_small])) (fun _ => tt) tt) as (b1 & wA & E1 & _);
    [vm_compute; reflexivity|].
  destruct (run_case (process_key_event ascii_xkb false (mkKey 65293 M_NONE) (demo [user_dict dic_small])) (fun _ => tt) tt) as (b2 & wR & E2 & _);
    [vm_compute; reflexivity|].
  assert (F1 : rmap fst (process_key_event ascii_xkb false (mkKey 65 M_SHIFT) (demo [user_dict dic_small])) = Ok true) by (vm_compute; reflexivity).
  assert (F2 : rmap fst (process_key_event ascii_xkb false (mkKey 65293 M_NONE) (demo [user_dict dic_small])) = Ok false) by (vm_compute; reflexivity).
  rewrite E1 in F1. rewrite E2 in F2. injection F1 as ->. injection F2 as ->.
  exists wA, wR. split; [vm_compute; reflexivity|]. split; [exact E1|]. split; [vm_compute; reflexivity|exact E2].
Qed.
