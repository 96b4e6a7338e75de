(** C54: a key reported as not handled changed nothing. *)
From Verif Require Import Str Keys Modes KanaBuilder FormChanger DictTypes Parser Lru
  Dictionary CState Context DefaultRule Demo Spec P_Monad P_Frames P_Inv P_Keeps P_Register P_Step.

(* ------------------------------------------------------------ vocabulary *)
(** The command lists of a rule: an instruction that may answer that the key is not handled
    comes first, except a deletion right after confirming the candidate. *)
Definition terminal (x : instr) : bool :=
  match x with IPassthroughKeyEvent | IConfirmDirect | IDelete => true | _ => false end.
Definition answers_first (c : cmode) (l : list instr) : Prop :=
  match l with
  | [] => True
  | x :: r => terminal x = true \/ existsb terminal r = false
              \/ ((c = CompositionSelection \/ c = Completion)
                  /\ x = IConfirmComposition /\ exists r', r = IDelete :: r')
  end.
Definition rule_answers_first (cr : command_rule) : Prop :=
  forall c i k l, In (k, l) (cr c i) -> answers_first c l.
(** Every printable ASCII key has a character. *)
Definition printable (X : xkb) : Prop := forall k, (32 <= k <= 126)%N -> xk_char X k <> None.
(** The frame returns to Direct; an okurigana mode shows a okurigana or a pending key; the
    candidate shown has a text. *)
Definition tidy (s : cstate) : Prop :=
  s_default s = Direct
  /\ (s_cmode s = PreCompositionOkurigana -> s_pre s <> [] \/ s_okuri s <> []).
Definition shows_text (s : cstate) : Prop :=
  s_cmode s = CompositionSelection \/ s_cmode s = Completion ->
  forall c, cl_current (s_list s) = Some c -> c_output c <> [].

(* ------------------------------------------------------------ proofs *)
Definition inert (m : M bool) (w : world) : Prop := forall w', m w = Ok (false, w') -> w' = w.
Definition truly (m : M bool) (w : world) : Prop := forall w', m w <> Ok (false, w').
Lemma truly_inert m w : truly m w -> inert m w.
Proof. intros H w' E. destruct (H w' E). Qed.
Lemma truly_bind {A} (m : M A) f w : (forall a w1, m w = Ok (a, w1) -> truly (f a) w1) -> truly (bind m f) w.
Proof. intros H w'. unfold bind. destruct (m w) as [[a w1]|] eqn:E; [|discriminate]. eapply H; eauto. Qed.
Lemma truly_ret w : truly (ret true) w.
Proof. intros w'. discriminate. Qed.
Lemma truly_then_ret {A} (m : M A) w : truly (bind m (fun _ => ret true)) w.
Proof. apply truly_bind. intros. apply truly_ret. Qed.
Lemma inert_ret w b : inert (ret b) w.
Proof. intros w' [= _ <-]. reflexivity. Qed.
Lemma set_stack_same w : set_stack (x_stack (w_ctx w)) w = w.
Proof. destruct w as [? []]; reflexivity. Qed.

(** What an operation does to the mode of the current frame. *)
Definition mode_is (P : cmode -> Prop) (w : world) : Prop :=
  exists s r, x_stack (w_ctx w) = s :: r /\ P (s_cmode s).
Lemma modcur_mode P f w w' : mode_is P w -> (forall s, s_cmode (f s) = s_cmode s) ->
  modcur f w = Ok (tt, w') -> mode_is P w'.
Proof.
  intros (s & r & Hs & HP) Hf. unfold modcur. rewrite Hs. intros [= <-]. exists (f s), r. rewrite Hf. auto.
Qed.
Lemma output_mode P i c w b w' : mode_is P w -> output_converted_kana_if_any i c w = Ok (b, w') -> mode_is P w'.
Proof.
  intros HP. unfold output_converted_kana_if_any, set_carry_over, bind, cur, get. pose proof HP as (s & r & Hs & H0). rewrite Hs. cbn beta iota.
  destruct (convert_greedy _ _) as [[kana carry]|]; [|intros [= _ <-]; exact HP].
  destruct c; try (intros [= _ <-]; exact HP).
  all: unfold modcur at 1; rewrite Hs; cbn beta iota; unfold modcur; cbn [x_stack w_ctx set_stack];
    intros [= _ <-]; eexists _, r; split; [reflexivity|]; destruct (is_nil carry); exact H0.
Qed.
Definition input_mode (c : cmode) : Prop := c = Direct \/ c = PreComposition \/ c = PreCompositionOkurigana.
Section S.
Context (X : xkb) (dbg : bool).
Lemma finish_truly w : truly (finish_kana_input dbg) w.
Proof. unfold finish_kana_input. apply truly_bind. intros. apply truly_then_ret. Qed.
Ltac tb := apply truly_bind; intros ? ? ?.
Lemma periods_truly i c conv w : mode_is input_mode w -> truly (input_periods dbg i c conv) w.
Proof.
  intros Hw. unfold input_periods. apply truly_bind. intros b w1 H1. apply (output_mode _ _ _ _ _ _ Hw) in H1.
  apply truly_bind. intros [] w2 H2. apply (modcur_mode _ _ _ _ H1) in H2; [|reflexivity].
  apply truly_bind. intros s w3 H3. destruct H2 as (s' & r & Hs & Hm). unfold cur in H3. rewrite Hs in H3. injection H3 as <- <-.
  destruct Hm as [-> |[-> | ->]]; repeat (first [apply finish_truly|tb]).
Qed.
Lemma direct_char_inert k ch i c w : mode_is input_mode w -> inert (input_direct_char dbg k ch i c) w
   /\ (is_ascii_inputtable k = true -> truly (input_direct_char dbg k ch i c) w).
Proof.
  intros Hw. unfold input_direct_char. destruct (is_ascii_inputtable k); [|split; [apply inert_ret|discriminate]].
  assert (G : truly (output_converted_kana_if_any i c ;; modcur clear_preconverted ;; s2 <- cur ;;
     match s_cmode s2 with
     | Direct | PreComposition | PreCompositionOkurigana => modcur (push_string [ch]) ;; finish_kana_input dbg
     | _ => ret false end) w).
  { apply truly_bind. intros b w1 H1. apply (output_mode _ _ _ _ _ _ Hw) in H1.
    apply truly_bind. intros [] w2 H2. apply (modcur_mode _ _ _ _ H1) in H2; [|reflexivity].
    apply truly_bind. intros s w3 H3. destruct H2 as (s' & r & Hs & Hm). unfold cur in H3. rewrite Hs in H3. injection H3 as <- <-.
    destruct Hm as [-> |[-> | ->]]; repeat (first [apply finish_truly|tb]). }
  split; [now apply truly_inert|auto].
Qed.
Lemma unconverted_inert k u ch c w : mode_is input_mode w -> inert (input_unconverted dbg k u ch c) w
   /\ (is_ascii_inputtable k = true -> truly (input_unconverted dbg k u ch c) w).
Proof.
  intros Hw. pose proof Hw as (s & r & Hs & Hm).
  assert (G : forall m : M bool, truly m w -> inert m w /\ (is_ascii_inputtable k = true -> truly m w)).
  { intros m H. split; [now apply truly_inert|auto]. }
  unfold input_unconverted.
  assert (Ec : forall f : cstate -> M bool, (inert (f s) w /\ (is_ascii_inputtable k = true -> truly (f s) w)) ->
    inert (bind cur f) w /\ (is_ascii_inputtable k = true -> truly (bind cur f) w)).
  { intros f. unfold inert, truly, bind, cur. rewrite Hs. auto. }
  apply Ec.
  change (inert (bind get ?f) w) with (inert (f w) w). change (truly (bind get ?f) w) with (truly (f w) w). cbn beta zeta.
  destruct (convert_periods _ _ _); [apply G, periods_truly, Hw|].
  destruct (can_continue _ k u); [apply G; repeat (first [apply finish_truly|tb])|].
  destruct (_ && _); [apply G; repeat (first [apply finish_truly|tb])|].
  destruct (convert_non_partial _ _) as [[conv carry]|]; [apply G, truly_then_ret|].
  destruct (convert_non_partial _ _) as [[conv carry]|].
  { destruct (is_upper k); apply G; [tb; apply truly_then_ret|apply finish_truly]. }
  destruct (can_continue _ k []); [apply G; repeat (first [apply finish_truly|tb])|].
  destruct (can_continue_lower _ k []); [apply G; repeat (first [apply finish_truly|tb])|].
  apply direct_char_inert, Hw.
Qed.
Lemma kana_inert k u w : printable X -> mode_is input_mode w -> inert (input_kana X dbg k u) w
   /\ (is_ascii_inputtable k = true -> truly (input_kana X dbg k u) w).
Proof.
  intros HX Hw. pose proof Hw as (s & r & Hs & Hm). unfold input_kana.
  assert (Ec : forall f : cstate -> M bool, (inert (f s) w /\ (is_ascii_inputtable k = true -> truly (f s) w)) ->
    inert (bind cur f) w /\ (is_ascii_inputtable k = true -> truly (bind cur f) w)).
  { intros f. unfold inert, truly, bind, cur. rewrite Hs. auto. }
  apply Ec.
  change (inert (bind get ?f) w) with (inert (f w) w). change (truly (bind get ?f) w) with (truly (f w) w). cbn beta zeta.
  assert (Hu : forall c, inert (match get_symbol_char X k with Some ch => input_unconverted dbg k u ch c | None => ret false end) w
     /\ (is_ascii_inputtable k = true -> truly (match get_symbol_char X k with Some ch => input_unconverted dbg k u ch c | None => ret false end) w)).
  { intros c. destruct (get_symbol_char X k) as [ch|] eqn:Ech; [now apply unconverted_inert|].
    split; [apply inert_ret|]. intros Ha. exfalso. apply (HX (ksym k)); [|exact Ech].
    unfold is_ascii_inputtable in Ha. apply andb_prop in Ha as [H1 H2]. apply N.leb_le in H1, H2. auto. }
  destruct (convert_non_partial _ _) as [[conv carry]|].
  { split; [apply truly_inert|intros _]; apply truly_then_ret. }
  destruct (is_upper k); [|apply Hu].
  destruct (convert_non_partial _ _) as [[conv carry]|]; [|apply Hu].
  split; [apply truly_inert|intros _]; apply truly_bind; intros; apply truly_then_ret.
Qed.
Lemma plain_inert k w : printable X -> inert (input_plain X k) w
   /\ (is_ascii_inputtable k = true -> forall s r, x_stack (w_ctx w) = s :: r -> s_cmode s = Direct ->
       has_rom2kana_conversion (s_imode s) Direct = false -> truly (input_plain X k) w).
Proof.
  intros HX. unfold input_plain, inert, truly, bind, cur, get.
  destruct (x_stack (w_ctx w)) as [|s r] eqn:Hs; [split; [discriminate|congruence]|].
  split.
  - intros w'. destruct (s_cmode s); try (intros [= <-]; reflexivity).
    + destruct (get_symbol_char X k); [|intros [= <-]; reflexivity].
      destruct (s_imode s); try (intros [= <-]; reflexivity).
      all: unfold append_converted, modcur; rewrite Hs; discriminate.
    + destruct (get_symbol_char X k); [|intros [= <-]; reflexivity]. unfold modcur; rewrite Hs; discriminate.
  - intros Ha s0 r0 [= <- <-] Hc Hi. rewrite Hc.
    destruct (get_symbol_char X k) eqn:Ech.
    + intros w'. destruct (s_imode s); try discriminate; unfold append_converted, modcur; rewrite Hs; discriminate.
    + exfalso. apply (HX (ksym k)); [|exact Ech].
      unfold is_ascii_inputtable in Ha. apply andb_prop in Ha as [H1 H2]. apply N.leb_le in H1, H2. auto.
Qed.
(** confirming: nothing to confirm, or a frame in its first mode with some text *)
Lemma confirm_outcome w s r w' : x_stack (w_ctx w) = s :: r -> confirm_current w = Ok (tt, w') ->
  (cl_current (s_list s) = None /\ w' = w)
  \/ exists c s', cl_current (s_list s) = Some c /\ x_stack (w_ctx w') = s' :: r /\ s_cmode s' = s_default s
       /\ s_imode s' = s_imode s /\ s_pre s' = []
       /\ (s_cmode s = CompositionSelection \/ s_cmode s = Completion -> c_output c <> [] -> s_conf s' <> []).
Proof.
  intros Hs. unfold confirm_current, bind, cur, get. rewrite Hs. cbn beta iota.
  destruct (cl_current (s_list s)) as [c|]; [|intros [= <-]; auto].
  unfold for_dicts, modcur. cbn [x_stack w_ctx set_store]. rewrite Hs. intros [= <-]. right.
  eexists c, _. split; [reflexivity|]. split; [reflexivity|]. unfold push_string. split; [destruct (s_cmode s); reflexivity|]. split; [destruct (s_cmode s); reflexivity|].
  split; [reflexivity|].
  intros Hm Ho.
  assert (E : forall t, s_conf (push_string_for t (s_cmode s) s) = s_conf s ++ t) by (intros t; destruct Hm as [-> | ->]; reflexivity).
  match goal with |- ?x <> [] => assert (x = s_conf (push_string_for (c_output c ++ adjust_kana_string (x_kf (w_ctx w)) (s_imode s) (s_okuri s)) (s_cmode s) s)) as -> by reflexivity end.
  rewrite E. intros H. apply app_eq_nil in H as [_ H]. apply app_eq_nil in H as [H _]. contradiction.
Qed.
Lemma input_key_inert k w s r : printable X -> x_stack (w_ctx w) = s :: r -> s_default s = Direct ->
  inert (input_key X dbg k (s_cmode s) (s_pre s)) w.
Proof.
  intros HX Hs Hd w'. unfold input_key. destruct (is_modifierless_input k) eqn:Em; cbn [negb]; [|intros [= <-]; reflexivity].
  unfold bind at 1. unfold cur at 1. rewrite Hs. cbn beta iota. unfold bind at 1. unfold get at 1. cbn beta iota.
  assert (Hrest : forall w1 s1 r1, x_stack (w_ctx w1) = s1 :: r1 ->
    inert (if has_rom2kana_conversion (s_imode s1) (s_cmode s1) && true then input_kana X dbg k (s_pre s)
           else if is_ascii_inputtable k && true then input_plain X k else ret false) w1
    /\ (is_ascii_inputtable k = true -> s_cmode s1 = Direct ->
        truly (if has_rom2kana_conversion (s_imode s1) (s_cmode s1) && true then input_kana X dbg k (s_pre s)
           else if is_ascii_inputtable k && true then input_plain X k else ret false) w1)).
  { intros w1 s1 r1 H1. destruct (has_rom2kana_conversion (s_imode s1) (s_cmode s1)) eqn:Eh; cbn [andb].
    - assert (Hm : mode_is input_mode w1).
      { exists s1, r1. split; [exact H1|]. unfold has_rom2kana_conversion in Eh. unfold input_mode. destruct (s_cmode s1); auto; destruct (s_imode s1); discriminate. }
      destruct (kana_inert k (s_pre s) w1 HX Hm) as [G1 G2]. split; auto.
    - destruct (is_ascii_inputtable k) eqn:Ea; cbn [andb]; [|split; [apply inert_ret|discriminate]].
      destruct (plain_inert k w1 HX) as [G1 G2]. split; [exact G1|]. intros _ Hc. rewrite Hc in Eh. eauto. }
  destruct (_ && will_be_processed _ _ _ _ _) eqn:Ew; cbn iota.
  - unfold bind at 1. destruct (confirm_current w) as [[[] w1]|] eqn:Ec; [|discriminate].
    apply (confirm_outcome w s r) in Ec; [|exact Hs].
    destruct Ec as [[Hc ->]|(c & s' & Hc & Hs' & Hm' & Hi' & Hp' & _)].
    + unfold bind, cur. rewrite Hs. intros H. exact (proj1 (Hrest w s r Hs) w' H).
    + unfold bind, cur. rewrite Hs'. intros H. exfalso.
      eapply (proj2 (Hrest w1 s' r Hs')); [|congruence|exact H].
      apply andb_prop in Ew as [Ec Ew]. unfold will_be_processed in Ew.
      assert (Hn : has_rom2kana_conversion (s_imode s) (s_cmode s) = false) by (destruct (s_cmode s); try discriminate; destruct (s_imode s); reflexivity).
      rewrite Hn in Ew. cbn [negb andb orb] in Ew. rewrite Bool.andb_false_r in Ew. exact Ew.
  - unfold bind, ret, cur. rewrite Hs. intros H. exact (proj1 (Hrest w s r Hs) w' H).
Qed.
(** ** commands *)
Lemma run_instrs_true l c i : existsb terminal l = false -> forall w, truly (run_instrs dbg l c i true) w.
Proof.
  induction l as [|x l IH]; intros Hl w; [apply truly_ret|]. cbn [existsb] in Hl. apply Bool.orb_false_elim in Hl as [Hx Hl].
  cbn [run_instrs]. apply truly_bind. intros o w1 Ho. destruct o as [[]|b]; [now apply IH|]. exfalso.
  destruct x; try discriminate; unfold run_instr in Ho; unfold bind at 1 in Ho;
    match type of Ho with match ?m w with _ => _ end = _ => destruct (m w) as [[? ?]|]; discriminate end.
Qed.
Lemma delete_inert s : s_cmode s <> PreCompositionOkurigana \/ s_pre s <> [] \/ s_okuri s <> [] ->
  fst (st_delete s) = false -> snd (st_delete s) = s.
Proof.
  unfold st_delete. destruct (s_cmode s) eqn:E; cbn; intros H; try (intros; reflexivity).
  - destruct (s_pre s); cbn; [|discriminate]. destruct (s_conf s) eqn:Ec; cbn; [|discriminate]. intros _. change (@nil N) with (@nil N). destruct s; cbn in *; subst; reflexivity.
  - destruct (s_pre s); cbn; discriminate.
  - destruct H as [H|H]; [congruence|]. destruct (s_pre s); cbn; [|discriminate].
    destruct (s_okuri s); cbn; [|discriminate]. destruct H; congruence.
  - destruct (s_pre s); cbn; discriminate.
Qed.
Lemma delete_run l c i b w s r : x_stack (w_ctx w) = s :: r ->
  run_instrs dbg (IDelete :: l) c i b w = Ok (fst (st_delete s), set_stack (snd (st_delete s) :: r) w).
Proof. intros Hs. cbn [run_instrs run_instr]. unfold bind, cur, modcur, ret. rewrite Hs; cbn beta iota; rewrite Hs; reflexivity. Qed.
Lemma instrs_inert l w s r : x_stack (w_ctx w) = s :: r -> tidy s -> shows_text s -> answers_first (s_cmode s) l ->
  inert (process_instructions dbg l (s_cmode s) (s_imode s)) w.
Proof.
  intros Hs [Hd Ho] Ht Hl w'. unfold process_instructions. destruct l as [|x l]; [cbn; intros [= <-]; reflexivity|].
  cbn [is_nil negb]. destruct (terminal x) eqn:Hx.
  { destruct x; try discriminate.
    - intros [= <-]; reflexivity.
    - cbn [run_instrs run_instr]. unfold bind, get, cur. rewrite Hs.
      destruct (Nat.ltb _ _); [|intros [= <-]; reflexivity].
      rewrite Hs. destruct (exit_register_mode (s_conf s) w) as [[]|]; cbn; discriminate.
    - rewrite (delete_run _ _ _ _ _ _ _ Hs). intros [= Hf <-]. rewrite delete_inert; auto.
      + rewrite <- Hs. apply set_stack_same.
      + destruct (cmode_eqb (s_cmode s) PreCompositionOkurigana) eqn:E; [apply cmode_eqb_eq in E; auto|left]. intros H. rewrite H in E. discriminate. }
  destruct Hl as [Hx'|[Hx'|(Hm & -> & l' & ->)]]; [congruence| |].
  - intros H. exfalso. eapply run_instrs_true; [|exact H]. cbn. now rewrite Hx, Hx'.
  - set (tl := IDelete :: l'). cbn [run_instrs run_instr]. unfold bind at 1. unfold bind at 1.
    destruct (confirm_current w) as [[[] w1]|] eqn:Ec; [|discriminate]. cbn [ret]. cbn beta iota.
    subst tl.
    apply (confirm_outcome w s r) in Ec; [|exact Hs].
    destruct Ec as [[Hc ->]|(c & s' & Hc & Hs' & Hm' & Hi' & Hp' & Hf)].
    + rewrite (delete_run _ _ _ _ _ _ _ Hs). intros [= Hf <-]. rewrite delete_inert; auto; [|left; destruct Hm as [-> | ->]; discriminate].
      rewrite <- Hs. apply set_stack_same.
    + rewrite (delete_run _ _ _ _ _ _ _ Hs'). intros [= Hx' _]. exfalso.
      specialize (Hf Hm (Ht Hm c Hc)). rewrite Hd in Hm'. unfold st_delete in Hx'. rewrite Hm', Hp' in Hx'. cbn in Hx'.
      destruct (s_conf s'); [congruence|discriminate].
Qed.
Lemma key_inert k w s r : printable X -> x_stack (w_ctx w) = s :: r -> rule_answers_first (x_cmd (w_ctx w)) ->
  tidy s -> shows_text s -> inert (process_key_event X dbg k) w.
Proof.
  intros HX Hs Hr Hd Ht w'. unfold process_key_event. destruct (has_mod k M_RELEASE); [intros [= <-]; reflexivity|].
  unfold process_key_event_inner, bind, cur, get. rewrite Hs. cbn zeta.
  destruct (skip_command _ _ _ _ _); [apply (input_key_inert k w s r HX Hs (proj1 Hd))|].
  destruct (get_instruction dbg (x_cmd (w_ctx w)) k (s_imode s) (s_cmode s)) as [[l|]|] eqn:Ei; cbn [lift]; [| |discriminate].
  - unfold lift. apply (instrs_inert l w s r Hs Hd Ht). apply get_instruction_in in Ei as [k' Hk]. eapply Hr; eauto.
  - apply (input_key_inert k w s r HX Hs (proj1 Hd)).
Qed.
End S.
