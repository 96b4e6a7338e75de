(** Unfolding one key press. *)
From Verif Require Import Str Keys Modes KanaBuilder FormChanger DictTypes Parser Lru
  Dictionary CState Context Spec.

Lemma mods_modifierless k : kmods k = M_NONE \/ kmods k = M_SHIFT -> is_modifierless_input k = true.
Proof. unfold is_modifierless_input. intros [->| ->]; reflexivity. Qed.
Lemma mods_no_release k : kmods k = M_NONE \/ kmods k = M_SHIFT -> has_mod k M_RELEASE = false.
Proof. unfold has_mod. intros [->| ->]; reflexivity. Qed.
Lemma modifierless_no_release k : is_modifierless_input k = true -> has_mod k M_RELEASE = false.
Proof.
  unfold is_modifierless_input, has_mod. rewrite N.eqb_eq. intros H. apply N.eqb_neq. intros E.
  assert (B : N.testbit (N.ldiff (kmods k) M_SHIFT) 30 = true).
  { rewrite N.ldiff_spec. assert (N.testbit (kmods k) 30 = true) as ->.
    { apply (f_equal (fun n => N.testbit n 30)) in E. rewrite N.land_spec in E.
      change (N.testbit M_RELEASE 30) with true in E. now rewrite Bool.andb_true_r in E. }
    reflexivity. }
  rewrite H in B. discriminate.
Qed.
Lemma types_ascii X k ch : types X k ch -> is_ascii_inputtable k = true.
Proof.
  intros (_ & [H1 H2] & _). unfold is_ascii_inputtable.
  apply andb_true_intro; split; apply N.leb_le; assumption.
Qed.
Lemma unbound_assoc cr c i k : unbound cr c i k -> assoc_key (command_key k) (cr c i) = None.
Proof.
  unfold unbound. induction (cr c i) as [|[k' l] r IH]; intros H; cbn; [reflexivity|].
  destruct (key_eqb (command_key k) k') eqn:E.
  - apply key_eqb_eq in E. exfalso. apply (H k' l); [left; reflexivity|auto].
  - apply IH. intros k'' l' Hin. apply (H k'' l'). right; exact Hin.
Qed.
Lemma instruction_unbound dbg cr c i k : c <> Register -> unbound cr c i k ->
  get_instruction dbg cr k i c = Ok None.
Proof. intros Hc H. unfold get_instruction. rewrite (unbound_assoc _ _ _ _ H). destruct c; congruence. Qed.
Lemma instruction_bound dbg cr c i k l : c <> Register -> bound cr c i k l ->
  get_instruction dbg cr k i c = Ok (Some l).
Proof. intros Hc H. unfold get_instruction. rewrite H. destruct c; congruence. Qed.

Section S.
Context (X : xkb) (dbg : bool).
Lemma key_unbound k w s r : x_stack (w_ctx w) = s :: r -> has_mod k M_RELEASE = false ->
  s_cmode s <> Register -> unbound (x_cmd (w_ctx w)) (s_cmode s) (s_imode s) k ->
  process_key_event X dbg k w = input_key X dbg k (s_cmode s) (s_pre s) w.
Proof.
  intros Hs Hk Hc Hu. unfold process_key_event. rewrite Hk. unfold process_key_event_inner, bind, cur, get.
  rewrite Hs. cbn zeta. destruct (skip_command _ _ _ _ _); [reflexivity|].
  rewrite (instruction_unbound dbg _ _ _ _ Hc Hu). reflexivity.
Qed.
Lemma key_skip k w s r : x_stack (w_ctx w) = s :: r -> has_mod k M_RELEASE = false ->
  skip_command (x_kb (w_ctx w)) k (s_imode s) (s_cmode s) (s_pre s) = true ->
  process_key_event X dbg k w = input_key X dbg k (s_cmode s) (s_pre s) w.
Proof.
  intros Hs Hk Hc. unfold process_key_event. rewrite Hk. unfold process_key_event_inner, bind, cur, get.
  rewrite Hs. cbn zeta. rewrite Hc. reflexivity.
Qed.
Lemma key_bound k w s r l : x_stack (w_ctx w) = s :: r -> has_mod k M_RELEASE = false ->
  s_cmode s <> Register -> is_modifierless_input k = false ->
  bound (x_cmd (w_ctx w)) (s_cmode s) (s_imode s) k l ->
  process_key_event X dbg k w = process_instructions dbg l (s_cmode s) (s_imode s) w.
Proof.
  intros Hs Hk Hc Hm Hb. unfold process_key_event. rewrite Hk. unfold process_key_event_inner, bind, cur, get.
  rewrite Hs. cbn zeta. unfold skip_command. rewrite Hm. cbn [andb].
  rewrite (instruction_bound dbg _ _ _ _ _ Hc Hb). reflexivity.
Qed.
Lemma exec_key k w b w' : process_key_event X dbg k w = Ok (b, w') -> exec X dbg (OKey k) w = Ok (OutBool b, w').
Proof. intros H. cbn [exec]. unfold bind. rewrite H. reflexivity. Qed.
Lemma exec_key_inv k w o w' : exec X dbg (OKey k) w = Ok (o, w') ->
  exists b, o = OutBool b /\ process_key_event X dbg k w = Ok (b, w').
Proof.
  cbn [exec]. unfold bind. destruct (process_key_event X dbg k w) as [[b w1]|]; [|discriminate].
  intros [= <- <-]. eauto.
Qed.
Lemma run_cons o ops w x w1 : exec X dbg o w = Ok (x, w1) ->
  run X dbg (o :: ops) w = match run X dbg ops w1 with Ok (xs, w2) => Ok (x :: xs, w2) | Panic e => Panic e end.
Proof. intros H. cbn [run]. unfold bind. rewrite H. destruct (run X dbg ops w1) as [[? ?]|]; reflexivity. Qed.
End S.
Lemma set_conf_same s : set_conf (s_conf s) s = s.
Proof. destruct s; reflexivity. Qed.
Lemma set_cap_same s v : s_cap s = v -> set_cap v s = s.
Proof. intros <-. destruct s; reflexivity. Qed.
Lemma set_pre_same s v : s_pre s = v -> set_pre v s = s.
Proof. intros <-. destruct s; reflexivity. Qed.
Lemma with_frames_same w l : frames w = l -> with_frames l w = w.
Proof. intros <-. destruct w as [st []]; reflexivity. Qed.
Lemma with_frames_twice l l' w : with_frames l (with_frames l' w) = with_frames l w.
Proof. reflexivity. Qed.
