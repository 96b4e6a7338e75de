(** Property C15, exactly, for the shipped rules: where pressing C-g again and again leads. *)
From Coq Require Import Lia.
From Verif Require Import Str Keys Modes KanaBuilder FormChanger DictTypes Parser Lru Dictionary
  CState Context DefaultRule Demo Spec P_Monad P_Frames P_Inv P_Register P_Step T_Romaji T_Input T_Abort T_Shipped T_Exact.
From Verif Require T_Frames.

(* ------------------------------------------------------------- specification *)
Definition C_g : keyev := mkKey 103 M_CONTROL.
(** Where the shipped rules do not bind C-g: abbreviations, and everything but direct input in ASCII and full-width mode. *)
Definition no_way_back (s : cstate) : Prop :=
  s_cmode s = Abbreviation \/ (kanaless (s_imode s) /\ s_cmode s <> Direct).

(* ---------------------------------------------------------------------- proof *)
Definition no_way_back_b (c : cmode) (i : imode) : bool :=
  cmode_eqb c Abbreviation || (match i with Ascii | Zenkaku => true | _ => false end && negb (cmode_eqb c Direct)).
Lemma no_way_back_iff s : no_way_back s <-> no_way_back_b (s_cmode s) (s_imode s) = true.
Proof. unfold no_way_back, no_way_back_b, kanaless. destruct (s_cmode s), (s_imode s); cbn; split; try discriminate; try tauto; intuition discriminate. Qed.
Lemma shipped_C_g ru c i : shipped ru -> c <> Register ->
  if no_way_back_b c i then unbound (r_command ru) c i C_g else aborts (r_command ru) C_g c i.
Proof.
  intros Hr Hc.
  assert (U : forall r, forallb (fun e : keyev * list instr => negb (key_eqb (fst e) (command_key C_g))) (r_command r c i) = true -> unbound (r_command r) c i C_g).
  { intros r B k' l Hin E. rewrite forallb_forall in B. specialize (B _ Hin). cbn [fst] in B. rewrite E in B.
    rewrite (proj2 (key_eqb_eq _ _) eq_refl) in B. discriminate. }
  assert (A : forall r l, assoc_key (command_key C_g) (r_command r c i) = Some (l ++ [IAbort]) -> forallb clearing l = true -> aborts (r_command r) C_g c i).
  { intros r l E F. exists l. split; [exact E|exact F]. }
  destruct Hr as [-> | ->]; destruct c; try congruence; destruct i; cbn [no_way_back_b cmode_eqb andb orb negb];
    first [apply U; vm_compute; reflexivity|apply (A _ []); vm_compute; reflexivity|apply (A _ [IClearUnconfirmedInputs]); vm_compute; reflexivity].
Qed.
Lemma C_g_control : control_key C_g.
Proof. split; reflexivity. Qed.
Lemma C_g_ignored ru X dbg w s r : shipped ru -> x_cmd (w_ctx w) = r_command ru -> frames w = s :: r -> s_cmode s <> Register ->
  no_way_back s -> process_key_event X dbg C_g w = Ok (false, w).
Proof.
  intros Hr Hcr Hs Hc Hn. pose proof (shipped_C_g ru (s_cmode s) (s_imode s) Hr Hc) as H.
  rewrite (proj1 (no_way_back_iff s) Hn) in H. rewrite <- Hcr in H. unfold frames in Hs.
  rewrite (key_unbound X dbg C_g w s r Hs eq_refl Hc H). unfold input_key.
  change (is_modifierless_input C_g) with false. reflexivity.
Qed.
(** At home: one frame, in direct input with nothing before it. *)
Definition settled (l : list cstate) : Prop := exists s, l = [s] /\ s_cmode s = s_default s /\ s_hist s = [].
Lemma C_g_leads ru X dbg : shipped ru -> forall m w, presses (frames w) <= m -> nested (frames w) -> x_cmd (w_ctx w) = r_command ru ->
  exists n l, run X dbg (repeat (OKey C_g) n) w = Ok (repeat (OutBool true) n, with_frames l w)
    /\ ((n = m /\ settled l) \/ (n <= m /\ exists s r, l = s :: r /\ no_way_back s /\ s_cmode s <> Register)).
Proof.
  intros Hr. induction m as [|m IH]; intros w Hp Hn Hcr.
  - exists 0, (frames w). split; [cbn; now rewrite (with_frames_same w _ eq_refl)|]. left. split; [reflexivity|].
    exact (presses_home _ Hn ltac:(lia)).
  - destruct Hn as (s & r & Hs & Ht & Ho & Hd). assert (Hc : s_cmode s <> Register) by apply Ht.
    pose proof (shipped_C_g ru (s_cmode s) (s_imode s) Hr Hc) as H.
    destruct (no_way_back_b (s_cmode s) (s_imode s)) eqn:E.
    { exists 0, (frames w). split; [cbn; now rewrite (with_frames_same w _ eq_refl)|]. right. split; [lia|].
      exists s, r. split; [exact Hs|]. split; [now apply no_way_back_iff|exact Hc]. }
    rewrite <- Hcr in H. destruct (abort_key X dbg C_g w s r Hs Hc C_g_control H) as (s' & Hm & Ek).
    assert (Hd' : Forall (fun s => s_default s = Direct) (removelast (s' :: r))).
    { destruct r as [|s2 r2]; [constructor|]. rewrite Hs in Hd. cbn [removelast] in *. apply Forall_cons_iff in Hd as (H1 & H2).
      constructor; [|exact H2]. destruct Hm as (_ & _ & -> & _). exact H1. }
    destruct (abort_stack_spec s' r (same_modes_Tr _ _ Hm Ht) Ho Hd') as (A1 & A2 & _).
    assert (Ep : presses (s' :: r) = presses (frames w)) by (rewrite Hs, !presses_eq; now rewrite (same_modes_presses _ _ Hm)).
    assert (Hlt : presses (abort_stack (s' :: r)) <= m) by (destruct A2 as [A2|(_ & _ & _ & A2)]; lia).
    destruct (IH (with_frames (abort_stack (s' :: r)) w) Hlt A1 Hcr) as (n & l & En & Hend).
    exists (S n), l. split; [cbn [repeat]; rewrite (run_cons X dbg _ _ _ _ _ (exec_key X dbg _ _ _ _ Ek)), En; now rewrite with_frames_twice|].
    destruct Hend as [(-> & H1)|(H1 & H2)]; [left; auto|right; split; [lia|exact H2]].
Qed.
Lemma abort_settled s : s_cmode s = Direct -> s_default s = Direct -> s_hist s = [] ->
  settled (abort_stack [s]) /\ Forall (fun s => s_default s = Direct) (abort_stack [s]).
Proof.
  intros H1 H2 H3. assert (E : abort_stack [s] = [abort_to_previous_mode (aborted s)]) by (unfold abort_stack; rewrite H1; reflexivity).
  assert (E2 : s_hist (aborted s) = []) by exact H3. assert (E3 : s_default (aborted s) = Direct) by exact H2. revert E E2 E3.
  generalize (aborted s) as t. intros t -> E2 E3. unfold abort_to_previous_mode. rewrite E2. cbn [last_opt].
  split; [eexists; split; [reflexivity|]; split; [reflexivity|exact E2]|]. constructor; [exact E3|constructor].
Qed.
Lemma settled_stays ru X dbg w : shipped ru -> x_cmd (w_ctx w) = r_command ru -> settled (frames w) ->
  Forall (fun s => s_default s = Direct) (frames w) ->
  exists l, process_key_event X dbg C_g w = Ok (true, with_frames l w) /\ settled l /\ Forall (fun s => s_default s = Direct) l.
Proof.
  intros Hr Hcr (s & Hs & Hh & Hi) Hdf. rewrite Hs in Hdf. apply Forall_cons_iff in Hdf as (Hdf & _). rewrite Hdf in Hh.
  assert (Hc : s_cmode s <> Register) by congruence.
  pose proof (shipped_C_g ru (s_cmode s) (s_imode s) Hr Hc) as H. rewrite Hh in H.
  replace (no_way_back_b Direct (s_imode s)) with false in H by (destruct (s_imode s); reflexivity).
  rewrite <- Hcr, <- Hh in H.
  destruct (abort_key X dbg C_g w s [] Hs Hc C_g_control H) as (s' & Hm & Ek).
  exists (abort_stack [s']). split; [exact Ek|]. destruct Hm as (M1 & M2 & M3 & _).
  apply abort_settled; [rewrite M1; exact Hh|rewrite M3; exact Hdf|rewrite M2; exact Hi].
Qed.
Lemma settled_for_good ru X dbg : shipped ru -> forall n w, x_cmd (w_ctx w) = r_command ru -> settled (frames w) ->
  Forall (fun s => s_default s = Direct) (frames w) ->
  exists l, run X dbg (repeat (OKey C_g) n) w = Ok (repeat (OutBool true) n, with_frames l w) /\ settled l.
Proof.
  intros Hr. induction n as [|n IH]; intros w Hcr Hs Hd.
  - exists (frames w). split; [cbn; now rewrite (with_frames_same w _ eq_refl)|exact Hs].
  - destruct (settled_stays ru X dbg w Hr Hcr Hs Hd) as (l1 & E1 & H1 & D1).
    destruct (IH (with_frames l1 w) Hcr H1 D1) as (l & E & Hl). exists l. split; [|exact Hl].
    cbn [repeat]. rewrite (run_cons X dbg _ _ _ _ _ (exec_key X dbg _ _ _ _ E1)), E. now rewrite with_frames_twice.
Qed.

Lemma C_g_ends N ru X dbg kf am ds i st ops outs w :
  shipped ru -> run X dbg ops (mkW st (ctx_new X ru kf am ds i Direct)) = Ok (outs, w) ->
  nested (frames w) -> x_cmd (w_ctx w) = r_command ru -> presses (frames w) <= N ->
  let press n := run X dbg (repeat (OKey C_g) n) w in
  (forall n, N <= n -> exists w', press n = Ok (repeat (OutBool true) n, w') /\ home w' /\ w_store w' = w_store w)
  \/ (exists n w' s r, n <= N /\ press n = Ok (repeat (OutBool true) n, w') /\ w_store w' = w_store w
        /\ frames w' = s :: r /\ no_way_back s /\ ~ home w'
        /\ forall k, press (n + k) = Ok (repeat (OutBool true) n ++ repeat (OutBool false) k, w')).
Proof.
  intros Hr H Hn Hcr Hp press.
  assert (App : forall n m os1 w1 os2 w2, press n = Ok (os1, w1) -> run X dbg (repeat (OKey C_g) m) w1 = Ok (os2, w2) -> press (n + m) = Ok (os1 ++ os2, w2)).
  { intros n m os1 w1 os2 w2 E1 E2. unfold press. rewrite repeat_app. rewrite (run_app X dbg _ _ _ _ _ E1), E2. reflexivity. }
  destruct (C_g_leads ru X dbg Hr N w Hp Hn Hcr) as (n & l & E & [(-> & Hs)|(Hle & s & r & -> & Hs & Hc)]).
  - left. intros n Hle.
    assert (Hd : Forall (fun s => s_default s = Direct) l).
    { change l with (frames (with_frames l w)). eapply (run_defaults X dbg ru kf am ds i st (ops ++ repeat (OKey C_g) N)). rewrite (run_app X dbg _ _ _ _ _ H), E. reflexivity. }
    destruct (settled_for_good ru X dbg Hr (n - N) (with_frames l w) Hcr Hs Hd) as (l' & E' & Hs').
    pose proof (App _ _ _ _ _ _ E E') as A. rewrite <- repeat_app in A. replace (N + (n - N)) with n in A by lia.
    eexists. split; [exact A|]. split; [|reflexivity]. destruct Hs' as (s & -> & H1 & _). exists s. split; [reflexivity|exact H1].
  - right. exists n, (with_frames (s :: r) w), s, r. split; [exact Hle|]. split; [exact E|]. split; [reflexivity|]. split; [reflexivity|].
    split; [exact Hs|]. split.
    + intros (s1 & E1 & H1). injection E1 as <- ->.
      assert (Hd : Forall (fun s => s_default s = Direct) (frames (with_frames [s] w))).
      { eapply (run_defaults X dbg ru kf am ds i st (ops ++ repeat (OKey C_g) n)). rewrite (run_app X dbg _ _ _ _ _ H), E. reflexivity. }
      apply Forall_cons_iff in Hd as (Hd & _). rewrite Hd in H1. destruct Hs as [Hs|(_ & Hs)]; congruence.
    + intros k. apply (App _ _ _ _ _ _ E). clear - Hr Hcr Hs Hc. induction k as [|k IH]; [reflexivity|].
      cbn [repeat]. rewrite (run_cons X dbg _ _ _ _ _ (exec_key X dbg _ _ _ _ (C_g_ignored ru X dbg (with_frames (s :: r) w) s r Hr Hcr eq_refl Hc Hs))), IH. reflexivity.
Qed.

(** * C15 *)
(** With either shipped rule, after any calls (without reset, Register mode set by hand or change of the rule) on a context
    made in direct input: either 419 presses of C-g and any greater number lead home and leave the dictionaries alone, or
    the presses come, after at most 419, to a state in which C-g is not bound, and there all further ones are ignored. *)
Theorem C15_exact : forall ru X dbg kf am ds i st ops outs w,
  shipped ru -> Forall (fun o => op_no_register o /\ changes_rule o = false) ops ->
  run X dbg ops (mkW st (ctx_new X ru kf am ds i Direct)) = Ok (outs, w) ->
  let press n := run X dbg (repeat (OKey C_g) n) w in
  (forall n, 419 <= n -> exists w', press n = Ok (repeat (OutBool true) n, w') /\ home w' /\ w_store w' = w_store w)
  \/ (exists n w' s r, n <= 419 /\ press n = Ok (repeat (OutBool true) n, w') /\ w_store w' = w_store w
        /\ frames w' = s :: r /\ no_way_back s /\ ~ home w'
        /\ forall k, press (n + k) = Ok (repeat (OutBool true) n ++ repeat (OutBool false) k, w')).
Proof.
  intros ru X dbg kf am ds i st ops outs w Hr Hops H press.
  assert (Hn : nested (frames w)).
  { assert (Hno : rule_no_register (r_command ru)) by apply (C62_shipped_rules ru Hr).
    assert (Hd : Direct <> Register) by (intros E0; discriminate E0).
    eapply run_nested; [exact Hno|exact Hd| |exact H]. eapply Forall_impl; [|exact Hops]. cbv beta. intros o Ho; apply Ho. }
  assert (Hcr : x_cmd (w_ctx w) = r_command ru).
  { eapply (run_cmd X dbg ru kf am ds i Direct st ops outs w); [|exact H]. eapply Forall_impl; [|exact Hops]. cbv beta. intros o Ho; apply Ho. }
  assert (Hp : presses (frames w) <= 419).
  { apply (presses_bound X dbg). exists (mkW st (ctx_new X ru kf am ds i Direct)), ops, outs. split; [|exact H].
    exists st, kf, am, ds, i, Direct. left. now exists ru. }
  exact (C_g_ends 419 ru X dbg kf am ds i st ops outs w Hr H Hn Hcr Hp).
Qed.
(** Both cases occur: from a word being registered inside a word being registered to one frame; and an abbreviation, where no press helps. *)
Definition modes_of (w : world) : list (cmode * imode) := map (fun s => (s_cmode s, s_imode s)) (frames w).
Example C15_exact_case :
  (exists outs w outs' w', run ascii_xkb false (map OKey (dkeys (U "K a space K i space k"))) (demo [user_dict []]) = Ok (outs, w)
     /\ modes_of w = [(Direct, Hiragana); (Register, Hiragana); (Register, Hiragana)]
     /\ run ascii_xkb false (repeat (OKey C_g) 5) w = Ok (outs', w') /\ modes_of w' = [(Direct, Hiragana)])
  /\ (exists outs w, run ascii_xkb false (map OKey (dkeys (U "K a space slash b"))) (demo [user_dict []]) = Ok (outs, w)
     /\ modes_of w = [(Abbreviation, Hiragana); (Register, Hiragana)]).
Proof.
  split.
  - destruct (run_case (run ascii_xkb false (map OKey (dkeys (U "K a space K i space k"))) (demo [user_dict []]))
      (fun w => (modes_of w, match run ascii_xkb false (repeat (OKey C_g) 5) w with Ok (_, w') => Some (modes_of w') | Panic _ => None end))
      ([(Direct, Hiragana); (Register, Hiragana); (Register, Hiragana)], Some [(Direct, Hiragana)])) as (outs & w & Hr & E); [vm_compute; reflexivity|].
    destruct (run ascii_xkb false (repeat (OKey C_g) 5) w) as [[outs' w']|e] eqn:E5; [|discriminate (f_equal snd E)].
    exists outs, w, outs', w'. split; [exact Hr|]. split; [exact (f_equal fst E)|]. split; [exact E5|].
    assert (F := f_equal snd E). cbn [snd] in F. congruence.
  - destruct (run_case (run ascii_xkb false (map OKey (dkeys (U "K a space slash b"))) (demo [user_dict []])) modes_of
      [(Abbreviation, Hiragana); (Register, Hiragana)]) as (outs & w & Hr & E); [vm_compute; reflexivity|]. eauto.
Qed.
