(** Property C49, exactly, for the shipped rules: for which keys will_process and process_key_event differ. *)
From Verif Require Import Str Keys Modes KanaBuilder FormChanger DictTypes Parser Lru Dictionary
  CState Context DefaultRule Demo Spec P_Monad P_Frames P_Inv P_Register P_Confirmed P_Step T_Romaji T_Input T_Abort
  T_Unhandled T_Predict T_Exact T_Shipped.
From Verif Require T_Frames.

(* ------------------------------------------------------------- specification *)
(** Nothing would be there to delete: in a list of candidates after confirming the one shown, if any; in
    other modes now. *)
Definition nothing_to_delete (kf : kana_form) (s : cstate) : Prop :=
  match s_cmode s with
  | CompositionSelection | Completion =>
      match cl_current (s_list s) with
      | Some c => s_conf s ++ c_output c ++ adjust_kana_string kf (s_imode s) (s_okuri s) = []
      | None => True
      end
  | _ => deletable s = false
  end.

(* -------------------------------------------------------------------- proofs *)
Definition final_shape (c : cmode) (l : list instr) : bool :=
  negb (existsb terminal l) && negb (is_nil l)
  || match c, l with
     | (CompositionSelection | Completion), [IConfirmComposition; IDelete] => true
     | (CompositionSelection | Completion), _ => false
     | _, [IDelete] | _, [IConfirmDirect] => true
     | _, _ => false
     end.
Lemma shipped_final r c i k l : shipped r -> In (k, l) (r_command r c i) -> final_shape c l = true /\ has_mod k M_RELEASE = false.
Proof.
  intros Hr. assert (H : forallb (fun e => final_shape c (snd e) && negb (has_mod (fst e) M_RELEASE)) (r_command r c i) = true)
    by (destruct Hr as [-> | ->]; destruct c, i; vm_compute; reflexivity).
  intros Hin. rewrite forallb_forall in H. specialize (H _ Hin). cbn [fst snd] in H. apply andb_prop in H as [H1 H2].
  split; [exact H1|now destruct (has_mod k M_RELEASE)].
Qed.
Lemma command_release k : has_mod (command_key k) M_RELEASE = has_mod k M_RELEASE.
Proof.
  unfold command_key. destruct (is_upper k); [|reflexivity]. unfold has_mod. cbn [kmods]. f_equal.
  apply N.bits_inj. intros n. rewrite !N.land_spec, N.ldiff_spec. unfold M_RELEASE, M_SHIFT. rewrite N.pow2_bits_eqb.
  destruct (N.eqb_spec 30 n) as [<-|]; [cbn; now rewrite andb_true_r|now rewrite !andb_false_r].
Qed.
Lemma unbound_none cr c i k : assoc_key (command_key k) (cr c i) = None -> unbound cr c i k.
Proof.
  intros H k' l Hin ->. revert H. induction (cr c i) as [|[k1 l1] r IH]; [destruct Hin|]. cbn [assoc_key].
  destruct (key_eqb (command_key k) k1) eqn:E; [discriminate|]. destruct Hin as [[= -> ->]|Hin]; [|auto].
  assert (key_eqb (command_key k) (command_key k) = true) by now apply key_eqb_eq. congruence.
Qed.
(** Confirming, then deleting. *)
Lemma delete_direct z : s_cmode z = Direct -> s_pre z = [] -> fst (st_delete z) = negb (is_nil (s_conf z)).
Proof. intros H1 H2. unfold st_delete. now rewrite H1, H2. Qed.
Lemma cleared v : s_conf (clear_unconfirmed v) = s_conf v /\ s_pre (clear_unconfirmed v) = [] /\ s_default (clear_unconfirmed v) = s_default v.
Proof. repeat split. Qed.
Lemma defaulted v : s_conf (reset_to_default v) = s_conf v /\ s_pre (reset_to_default v) = s_pre v /\ s_cmode (reset_to_default v) = s_default v.
Proof. repeat split. Qed.
Lemma pushed t s : (s_cmode s = CompositionSelection \/ s_cmode s = Completion) ->
  s_conf (push_string t s) = s_conf s ++ t /\ s_default (push_string t s) = s_default s.
Proof. intros Hc. unfold push_string, push_string_for. destruct Hc as [E|E]; rewrite E; split; reflexivity. Qed.
Lemma delete_confirmed t s : s_default s = Direct -> (s_cmode s = CompositionSelection \/ s_cmode s = Completion) ->
  fst (st_delete (reset_to_default (clear_unconfirmed (push_string t s)))) = negb (is_nil (s_conf s ++ t)).
Proof.
  intros Hd Hc. destruct (pushed t s Hc) as (P1 & P2). destruct (cleared (push_string t s)) as (C1 & C2 & C3).
  destruct (defaulted (clear_unconfirmed (push_string t s))) as (D1 & D2 & D3).
  rewrite delete_direct; [now rewrite D1, C1, P1|now rewrite D3, C3, P2|now rewrite D2].
Qed.
Lemma confirm_runs w s fr c : x_stack (w_ctx w) = s :: fr -> cl_current (s_list s) = Some c ->
  exists w1, confirm_current w = Ok (tt, w1) /\ x_stack (w_ctx w1) = reset_to_default (clear_unconfirmed
    (push_string (c_output c ++ adjust_kana_string (x_kf (w_ctx w)) (s_imode s) (s_okuri s)) s)) :: fr.
Proof.
  intros Hs Hc. unfold confirm_current, bind, cur, get. rewrite Hs, Hc. unfold for_dicts, modcur. cbn [set_store w_ctx x_stack]. rewrite Hs.
  eexists. split; [reflexivity|]. reflexivity.
Qed.
Lemma confirm_none w s fr : x_stack (w_ctx w) = s :: fr -> cl_current (s_list s) = None -> confirm_current w = Ok (tt, w).
Proof. intros Hs Hc. unfold confirm_current, bind, cur, get. rewrite Hs, Hc. reflexivity. Qed.
Lemma nil_b (t : str) : negb (is_nil t) = false <-> t = [].
Proof. destruct t; split; auto; discriminate. Qed.
Lemma confirm_then dbg c i w : run_instrs dbg [IConfirmComposition; IDelete] c i true w
  = match confirm_current w with
    | Ok (_, w1) => run_instrs dbg [IDelete] c i true w1
    | Panic r => Panic r
    end.
Proof.
  change (run_instrs dbg [IConfirmComposition; IDelete] c i true w)
    with (bind (bind confirm_current (fun _ => ret (inl tt))) (fun r => match r with inl _ => run_instrs dbg [IDelete] c i true | inr b => ret b end) w).
  unfold bind, ret. destruct (confirm_current w) as [[[] w1]|]; reflexivity.
Qed.
Lemma confirm_delete dbg w w' s fr b : frames w = s :: fr -> s_default s = Direct ->
  (s_cmode s = CompositionSelection \/ s_cmode s = Completion) ->
  run_instrs dbg [IConfirmComposition; IDelete] (s_cmode s) (s_imode s) true w = Ok (b, w') ->
  (b = false <-> nothing_to_delete (x_kf (w_ctx w)) s).
Proof.
  intros Hs Hd Hc H. unfold frames in Hs.
  rewrite confirm_then in H. unfold nothing_to_delete. destruct (cl_current (s_list s)) as [c|] eqn:Ec.
  - destruct (confirm_runs w s fr c Hs Ec) as (w1 & E1 & E2). rewrite E1 in H.
    rewrite (T_Unhandled.delete_run dbg _ _ _ _ _ _ _ E2) in H. apply (f_equal (fun r => match r with Ok (x, _) => x | _ => true end)) in H.
    rewrite (delete_confirmed _ s Hd Hc) in H. subst b. rewrite nil_b. destruct Hc as [-> | ->]; reflexivity.
  - rewrite (confirm_none w s fr Hs Ec) in H. rewrite (T_Unhandled.delete_run dbg _ _ _ _ _ _ _ Hs) in H. injection H as <- _.
    unfold st_delete. destruct Hc as [-> | ->]; split; auto.
Qed.
Lemma delete_answer s : fst (st_delete s) = deletable s.
Proof.
  unfold st_delete, deletable. destruct (s_cmode s); try reflexivity; destruct (s_pre s); try reflexivity;
    first [destruct (s_conf s); reflexivity|destruct (s_okuri s); reflexivity].
Qed.

(** * C49 *)
(** With either shipped rule, after any calls on a context made in direct input: a key that will_process
    refuses is used all the same exactly if kana input takes it (any ASCII character, comma, period); a key
    it promises to use is not used exactly if it completes no kana and is bound to Delete with nothing to
    delete, or to ConfirmDirect outside a registration, or is not bound in a mode that takes no text. *)
Theorem C49_exact : forall r X dbg kf am ds i st ops outs w s fr k p b w',
  shipped r -> Forall (fun o => changes_rule o = false) ops ->
  run X dbg ops (mkW st (ctx_new X r kf am ds i Direct)) = Ok (outs, w) ->
  frames w = s :: fr -> s_cmode s <> Register -> get_symbol_char X k <> None ->
  will_process dbg k w = Ok p -> process_key_event X dbg k w = Ok (b, w') ->
  let here l := bound (r_command r) (s_cmode s) (s_imode s) k l in
  (p = false -> (b = true <-> taken_anyway X s k = true))
  /\ (p = true -> (b = false <-> completes w s k = false
       /\ ((exists l, here l /\ In IDelete l /\ nothing_to_delete (x_kf (w_ctx w)) s)
           \/ (here [IConfirmDirect] /\ fr = [])
           \/ (unbound (r_command r) (s_cmode s) (s_imode s) k /\ takes_text s = false)))).
Proof.
  intros r X dbg kf am ds i st ops outs w s fr k p b w' Hship Hops Hrun Hs Hreg Hch Hp Hb here.
  destruct (run_cmd _ _ _ _ _ _ _ _ _ _ _ _ Hops Hrun) as (_ & Hcr).
  pose proof (run_defaults _ _ _ _ _ _ _ _ _ _ _ Hrun) as Hdf. rewrite Hs in Hdf. apply Forall_cons_iff in Hdf as (Hdf & _).
  assert (Hcur : current w = Some s) by (unfold current; unfold frames in Hs; rewrite Hs; reflexivity).
  destruct (assoc_key (command_key k) (r_command r (s_cmode s) (s_imode s))) as [l|] eqn:Ek.
  - (* a command *)
    assert (Hbd : here l) by exact Ek.
    pose proof Ek as Hin. apply assoc_key_in' in Hin as (k' & Hin & Hk'). apply key_eqb_eq in Hk'. subst k'.
    destruct (shipped_final r _ _ _ _ Hship Hin) as (Hf & Hrl). rewrite command_release in Hrl.
    assert (Only : forall l', here l' -> l' = l) by (intros l' H'; unfold here, bound in H'; congruence).
    assert (Hpt : p = true).
    { unfold will_process in Hp. unfold frames in Hs. rewrite Hs, Hcr, (instruction_bound dbg _ _ _ _ _ Hreg Ek) in Hp.
      cbn [rmap] in Hp. now injection Hp as <-. }
    split; [congruence|]. intros _.
    assert (NU : ~ unbound (r_command r) (s_cmode s) (s_imode s) k).
    { intros U. exact (U _ _ Hin eq_refl). }
    destruct (completes w s k) eqn:Ec.
    { pose proof (C49_conversion_partial X dbg k w s b w' Hcur Hdf Hch Ec Hb) as ->. split; [discriminate|intros [? _]; discriminate]. }
    assert (Hr : process_instructions dbg l (s_cmode s) (s_imode s) w = Ok (b, w')).
    { unfold process_key_event in Hb. rewrite Hrl in Hb. unfold process_key_event_inner, bind, cur, get in Hb. unfold frames in Hs. rewrite Hs in Hb.
      cbn zeta in Hb. unfold completes in Ec. rewrite Ec, Hcr, (instruction_bound dbg _ _ _ _ _ Hreg Ek) in Hb. exact Hb. }
    unfold process_instructions in Hr. unfold final_shape in Hf. apply orb_true_iff in Hf as [Hf|Hf].
    { apply andb_prop in Hf as [Hf Hn]. apply negb_true_iff in Hf. rewrite Hn in Hr.
      assert (b = true) as -> by (destruct b; [reflexivity|]; destruct (run_instrs_true dbg _ _ _ Hf w w' Hr)).
      split; [discriminate|]. intros (_ & [(l' & H1 & H2 & _)|[(H1 & _)|(H1 & _)]]); [| |contradiction].
      - apply Only in H1. subst l'. assert (existsb terminal l = true) by (apply existsb_exists; exists IDelete; auto). congruence.
      - apply Only in H1. subst l. discriminate. }
    assert (Hlists : (s_cmode s = CompositionSelection \/ s_cmode s = Completion) /\ l = [IConfirmComposition; IDelete]
      \/ (s_cmode s <> CompositionSelection /\ s_cmode s <> Completion) /\ (l = [IDelete] \/ l = [IConfirmDirect])).
    { destruct (s_cmode s); (destruct l as [|x1 l]; [discriminate Hf|]); destruct x1; try discriminate Hf;
        (destruct l as [|x2 l]; [|try discriminate Hf]); try (right; split; [split; discriminate|auto; fail]);
        try discriminate Hf; destruct x2; try discriminate Hf; destruct l; try discriminate Hf; left; auto. }
    destruct Hlists as [(Hm & ->)|((Hm1 & Hm2) & [-> | ->])].
    + cbn [is_nil negb] in Hr. pose proof (confirm_delete dbg w w' s fr b Hs Hdf Hm Hr) as R. rewrite R. split.
      * intros N. split; [reflexivity|]. left. exists [IConfirmComposition; IDelete]. split; [exact Hbd|]. split; [right; now left|exact N].
      * intros (_ & [(l' & _ & _ & N)|[(H1 & _)|(H1 & _)]]); [exact N| |contradiction]. apply Only in H1. discriminate.
    + cbn [is_nil negb] in Hr. unfold frames in Hs. rewrite (T_Unhandled.delete_run dbg _ _ _ _ _ _ _ Hs) in Hr. injection Hr as <- _.
      rewrite delete_answer. assert (N : nothing_to_delete (x_kf (w_ctx w)) s <-> deletable s = false)
        by (unfold nothing_to_delete; destruct (s_cmode s); try congruence; reflexivity).
      split.
      * intros D. split; [reflexivity|]. left. exists [IDelete]. split; [exact Hbd|]. split; [now left|now apply N].
      * intros (_ & [(l' & _ & _ & D)|[(H1 & _)|(H1 & _)]]); [now apply N| |contradiction]. apply Only in H1. discriminate.
    + assert (Hbl : b = Nat.ltb 1 (length (frames w))).
      { pose proof (C49_command_partial X dbg k w s [IConfirmDirect] b w' Hcur Hreg Hrl Ec) as G. rewrite Hcr in G.
        destruct (G Hbd Hb) as (_ & _ & G'). exact (proj1 (proj2 (G' [])) eq_refl). }
      rewrite Hbl, Hs. cbn [length]. split.
      * intros L. split; [reflexivity|]. right; left. split; [exact Hbd|]. destruct fr; [reflexivity|discriminate L].
      * intros (_ & [(l' & H1 & H2 & _)|[(_ & ->)|(H1 & _)]]); [|reflexivity|contradiction].
        apply Only in H1. subst l'. destruct H2 as [H2|[]]. discriminate.
  - (* no command *)
    pose proof (unbound_none _ _ _ _ Ek) as U.
    assert (NB : forall l, ~ here l) by (intros l H; unfold here, bound in H; congruence).
    destruct (has_mod k M_RELEASE) eqn:Er.
    { pose proof (C49_release_partial X dbg k w s Hcur Hreg Er) as R. rewrite Hcr in R. destruct (R U) as (R1 & R2).
      rewrite R1 in Hp. injection Hp as <-. rewrite R2 in Hb. injection Hb as <- _. split; [|discriminate]. intros _. split; [discriminate|].
      intros T. exfalso. unfold taken_anyway in T. apply andb_prop in T as [T _]. apply andb_prop in T as [_ T]. apply modifierless_no_release in T. congruence. }
    pose proof (C49_text_partial X dbg k w s p b w' Hcur Hreg Hdf Er Hch) as T. rewrite Hcr in T. specialize (T U Hp Hb).
    assert (TT : taken_anyway X s k = true -> takes_text s = true).
    { unfold taken_anyway, takes_text. intros H. apply andb_prop in H as [H _]. apply andb_prop in H as [-> _]. reflexivity. }
    split.
    + intros ->. rewrite T. cbn [orb]. destruct (taken_anyway X s k) eqn:Et; cbn [andb]; [|split; discriminate]. rewrite (TT eq_refl). split; auto.
    + intros ->. rewrite T. cbn [orb andb]. split.
      * intros F. split; [|right; right; auto]. destruct (completes w s k) eqn:Ec; [|reflexivity].
        pose proof (C49_conversion_partial X dbg k w s b w' Hcur Hdf Hch Ec Hb) as B. rewrite T in B. cbn [orb andb] in B. congruence.
      * intros (_ & [(l' & H1 & _)|[(H1 & _)|(_ & H1)]]); [now apply NB in H1|now apply NB in H1|exact H1].
Qed.
(** All three ways of breaking the promise occur, and the promise is kept elsewhere. *)
Definition differs (keys : str) (k : keyev) : option (bool * bool) :=
  match typed false keys (demo [user_dict dic_small]) with
  | Ok (_, w) => match will_process false k w, process_key_event ascii_xkb false k w with
                 | Ok p, Ok (b, _) => Some (p, b)
                 | _, _ => None
                 end
  | Panic _ => None
  end.
Example C49_exact_case :
  differs [] (mkKey 65 M_SHIFT) = Some (false, true)                        (* a capital *)
  /\ differs [] (mkKey 65288 M_NONE) = Some (true, false)                   (* BackSpace, nothing there *)
  /\ differs (U "A") (mkKey 65288 M_NONE) = Some (true, true)
  /\ differs [] (mkKey 65293 M_NONE) = Some (true, false)                   (* Return outside a registration *)
  /\ differs (U "A i C-j l C-g") (mkKey 97 M_NONE) = Some (true, false)     (* a mode that takes no text *)
  /\ differs [] (mkKey 97 M_NONE) = Some (true, true).
Proof. repeat split; vm_compute; reflexivity. Qed.
(** The hypotheses are met in that state. *)
Example C49_exact_met : exists ops outs w s, Forall (fun o => changes_rule o = false) ops
  /\ run ascii_xkb false ops (demo [user_dict dic_small]) = Ok (outs, w) /\ frames w = [s] /\ s_cmode s = PreComposition
  /\ get_symbol_char ascii_xkb (mkKey 97 M_NONE) <> None /\ completes w s (mkKey 97 M_NONE) = false /\ takes_text s = false.
Proof.
  destruct (run_case (run ascii_xkb false (map OKey (dkeys (U "A i C-j l C-g"))) (demo [user_dict dic_small]))
    (fun w => map (fun s => (s_cmode s, completes w s (mkKey 97 M_NONE), takes_text s)) (frames w)) [(PreComposition, false, false)])
    as (outs & w & Hr & E); [vm_compute; reflexivity|].
  destruct (frames w) as [|s [|? ?]] eqn:Es; try discriminate E. cbn [map] in E. injection E as E1 E2 E3.
  exists (map OKey (dkeys (U "A i C-j l C-g"))), outs, w, s. split; [|repeat split; auto; vm_compute; discriminate].
  apply Forall_forall. intros o Ho. apply in_map_iff in Ho as (k & <- & _). reflexivity.
Qed.
