(** Property C54, exactly, for the shipped rules: when a key answered with false changes something; and C04:
    the composition mode after a reset. *)
From Verif Require Import Str Keys Modes KanaBuilder FormChanger DictTypes Parser Lru Dictionary
  CState Context DefaultRule Demo Spec P_Monad P_Frames P_Inv P_Register P_Confirmed P_Step T_Romaji T_Input T_Abort
  T_Unhandled T_Predict T_Shipped T_Exact T_ExactPredict.
From Verif Require T_Frames T_Keys.

(* ------------------------------------------------------------- specification *)
(** An okurigana mode with neither okurigana nor a pending key. *)
Definition bare_okurigana (s : cstate) : Prop := s_cmode s = PreCompositionOkurigana /\ s_pre s = [] /\ s_okuri s = [].
(** A list of candidates whose confirmation gives no text at all. *)
Definition blank_candidate (kf : kana_form) (s : cstate) : Prop :=
  (s_cmode s = CompositionSelection \/ s_cmode s = Completion)
  /\ exists c, cl_current (s_list s) = Some c
     /\ s_conf s ++ c_output c ++ adjust_kana_string kf (s_imode s) (s_okuri s) = [].

(* -------------------------------------------------------------------- proofs *)
Lemma delete_changes s : fst (st_delete s) = false -> (snd (st_delete s) = s <-> ~ bare_okurigana s).
Proof.
  intros Hf. split.
  - intros E (Hc & Hp & Ho). apply (f_equal s_cmode) in E. assert (M : s_cmode (snd (st_delete s)) = PreComposition).
    { clear - Hc Hp Ho. unfold st_delete. rewrite Hc, Hp. cbn [is_nil negb]. cbv beta iota zeta. cbn [s_pre s_okuri set_raw set_okuri]. rewrite Hp, Ho. reflexivity. }
    congruence.
  - intros N. apply delete_inert; [|exact Hf]. destruct (s_pre s) eqn:E1; [|right; left; discriminate].
    destruct (s_okuri s) eqn:E2; [|right; right; discriminate]. left. intros E. apply N. repeat split; auto.
Qed.
Lemma mode_differs w w1 s fr t fr' : x_stack (w_ctx w) = s :: fr -> x_stack (w_ctx w1) = t :: fr' -> s_cmode t <> s_cmode s -> w1 <> w.
Proof. intros H1 H2 N ->. congruence. Qed.

Lemma confirmed_direct t s : s_default s = Direct -> (s_cmode s = CompositionSelection \/ s_cmode s = Completion) ->
  s_cmode (reset_to_default (clear_unconfirmed (push_string t s))) = Direct.
Proof.
  intros Hd Hc. destruct (defaulted (clear_unconfirmed (push_string t s))) as (_ & _ & ->).
  destruct (cleared (push_string t s)) as (_ & _ & ->). destruct (pushed t s Hc) as (_ & ->). exact Hd.
Qed.
Lemma delete_stays z : s_cmode z = Direct -> s_cmode (snd (st_delete z)) = Direct.
Proof. intros H. unfold st_delete. rewrite H. destruct (is_nil (s_pre z)); exact H. Qed.
Lemma stack_set t fr w : x_stack (w_ctx (set_stack (t :: fr) w)) = t :: fr.
Proof. destruct w as [? []]; reflexivity. Qed.
Lemma run_delete dbg w w' s fr c i : x_stack (w_ctx w) = s :: fr ->
  run_instrs dbg [IDelete] c i true w = Ok (false, w') ->
  fst (st_delete s) = false /\ w' = set_stack (snd (st_delete s) :: fr) w.
Proof.
  intros Hs H. rewrite (T_Unhandled.delete_run dbg _ _ _ _ _ _ _ Hs) in H. injection H as -> <-. auto.
Qed.
Lemma set_same w s fr t : x_stack (w_ctx w) = s :: fr -> (set_stack (t :: fr) w = w <-> t = s).
Proof.
  intros Hs. split.
  - intros E. apply (f_equal (fun v => x_stack (w_ctx v))) in E. rewrite stack_set, Hs in E. now injection E.
  - intros ->. rewrite <- Hs. apply set_stack_same.
Qed.
Lemma bare_dec s : ~ ~ bare_okurigana s -> bare_okurigana s.
Proof.
  intros N. unfold bare_okurigana in *. destruct (s_pre s); [|exfalso; apply N; intros (_ & B & _); discriminate].
  destruct (s_okuri s); [|exfalso; apply N; intros (_ & _ & B); discriminate].
  destruct (s_cmode s); try (exfalso; apply N; intros (B & _); discriminate). auto.
Qed.
Lemma delete_case dbg w w' s fr c i : x_stack (w_ctx w) = s :: fr ->
  run_instrs dbg [IDelete] c i true w = Ok (false, w') -> (w' <> w <-> bare_okurigana s).
Proof.
  intros Hs H. destruct (run_delete dbg w w' s fr c i Hs H) as (Hz & ->). pose proof (delete_changes s Hz) as C.
  rewrite (set_same w s fr _ Hs), C. split; [apply bare_dec|tauto].
Qed.
Lemma confirm_case dbg w w' s fr : x_stack (w_ctx w) = s :: fr -> s_default s = Direct ->
  (s_cmode s = CompositionSelection \/ s_cmode s = Completion) ->
  run_instrs dbg [IConfirmComposition; IDelete] (s_cmode s) (s_imode s) true w = Ok (false, w') ->
  (w' <> w <-> blank_candidate (x_kf (w_ctx w)) s).
Proof.
  intros Hs Hdf Hm Hb. pose proof (confirm_delete dbg w w' s fr false Hs Hdf Hm Hb) as (D & _). specialize (D eq_refl). unfold nothing_to_delete in D.
  rewrite confirm_then in Hb. unfold blank_candidate. destruct (cl_current (s_list s)) as [c|] eqn:Ec.
  - assert (T : s_conf s ++ c_output c ++ adjust_kana_string (x_kf (w_ctx w)) (s_imode s) (s_okuri s) = []) by (destruct Hm as [E|E]; rewrite E in D; exact D).
    destruct (confirm_runs w s fr c Hs Ec) as (w1 & E1 & E2). rewrite E1 in Hb.
    pose proof (confirmed_direct (c_output c ++ adjust_kana_string (x_kf (w_ctx w)) (s_imode s) (s_okuri s)) s Hdf Hm) as Z.
    revert E2 Z. generalize (reset_to_default (clear_unconfirmed (push_string (c_output c ++ adjust_kana_string (x_kf (w_ctx w)) (s_imode s) (s_okuri s)) s))).
    intros z E2 Z. destruct (run_delete dbg w1 w' z fr _ _ E2 Hb) as (_ & ->). split.
    + intros _. split; [exact Hm|]. exists c. auto.
    + intros _. apply (mode_differs w _ s fr (snd (st_delete z)) fr Hs); [apply stack_set|]. rewrite (delete_stays z Z).
      destruct Hm as [E|E]; rewrite E; discriminate.
  - rewrite (confirm_none w s fr Hs Ec) in Hb. destruct (run_delete dbg w w' s fr _ _ Hs Hb) as (_ & ->).
    assert (Z : snd (st_delete s) = s) by (unfold st_delete; destruct Hm as [E|E]; rewrite E; reflexivity).
    rewrite (set_same w s fr _ Hs). split; [intros N; now destruct (N Z)|]. intros (_ & c & B & _). discriminate.
Qed.
Lemma return_case dbg w w' s fr c i : x_stack (w_ctx w) = s :: fr ->
  run_instrs dbg [IConfirmDirect] c i true w = Ok (false, w') -> w' = w.
Proof.
  intros Hs. cbn [run_instrs run_instr]. unfold bind, get, cur. rewrite Hs. destruct (Nat.ltb _ _); [|intros [= <-]; reflexivity].
  rewrite Hs. destruct (exit_register_mode (s_conf s) w) as [[]|]; cbn; discriminate.
Qed.

(** * C54 *)
(** With either shipped rule, after any calls on a context made in direct input: a key answered with false
    changes something exactly if it is bound to a deletion and the state is an okurigana mode without
    okurigana and pending key, or a candidate list whose confirmation gives no text. *)
Theorem C54_exact : forall r X dbg kf am ds i st ops outs w s fr k w',
  shipped r -> printable X -> Forall (fun o => changes_rule o = false) ops ->
  run X dbg ops (mkW st (ctx_new X r kf am ds i Direct)) = Ok (outs, w) ->
  frames w = s :: fr -> process_key_event X dbg k w = Ok (false, w') ->
  (w' <> w <-> (exists l, bound (r_command r) (s_cmode s) (s_imode s) k l /\ In IDelete l)
     /\ completes w s k = false /\ (bare_okurigana s \/ blank_candidate (x_kf (w_ctx w)) s)).
Proof.
  intros r X dbg kf am ds i st ops outs w s fr k w' Hship HX Hops Hrun Hs Hb.
  destruct (run_cmd _ _ _ _ _ _ _ _ _ _ _ _ Hops Hrun) as (_ & Hcr).
  pose proof (run_defaults _ _ _ _ _ _ _ _ _ _ _ Hrun) as Hdf. rewrite Hs in Hdf. apply Forall_cons_iff in Hdf as (Hdf & _).
  unfold frames in Hs.
  assert (In0 : input_key X dbg k (s_cmode s) (s_pre s) w = Ok (false, w') -> w' = w) by exact (input_key_inert X dbg k w s fr HX Hs Hdf w').
  assert (Bad : bare_okurigana s \/ blank_candidate (x_kf (w_ctx w)) s -> s_cmode s <> Register).
  { intros [(-> & _)|([-> | ->] & _)]; discriminate. }
  unfold process_key_event in Hb. destruct (has_mod k M_RELEASE) eqn:Er.
  { injection Hb as <-. split; [congruence|]. intros ((l & Hl & _) & _). exfalso.
    apply assoc_key_in' in Hl as (k' & Hin & Hk'). apply key_eqb_eq in Hk'. subst k'. destruct (shipped_final r _ _ _ _ Hship Hin) as (_ & H).
    rewrite command_release in H. congruence. }
  unfold process_key_event_inner, bind, cur, get in Hb. rewrite Hs in Hb. cbn zeta in Hb.
  fold (completes w s k) in Hb. destruct (completes w s k).
  { specialize (In0 Hb). split; [congruence|intros (_ & ? & _); discriminate]. }
  unfold lift in Hb. rewrite Hcr in Hb.
  destruct (assoc_key (command_key k) (r_command r (s_cmode s) (s_imode s))) as [l|] eqn:Ek.
  2: { assert (E : w' = w).
       { unfold get_instruction in Hb. rewrite Ek in Hb. destruct (s_cmode s); try (apply In0; exact Hb).
         destruct dbg; [discriminate Hb|]. apply In0; exact Hb. }
       split; [congruence|]. intros ((l & Hl & _) & _). unfold bound in Hl. congruence. }
  pose proof Ek as Hin. apply assoc_key_in' in Hin as (k' & Hin & Hk'). apply key_eqb_eq in Hk'. subst k'.
  destruct (shipped_final r _ _ _ _ Hship Hin) as (Hf & _).
  assert (Hreg : s_cmode s <> Register).
  { intros E. rewrite E in Hin. assert (R : r_command r Register (s_imode s) = []) by (destruct Hship as [-> | ->]; destruct (s_imode s); vm_compute; reflexivity).
    rewrite R in Hin. destruct Hin. }
  rewrite (instruction_bound dbg _ _ _ _ _ Hreg Ek) in Hb. unfold process_instructions in Hb.
  unfold final_shape in Hf. apply orb_true_iff in Hf as [Hf|Hf].
  { exfalso. apply andb_prop in Hf as [Hf Hn]. apply negb_true_iff in Hf. rewrite Hn in Hb. exact (run_instrs_true dbg _ _ _ Hf w w' Hb). }
  assert (Hlists : (s_cmode s = CompositionSelection \/ s_cmode s = Completion) /\ l = [IConfirmComposition; IDelete]
    \/ (s_cmode s <> CompositionSelection /\ s_cmode s <> Completion) /\ (l = [IDelete] \/ l = [IConfirmDirect])).
  { clear - Hf. destruct (s_cmode s); (destruct l as [|x1 l]; [discriminate Hf|]); destruct x1; try discriminate Hf;
      (destruct l as [|x2 l]; [|try discriminate Hf]); try (right; split; [split; discriminate|auto; fail]);
      try discriminate Hf; destruct x2; try discriminate Hf; destruct l; try discriminate Hf; left; auto. }
  destruct Hlists as [(Hm & ->)|((Hm1 & Hm2) & [-> | ->])]; cbn [is_nil negb] in Hb.
  - rewrite (confirm_case dbg w w' s fr Hs Hdf Hm Hb). split.
    + intros B. split; [exists [IConfirmComposition; IDelete]; split; [exact Ek|right; now left]|]. split; [reflexivity|now right].
    + intros (_ & _ & [(B & _)|B]); [|exact B]. destruct Hm as [E|E]; rewrite E in B; discriminate.
  - rewrite (delete_case dbg w w' s fr _ _ Hs Hb). split.
    + intros B. split; [exists [IDelete]; split; [exact Ek|now left]|]. split; [reflexivity|now left].
    + intros (_ & _ & [B|([B|B] & _)]); [exact B|contradiction|contradiction].
  - pose proof (return_case dbg w w' s fr _ _ Hs Hb) as W. split; [intros N; now destruct (N W)|].
    intros ((l & Hl & Hi) & _). unfold bound in Hl. rewrite Ek in Hl. injection Hl as <-. destruct Hi as [Hi|[]]; discriminate.
Qed.
(** Both cases occur: a reset in okurigana mode, and a blank candidate. *)
Definition refused_change (ops : list op) (ds : list dict) (k : keyev) : option (cmode * cmode) :=
  match run ascii_xkb false ops (demo ds) with
  | Ok (_, w) => match process_key_event ascii_xkb false k w with
                 | Ok (false, w') => match current w, current w' with
                                     | Some s, Some t => Some (s_cmode s, s_cmode t)
                                     | _, _ => None
                                     end
                 | _ => None
                 end
  | Panic _ => None
  end.
Definition blank_dict : dict := mkDict true (DStatic (mkDents [] [(U "あい", mkEntry (U "あい") false [([], [mkDC [] None])])])).
Example C54_exact_case :
  refused_change (map OKey (dkeys (U "A i K")) ++ [OReset]) [static_dict dic_small] (mkKey 65288 M_NONE)
    = Some (PreCompositionOkurigana, PreComposition)
  /\ refused_change (map OKey (dkeys (U "A i space"))) [blank_dict] (mkKey 65288 M_NONE) = Some (CompositionSelection, Direct)
  /\ refused_change (map OKey (dkeys (U "A i space"))) [static_dict dic_small] (mkKey 120 M_CONTROL)
    = Some (CompositionSelection, CompositionSelection).
Proof. repeat split; vm_compute; reflexivity. Qed.
(** The hypotheses are met there. *)
Example C54_exact_met : printable ascii_xkb /\ Forall (fun o => changes_rule o = false) (map OKey (dkeys (U "A i K")) ++ [OReset])
  /\ exists kf am ds i st, demo [static_dict dic_small] = mkW st (ctx_new ascii_xkb default_rule kf am ds i Direct).
Proof.
  split; [intros k Hk; cbn; unfold ascii_xkb; cbn; destruct (N.leb_spec 32 k), (N.leb_spec k 126); cbn; lia || discriminate|].
  split; [|repeat eexists]. apply Forall_app. split; [|repeat constructor].
  apply Forall_forall. intros o Ho. apply in_map_iff in Ho as (k & <- & _). reflexivity.
Qed.

(** * C04 *)
(** After a reset the composition mode is that of the outermost frame before; so Direct exactly if it was
    Direct there, and Register if a registration was open. *)
Theorem C04_exact : forall X dbg w s w', reachable X dbg w -> outermost w = Some s ->
  exec X dbg OReset w = Ok (OutUnit, w') ->
  option_map s_cmode (current w') = Some (s_cmode s)
  /\ (option_map s_cmode (current w') = Some Direct <-> s_cmode s = Direct).
Proof.
  intros X dbg w s w' Hr Ho He. destruct (T_Keys.C04_reset_partial X dbg w s Hr Ho) as (t & E & Em).
  rewrite E in He. injection He as <-.
  assert (M : option_map s_cmode (current (with_frames [t] w)) = Some (s_cmode s)).
  { cbn. f_equal. apply Em. }
  split; [exact M|]. rewrite M. split; [now intros [=]|now intros ->].
Qed.
Example C04_exact_case : match run ascii_xkb false (map OKey (dkeys (U "A i space")) ++ [OReset]) (demo [user_dict []]) with
  | Ok (_, w) => (map s_cmode (frames w), map (fun k => rmap fst (process_key_event ascii_xkb false k w)) (dkeys (U "a C-g C-j")))
  | Panic _ => ([], [])
  end = ([Register], [Ok false; Ok false; Ok false]).
Proof. vm_compute. reflexivity. Qed.
