(** Theorems about the frames of a context over all histories: C01, C02, C03, C07, C11, C12,
    C16, C17, C28.  The vocabulary (started, reachable, frames, ...) is in Spec.v. *)
From Verif Require Import Str Keys Modes KanaBuilder FormChanger DictTypes Parser Lru
  Dictionary CState Context DefaultRule Demo Spec P_Monad P_Frames P_Inv P_Kana P_Keeps P_Register P_Confirmed.

Lemma demo_started ds : started ascii_xkb (demo ds).
Proof.
  exists ds, default_kana_form, default_ascii_map, (seq 0 (length ds)), Hiragana, Direct.
  left. exists default_rule. reflexivity.
Qed.
Lemma typed_reachable dbg ks ds outs w : typed dbg ks (demo ds) = Ok (outs, w) -> reachable ascii_xkb dbg w.
Proof. intros H. exists (demo ds), (map OKey (dkeys ks)), outs. split; [apply demo_started|exact H]. Qed.
Lemma typed_cmd dbg ks ds outs w : typed dbg ks (demo ds) = Ok (outs, w) ->
  x_cmd (w_ctx w) = r_command default_rule.
Proof.
  intros H. eapply (run_inv ascii_xkb dbg (fun w => x_stack (w_ctx w) <> [] /\ x_cmd (w_ctx w) = r_command default_rule)
     (fun o => changes_rule o = false)); [| | | |exact H].
  - tauto.
  - intros o w1 w2 Ho [H1 H2] Hs. split; [eapply step_nonempty; eauto|].
    destruct Hs as [[(E & _) _ _]|(_ & _ & E)]; [|destruct (E Ho) as [_ E']]; congruence.
  - apply Forall_forall. intros o Ho. apply in_map_iff in Ho as (k & <- & _). reflexivity.
  - split; [cbn; discriminate|reflexivity].
Qed.

(* ------------------------------------------------------------------ C01 *)
(** Bit 30 of the modifiers is RELEASE (skk_modifier.rs). *)
Theorem C01_release_inert : forall X dbg k w,
  N.testbit (kmods k) 30 = true ->
  exec X dbg (OKey k) w = Ok (OutBool false, w).
Proof.
  intros X dbg k w H. cbn [exec]. unfold bind, process_key_event.
  assert (E : has_mod k M_RELEASE = true).
  { unfold has_mod. apply N.eqb_eq. change M_RELEASE with (2 ^ 30)%N. apply N.bits_inj. intros i.
    rewrite N.land_spec, N.pow2_bits_eqb. destruct (N.eqb_spec 30 i) as [<-|Hi];
      [rewrite H; reflexivity|apply Bool.andb_false_r]. }
  rewrite E. reflexivity.
Qed.
Example C01_case : N.testbit (kmods (mkKey 97 M_RELEASE)) 30 = true
  /\ exists outs w, exec ascii_xkb true (OKey (mkKey 97 0)) (demo []) = Ok (outs, w) /\ confirmed_text w = U "あ".
Proof. split; [reflexivity|]. apply run_case. vm_compute. reflexivity. Qed.

(* ------------------------------------------------------------------ C02 *)
Theorem C02_nesting_bounded : forall X dbg w,
  reachable X dbg w -> 1 <= length (get_preedit_detail X (w_ctx w)) <= 10.
Proof.
  intros X dbg w H. unfold get_preedit_detail. rewrite map_length, rev_length.
  eapply reachable_length; eauto.
Qed.
Theorem C02_no_empty_stack_panic : forall X dbg w ops,
  reachable X dbg w -> run X dbg ops w <> Panic PanicEmptyStack.
Proof. intros X dbg w ops H. apply run_no_empty. eapply reachable_nonempty; eauto. Qed.
(** Ten frames are reached, and the eleventh registration is refused. *)
Fixpoint repeat_keys (n : nat) (s : str) : str := match n with O => [] | S n => s ++ repeat_keys n s end.
Example C02_case : exists outs w,
  run ascii_xkb true (map OKey (dkeys (repeat_keys 12 (U "A i space ")))) (demo [user_dict []]) = Ok (outs, w)
  /\ length (get_preedit_detail ascii_xkb (w_ctx w)) = 10.
Proof. apply run_case. vm_compute. reflexivity. Qed.

(* ------------------------------------------------------------------ C03 *)
(** The preedit of a context whose outer frames are [outer] (outermost first) and whose
    innermost frame is [inner]. *)
Definition nested_preedit (X : xkb) (kf : kana_form) (outer : list cstate) (inner : cstate) : str :=
  flat_map (fun s => preedit_string X kf (s_imode s) s ++ U "【") outer
  ++ preedit_string X kf (s_imode inner) inner
  ++ flat_map (fun _ => U "】") outer.
Lemma nested_preedit_spec X c s r : s_cmode s <> Register ->
  Forall (fun t => s_cmode t = Register) r -> x_stack c = s :: r ->
  get_preedit X c = nested_preedit X (x_kf c) (rev r) s.
Proof.
  intros Hs Hr E. unfold get_preedit, nested_preedit. rewrite E. cbn [rev]. rewrite !flat_map_app. cbn [flat_map].
  assert (Hs' : is_register s = false) by (unfold is_register; destruct (s_cmode s); cbn; congruence).
  rewrite Hs', !app_nil_r.
  assert (Ha : forall f : cstate -> str,
     flat_map (fun t => f t ++ (if is_register t then U "【" else [])) (rev r)
     = flat_map (fun t => f t ++ U "【") (rev r)).
  { intros f. apply Forall_rev in Hr. induction Hr as [|t l Ht Hl IH]; [reflexivity|].
    cbn [flat_map]. rewrite IH. unfold is_register. rewrite Ht. reflexivity. }
  assert (Hb : flat_map (fun t => if is_register t then U "】" else []) (rev r)
     = flat_map (fun _ => U "】") (rev r)).
  { clear Ha. apply Forall_rev in Hr. induction Hr as [|t l Ht Hl IH]; [reflexivity|].
    cbn [flat_map]. rewrite IH. unfold is_register. rewrite Ht. reflexivity. }
  rewrite Ha, Hb, <- app_assoc. reflexivity.
Qed.
Theorem C03_register_frames : forall X dbg r kf am ds i c st ops outs w,
  rule_no_register (r_command r) -> c <> Register -> Forall op_no_register ops ->
  run X dbg ops (mkW st (ctx_new X r kf am ds i c)) = Ok (outs, w) ->
  exists inner outer, frames w = inner :: outer
    /\ s_cmode inner <> Register
    /\ Forall (fun s => s_cmode s = Register) outer
    /\ get_preedit X (w_ctx w) = nested_preedit X (x_kf (w_ctx w)) (rev outer) inner.
Proof.
  intros X dbg r kf am ds i c st ops outs w Hr Hc Hops H.
  pose proof (k_run X dbg ops Hops (mkW st (ctx_new X r kf am ds i c))) as Hk.
  unfold wp in Hk. rewrite H in Hk.
  destruct Hk as [_ Hk].
  { split; [exact Hr|]. exists (st_new i c), []. repeat split; auto. }
  destruct Hk as (s & l & E & [Hs _] & Hl). exists s, l. repeat split; auto.
  - eapply Forall_impl; [|exact Hl]. intros a [Ha _]; exact Ha.
  - apply nested_preedit_spec; auto. eapply Forall_impl; [|exact Hl]. intros a [Ha _]; exact Ha.
Qed.
Lemma default_rule_no_register : rule_no_register (r_command default_rule).
Proof.
  assert (H : forall c i, forallb (fun e : keyev * list instr =>
     forallb (fun x => match x with IChangeCompositionMode Register => false | _ => true end) (snd e))
     (r_command default_rule c i) = true).
  { intros c i; destruct c, i; vm_compute; reflexivity. }
  intros c i k l Hin Hx. specialize (H c i). rewrite forallb_forall in H. specialize (H _ Hin).
  cbn in H. rewrite forallb_forall in H. specialize (H _ Hx). discriminate.
Qed.
Example C03_case : exists outs w,
  typed true (U "A i space k a K a space") (demo [user_dict []]) = Ok (outs, w)
  /\ (length (frames w), get_preedit ascii_xkb (w_ctx w)) = (3, U "▼あい【▼か【】】").
Proof. apply run_case. vm_compute. reflexivity. Qed.

(* ------------------------------------------------------------------ C07 *)
(** Purge and Delete remove text; ClearKanaConvertedInputs leaves a hidden copy of the reading
    behind (no shipped rule uses it), so that a later auto-start conversion deletes too much. *)
Theorem C07_confirmed_kept_partial : forall X dbg r kf am ds i c st ops outs w k b w',
  rule_avoids bad_clear (r_command r) -> Forall (op_rule_avoids bad_clear) ops ->
  run X dbg ops (mkW st (ctx_new X r kf am ds i c)) = Ok (outs, w) ->
  (forall x, key_runs (x_cmd (w_ctx w)) k x -> x <> IDelete /\ x <> IPurge) ->
  exec X dbg (OKey k) w = Ok (OutBool b, w') ->
  exists new, confirmed_text w' = confirmed_text w ++ new.
Proof.
  intros X dbg r kf am ds i c st ops outs w k b w' Hr Hops H Hk He.
  destruct (run_L X dbg ops (mkW st (ctx_new X r kf am ds i c)) outs w Hr Hops) as (Hr' & Hne & HL); auto.
  { cbn; discriminate. }
  { cbn. constructor; [unfold L; cbn; lia|constructor]. }
  cbn in He. unfold bind in He. destruct (process_key_event X dbg k w) as [[b0 w1]|] eqn:E; [|discriminate].
  injection He as <- <-.
  assert (Hp : prefix (confirmed_text w) (confirmed_text w1)).
  { eapply key_keeps_confirmed; eauto. intros x Hx. destruct (Hk x Hx) as [H1 H2].
    assert (bad_clear x = false) by (destruct Hx as (c' & i' & k' & l & H3 & _ & H5); eapply Hr'; eauto).
    destruct x; cbn in *; congruence. }
  exact Hp.
Qed.
Lemma default_avoids_clear : rule_avoids bad_clear (r_command default_rule).
Proof.
  assert (H : forall c i, forallb (fun e : keyev * list instr => forallb (fun x => negb (bad_clear x)) (snd e))
     (r_command default_rule c i) = true) by (intros c i; destruct c, i; vm_compute; reflexivity).
  intros c i k l Hin x Hx. specialize (H c i). rewrite forallb_forall in H. specialize (H _ Hin).
  cbn in H. rewrite forallb_forall in H. specialize (H _ Hx). now apply Bool.negb_true_iff.
Qed.
(** The full claim fails: Purge also wipes text confirmed before. *)
Theorem C07_refuted : exists k b w w', reachable ascii_xkb true w
  /\ x_cmd (w_ctx w) = r_command default_rule
  /\ ~ key_runs (r_command default_rule) k IDelete
  /\ exec ascii_xkb true (OKey k) w = Ok (b, w')
  /\ (confirmed_text w, confirmed_text w') = (U "か", []).
Proof.
  destruct (run_case (typed true (U "k a A i space") (demo [user_dict dic_small]))
     (fun w => (confirmed_text w, rmap (fun x => confirmed_text (snd x)) (exec ascii_xkb true (OKey (mkKey 88 0)) w)))
     (U "か", Ok []) ltac:(vm_compute; reflexivity)) as (outs & w & E & H).
  injection H as H1 H2.
  destruct (run_case _ _ _ H2) as (b & w' & E2 & H3).
  exists (mkKey 88 0), b, w, w'. repeat split; auto.
  - eapply typed_reachable, E.
  - eapply typed_cmd; eauto.
  - intros (c & i & k' & l & Hl1 & Hl2 & Hl3).
    assert (Hb : forall c i, forallb (fun e : keyev * list instr => negb (key_eqb (command_key (mkKey 88 0)) (fst e))
       || forallb (fun x => match x with IDelete => false | _ => true end) (snd e)) (r_command default_rule c i) = true)
      by (intros c0 i0; destruct c0, i0; vm_compute; reflexivity).
    specialize (Hb c i). rewrite forallb_forall in Hb. specialize (Hb _ Hl1). cbn [fst snd] in Hb.
    rewrite Hl2 in Hb. cbn [negb orb] in Hb. rewrite forallb_forall in Hb. specialize (Hb _ Hl3). discriminate.
  - cbv beta in H3. rewrite H1, H3. reflexivity.
Qed.
Example C07_case : exists outs w,
  typed true (U "k a A i space") (demo [user_dict dic_small]) = Ok (outs, w) /\
  (confirmed_text w, rmap (fun x => confirmed_text (snd x)) (exec ascii_xkb true (OKey (mkKey 107 0)) w))
  = (U "か", Ok (U "か愛")).
Proof. apply run_case. vm_compute. reflexivity. Qed.

(* ------------------------------------------------------------------ C11 *)
(** [entry r keys conv carry]: the conversion table maps the key sequence to kana and carry-over. *)
Definition entry (X : xkb) (r : rule) (keys : list N) (conv : str) (carry : list N) : Prop :=
  exists k cy, In (k, (cy, conv)) (r_conversion r)
               /\ keysyms_from_str X k = keys /\ keysyms_from_str X cy = carry.
Definition distinct_keys (X : xkb) (r : rule) : Prop :=
  NoDup (map (fun e : str * (str * str) => keysyms_from_str X (fst e)) (r_conversion r)).
Lemma entry_val X r k v : (exists e, In e (r_conversion r) /\ keyseq X e = k /\ val X e = v) <->
  entry X r k (fst v) (snd v).
Proof.
  split.
  - intros ([k0 [cy cv]] & Hin & <- & <-). exists k0, cy. auto.
  - intros (k0 & cy & Hin & <- & E). exists (k0, (cy, fst v)). destruct v as [v1 v2]; cbn in *. subst. auto.
Qed.
Lemma completable_keyseq X r u : completable X r u <->
  exists e rest, In e (r_conversion r) /\ keyseq X e = u ++ rest.
Proof.
  split.
  - intros (k & v & Hin & rest & E). exists (k, v), rest. auto.
  - intros ([k v] & rest & Hin & E). exists k, v. eauto.
Qed.
Theorem C11_convert_at_once : forall X r keys conv carry, distinct_keys X r ->
  (convert_non_partial (kb_new X r) keys = Some (conv, carry) <->
   entry X r keys conv carry /\ forall x, ~ completable X r (keys ++ [x])).
Proof.
  intros X r keys conv carry Hn. rewrite (kb_non_partial X r keys (conv, carry) Hn).
  rewrite entry_val. cbn [fst snd]. split; intros [H1 H2]; split; auto.
  - intros x Hx. apply completable_keyseq in Hx as (e & rest & Hin & E).
    rewrite <- app_assoc in E. apply H2 in E; [discriminate|exact Hin].
  - intros e [|x rest] Hin E; [reflexivity|]. exfalso. apply (H2 x). apply completable_keyseq.
    exists e, rest. rewrite <- app_assoc. auto.
Qed.
Theorem C11_force_convert : forall X r keys conv carry, distinct_keys X r ->
  (convert_greedy (kb_new X r) keys = Some (conv, carry) <-> entry X r keys conv carry).
Proof.
  intros X r keys conv carry Hn. unfold convert_greedy. rewrite (kb_tget X r keys (conv, carry) Hn).
  apply entry_val.
Qed.
Theorem C11_may_continue : forall X r k pending,
  can_continue (kb_new X r) k pending = true <-> completable X r (pending ++ [ksym k]).
Proof. intros. rewrite kb_continue, completable_keyseq. reflexivity. Qed.
Fixpoint nodupb (l : list str) : bool :=
  match l with [] => true | x :: r => negb (existsb (str_eqb x) r) && nodupb r end.
Lemma nodupb_spec l : nodupb l = true -> NoDup l.
Proof.
  induction l as [|x l IH]; cbn; intros H; constructor; apply andb_prop in H as [H1 H2]; auto.
  intros Hin. apply Bool.negb_true_iff in H1.
  assert (existsb (str_eqb x) l = true) by (apply existsb_exists; exists x; split; auto; apply str_eqb_refl).
  congruence.
Qed.
Example C11_case : distinct_keys ascii_xkb default_rule
  /\ convert_non_partial (kb_new ascii_xkb default_rule) (U "kya") = Some (U "きゃ", [])
  /\ convert_non_partial (kb_new ascii_xkb default_rule) (U "n") = None
  /\ convert_greedy (kb_new ascii_xkb default_rule) (U "n") = Some (U "ん", []).
Proof.
  split; [apply nodupb_spec; vm_compute; reflexivity|]. repeat split; vm_compute; reflexivity.
Qed.

(* ------------------------------------------------------------------ C12 *)
Definition carry_completable (X : xkb) (r : rule) : Prop :=
  forall keys conv carry, entry X r keys conv carry -> carry = [] \/ completable X r carry.
Theorem C12_pending_completable : forall X dbg r kf am ds i c st ops outs w s,
  distinct_keys X r -> carry_completable X r ->
  Forall (fun o => match o with OSetRule _ => False | _ => True end) ops ->
  run X dbg ops (mkW st (ctx_new X r kf am ds i c)) = Ok (outs, w) ->
  In s (frames w) -> s_pre s = [] \/ completable X r (s_pre s).
Proof.
  intros X dbg r kf am ds i c st ops outs w s Hn Hc Hops H Hin.
  assert (Hf : Forall (pend_ok (kb_new X r)) (x_stack (w_ctx w))).
  { eapply (run_pend X dbg ops (mkW st (ctx_new X r kf am ds i c))); [| | | |exact H]; cbn.
    - intros u (k & cv & Hu). apply (kb_tget X r k (cv, u) Hn) in Hu. apply entry_val in Hu. cbn in Hu.
      apply kb_has_node. destruct (Hc _ _ _ Hu) as [->|Hcp]; [left; reflexivity|right].
      apply completable_keyseq. exact Hcp.
    - eapply Forall_impl; [|exact Hops]. intros o; destruct o; cbn; tauto.
    - discriminate.
    - constructor; [|constructor]. apply has_node_nil. }
  rewrite Forall_forall in Hf. specialize (Hf s Hin). apply kb_has_node in Hf as [Hf|Hf]; [left; exact Hf|right].
  now apply completable_keyseq.
Qed.
Definition carry_ok_b (X : xkb) (r : rule) : bool :=
  forallb (fun e => is_nil (keysyms_from_str X (fst (snd e)))
    || existsb (fun e' => is_prefixb (keysyms_from_str X (fst (snd e))) (keysyms_from_str X (fst e'))) (r_conversion r))
    (r_conversion r).
Lemma carry_ok_spec X r : carry_ok_b X r = true -> carry_completable X r.
Proof.
  unfold carry_ok_b. rewrite forallb_forall. intros H keys conv carry (k & cy & Hin & <- & <-).
  specialize (H _ Hin). cbn [fst snd] in H. apply Bool.orb_true_iff in H as [H|H].
  - left. now apply is_nil_true.
  - right. apply existsb_exists in H as ([k' v'] & Hin' & Hp). apply is_prefixb_spec in Hp as [rest E].
    exists k', v'. split; [exact Hin'|]. exists rest. exact E.
Qed.
Example C12_case : carry_completable ascii_xkb default_rule /\ exists outs w,
  typed true (U "t t") (demo []) = Ok (outs, w) /\ map s_pre (frames w) = [U "t"].
Proof.
  split; [apply carry_ok_spec; vm_compute; reflexivity|]. apply run_case. vm_compute. reflexivity.
Qed.

(* ------------------------------------------------------------------ C16 *)
Theorem C16_history_bounded : forall X dbg w s,
  reachable X dbg w -> In s (frames w) -> length (s_hist s) <= 20.
Proof.
  intros X dbg w s H Hin. apply reachable_hist in H. rewrite Forall_forall in H. now apply H.
Qed.
Example C16_case : exists outs w,
  run ascii_xkb true (repeat (OSetCompositionMode PreComposition) 30) (demo []) = Ok (outs, w)
  /\ map (fun s => length (s_hist s)) (frames w) = [20].
Proof. apply run_case. vm_compute. reflexivity. Qed.

(* ------------------------------------------------------------------ C17 *)
(** Missing for the full claim: the cursor can equal the count (registration of a text with a
    #4 template for which no dictionary has an entry), see C17_refuted; without debug
    assertions the cursor of an empty list can be any number. *)
Theorem C17_cursor_in_range_partial : forall X dbg w s,
  reachable X dbg w -> In s (frames w) ->
  ((candidate_count s <> 0)%N -> (cursor s <= candidate_count s)%N) /\
  (candidate_count s = 0%N -> dbg = true -> cursor s = 0%N).
Proof.
  intros X dbg w s H Hin. apply reachable_cursor in H. rewrite Forall_forall in H.
  destruct (H s Hin) as [H1 H2]. unfold candidate_count, cursor in *. split.
  - intros Hc. apply H1. intros E; rewrite E in Hc; cbn in Hc; lia.
  - intros Hc. apply H2. destruct (cl_list (s_list s)); [reflexivity|cbn in Hc; lia].
Qed.
Definition num_dict : list str := Eval vm_compute in [U ";; okuri-nasi entries."; U "# /#1/"].
Lemma frames_case (l : list cstate) (a b : N) :
  map (fun s => (candidate_count s, cursor s)) l = [(a, b)] ->
  exists s, In s l /\ candidate_count s = a /\ cursor s = b.
Proof. destruct l as [|s [|]]; cbn; try discriminate. intros [= <- <-]. exists s; auto. Qed.
Theorem C17_refuted : exists w s, reachable ascii_xkb true w /\ In s (frames w)
  /\ candidate_count s = 1%N /\ cursor s = 1%N.
Proof.
  destruct (run_case (typed true (U "Q 5 space space l numbersign 4 Return") (demo [user_dict num_dict]))
     (fun w => map (fun s => (candidate_count s, cursor s)) (frames w)) _
     ltac:(vm_compute; reflexivity)) as (outs & w & E & H).
  apply frames_case in H as (s & Hs). exists w, s. split; [|exact Hs].
  eapply typed_reachable, E.
Qed.
Theorem C17_refuted_release : exists w s, reachable ascii_xkb false w /\ In s (frames w)
  /\ candidate_count s = 0%N /\ cursor s = 3%N.
Proof.
  destruct (run_case (typed false (U "A i space x C-g space space space") (demo [user_dict dic_small]))
     (fun w => map (fun s => (candidate_count s, cursor s)) (frames w)) _
     ltac:(vm_compute; reflexivity)) as (outs & w & E & H).
  apply frames_case in H as (s & Hs). exists w, s. split; [|exact Hs].
  eapply typed_reachable, E.
Qed.

(* ------------------------------------------------------------------ C28 *)
Theorem C28_read_only_dictionaries : forall X dbg w ops outs w' i d,
  reachable X dbg w ->
  Forall (fun o => match o with OOther _ => False | _ => True end) ops ->
  run X dbg ops w = Ok (outs, w') ->
  dict_at i w = Some d -> read_only d -> dict_at i w' = Some d.
Proof.
  intros X dbg w ops outs w' i d Hr Hops H Hd Hro. eapply run_read_only; [| |exact H|exact Hd|exact Hro].
  - eapply reachable_nonempty; eauto.
  - eapply Forall_impl; [|exact Hops]. intros o; destruct o; cbn; tauto.
Qed.
Example C28_case : read_only (static_dict dic_small) /\ exists outs w,
  typed true (U "A i space space C-j") (demo [static_dict dic_small; user_dict dic_small]) = Ok (outs, w)
  /\ (dict_at 0 w, option_map (fun d => map fst (d_nashi (dict_ents d))) (dict_at 1 w))
     = (Some (static_dict dic_small), Some [U "あい"; U "#こ"; U "だい#"; U "かな"]).
Proof. split; [exact I|]. apply run_case. vm_compute. reflexivity. Qed.
