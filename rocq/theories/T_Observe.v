(** C55, C58, C59, C60: the observers of the Rust API and of the C API. *)
From Verif Require Import Str Keys Modes KanaBuilder FormChanger DictTypes Dictionary CState Context
  DefaultRule Demo Spec P_Inv CApi.
From Verif Require T_Frames.

(* ------------------------------------------------------------------ C55 *)
(** In every reachable state every observer of the Rust API answers, and the answers are those
    of the innermost frame (the preedit and its details: of all frames, outermost first).
    The observers take the world as an argument and return no new one: they change nothing. *)
Theorem C55_observers : forall X dbg w, reachable X dbg w -> exists s, current w = Some s
  /\ get_current_input_mode w = Ok (s_imode s)
  /\ get_current_composition_mode w = Ok (s_cmode s)
  /\ get_current_candidate_count w = Ok (candidate_count s)
  /\ get_current_candidates w = Ok (cl_list (s_list s))
  /\ get_current_candidate_cursor_position w
     = Ok (if N.eqb (candidate_count s) 0 then None else Some (cursor s))
  /\ get_current_to_composite w = Ok (s_raw s)
  /\ length (get_preedit_detail X (w_ctx w)) = length (frames w)
  /\ get_preedit X (w_ctx w)
     = concat (map (fun s => render (preedit_detail X (x_kf (w_ctx w)) (s_imode s) s)
                             ++ if cmode_eqb (s_cmode s) Register then U "【" else []) (rev (frames w)))
       ++ concat (repeat (U "】") (length (filter (fun s => cmode_eqb (s_cmode s) Register) (frames w))))
  /\ forall k, exists b, will_process false k w = Ok b.
Proof.
  intros X dbg w Hr. apply reachable_nonempty in Hr. unfold current, frames in *.
  unfold get_current_input_mode, get_current_composition_mode, get_current_candidate_count,
    get_current_candidates, get_current_candidate_cursor_position, get_current_to_composite, current_state_ref, will_process.
  destruct (x_stack (w_ctx w)) as [|s r] eqn:E; [congruence|]. exists s. cbn [hd_error rmap].
  repeat split; try reflexivity.
  - do 2 f_equal. unfold candidate_count, cursor, cl_is_empty. destruct (cl_list (s_list s)); reflexivity.
  - f_equal. unfold get_composite_key. destruct (_ && _); reflexivity.
  - unfold get_preedit_detail. now rewrite map_length, rev_length, E.
  - unfold get_preedit. rewrite E, !flat_map_concat_map. f_equal. rewrite <- (rev_length (filter _ _)).
    assert (F : forall (f : cstate -> bool) l, rev (filter f l) = filter f (rev l)).
    { intros f l. induction l as [|a l IH]; [reflexivity|]. cbn [filter rev]. rewrite filter_app. cbn [filter].
      destruct (f a); cbn [rev]; rewrite IH; [reflexivity|now rewrite app_nil_r]. }
    rewrite F. induction (rev (s :: r)) as [|a l IH]; [reflexivity|]. cbn [map concat filter].
    change (is_register a) with (cmode_eqb (s_cmode a) Register).
    destruct (cmode_eqb (s_cmode a) Register); cbn [length repeat concat app]; now rewrite IH.
  - intros k. unfold get_instruction. destruct (s_cmode s); eexists; reflexivity.
Qed.
(** In debug builds will_process panics exactly when the innermost frame is in Register mode. *)
Theorem C55_will_process_debug : forall X dbg w k s, reachable X dbg w -> current w = Some s ->
  ((exists e, will_process true k w = Panic e) <-> s_cmode s = Register).
Proof.
  intros X dbg w k s _ Hs. unfold current in Hs. unfold will_process.
  destruct (x_stack (w_ctx w)) as [|s' r]; [discriminate|]. injection Hs as ->.
  unfold get_instruction. destruct (s_cmode s) eqn:E; (split; [intros (e & H); try discriminate H; reflexivity|]);
    try discriminate. intros _. eexists; reflexivity.
Qed.

(* ------------------------------------------------------------------ C58 *)
Definition has_nul (s : str) : Prop := In 0%N s.
Lemma nul_spec s : existsb (N.eqb 0) s = true <-> has_nul s.
Proof.
  rewrite existsb_exists. split.
  - intros (x & Hx & E). apply N.eqb_eq in E. now subst.
  - intros H. exists 0%N. split; [exact H|reflexivity].
Qed.
Lemma c_string_some s : ~ has_nul s -> c_string s = Some s.
Proof. intros H. unfold c_string. destruct (existsb _ s) eqn:E; [apply nul_spec in E; contradiction|reflexivity]. Qed.
Lemma c_string_none s : c_string s = None <-> has_nul s.
Proof. unfold c_string. destruct (existsb _ s) eqn:E; [|split; [discriminate|]]. - apply nul_spec in E. tauto.
  - intros H. apply nul_spec in H. congruence. Qed.
Lemma c_string_id s t : c_string s = Some t -> t = s.
Proof. unfold c_string. destruct (existsb _ s); congruence. Qed.
(** The candidates of a page, [offset .. offset + size). *)
Definition page (w : world) (size offset : N) : list candidate :=
  match current w with
  | Some s => firstn (N.to_nat size) (skipn (N.to_nat offset) (cl_list (s_list s)))
  | None => []
  end.
(** A page is handed out exactly, slot by slot; it fails only if one of its texts contains NUL. *)
Theorem C58_page : forall X dbg w size offset, reachable X dbg w ->
  (Exists (fun c => has_nul (c_output c)) (page w size offset) ->
     c_get_current_candidates w size offset = Ok None) /\
  (Forall (fun c => ~ has_nul (c_output c)) (page w size offset) ->
     c_get_current_candidates w size offset = Ok (Some (map c_output (page w size offset)))).
Proof.
  intros X dbg w size offset Hr. apply reachable_nonempty in Hr.
  unfold c_get_current_candidates, get_current_candidates, current_state_ref, page, current.
  destruct (x_stack (w_ctx w)) as [|s r]; [congruence|]. cbn [hd_error rmap].
  set (l := firstn _ _). clearbody l. split; intros H; f_equal.
  - induction H as [c l H|c l H IH]; cbn [fold_right].
    + apply c_string_none in H. now rewrite H.
    + rewrite IH. destruct (c_string _); reflexivity.
  - induction H as [|c l H Hl IH]; [reflexivity|]. cbn [fold_right map]. now rewrite IH, (c_string_some _ H).
Qed.
(** Its size, and what each slot holds. *)
Theorem C58_slots : forall X dbg w size offset s, reachable X dbg w -> current w = Some s ->
  N.of_nat (length (page w size offset)) = N.min size (candidate_count s - offset)
  /\ forall j, (j < N.of_nat (length (page w size offset)))%N ->
       nth_error (page w size offset) (N.to_nat j) = nth_error (cl_list (s_list s)) (N.to_nat (offset + j)).
Proof.
  intros X dbg w size offset s _ Hs. unfold page. rewrite Hs. split.
  - rewrite firstn_length, skipn_length. unfold candidate_count. lia.
  - intros j Hj. rewrite firstn_length in Hj.
    assert (G : forall (A : Type) (l : list A) a b, nth_error (skipn a l) b = nth_error l (a + b)).
    { intros A l a. revert l. induction a; intros l b; [reflexivity|]. destruct l; [now destruct b|]. cbn. apply IHa. }
    assert (F : forall (A : Type) (l : list A) a b, b < a -> nth_error (firstn a l) b = nth_error l b).
    { intros A l a. revert l. induction a; intros l b Hb; [lia|]. destruct l; [reflexivity|]. destruct b; [reflexivity|]. cbn. apply IHa. lia. }
    rewrite F by lia. rewrite G. f_equal. lia.
Qed.
(** Pages of any positive size, one after the other, give the whole list. *)
Theorem C58_pages_cover : forall w size s, current w = Some s -> (0 < size)%N ->
  forall n, (candidate_count s <= size * N.of_nat n)%N ->
  concat (map (fun i => page w size (size * N.of_nat i)) (seq 0 n)) = cl_list (s_list s).
Proof.
  intros w size s Hs Hsize n Hn. unfold page. rewrite Hs. unfold candidate_count in Hn.
  set (l := cl_list (s_list s)) in *. clearbody l. clear w s Hs.
  assert (G : forall n (l : list candidate), (N.of_nat (length l) <= size * N.of_nat n)%N -> forall a,
    concat (map (fun i => firstn (N.to_nat size) (skipn (N.to_nat (size * N.of_nat i) - N.to_nat (size * N.of_nat a)) l)) (seq a n)) = l).
  { clear. induction n as [|n IH]; intros l Hl a; cbn [seq map concat].
    - destruct l; [reflexivity|cbn in Hl; lia].
    - rewrite Nat.sub_diag. cbn [skipn]. transitivity (firstn (N.to_nat size) l ++ skipn (N.to_nat size) l); [|apply firstn_skipn]. f_equal.
      rewrite <- (IH (skipn (N.to_nat size) l)) with (a := S a).
      + f_equal. apply map_ext_in. intros i Hi. apply in_seq in Hi. f_equal.
        assert (K : forall (A : Type) (l : list A) a b, skipn a (skipn b l) = skipn (b + a) l).
        { intros A l0 a0 b. revert l0. induction b; intros l0; [reflexivity|]. destruct l0; [now rewrite !skipn_nil|]. cbn. apply IHb. }
        rewrite K. f_equal. nia.
      + rewrite skipn_length. lia. }
  etransitivity; [|exact (G n l Hn 0)]. f_equal. apply map_ext. intros i. f_equal. f_equal. lia.
Qed.
(** The cursor given to C. *)
Theorem C58_cursor : forall X dbg w s, reachable X dbg w -> current w = Some s ->
  (candidate_count s = 0%N -> c_get_current_candidate_cursor_position w = Ok (-1)%Z) /\
  ((candidate_count s <> 0)%N -> (cursor s < 2 ^ 31)%N ->
     c_get_current_candidate_cursor_position w = Ok (Z.of_N (cursor s))).
Proof.
  intros X dbg w s Hr Hs. destruct (C55_observers X dbg w Hr) as (s' & Hs' & _ & _ & _ & _ & E & _).
  assert (s' = s) as -> by congruence. unfold c_get_current_candidate_cursor_position. rewrite E. split.
  - intros ->. reflexivity.
  - intros H1 H2. apply N.eqb_neq in H1. rewrite H1. cbn [rmap].
    destruct (Z.ltb_spec (2 ^ 31 - 1) (Z.of_N (cursor s))); [lia|reflexivity].
Qed.
Example C58_example : exists outs w, typed true (U "A i space space") (demo [user_dict dic_small]) = Ok (outs, w)
  /\ (c_get_current_candidates w 2 1, c_get_current_candidate_cursor_position w)
     = (Ok (Some [U "哀"; U "相"]), Ok 1%Z).
Proof.
  apply (run_case _ (fun w => (c_get_current_candidates w 2 1, c_get_current_candidate_cursor_position w))).
  vm_compute. reflexivity.
Qed.

(* ------------------------------------------------------------------ C59 *)
(** What skk_context_poll_output returns when the confirmed text has no NUL: exactly that text
    (the empty one when there is none), which is removed. *)
Theorem C59_partial : forall X dbg w, reachable X dbg w -> ~ has_nul (confirmed_text w) ->
  exists w', c_poll_output w = Ok (Some (confirmed_text w), w') /\ confirmed_text w' = [].
Proof.
  intros X dbg w Hr Hn. apply reachable_nonempty in Hr. destruct (exists_last Hr) as (inner & s & E).
  unfold confirmed_text, outermost in *. rewrite E, rev_app_distr in *. cbn [rev app hd_error] in *.
  unfold c_poll_output, poll_output. rewrite E, rev_app_distr. cbn [rev app].
  destruct (is_nil (s_conf s)) eqn:En.
  - exists w. destruct (s_conf s) eqn:Es; [|discriminate]. split; [reflexivity|]. now rewrite E, rev_app_distr.
  - eexists. split; [now rewrite (c_string_some _ Hn)|]. unfold set_stack. cbn [w_ctx x_stack].
    rewrite rev_app_distr. reflexivity.
Qed.
(** C59 as stated is false: a candidate with NUL in it is confirmed, the poll gives NULL, and
    the text is gone. *)
Definition nul_dict : list str := [U ";; okuri-nasi entries."; U "あい /愛" ++ [0%N] ++ U "/"].
Theorem C59_refuted : exists w, reachable ascii_xkb false w /\ confirmed_text w = U "愛" ++ [0%N]
  /\ exists w', c_poll_output w = Ok (None, w') /\ confirmed_text w' = [].
Proof.
  destruct (run_case (typed false (U "A i space Return") (demo [user_dict nul_dict]))
     (fun w => (confirmed_text w, rmap (fun x => (fst x, confirmed_text (snd x))) (c_poll_output w)))
     (U "愛" ++ [0%N], Ok (None, []))) as (outs & w & Hr & E); [vm_compute; reflexivity|].
  exists w. split; [eapply T_Frames.typed_reachable; exact Hr|]. injection E as E1 E2. split; [exact E1|].
  destruct (c_poll_output w) as [[o w']|]; [|discriminate]. cbn [rmap fst snd] in E2. injection E2 as -> E2. exists w'. auto.
Qed.

(* ------------------------------------------------------------------ C60 *)
(** The texts of a preedit detail. *)
Definition opt_text (o : option str) : list str := match o with Some t => [t] | None => [] end.
Definition detail_texts (d : state_info) : list str :=
  match d with
  | SDirect c u => c :: opt_text u
  | SPreComposition c k o u | SPreCompositionOkurigana c k o u | SRegister c k o u =>
      [c; k] ++ opt_text o ++ opt_text u
  | SCompositionSelection c t o a => [c; t] ++ opt_text o ++ opt_text a
  | SComplete c g m t o a => [c; g; m; t] ++ opt_text o ++ opt_text a
  end.
Definition completion_okuri (d : state_info) : option str :=
  match d with SComplete _ _ _ _ o _ => o | _ => None end.
(** Without NUL in any text, C is given exactly what Rust is given, except the okurigana of a
    completion. *)
Theorem C60_partial : forall X w,
  Forall (fun d => (forall t, In t (detail_texts d) -> ~ has_nul t) /\ completion_okuri d = None)
         (get_preedit_detail X (w_ctx w)) ->
  c_get_preedit_detail X w = Ok (get_preedit_detail X (w_ctx w)).
Proof.
  intros X w H. unfold c_get_preedit_detail. induction H as [|d l (Hd & Ho) Hl IH]; [reflexivity|].
  cbn [res_map].
  assert (U1 : forall t, In t (detail_texts d) -> c_default t = t)
    by (intros t Ht; unfold c_default; now rewrite (c_string_some _ (Hd t Ht))).
  assert (U2 : forall t, In t (detail_texts d) -> c_unwrap t = Ok t)
    by (intros t Ht; unfold c_unwrap; now rewrite (c_string_some _ (Hd t Ht))).
  assert (U3 : forall o, (forall t, In t (opt_text o) -> In t (detail_texts d)) -> c_opt_default o = o)
    by (intros [t|] Ht; cbn; [rewrite U1; [reflexivity|apply Ht; now left]|reflexivity]).
  assert (U4 : forall o, (forall t, In t (opt_text o) -> In t (detail_texts d)) -> c_opt_unwrap o = Ok o)
    by (intros [t|] Ht; cbn; [rewrite U2; [reflexivity|apply Ht; now left]|reflexivity]).
  assert (E : convert_state_info d = Ok d).
  { destruct d; cbn [convert_state_info detail_texts completion_okuri] in *; unfold convert_precomposition_data;
      repeat first [rewrite U1 by (cbn; auto 10)|rewrite U2 by (cbn; auto 10)|progress cbn [rmap rbind]
        |rewrite U3 by (intros t Ht; cbn; rewrite ?in_app_iff; auto 10)
        |rewrite U4 by (intros t Ht; cbn; rewrite ?in_app_iff; auto 10)]; try reflexivity.
    now rewrite Ho. }
  rewrite E. cbn [rbind]. rewrite IH. reflexivity.
Qed.
(** C60 as stated is false: a candidate with NUL makes the observer panic. *)
Theorem C60_refuted : exists w, reachable ascii_xkb false w /\ c_get_preedit_detail ascii_xkb w = Panic PanicUnwrap
  /\ get_preedit_detail ascii_xkb (w_ctx w) = [SCompositionSelection [] (U "愛" ++ [0%N]) None None].
Proof.
  destruct (run_case (typed false (U "A i space") (demo [user_dict nul_dict]))
     (fun w => (c_get_preedit_detail ascii_xkb w, get_preedit_detail ascii_xkb (w_ctx w)))
     (Panic PanicUnwrap, [SCompositionSelection [] (U "愛" ++ [0%N]) None None])) as (outs & w & Hr & E); [vm_compute; reflexivity|].
  exists w. injection E as E1 E2. split; [eapply T_Frames.typed_reachable; exact Hr|]. auto.
Qed.
Example C60_example : exists outs w, typed true (U "a A i space space") (demo [user_dict dic_small]) = Ok (outs, w)
  /\ c_get_preedit_detail ascii_xkb w = Ok [SCompositionSelection (U "あ") (U "哀") None None].
Proof.
  apply (run_case _ (fun w => c_get_preedit_detail ascii_xkb w)). vm_compute. reflexivity.
Qed.
