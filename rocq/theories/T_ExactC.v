(** Exact answers for the C interface: C58 (the count), C59, C60. *)
From Verif Require Import Str Keys Modes KanaBuilder FormChanger DictTypes Parser Lru Dictionary
  CState Context DefaultRule Demo Spec P_Monad P_Frames P_Inv CApi T_Observe.
From Verif Require T_Frames.

(** * C58: the number of candidates given to C *)
Theorem C58_count : forall X dbg w s, reachable X dbg w -> current w = Some s ->
  c_get_current_candidate_count w = Ok (candidate_count s mod 4294967296)%N.
Proof.
  intros X dbg w s Hr Hs. destruct (C55_observers X dbg w Hr) as (s' & Hs' & Hrest).
  assert (s' = s) as -> by congruence. unfold c_get_current_candidate_count, get_current_candidate_count, current_state_ref.
  unfold current in Hs. destruct (x_stack (w_ctx w)) as [|t r]; [discriminate|]. injection Hs as ->. reflexivity.
Qed.
(** Below 2^32 candidates it is the number of candidates, and a page of that size from 0 is
    the whole list. *)
Theorem C58_count_page : forall X dbg w s n, reachable X dbg w -> current w = Some s ->
  (candidate_count s < 4294967296)%N -> c_get_current_candidate_count w = Ok n ->
  n = N.of_nat (length (cl_list (s_list s))) /\ page w n 0 = cl_list (s_list s).
Proof.
  intros X dbg w s n Hr Hs Hn E. rewrite (C58_count X dbg w s Hr Hs) in E. injection E as E. rewrite (N.mod_small _ _ Hn) in E. subst n.
  split; [reflexivity|]. unfold page. rewrite Hs. unfold candidate_count, cl_len. rewrite Nat2N.id. cbn [N.to_nat skipn].
  now rewrite firstn_all.
Qed.

(** * C59: what polling through C gives, in all cases *)
(** The confirmed text is removed; it is returned exactly when it holds no NUL, otherwise NULL
    is returned (and the text is lost). *)
Theorem C59_exact : forall X dbg w, reachable X dbg w -> exists o w', c_poll_output w = Ok (o, w')
  /\ confirmed_text w' = []
  /\ (o = None <-> has_nul (confirmed_text w))
  /\ (forall t, o = Some t <-> t = confirmed_text w /\ ~ has_nul (confirmed_text w))
  /\ w_store w' = w_store w.
Proof.
  intros X dbg w Hr. apply reachable_nonempty in Hr. destruct (exists_last Hr) as (inner & s & E).
  unfold confirmed_text, outermost in *. rewrite E, rev_app_distr in *. cbn [rev app hd_error] in *.
  unfold c_poll_output, poll_output. rewrite E, rev_app_distr. cbn [rev app].
  assert (G : forall t, c_string (s_conf s) = Some t <-> t = s_conf s /\ ~ has_nul (s_conf s)).
  { intros t. split.
    - intros H. split; [now apply c_string_id|]. intros Hn. apply c_string_none in Hn. congruence.
    - intros (-> & H). now apply c_string_some. }
  destruct (is_nil (s_conf s)) eqn:En.
  - exists (c_string []), w. destruct (s_conf s) eqn:Es; [|discriminate]. split; [reflexivity|]. split; [now rewrite E, rev_app_distr|].
    split; [apply c_string_none|]. split; [exact G|reflexivity].
  - eexists _, _. split; [reflexivity|]. unfold set_stack. cbn [w_ctx x_stack w_store]. rewrite rev_app_distr. cbn [rev app hd_error].
    split; [reflexivity|]. split; [apply c_string_none|]. split; [exact G|reflexivity].
Qed.
(** Two polls: the second one always gives the empty text. *)
Corollary C59_again : forall X dbg w o w', reachable X dbg w -> c_poll_output w = Ok (o, w') ->
  c_poll_output w' = Ok (Some [], w').
Proof.
  intros X dbg w o w' Hr H. apply reachable_nonempty in Hr. destruct (exists_last Hr) as (inner & s & E).
  unfold c_poll_output, poll_output in H. rewrite E, rev_app_distr in H. cbn [rev app] in H.
  destruct (is_nil (s_conf s)) eqn:En; injection H as _ <-.
  - unfold c_poll_output, poll_output. rewrite E, rev_app_distr. cbn [rev app]. rewrite En. reflexivity.
  - unfold c_poll_output, poll_output, set_stack. cbn [w_ctx x_stack]. rewrite rev_app_distr. reflexivity.
Qed.

(** * C60: what C is given for the preedit, in all cases *)
(** The texts which make the call panic when they hold a NUL. *)
Definition fatal_texts (d : state_info) : list str :=
  match d with
  | SDirect _ u | SPreComposition _ _ _ u | SPreCompositionOkurigana _ _ _ u | SRegister _ _ _ u => opt_text u
  | SCompositionSelection c t _ _ => [c; t]
  | SComplete c g m t _ a => [c; g; m; t] ++ opt_text a
  end.
(** The others become empty texts instead. *)
Definition blanked (s t : str) : Prop := (has_nul s -> t = []) /\ (~ has_nul s -> t = s).
Definition blanked_opt (s t : option str) : Prop :=
  match s, t with Some a, Some b => blanked a b | None, None => True | _, _ => False end.
(** [seen d e]: C is given [e] for [d]. *)
Definition seen_by_c (d e : state_info) : Prop :=
  match d, e with
  | SDirect c u, SDirect c' u' => blanked c c' /\ u' = u
  | SPreComposition c k o u, SPreComposition c' k' o' u'
  | SPreCompositionOkurigana c k o u, SPreCompositionOkurigana c' k' o' u'
  | SRegister c k o u, SRegister c' k' o' u' => blanked c c' /\ blanked k k' /\ blanked_opt o o' /\ u' = u
  | SCompositionSelection c t o a, SCompositionSelection c' t' o' a' => c' = c /\ t' = t /\ blanked_opt o o' /\ blanked_opt a a'
  | SComplete c g m t _ a, SComplete c' g' m' t' o' a' => c' = c /\ g' = g /\ m' = m /\ t' = t /\ o' = None /\ a' = a
  | _, _ => False
  end.
Lemma default_blanked s : blanked s (c_default s).
Proof.
  unfold blanked, c_default. split; intros H.
  - apply c_string_none in H. now rewrite H.
  - now rewrite (c_string_some _ H).
Qed.
Lemma default_blanked_opt o : blanked_opt o (c_opt_default o).
Proof. destruct o; cbn; [apply default_blanked|exact I]. Qed.
Lemma unwrap_cases s : (~ has_nul s /\ c_unwrap s = Ok s) \/ (has_nul s /\ c_unwrap s = Panic PanicUnwrap).
Proof.
  unfold c_unwrap. destruct (c_string s) as [t|] eqn:E.
  - left. split; [intros H; apply c_string_none in H; congruence|]. now rewrite (c_string_id _ _ E).
  - right. split; [now apply c_string_none|reflexivity].
Qed.
Lemma opt_unwrap_cases o : ((forall t, In t (opt_text o) -> ~ has_nul t) /\ c_opt_unwrap o = Ok o)
  \/ ((exists t, In t (opt_text o) /\ has_nul t) /\ c_opt_unwrap o = Panic PanicUnwrap).
Proof.
  destruct o as [s|]; cbn; [|left; split; [intros t []|reflexivity]].
  destruct (unwrap_cases s) as [(H & ->)|(H & ->)]; cbn; [left|right].
  - split; [intros t [<-|[]]; exact H|reflexivity].
  - split; [exists s; auto|reflexivity].
Qed.
Lemma convert_cases d :
  ((forall t, In t (fatal_texts d) -> ~ has_nul t) /\ exists e, convert_state_info d = Ok e /\ seen_by_c d e)
  \/ ((exists t, In t (fatal_texts d) /\ has_nul t) /\ convert_state_info d = Panic PanicUnwrap).
Proof.
  destruct d as [c u|c k o u|c k o u|c t o a|c k o u|c g m t o a]; cbn [convert_state_info fatal_texts seen_by_c];
    unfold convert_precomposition_data.
  1-3,5: destruct (opt_unwrap_cases u) as [(H & ->)|(H & ->)]; cbn [rmap]; [left|right; split; [exact H|reflexivity]];
    (split; [exact H|]); eexists; (split; [reflexivity|]);
    repeat (split; [first [apply default_blanked|apply default_blanked_opt]|]); reflexivity.
  - destruct (unwrap_cases c) as [(H1 & ->)|(H1 & ->)]; cbn [rbind]; [|right; split; [exists c; split; [now left|exact H1]|reflexivity]].
    destruct (unwrap_cases t) as [(H2 & ->)|(H2 & ->)]; cbn [rmap]; [left|right; split; [exists t; split; [right; now left|exact H2]|reflexivity]].
    split; [intros x [<-|[<-|[]]]; assumption|]. eexists. split; [reflexivity|].
    split; [reflexivity|split; [reflexivity|split; apply default_blanked_opt]].
  - destruct (unwrap_cases c) as [(H1 & ->)|(H1 & ->)]; cbn [rbind]; [|right; split; [exists c; split; [now left|exact H1]|reflexivity]].
    destruct (unwrap_cases g) as [(H2 & ->)|(H2 & ->)]; cbn [rbind]; [|right; split; [exists g; split; [cbn; auto|exact H2]|reflexivity]].
    destruct (unwrap_cases m) as [(H3 & ->)|(H3 & ->)]; cbn [rbind]; [|right; split; [exists m; split; [cbn; auto|exact H3]|reflexivity]].
    destruct (unwrap_cases t) as [(H4 & ->)|(H4 & ->)]; cbn [rbind]; [|right; split; [exists t; split; [cbn; auto|exact H4]|reflexivity]].
    destruct (opt_unwrap_cases a) as [(H5 & ->)|((x & Hx & H5) & ->)]; cbn [rmap].
    + left. split; [|eexists; split; [reflexivity|repeat split]]. cbn [app]. intros x [<-|[<-|[<-|[<-|Hx]]]]; try assumption. now apply H5.
    + right. split; [|reflexivity]. exists x. split; [cbn; auto 10|exact H5].
Qed.
(** The call panics exactly when a fatal text holds a NUL; otherwise C is given one detail per
    detail of Rust, in order, the same but for the texts blanked and the okurigana of a
    completion, which C is never given. *)
Theorem C60_exact : forall X w, let ds := get_preedit_detail X (w_ctx w) in
  ((exists e, c_get_preedit_detail X w = Panic e) <-> exists d t, In d ds /\ In t (fatal_texts d) /\ has_nul t)
  /\ (forall es, c_get_preedit_detail X w = Ok es -> Forall2 seen_by_c ds es).
Proof.
  intros X w. cbv zeta. unfold c_get_preedit_detail. induction (get_preedit_detail X (w_ctx w)) as [|d ds (IH1 & IH2)].
  - cbn. split; [split; [intros (e & E); discriminate|intros (d & t & [] & _)]|]. intros es E. injection E as <-. constructor.
  - cbn [res_map]. destruct (convert_cases d) as [(H & e & -> & Hs)|(H & ->)]; cbn [rbind].
    + destruct (res_map convert_state_info ds) as [l|p]; cbn [rmap].
      * split; [|intros es E; injection E as <-; constructor; [exact Hs|now apply IH2]].
        split; [intros (e0 & E); discriminate|]. intros (d' & t & [<-|Hin] & Ht & Hn); [exfalso; now apply (H t)|].
        exfalso. destruct (proj2 IH1 (ex_intro _ d' (ex_intro _ t (conj Hin (conj Ht Hn))))) as (e0 & E). discriminate.
      * split; [|intros es E; discriminate]. split; [|intros _; now exists p]. intros _.
        destruct (proj1 IH1 (ex_intro _ p eq_refl)) as (d' & t & Hin & Hrest). exists d', t. split; [now right|exact Hrest].
    + split; [|intros es E; discriminate]. split; [|intros _; now exists PanicUnwrap]. intros _. destruct H as (t & Ht & Hn). exists d, t. split; [now left|auto].
Qed.
(** Blanked: a NUL in the annotation. *)
Example C60_exact_case : exists outs w, typed false (U "A i space") (demo [user_dict [U ";; okuri-nasi entries."; U "あい /愛;x" ++ [0%N] ++ U "/"]]) = Ok (outs, w)
  /\ (get_preedit_detail ascii_xkb (w_ctx w), c_get_preedit_detail ascii_xkb w)
     = ([SCompositionSelection [] (U "愛") None (Some (U "x" ++ [0%N]))], Ok [SCompositionSelection [] (U "愛") None (Some [])]).
Proof.
  apply (run_case _ (fun w => (get_preedit_detail ascii_xkb (w_ctx w), c_get_preedit_detail ascii_xkb w))). vm_compute. reflexivity.
Qed.
