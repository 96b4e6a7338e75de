(** Property C89: the preedit and its details. *)
From Coq Require Import Lia.
From Verif Require Import Str Keys Modes KanaBuilder FormChanger DictTypes Parser Lru Dictionary CState Context DefaultRule Demo Spec
  P_Monad P_Frames P_Inv P_Register T_Frames T_Keys CApi T_Observe.

(* ------------------------------------------------------------- specification *)
Definition opt (o : option str) : str := match o with None => [] | Some t => t end.
(** What is drawn for one element of the details: the text waiting to be polled, a triangle before a
    reading, a filled one before a candidate, a square before a completion, a star before the
    okurigana being typed.  The text waiting in a frame under registration is not drawn. *)
Inductive drawn : state_info -> str -> Prop :=
| drawn_direct c u : drawn (SDirect c u) (c ++ opt u)
| drawn_reading c k o u : drawn (SPreComposition c k o u) (c ++ U "▽" ++ k ++ opt u)
| drawn_okurigana c k o u : drawn (SPreCompositionOkurigana c k o u) (c ++ U "▽" ++ k ++ U "*" ++ opt o ++ opt u)
| drawn_candidate c t o a : drawn (SCompositionSelection c t o a) (c ++ U "▼" ++ t ++ opt o)
| drawn_register c k p : drawn (SRegister c k None p) (U "▼" ++ k ++ opt p)
| drawn_register_okuri c k o p : drawn (SRegister c k (Some o) p) (U "▼" ++ k ++ U "*" ++ o ++ opt p)
| drawn_completion c g m t o a : drawn (SComplete c g m t o a) (c ++ U "■" ++ t ++ opt o).
(** The whole drawing: whatever follows a frame under registration is in brackets. *)
Inductive drawing : list state_info -> str -> Prop :=
| drawing_none : drawing [] []
| drawing_register c k o p t ds u : drawn (SRegister c k o p) t -> drawing ds u -> drawing (SRegister c k o p :: ds) (t ++ U "【" ++ u ++ U "】")
| drawing_other d t ds u : (forall c k o p, d <> SRegister c k o p) -> drawn d t -> drawing ds u -> drawing (d :: ds) (t ++ u).
(** The composition modes an element can stand for. *)
Definition tells (d : state_info) (m : cmode) : Prop :=
  match d with
  | SDirect _ _ => m = Direct
  | SPreComposition _ _ _ _ => m = PreComposition \/ m = Abbreviation
  | SPreCompositionOkurigana _ _ _ _ => m = PreCompositionOkurigana
  | SCompositionSelection _ _ _ _ => m = CompositionSelection
  | SRegister _ _ _ _ => m = Register
  | SComplete _ _ _ _ _ _ => m = Completion
  end.
(** The text waiting to be polled, as an element gives it. *)
Definition waiting (d : state_info) : str :=
  match d with
  | SDirect c _ | SPreComposition c _ _ _ | SPreCompositionOkurigana c _ _ _ | SCompositionSelection c _ _ _
  | SRegister c _ _ _ | SComplete c _ _ _ _ _ => c
  end.
Definition quiet (s : cstate) : Prop := s_cmode s = Direct /\ s_conf s = [] /\ s_pre s = [].

(* -------------------------------------------------------------------- proofs *)
Lemma render_drawn d : drawn d (render d).
Proof. destruct d; try constructor. destruct okuri; constructor. Qed.
Lemma drawn_render d t : drawn d t -> t = render d.
Proof. now intros []. Qed.
Lemma detail_tells X kf i s : tells (preedit_detail X kf i s) (s_cmode s).
Proof. unfold preedit_detail. destruct (s_cmode s); cbn; auto. destruct (s_use s); reflexivity. Qed.
Lemma detail_waiting X kf i s : waiting (preedit_detail X kf i s) = s_conf s.
Proof. unfold preedit_detail. destruct (s_cmode s); cbn; auto. destruct (s_use s); reflexivity. Qed.
Definition registering (d : state_info) : bool := match d with SRegister _ _ _ _ => true | _ => false end.
Lemma detail_registering X kf i s : registering (preedit_detail X kf i s) = is_register s.
Proof. unfold preedit_detail, is_register. destruct (s_cmode s); cbn; auto. destruct (s_use s); reflexivity. Qed.
(** The same closing bracket for every frame: before or after the others makes no difference. *)
Lemma closing_comm (l : list cstate) : U "】" ++ flat_map (fun s => if is_register s then U "】" else []) l
  = flat_map (fun s => if is_register s then U "】" else []) l ++ U "】".
Proof.
  induction l as [|s l IH]; [now rewrite app_nil_r|]. cbn [flat_map]. destruct (is_register s); [|exact IH].
  now rewrite <- app_assoc, <- IH.
Qed.
Lemma drawing_frames X kf l : drawing (map (fun s => preedit_detail X kf (s_imode s) s) l)
  (flat_map (fun s => preedit_string X kf (s_imode s) s ++ (if is_register s then U "【" else [])) l
   ++ flat_map (fun s => if is_register s then U "】" else []) l).
Proof.
  induction l as [|s l IH]; [constructor|]. cbn [map flat_map].
  pose proof (render_drawn (preedit_detail X kf (s_imode s) s)) as D. pose proof (detail_registering X kf (s_imode s) s) as R.
  change (render (preedit_detail X kf (s_imode s) s)) with (preedit_string X kf (s_imode s) s) in D.
  destruct (is_register s).
  - destruct (preedit_detail X kf (s_imode s) s); try discriminate.
    rewrite <- !app_assoc, closing_comm. rewrite (app_assoc (flat_map _ l)). now constructor.
  - rewrite app_nil_r. cbn [app]. rewrite <- app_assoc. constructor; [|exact D|exact IH].
    intros c k o p E. rewrite E in R. discriminate.
Qed.
(** C89: the preedit is the drawing of its details. *)
Theorem C89_drawing : forall X c, drawing (get_preedit_detail X c) (get_preedit X c).
Proof. intros X c. apply drawing_frames. Qed.
(** A drawing is all one needs: there is only one for a list of details. *)
Theorem C89_determined : forall ds t u, drawing ds t -> drawing ds u -> t = u.
Proof.
  intros ds t u H. revert u. induction H as [|c k o p t ds v D H IH|d t ds v N D H IH]; intros u G; inversion G; subst.
  - reflexivity.
  - apply drawn_render in D. f_equal; [|f_equal; f_equal; now apply IH].
    rewrite D. symmetry. now apply drawn_render.
  - match goal with N : forall c k o p, _ <> _ |- _ => now destruct (N c k o p) end.
  - now destruct (N c k o p).
  - f_equal; [|now apply IH]. apply drawn_render in D. rewrite D. symmetry. now apply drawn_render.
Qed.
(** There is one element for each frame, outermost first; it gives the mode of its frame and the text
    waiting there: the last one get_composition_mode's, the first one what poll_output would return. *)
Theorem C89_elements : forall X dbg w, reachable X dbg w ->
  length (get_preedit_detail X (w_ctx w)) = length (frames w)
  /\ (forall i d, nth_error (get_preedit_detail X (w_ctx w)) i = Some d -> exists s, nth_error (rev (frames w)) i = Some s
      /\ tells d (s_cmode s) /\ waiting d = s_conf s)
  /\ (exists ds d s, get_preedit_detail X (w_ctx w) = ds ++ [d] /\ current w = Some s /\ tells d (s_cmode s))
  /\ (exists d ds, get_preedit_detail X (w_ctx w) = d :: ds /\ waiting d = confirmed_text w).
Proof.
  intros X dbg w Hr. apply reachable_nonempty in Hr. unfold get_preedit_detail, frames, current, confirmed_text, outermost in *.
  split; [now rewrite map_length, rev_length|]. split; [|split].
  - intros i d H. rewrite nth_error_map in H. destruct (nth_error (rev (x_stack (w_ctx w))) i) as [s|]; [|discriminate].
    injection H as <-. exists s. split; [reflexivity|split; [apply detail_tells|apply detail_waiting]].
  - destruct (x_stack (w_ctx w)) as [|s l]; [congruence|]. cbn [rev]. rewrite map_app. cbn [map hd_error].
    eexists _, _, s. split; [reflexivity|split; [reflexivity|apply detail_tells]].
  - destruct (exists_last Hr) as (inner & s & ->). rewrite rev_app_distr. cbn [rev app map hd_error].
    eexists _, _. split; [reflexivity|apply detail_waiting].
Qed.
(** While choosing, the last element tells the candidate get_current_candidates lists at the cursor:
    its text and its annotation, and while completing its whole reading too, beside what was typed of it. *)
Theorem C89_candidate : forall X dbg w cs n c, reachable X dbg w ->
  get_current_candidates w = Ok cs -> get_current_candidate_cursor_position w = Ok (Some n) -> nth_error cs (N.to_nat n) = Some c ->
  (get_current_composition_mode w = Ok CompositionSelection ->
     exists ds k o, get_preedit_detail X (w_ctx w) = ds ++ [SCompositionSelection k (c_output c) o (c_annot c)])
  /\ (get_current_composition_mode w = Ok Completion ->
     exists ds k s o, current w = Some s /\ get_preedit_detail X (w_ctx w) = ds ++ [SComplete k (s_comp s) (c_midashi c) (c_output c) o (c_annot c)]).
Proof.
  intros X dbg w cs n c Hr Hc Hp Hn. destruct (C55_observers X dbg w Hr) as (s & Hs & _ & Em & _ & E & Ep & _).
  rewrite E in Hc. injection Hc as <-. rewrite Ep in Hp. destruct (N.eqb (candidate_count s) 0); [discriminate|]. injection Hp as <-.
  rewrite Em. pose proof Hs as Hcur. unfold get_preedit_detail, current in Hs |- *.
  destruct (x_stack (w_ctx w)) as [|t l] eqn:F; [discriminate|]. injection Hs as ->.
  cbn [rev]. rewrite map_app. cbn [map]. unfold preedit_detail, cl_current. unfold cursor in Hn. rewrite Hn.
  split; intros M; injection M as ->; [eexists _, _, _; reflexivity|eexists _, _, s, _; split; reflexivity].
Qed.
(** Polling and the screen: what a poll hands over is exactly what disappears from the front of the
    preedit, so nothing on the screen moves; while a word is being registered the waiting text is not
    drawn, and a poll leaves the preedit as it is. *)
Definition unwaiting (d : state_info) : state_info :=
  match d with
  | SDirect _ u => SDirect [] u
  | SPreComposition _ k o u => SPreComposition [] k o u
  | SPreCompositionOkurigana _ k o u => SPreCompositionOkurigana [] k o u
  | SCompositionSelection _ t o a => SCompositionSelection [] t o a
  | SRegister _ k o p => SRegister [] k o p
  | SComplete _ g m t o a => SComplete [] g m t o a
  end.
Lemma detail_flushed X kf i s : preedit_detail X kf i (set_conf [] s) = unwaiting (preedit_detail X kf i s).
Proof. unfold preedit_detail. cbn. destruct (s_cmode s); try reflexivity. destruct (s_use s); reflexivity. Qed.
Lemma render_waiting d : registering d = false -> render d = waiting d ++ render (unwaiting d).
Proof. destruct d; cbn; try reflexivity; discriminate. Qed.
Lemma render_register d : registering d = true -> render (unwaiting d) = render d.
Proof. destruct d; cbn; try discriminate. reflexivity. Qed.
Theorem C89_poll_partial : forall X dbg w t w', reachable X dbg w -> exec X dbg OPoll w = Ok (OutText t, w') ->
  (exists s, outermost w = Some s
    /\ (s_cmode s <> Register -> get_preedit X (w_ctx w) = opt t ++ get_preedit X (w_ctx w'))
    /\ (s_cmode s = Register -> get_preedit X (w_ctx w') = get_preedit X (w_ctx w)))
  /\ exists d ds, get_preedit_detail X (w_ctx w) = d :: ds /\ get_preedit_detail X (w_ctx w') = unwaiting d :: ds.
Proof.
  intros X dbg w t w' Hr E. apply reachable_nonempty in Hr. destruct (exists_last Hr) as (inner & s & F).
  rewrite (C06_poll X dbg w inner s F) in E. injection E as <- <-.
  unfold get_preedit, get_preedit_detail, outermost. cbn [with_frames w_ctx x_stack x_kf]. unfold frames in F. rewrite F, !rev_app_distr. cbn [rev app map flat_map hd_error].
  change (s_imode (set_conf [] s)) with (s_imode s). change (is_register (set_conf [] s)) with (is_register s).
  unfold preedit_string. rewrite !detail_flushed.
  split; [exists s; split; [reflexivity|split; intros M]|eexists _, _; split; reflexivity].
  - rewrite (render_waiting (preedit_detail X (x_kf (w_ctx w)) (s_imode s) s)), detail_waiting.
    + rewrite <- !app_assoc. f_equal. now destruct (s_conf s).
    + rewrite detail_registering. unfold is_register. destruct (s_cmode s); try reflexivity; congruence.
  - rewrite render_register; [reflexivity|]. rewrite detail_registering. unfold is_register. now rewrite M.
Qed.
(** An empty preedit means that nothing is being typed. *)
Lemma names_nil X s : (forall k, In k (s_pre s) -> xk_name X k <> []) -> (opt (unconverted_text X s) = [] <-> s_pre s = []).
Proof.
  unfold unconverted_text. destruct (s_pre s) as [|k l] eqn:E; cbn [is_nil opt]; [tauto|]. intros H.
  split; [|discriminate]. cbn [flat_map]. intros G. apply app_eq_nil in G as (G & _). destruct (H k (or_introl eq_refl) G).
Qed.
Lemma marked (a b c : str) x : a ++ (x :: b) ++ c <> [].
Proof. destruct a; discriminate. Qed.
Lemma string_nil X kf i s : (forall k, In k (s_pre s) -> xk_name X k <> []) -> (preedit_string X kf i s = [] <-> quiet s).
Proof.
  intros H. unfold preedit_string, preedit_detail, quiet. destruct (s_cmode s) eqn:M.
  { cbn [render]. change odef with opt. split.
    - intros G. apply app_eq_nil in G as (G1 & G2). split; [reflexivity|split; [exact G1|now apply (names_nil X s H)]].
    - intros (_ & G1 & G2). rewrite G1. unfold unconverted_text. now rewrite G2. }
  all: split; [|intros (G & _); discriminate]; intros G; exfalso.
  all: try (destruct (s_use s); [destruct (is_nil (s_okuri s))|]; discriminate G).
  all: cbn [render] in G; apply app_eq_nil in G as (_ & G); discriminate G.
Qed.
Theorem C89_empty : forall X w, (forall s k, In s (frames w) -> In k (s_pre s) -> xk_name X k <> []) ->
  (get_preedit X (w_ctx w) = [] <-> Forall quiet (frames w)).
Proof.
  intros X w H. unfold get_preedit, frames in *.
  assert (G : forall l, (forall s, In s l -> In s (x_stack (w_ctx w))) ->
    (flat_map (fun s => preedit_string X (x_kf (w_ctx w)) (s_imode s) s ++ (if is_register s then U "【" else [])) l
      ++ flat_map (fun s => if is_register s then U "】" else []) l = [] <-> Forall quiet l)).
  { induction l as [|s l IH]; intros I; [split; [constructor|reflexivity]|]. cbn [flat_map].
    assert (Hs : forall k, In k (s_pre s) -> xk_name X k <> []) by (intros k; apply H, I; now left).
    specialize (IH (fun s' Hs' => I s' (or_intror Hs'))). split.
    - intros E. apply app_eq_nil in E as (E1 & E2). apply app_eq_nil in E1 as (E1 & E3). apply app_eq_nil in E1 as (E1 & _).
      apply app_eq_nil in E2 as (_ & E2). constructor; [now apply string_nil in E1|]. apply IH. now rewrite E3, E2.
    - intros Q. inversion Q as [|? ? Q1 Q2]; subst. rewrite (proj2 (string_nil X _ (s_imode s) s Hs) Q1).
      unfold is_register at 1 3. destruct Q1 as (-> & _). cbn [app]. now apply IH. }
  rewrite (G (rev (x_stack (w_ctx w)))).
  - split; intros F; [rewrite <- rev_involutive|]; now apply Forall_rev.
  - intros s. apply in_rev.
Qed.
(** Under a rule that does not start registrations by itself (both shipped ones): it is empty exactly
    when the one frame is idle in Direct mode with nothing pending and nothing to poll. *)
Theorem C89_idle : forall X dbg r kf am ds i c st ops outs w,
  rule_no_register (r_command r) -> c <> Register -> Forall op_no_register ops ->
  run X dbg ops (mkW st (ctx_new X r kf am ds i c)) = Ok (outs, w) ->
  (forall s k, In s (frames w) -> In k (s_pre s) -> xk_name X k <> []) ->
  (get_preedit X (w_ctx w) = [] <-> exists s, frames w = [s] /\ quiet s).
Proof.
  intros X dbg r kf am ds i c st ops outs w Hr Hc Ho E Hn. rewrite (C89_empty X w Hn).
  destruct (C03_register_frames X dbg r kf am ds i c st ops outs w Hr Hc Ho E) as (s & l & F & _ & R & _). rewrite F. split.
  - intros Q. inversion Q as [|? ? Q1 Q2]; subst. destruct l as [|t l]; [eauto|].
    inversion Q2 as [|? ? (M & _) _]; subst. inversion R; subst. congruence.
  - intros (s' & [= <- ->] & Q). repeat constructor; apply Q.
Qed.
(** The whole claim - waiting text is on the screen until it is polled - is false: a word being
    registered hides it. *)
Theorem C89_refuted : exists w w', reachable ascii_xkb false w
  /\ exec ascii_xkb false OPoll w = Ok (OutText (Some (U "か")), w')
  /\ get_preedit ascii_xkb (w_ctx w) = U "▼あい【】" /\ get_preedit ascii_xkb (w_ctx w') = U "▼あい【】".
Proof.
  destruct (run_case (typed false (U "k a A i space") (demo [user_dict []]))
    (fun w => (confirmed_text w, option_map s_cmode (outermost w), get_preedit ascii_xkb (w_ctx w)))
    (U "か", Some Register, U "▼あい【】")) as (outs & w & E & F); [vm_compute; reflexivity|].
  pose proof (typed_reachable _ _ _ _ _ E) as R. destruct (C06_poll_twice ascii_xkb false w R) as (t & w' & P & _ & T & _).
  exists w, w'. pose proof (f_equal (fun x => fst (fst x)) F) as F1. pose proof (f_equal (fun x => snd (fst x)) F) as F2. pose proof (f_equal snd F) as F3.
  cbn [fst snd] in F1, F2, F3. rewrite F1 in T. subst t. split; [exact R|split; [exact P|split; [exact F3|]]].
  destruct (C89_poll_partial _ _ _ _ _ R P) as ((s & O & _ & K) & _). rewrite K; [exact F3|].
  rewrite O in F2. now injection F2.
Qed.
(** In the middle of a conversion with text waiting, and inside two registrations. *)
Example C89_case : exists outs w, typed true (U "k a A i space") (demo [user_dict dic_small]) = Ok (outs, w)
  /\ (get_preedit_detail ascii_xkb (w_ctx w), get_preedit ascii_xkb (w_ctx w)) = ([SCompositionSelection (U "か") (U "愛") None (Some (U "love"))], U "か▼愛").
Proof. apply run_case. vm_compute. reflexivity. Qed.
Example C89_nested : exists outs w, typed true (U "A i space k a K a space n") (demo [user_dict []]) = Ok (outs, w)
  /\ (get_preedit_detail ascii_xkb (w_ctx w), get_preedit ascii_xkb (w_ctx w))
     = ([SRegister [] (U "あい") None None; SRegister (U "か") (U "か") None None; SDirect [] (Some (U "n"))], U "▼あい【▼か【n】】").
Proof. apply run_case. vm_compute. reflexivity. Qed.
(** A completion: what was typed, the whole reading, and its first candidate. *)
Example C89_completion : exists outs w, typed true (U "A Tab") (demo [user_dict dic_small]) = Ok (outs, w)
  /\ (get_preedit_detail ascii_xkb (w_ctx w), get_current_candidate_cursor_position w, get_current_composition_mode w)
     = ([SComplete [] (U "あ") (U "あい") (U "愛") None (Some (U "love"))], Ok (Some 0%N), Ok Completion).
Proof. apply run_case. vm_compute. reflexivity. Qed.
