(** Two parts of a frame that cannot be seen without okurigana: the okurigana of the last lookup, and the mark
    that the kana kept aside are okurigana.  Contexts that differ in nothing else behave the same. *)
From Verif Require Import Str Keys Modes KanaBuilder FormChanger DictTypes Parser Lru Dictionary
  CState Context.

Definition alike (s t : cstate) : Prop := exists o b, t = set_cokuri o (set_use b s) /\ (s_okuri s = [] \/ b = s_use s).
Definition ctx_alike (c c' : ctx) : Prop :=
  Forall2 alike (x_stack c) (x_stack c') /\ x_cmd c = x_cmd c' /\ x_kb c = x_kb c' /\ x_kf c = x_kf c'
  /\ x_am c = x_am c' /\ x_dicts c = x_dicts c' /\ x_cfg c = x_cfg c'.
Definition alike_w (w w' : world) : Prop := w_store w = w_store w' /\ ctx_alike (w_ctx w) (w_ctx w').
Definition rel {A} (a b : res (A * world)) : Prop :=
  match a, b with
  | Ok (x, w), Ok (y, w') => x = y /\ alike_w w w'
  | Panic e, Panic e' => e = e'
  | _, _ => False
  end.
Definition sim {A} (m m' : M A) : Prop := forall w w', alike_w w w' -> rel (m w) (m' w').

(** ** Frames *)
Lemma alike_refl s : alike s s.
Proof. exists (s_cokuri s), (s_use s). split; [destruct s; reflexivity|now right]. Qed.
Lemma alike_set l l' w w' : alike_w w w' -> Forall2 alike l l' -> alike_w (set_stack l w) (set_stack l' w').
Proof. intros (E & _ & E2 & E3 & E4 & E5 & E6 & E7) H. split; [exact E|]. unfold ctx_alike; cbn. tauto. Qed.
Lemma alike_key s t : alike s t -> get_composite_key t = get_composite_key s.
Proof.
  intros (o & b & -> & H). unfold get_composite_key. cbn. destruct H as [H| ->]; [|reflexivity]. rewrite H. cbn. rewrite !andb_false_r. reflexivity.
Qed.
(** a change of the frame that gives alike frames for alike frames *)
Definition fair (f g : cstate -> cstate) : Prop := forall s t, alike s t -> alike (f s) (g t).
Lemma fair_same (f : cstate -> cstate) : (forall o b s, f (set_cokuri o (set_use b s)) = set_cokuri o (set_use b (f s))) ->
  (forall s, s_use (f s) = s_use s) -> (forall s, s_okuri s = [] -> s_okuri (f s) = []) -> fair f f.
Proof. intros H1 H2 H3 s t (o & b & -> & H). exists o, b. rewrite H1, H2. split; [reflexivity|]. destruct H as [H|H]; auto. Qed.
(** the change sets the mark *)
Lemma fair_set (f : cstate -> cstate) : (forall o b s, exists o', f (set_cokuri o (set_use b s)) = set_cokuri o' (f s)) -> fair f f.
Proof.
  intros H s t (o & b & -> & _). destruct (H o b s) as [o' E]. exists o', (s_use (f s)). rewrite E. split; [|now right]. destruct (f s); reflexivity.
Qed.
Ltac fs := apply fair_same; [intros ? ? []; reflexivity|intros []; reflexivity|intros []; cbn; auto].
Ltac ftk := apply fair_set; intros o b s; exists o; destruct s; reflexivity.
Ltac fte := apply fair_set; intros o b s; exists []; destruct s; reflexivity.
Lemma fair_comp f g f' g' : fair f f' -> fair g g' -> fair (fun s => f (g s)) (fun s => f' (g' s)).
Proof. intros H1 H2 s t H. apply H1, H2, H. Qed.
Lemma fair_push_for t c : fair (push_string_for t c) (push_string_for t c).
Proof. destruct c; try fs; ftk. Qed.
Lemma fair_push t : fair (push_string t) (push_string t).
Proof. intros s s' H. pose proof H as (o & b & -> & _). unfold push_string. cbn. now apply fair_push_for. Qed.
Lemma fair_list l : fair (set_list l) (set_list l). Proof. fs. Qed.
Lemma fair_mode c : fair (set_cmode c) (set_cmode c). Proof. fs. Qed.
Lemma fair_hist h : fair (set_hist h) (set_hist h). Proof. fs. Qed.
Lemma fair_pre h : fair (set_pre h) (set_pre h). Proof. fs. Qed.
Lemma fair_cap h : fair (set_cap h) (set_cap h). Proof. fs. Qed.
Lemma fair_conf h : fair (set_conf h) (set_conf h). Proof. fs. Qed.
Lemma fair_imode i : fair (set_imode i) (set_imode i). Proof. fs. Qed.
Lemma fair_clear_list : fair clear_candidate_list clear_candidate_list.
Proof. intros s t (o & b & -> & H). exists [], b. split; [destruct s; reflexivity|]. destruct s; exact H. Qed.
Lemma fair_clear_pre : fair clear_preconverted clear_preconverted. Proof. fs. Qed.
Lemma fair_clear_kanas : fair clear_kanas clear_kanas. Proof. ftk. Qed.
Lemma fair_clear : fair clear_unconfirmed clear_unconfirmed. Proof. fte. Qed.
Lemma fair_clear_all : fair clear_all clear_all. Proof. fte. Qed.
Lemma fair_consolidate : fair consolidate consolidate. Proof. ftk. Qed.
Lemma fair_reset : fair reset_to_default reset_to_default. Proof. fs. Qed.
Lemma fair_change c : fair (change_composition_mode c) (change_composition_mode c). Proof. fs. Qed.
Lemma fair_change_old c d : fair (change_from_old_mode c d) (change_from_old_mode c d). Proof. fs. Qed.
Lemma fair_backward : fair st_backward st_backward. Proof. fs. Qed.
Lemma fair_postfix k : fair (set_converted_to_postfix k) (set_converted_to_postfix k). Proof. ftk. Qed.
Lemma fair_abort : fair abort_to_previous_mode abort_to_previous_mode.
Proof.
  intros s t H. pose proof H as (o & b & -> & _). unfold abort_to_previous_mode. cbn [set_cokuri set_use s_hist]. 
  destruct (last_opt (s_hist s)) as [m|].
  - pose proof (fair_hist (removelast (s_hist s)) _ _ H) as H1. destruct m; try (apply fair_mode; exact H1). apply fair_mode, fair_consolidate, H1.
  - apply (fair_mode (s_default s) _ _ H).
Qed.
Lemma fair_delete : fair (fun s => snd (st_delete s)) (fun s => snd (st_delete s)).
Proof.
  intros s t H. pose proof H as (o & b & -> & Hb). unfold st_delete. cbn [set_cokuri set_use s_cmode s_pre s_comp s_raw s_okuri s_conf].
  destruct (s_cmode s) eqn:Em; try exact H.
  - destruct (negb _); cbn [snd]; exists o, b; (split; [destruct s; reflexivity|destruct s; exact Hb]).
  - destruct (negb _); cbn [snd]; [|destruct (is_nil (s_comp s))]; exists o, b; (split; [destruct s; reflexivity|destruct s; exact Hb]).
  - destruct (negb _); cbn [snd s_pre s_okuri set_pre set_raw set_okuri].
    + destruct (_ && _); exists o, b; (split; [destruct s; reflexivity|destruct s; exact Hb]).
    + assert (Hb' : str_pop (s_okuri s) = [] \/ b = s_use s) by (destruct Hb as [Hb|Hb]; [left; rewrite Hb; reflexivity|now right]).
      destruct (_ && _); exists o, b; (split; [destruct s; reflexivity|destruct s; exact Hb']).
  - destruct (negb _); cbn [snd]; [|destruct (is_nil (s_comp s))]; exists o, b; (split; [destruct s; reflexivity|destruct s; exact Hb]).
Qed.
Lemma deleted_same s t : alike s t -> fst (st_delete t) = fst (st_delete s).
Proof.
  intros (o & b & -> & Hb). unfold st_delete. cbn [set_cokuri set_use s_cmode s_pre s_comp s_raw s_okuri s_conf].
  destruct (s_cmode s); try reflexivity; try (destruct (negb _); reflexivity). 
Qed.
Lemma fair_iter n f : fair f f -> fair (Nat.iter n f) (Nat.iter n f).
Proof. intros H. induction n as [|n IH]; intros s t Hs; cbn; [exact Hs|]. apply H, IH, Hs. Qed.
Lemma fair_new cs : fair (set_new_candidate_list cs) (set_new_candidate_list cs).
Proof.
  intros s t H. pose proof (alike_key s t H) as Hk. destruct H as (o & b & -> & Hb). unfold set_new_candidate_list. rewrite Hk.
  exists (s_okuri s), b. split; [destruct s; reflexivity|destruct s; exact Hb].
Qed.
Lemma fair_add cs : fair (add_new_candidates cs) (add_new_candidates cs).
Proof. intros s t (o & b & -> & Hb). exists (s_okuri s), b. split; [destruct s; reflexivity|destruct s; exact Hb]. Qed.
Lemma fair_if (b : bool) f g f' g' : fair f f' -> fair g g' -> fair (fun s => if b then f s else g s) (fun s => if b then f' s else g' s).
Proof. destruct b; auto. Qed.

(** ** The fields in common *)
Section Fields.
Context (s t : cstate) (H : alike s t).
Lemma al_imode : s_imode t = s_imode s. Proof. destruct H as (o & b & -> & _). reflexivity. Qed.
Lemma al_cmode : s_cmode t = s_cmode s. Proof. destruct H as (o & b & -> & _). reflexivity. Qed.
Lemma al_pre : s_pre t = s_pre s. Proof. destruct H as (o & b & -> & _). reflexivity. Qed.
Lemma al_comp : s_comp t = s_comp s. Proof. destruct H as (o & b & -> & _). reflexivity. Qed.
Lemma al_okuri : s_okuri t = s_okuri s. Proof. destruct H as (o & b & -> & _). reflexivity. Qed.
Lemma al_list : s_list t = s_list s. Proof. destruct H as (o & b & -> & _). reflexivity. Qed.
Lemma al_conf : s_conf t = s_conf s. Proof. destruct H as (o & b & -> & _). reflexivity. Qed.
Lemma al_cap : s_cap t = s_cap s. Proof. destruct H as (o & b & -> & _). reflexivity. Qed.
Lemma al_pointer i : fst (set_candidate_pointer i t) = fst (set_candidate_pointer i s).
Proof. unfold set_candidate_pointer. rewrite al_list. destruct (cl_set_pointer i (s_list s)); reflexivity. Qed.
Lemma al_forward dbg : match st_forward dbg s, st_forward dbg t with Ok s', Ok t' => alike s' t' | Panic e, Panic e' => e = e' | _, _ => False end.
Proof. unfold st_forward. rewrite al_list. destruct (cl_forward dbg (s_list s)) as [l|e]; cbn; [|reflexivity]. now apply fair_list. Qed.
Lemma al_detail X kf i : preedit_detail X kf i t = preedit_detail X kf i s.
Proof.
  unfold preedit_detail, unconverted_text. rewrite al_pre, al_okuri, al_comp, al_list, al_cmode, al_conf. destruct (s_cmode s); try reflexivity.
  destruct H as (o & b & -> & [Ho| ->]); [|reflexivity]. rewrite Ho. cbn. destruct b, (s_use s); reflexivity.
Qed.
End Fields.
Lemma fair_pointer i : fair (fun s => snd (set_candidate_pointer i s)) (fun s => snd (set_candidate_pointer i s)).
Proof. intros s t H. unfold set_candidate_pointer. rewrite (al_list _ _ H). destruct (cl_set_pointer i (s_list s)); cbn. now apply fair_list. Qed.
Ltac al H := rewrite ?(alike_key _ _ H), ?(deleted_same _ _ H), ?(al_pointer _ _ H), ?(al_imode _ _ H), ?(al_cmode _ _ H), ?(al_pre _ _ H),
  ?(al_comp _ _ H), ?(al_okuri _ _ H), ?(al_list _ _ H), ?(al_conf _ _ H), ?(al_cap _ _ H).

(** ** Worlds *)
Lemma alike_stack w w' : alike_w w w' -> Forall2 alike (x_stack (w_ctx w)) (x_stack (w_ctx w')). Proof. intros H; apply H. Qed.
Lemma aw_cmd w w' : alike_w w w' -> x_cmd (w_ctx w) = x_cmd (w_ctx w'). Proof. intros H; apply H. Qed.
Lemma aw_kb w w' : alike_w w w' -> x_kb (w_ctx w) = x_kb (w_ctx w'). Proof. intros H; apply H. Qed.
Lemma aw_kf w w' : alike_w w w' -> x_kf (w_ctx w) = x_kf (w_ctx w'). Proof. intros H; apply H. Qed.
Lemma aw_am w w' : alike_w w w' -> x_am (w_ctx w) = x_am (w_ctx w'). Proof. intros H; apply H. Qed.
Lemma aw_cfg w w' : alike_w w w' -> x_cfg (w_ctx w) = x_cfg (w_ctx w'). Proof. intros H; apply H. Qed.
Lemma aw_dicts w w' : alike_w w w' -> ctx_dicts w = ctx_dicts w'.
Proof. intros (E & _ & _ & _ & _ & _ & E6 & _). unfold ctx_dicts. now rewrite E, E6. Qed.
Lemma aw_length w w' : alike_w w w' -> length (x_stack (w_ctx w)) = length (x_stack (w_ctx w')).
Proof. intros H. apply alike_stack in H. induction H; cbn; congruence. Qed.
Ltac aw H := rewrite ?(aw_cmd _ _ H), ?(aw_kb _ _ H), ?(aw_kf _ _ H), ?(aw_am _ _ H), ?(aw_cfg _ _ H), ?(aw_dicts _ _ H), ?(aw_length _ _ H).
Lemma sim_ret {A} (a : A) : sim (ret a) (ret a). Proof. intros w w' H. now split. Qed.
Lemma sim_lift {A} (r : res A) : sim (lift r) (lift r). Proof. intros w w' H. unfold lift. destruct r; cbn; auto. Qed.
Lemma sim_bind {A B} (m m' : M A) (f f' : A -> M B) : sim m m' -> (forall a, sim (f a) (f' a)) -> sim (bind m f) (bind m' f').
Proof.
  intros Hm Hf w w' H. specialize (Hm w w' H). unfold bind. destruct (m w) as [[a w1]|e], (m' w') as [[a' w1']|e']; cbn in Hm; try contradiction.
  - destruct Hm as [<- Hw]. now apply Hf.
  - exact Hm.
Qed.
Lemma sim_get {B} (f f' : world -> M B) : (forall w w', alike_w w w' -> sim (f w) (f' w')) -> sim (bind get f) (bind get f').
Proof. intros Hf w w' H. unfold bind, get. now apply Hf. Qed.
Lemma sim_cur {B} (f f' : cstate -> M B) : (forall s t, alike s t -> sim (f s) (f' t)) -> sim (bind cur f) (bind cur f').
Proof.
  intros Hf w w' H. pose proof (alike_stack _ _ H) as E. unfold bind, cur. destruct E as [|s t l l' Hs Hl]; cbn; [reflexivity|]. now apply Hf.
Qed.
Lemma sim_modcur f g : fair f g -> sim (modcur f) (modcur g).
Proof.
  intros Hf w w' H. pose proof (alike_stack _ _ H) as E. unfold modcur. destruct E as [|s t l l' Hs Hl]; cbn; [reflexivity|].
  split; [reflexivity|]. apply alike_set; [exact H|]. constructor; auto.
Qed.
Lemma sim_forward {B} dbg (s t : cstate) (f f' : cstate -> M B) : alike s t -> (forall s' t', alike s' t' -> sim (f s') (f' t')) ->
  sim (bind (lift (st_forward dbg s)) f) (bind (lift (st_forward dbg t)) f').
Proof.
  intros H Hf w w' Hw. pose proof (al_forward s t H dbg) as G. unfold bind, lift. destruct (st_forward dbg s), (st_forward dbg t); try contradiction; [now apply Hf|exact G].
Qed.
Lemma sim_for_dicts f : sim (for_dicts f) (for_dicts f).
Proof.
  intros w w' H. pose proof H as (E & E1 & E2 & E3 & E4 & E5 & E6 & E7). unfold for_dicts. rewrite E, E6. cbn. split; [reflexivity|].
  split; cbn; [reflexivity|]. exact (proj2 H).
Qed.

(** ** Every function *)
Section Sim.
Variable X : xkb.
Variable dbg : bool.
Hint Resolve fair_push fair_push_for fair_list fair_mode fair_hist fair_pre fair_cap fair_conf fair_imode fair_clear_list fair_clear_pre fair_clear_kanas
  fair_clear fair_clear_all fair_consolidate fair_reset fair_change fair_change_old fair_backward fair_postfix fair_abort fair_delete fair_new fair_add
  fair_pointer : fair.
Ltac fr := let s := fresh in let t := fresh in let H := fresh in intros s t H; cbv beta zeta; al H;
  repeat first [ exact H
    | match goal with |- alike (if ?b then _ else _) _ => destruct b end
    | match goal with |- alike (push_string _ _) _ => apply fair_push | |- alike (push_string_for _ _ _) _ => apply fair_push_for
      | |- alike (set_list _ _) _ => apply fair_list | |- alike (set_cmode _ _) _ => apply fair_mode | |- alike (set_hist _ _) _ => apply fair_hist
      | |- alike (set_pre _ _) _ => apply fair_pre | |- alike (set_cap _ _) _ => apply fair_cap | |- alike (set_conf _ _) _ => apply fair_conf
      | |- alike (set_imode _ _) _ => apply fair_imode | |- alike (clear_candidate_list _) _ => apply fair_clear_list
      | |- alike (clear_preconverted _) _ => apply fair_clear_pre | |- alike (clear_kanas _) _ => apply fair_clear_kanas
      | |- alike (clear_unconfirmed _) _ => apply fair_clear | |- alike (clear_all _) _ => apply fair_clear_all
      | |- alike (consolidate _) _ => apply fair_consolidate | |- alike (reset_to_default _) _ => apply fair_reset
      | |- alike (set_converted_to_postfix _ _) _ => apply fair_postfix
      | |- alike (Nat.iter _ _ _) _ => apply fair_iter; [exact fair_delete|] end ].
Ltac fin := solve [auto 1 with fair nocore | fr ].
Hint Resolve sim_ret sim_lift : sim.
Ltac go := repeat (cbv zeta; first
  [ solve [auto with sim nocore]
  | match goal with
    | |- sim (modcur _) _ => apply sim_modcur; first [fin | intros ? ? _; assumption]
    | |- sim (bind get _) _ => apply sim_get; let w := fresh "w" in let w' := fresh "w" in let H := fresh "Hw" in intros w w' H; cbv zeta; aw H
    | |- sim (bind cur _) _ => apply sim_cur; let s := fresh "s" in let t := fresh "t" in let H := fresh "Hs" in intros s t H; cbv zeta; al H
    | H : alike ?s ?t |- sim (bind (lift (st_forward _ ?s)) _) _ => apply (sim_forward _ _ _ _ _ H); let s' := fresh "s" in let t' := fresh "t" in let H' := fresh "Hs" in intros s' t' H'
    end
  | match goal with |- sim (bind _ _) _ => apply sim_bind; [|intros ?] end
  | match goal with |- sim (if ?b then _ else _) _ => destruct b end
  | match goal with |- sim (match ?x with _ => _ end) _ => destruct x end ]).
Lemma alike_rev l l' : Forall2 alike l l' -> Forall2 alike (rev l) (rev l').
Proof. induction 1 as [|s t l l' Hs Hl IH]; cbn; [constructor|]. apply Forall2_app; [exact IH|]. constructor; [exact Hs|constructor]. Qed.
Lemma sim_poll : sim poll_output poll_output.
Proof.
  intros w w' H. pose proof (alike_rev _ _ (alike_stack _ _ H)) as E. unfold poll_output. destruct E as [|s t l l' Hs Hl]; cbn; [reflexivity|].
  rewrite (al_conf _ _ Hs). destruct (is_nil (s_conf s)); cbn; [now split|]. split; [reflexivity|]. apply alike_set; [exact H|].
  apply Forall2_app; [now apply alike_rev|]. constructor; [|constructor]. now apply fair_conf.
Qed.
Lemma sim_append t : sim (append_converted t) (append_converted t).
Proof. intros w w' H. unfold append_converted. aw H. apply sim_modcur; [fr|exact H]. Qed.
Lemma sim_carry u : sim (set_carry_over u) (set_carry_over u). Proof. unfold set_carry_over. go. Qed.
Lemma sim_candidates : sim update_candidate_list update_candidate_list.
Proof. unfold update_candidate_list. go. Qed.
Lemma sim_completions : sim update_completion_list update_completion_list.
Proof. unfold update_completion_list. go. Qed.
Hint Resolve sim_poll sim_append sim_carry sim_candidates sim_completions sim_for_dicts : sim.
Lemma sim_purge_current : sim purge_current purge_current.
Proof. unfold purge_current. go. Qed.
Lemma sim_confirm_current : sim confirm_current confirm_current.
Proof. unfold confirm_current. go. Qed.
Lemma sim_confirm_as i : sim (confirm_as i) (confirm_as i). Proof. unfold confirm_as. destruct i; go. Qed.
Lemma sim_set_composition c : sim (set_composition_mode c) (set_composition_mode c). Proof. unfold set_composition_mode. go. Qed.
Lemma sim_enter c : sim (enter_register_mode c) (enter_register_mode c).
Proof.
  intros w w' H. pose proof (alike_stack _ _ H) as E. unfold enter_register_mode. rewrite <- (aw_length _ _ H). destruct (Nat.ltb _ _); cbn; [|now split].
  destruct E as [|s t l l' Hs Hl]; cbn; [reflexivity|]. split; [reflexivity|]. apply alike_set; [exact H|]. constructor; [apply alike_refl|]. constructor; [|exact Hl]. now apply fair_change_old.
Qed.
Lemma sim_reset : sim reset_state_stack reset_state_stack.
Proof.
  intros w w' H. pose proof (alike_rev _ _ (alike_stack _ _ H)) as E. unfold reset_state_stack. destruct E as [|s t l l' Hs Hl]; cbn; [reflexivity|].
  split; [reflexivity|]. apply alike_set; [exact H|]. constructor; [|constructor]. now apply fair_clear_all.
Qed.
Lemma sim_abort_register : sim abort_register_mode abort_register_mode.
Proof.
  intros w w' H. pose proof (alike_stack _ _ H) as E. unfold abort_register_mode. destruct E as [|s t l l' Hs [|s2 t2 l2 l2' Hs2 Hl]]; cbn [tl]; try (split; [reflexivity|exact H]).
  split; [reflexivity|]. apply alike_set; [exact H|]. constructor; assumption.
Qed.
Hint Resolve sim_purge_current sim_confirm_current sim_confirm_as sim_set_composition sim_enter sim_reset sim_abort_register : sim.
Lemma al_registered ds s t c : alike s t -> registered_candidates ds t c = registered_candidates ds s c.
Proof. intros H. unfold registered_candidates. al H. reflexivity. Qed.
Lemma sim_exit t : sim (exit_register_mode t) (exit_register_mode t).
Proof.
  intros w w' H. pose proof (alike_stack _ _ H) as E. unfold exit_register_mode. destruct E as [|s0 t0 l l' Hs [|s2 t2 l2 l2' Hs2 Hl]]; cbn [tl]; try (split; [reflexivity|exact H]).
  match goal with |- rel (?m _) _ => assert (Hm : sim m m); [|apply Hm, alike_set; [exact H|constructor; assumption]] end.
  destruct (is_nil t); [go|]. apply sim_bind; [go|]. intros _. apply sim_cur. intros s1 t1 H1. apply sim_get. intros w1 w1' Hw1. aw Hw1. rewrite (al_registered _ _ _ _ H1). go.
Qed.
Lemma sim_set_input i : sim (set_input_mode i) (set_input_mode i). Proof. unfold set_input_mode. go. Qed.
Lemma sim_output i c : sim (output_converted_kana_if_any i c) (output_converted_kana_if_any i c).
Proof. unfold output_converted_kana_if_any. go. Qed.
Lemma sim_capital k c b : sim (transition_by_capital k c b) (transition_by_capital k c b). Proof. unfold transition_by_capital. go. Qed.
Hint Resolve sim_exit sim_set_input sim_output sim_capital : sim.
Lemma sim_next c i : sim (try_next_candidate dbg c i) (try_next_candidate dbg c i). Proof. unfold try_next_candidate. go. Qed.
Lemma sim_next_completion c i : sim (try_next_completion dbg c i) (try_next_completion dbg c i). Proof. unfold try_next_completion. go. Qed.
Hint Resolve sim_next sim_next_completion : sim.
Lemma sim_auto : sim (auto_start_henkan dbg) (auto_start_henkan dbg). Proof. unfold auto_start_henkan. go. Qed.
Hint Resolve sim_auto : sim.
Lemma sim_converted a b c d : sim (input_converted_kana dbg a b c d) (input_converted_kana dbg a b c d). Proof. unfold input_converted_kana. go. Qed.
Lemma sim_continuous k : sim (input_as_continuous_kana k) (input_as_continuous_kana k). Proof. unfold input_as_continuous_kana. go. Qed.
Lemma sim_abort : sim abort abort. Proof. unfold abort, when. go. Qed.
Hint Resolve sim_converted sim_continuous sim_abort : sim.
Lemma sim_instr ins c i : sim (run_instr dbg ins c i) (run_instr dbg ins c i).
Proof. unfold run_instr. destruct ins; go. Qed.
Hint Resolve sim_instr : sim.
Lemma sim_instrs l c i : forall b, sim (run_instrs dbg l c i b) (run_instrs dbg l c i b).
Proof. induction l as [|x l IH]; intros b; cbn [run_instrs]; go. Qed.
Lemma sim_process l c i : sim (process_instructions dbg l c i) (process_instructions dbg l c i). Proof. apply sim_instrs. Qed.
Lemma sim_finish : sim (finish_kana_input dbg) (finish_kana_input dbg). Proof. unfold finish_kana_input. go. Qed.
Hint Resolve sim_process sim_finish : sim.
Lemma sim_periods a b c : sim (input_periods dbg a b c) (input_periods dbg a b c). Proof. unfold input_periods. go. Qed.
Lemma sim_direct a b c d : sim (input_direct_char dbg a b c d) (input_direct_char dbg a b c d). Proof. unfold input_direct_char. go. Qed.
Hint Resolve sim_periods sim_direct : sim.
Lemma sim_unconverted a b c d : sim (input_unconverted dbg a b c d) (input_unconverted dbg a b c d). Proof. unfold input_unconverted. go. Qed.
Hint Resolve sim_unconverted : sim.
Lemma sim_kana k u : sim (input_kana X dbg k u) (input_kana X dbg k u). Proof. unfold input_kana. go. Qed.
Lemma sim_plain k : sim (input_plain X k) (input_plain X k). Proof. unfold input_plain. go. Qed.
Hint Resolve sim_kana sim_plain : sim.
Lemma sim_key k c u : sim (input_key X dbg k c u) (input_key X dbg k c u). Proof. unfold input_key. go. Qed.
Hint Resolve sim_key : sim.
Lemma sim_process_key k : sim (process_key_event X dbg k) (process_key_event X dbg k).
Proof. unfold process_key_event, process_key_event_inner. go. Qed.
Lemma sim_select_at i : sim (select_candidate_at i) (select_candidate_at i). Proof. unfold select_candidate_at. go. Qed.
Lemma sim_confirm_at i : sim (confirm_candidate_at i) (confirm_candidate_at i). Proof. unfold confirm_candidate_at. go. Qed.
Hint Resolve sim_process_key sim_select_at sim_confirm_at : sim.
Theorem sim_exec o : sim (exec X dbg o) (exec X dbg o).
Proof.
  destruct o; cbn [exec]; try solve [go];
    intros w w' (Es & E1 & E2 & E3 & E4 & E5 & E6 & E7); cbn; (split; [reflexivity|]); (split; [cbn; (exact Es || reflexivity)|]); unfold ctx_alike; cbn;
    rewrite ?E7; tauto.
Qed.
Theorem sim_run ops : sim (run X dbg ops) (run X dbg ops).
Proof.
  induction ops as [|o ops IH]; cbn [run]; [apply sim_ret|].
  apply sim_bind; [apply sim_exec|]. intros a. apply sim_bind; [exact IH|]. intros l. apply sim_ret.
Qed.
Theorem alike_preedit c c' : ctx_alike c c' -> get_preedit X c' = get_preedit X c /\ get_preedit_detail X c' = get_preedit_detail X c.
Proof.
  intros (H & _ & _ & E & _). apply alike_rev in H. unfold get_preedit, get_preedit_detail. rewrite <- E. clear E. set (kf := x_kf c). clearbody kf.
  assert (G : forall s t, alike s t -> preedit_string X kf (s_imode t) t = preedit_string X kf (s_imode s) s /\ is_register t = is_register s).
  { intros s t Hs. unfold preedit_string, is_register. rewrite (al_imode _ _ Hs), (al_detail _ _ Hs), (al_cmode _ _ Hs). auto. }
  assert (G2 : forall s t, alike s t -> preedit_detail X kf (s_imode t) t = preedit_detail X kf (s_imode s) s).
  { intros s t Hs. now rewrite (al_imode _ _ Hs), (al_detail _ _ Hs). }
  split; [f_equal|]; induction H as [|s t l l' Hs Hl IH]; cbn [flat_map map]; try reflexivity.
  - destruct (G _ _ Hs) as [-> ->]. now rewrite IH.
  - destruct (G _ _ Hs) as [_ ->]. now rewrite IH.
  - now rewrite (G2 _ _ Hs), IH.
Qed.
End Sim.
