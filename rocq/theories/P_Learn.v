(** Which steps touch the dictionaries: all but confirming, purging and registering leave the
    store alone. *)
From Verif Require Import Str Keys Modes KanaBuilder FormChanger DictTypes Parser Lru
  Dictionary CState Context Spec P_Monad.

(** The operation leaves every dictionary as it is. *)
Definition quiet {A} (m : M A) : Prop :=
  forall w a w', m w = Ok (a, w') -> w_store w' = w_store w.
Lemma quiet_ret {A} (a : A) : quiet (ret a).
Proof. intros w x w' H. unfold ret in H. now injection H as _ <-. Qed.
Lemma quiet_bind {A B} (m : M A) (f : A -> M B) : quiet m -> (forall a, quiet (f a)) -> quiet (bind m f).
Proof.
  intros Hm Hf w b w' H. unfold bind in H. destruct (m w) as [[a w1]|] eqn:E; [|discriminate].
  rewrite (Hf a w1 b w' H). exact (Hm w a w1 E).
Qed.
Lemma quiet_get : quiet get.
Proof. intros w x w' H. unfold get in H. now injection H as _ <-. Qed.
Lemma quiet_cur : quiet cur.
Proof. intros w x w' H. unfold cur in H. destruct (x_stack (w_ctx w)); [discriminate|]. now injection H as _ <-. Qed.
Lemma quiet_lift {A} (r : res A) : quiet (lift r).
Proof. intros w x w' H. unfold lift in H. destruct r; [|discriminate]. now injection H as _ <-. Qed.
Lemma quiet_modcur f : quiet (modcur f).
Proof. intros w x w' H. unfold modcur in H. destruct (x_stack (w_ctx w)); [discriminate|]. now injection H as _ <-. Qed.
Lemma quiet_if {A} (b : bool) (m1 m2 : M A) : quiet m1 -> quiet m2 -> quiet (if b then m1 else m2).
Proof. now destruct b. Qed.
Lemma quiet_append t : quiet (append_converted t).
Proof. intros w x w' H. unfold append_converted in H. exact (quiet_modcur _ w x w' H). Qed.
Lemma quiet_enter p : quiet (enter_register_mode p).
Proof.
  intros w x w' H. unfold enter_register_mode in H. destruct (Nat.ltb _ _); [|now injection H as _ <-].
  destruct (x_stack (w_ctx w)); [discriminate|]. now injection H as _ <-.
Qed.
Lemma quiet_abort_register : quiet abort_register_mode.
Proof. intros w x w' H. unfold abort_register_mode in H. destruct (x_stack (w_ctx w)) as [|? [|? ?]]; now injection H as _ <-. Qed.
Lemma quiet_reset : quiet reset_state_stack.
Proof. intros w x w' H. unfold reset_state_stack in H. destruct (rev _); [discriminate|]. now injection H as _ <-. Qed.
Lemma quiet_poll : quiet poll_output.
Proof.
  intros w x w' H. unfold poll_output in H. destruct (rev _); [discriminate|]. destruct (is_nil _); now injection H as _ <-.
Qed.

Create HintDb quiet.
Ltac q :=
  repeat first
    [ solve [auto 2 with quiet] | apply quiet_ret | apply quiet_get | apply quiet_cur | apply quiet_lift | apply quiet_modcur
    | apply quiet_append | apply quiet_enter | apply quiet_abort_register
    | apply quiet_if
    | apply quiet_bind; [|intros ?]
    | match goal with
      | H : _ |- _ => exact H || apply H
      | |- quiet (match ?x with _ => _ end) => destruct x
      end ].

Section Learn.
Context (X : xkb) (dbg : bool).
Lemma quiet_carry u : quiet (set_carry_over u).
Proof. apply quiet_modcur. Qed.
Lemma quiet_update : quiet update_candidate_list.
Proof. unfold update_candidate_list. q. Qed.
Lemma quiet_completions : quiet update_completion_list.
Proof. unfold update_completion_list. q. Qed.
Lemma quiet_confirm_as i : quiet (confirm_as i).
Proof. unfold confirm_as. q. Qed.
Lemma quiet_set_mode c : quiet (set_composition_mode c).
Proof. unfold set_composition_mode. q. Qed.
Lemma quiet_set_input i : quiet (set_input_mode i).
Proof. unfold set_input_mode. q. Qed.
Hint Resolve quiet_carry quiet_update quiet_completions quiet_confirm_as quiet_set_mode quiet_set_input : quiet.
Lemma quiet_output i c : quiet (output_converted_kana_if_any i c).
Proof. unfold output_converted_kana_if_any. q; auto with quiet. Qed.
Lemma quiet_capital k c d : quiet (transition_by_capital k c d).
Proof. unfold transition_by_capital. q; auto with quiet. Qed.
Hint Resolve quiet_output quiet_capital : quiet.
Lemma quiet_next c i : quiet (try_next_candidate dbg c i).
Proof. unfold try_next_candidate. q; auto with quiet. Qed.
Lemma quiet_next_completion c i : quiet (try_next_completion dbg c i).
Proof. unfold try_next_completion. q; auto with quiet. Qed.
Hint Resolve quiet_next quiet_next_completion : quiet.
Lemma quiet_auto : quiet (auto_start_henkan dbg).
Proof. unfold auto_start_henkan. q; auto with quiet. Qed.
Hint Resolve quiet_auto : quiet.
Lemma quiet_converted conv carry d u : quiet (input_converted_kana dbg conv carry d u).
Proof. unfold input_converted_kana. q; auto with quiet. Qed.
Lemma quiet_continuous k : quiet (input_as_continuous_kana k).
Proof. unfold input_as_continuous_kana. q. Qed.
Lemma quiet_abort : quiet abort.
Proof. unfold abort, when. q. Qed.
Lemma quiet_finish : quiet (finish_kana_input dbg).
Proof. unfold finish_kana_input. q; auto with quiet. Qed.
Hint Resolve quiet_converted quiet_continuous quiet_abort quiet_finish : quiet.
Lemma quiet_periods i c t : quiet (input_periods dbg i c t).
Proof. unfold input_periods. q; auto with quiet. Qed.
Lemma quiet_direct_char k ch i c : quiet (input_direct_char dbg k ch i c).
Proof. unfold input_direct_char. q; auto with quiet. Qed.
Hint Resolve quiet_periods quiet_direct_char : quiet.
Lemma quiet_unconverted k u ch c : quiet (input_unconverted dbg k u ch c).
Proof. unfold input_unconverted. q; auto with quiet. Qed.
Hint Resolve quiet_unconverted : quiet.
Lemma quiet_kana k u : quiet (input_kana X dbg k u).
Proof. unfold input_kana. apply quiet_bind; [apply quiet_cur|]. intros s. apply quiet_bind; [apply quiet_get|]. intros w0. cbv zeta. q; auto with quiet. Qed.
Lemma quiet_plain k : quiet (input_plain X k).
Proof. unfold input_plain. q. Qed.
Hint Resolve quiet_kana quiet_plain : quiet.

(** The instructions that teach or untaught a dictionary something. *)
Definition teaching (ins : instr) : bool :=
  match ins with IConfirmComposition | IPurge | IConfirmDirect => true | _ => false end.
Lemma quiet_instr ins c i : teaching ins = false -> quiet (run_instr dbg ins c i).
Proof. intros H. destruct ins; try discriminate; cbn [run_instr]; q; auto with quiet. Qed.
Lemma quiet_instrs l c i : (forall x, In x l -> teaching x = false) -> forall r, quiet (run_instrs dbg l c i r).
Proof.
  induction l as [|x l IH]; intros H r; cbn [run_instrs]; [apply quiet_ret|].
  apply quiet_bind; [apply quiet_instr, H; now left|]. intros [|]; [|apply quiet_ret]. apply IH. intros y Hy. apply H. now right.
Qed.
Lemma quiet_select_at i : quiet (select_candidate_at i).
Proof. unfold select_candidate_at. q; auto with quiet. Qed.

(** Confirming: the candidate under the cursor is chosen in every dictionary of the context. *)
Lemma confirm_store w a w' : confirm_current w = Ok (a, w') ->
  exists s r, x_stack (w_ctx w) = s :: r
  /\ match cl_current (s_list s) with
     | Some c => w_store w' = upd_dicts (x_dicts (w_ctx w)) (fun d => select_candidate d c) (w_store w)
     | None => w_store w' = w_store w
     end.
Proof.
  unfold confirm_current, bind, cur, get. destruct (x_stack (w_ctx w)) as [|s r] eqn:E; [discriminate|]. cbn iota.
  intros H. exists s, r. split; [reflexivity|]. destruct (cl_current (s_list s)) as [c|].
  - unfold for_dicts, modcur in H. cbn [set_store w_ctx] in H. rewrite E in H. now injection H as _ <-.
  - unfold ret in H. now injection H as _ <-.
Qed.
Lemma purge_store w a w' : purge_current w = Ok (a, w') ->
  exists s r, x_stack (w_ctx w) = s :: r
  /\ match cl_current (s_list s) with
     | Some c => w_store w' = upd_dicts (x_dicts (w_ctx w)) (fun d => purge_candidate d (cl_key (s_list s)) c) (w_store w)
     | None => w_store w' = w_store w
     end.
Proof.
  unfold purge_current, bind, cur. destruct (x_stack (w_ctx w)) as [|s r] eqn:E; [discriminate|]. cbn iota.
  intros H. exists s, r. split; [reflexivity|]. destruct (cl_current (s_list s)) as [c|].
  - unfold for_dicts, modcur in H. cbn [set_store w_ctx] in H. rewrite E in H. now injection H as _ <-.
  - unfold ret, modcur in H. rewrite E in H. now injection H as _ <-.
Qed.
Lemma cl_add_current cs l : cl_current (cl_add cs l) = hd_error cs.
Proof.
  unfold cl_current, cl_add. cbn [cl_list cl_cur]. rewrite app_length.
  replace (N.to_nat (N.of_nat (length (cl_list l) + length cs) - N.of_nat (length cs))) with (length (cl_list l)) by lia.
  rewrite nth_error_app2, Nat.sub_diag by lia. now destruct cs.
Qed.
(** Registering: the first of the candidates made from the text is chosen. *)
Lemma exit_store t w a w' : exit_register_mode t w = Ok (a, w') ->
  w_store w' = w_store w
  \/ exists s r rest ds cs c, x_stack (w_ctx w) = s :: r :: rest /\ t <> []
     /\ registered_candidates ds (set_cmode Direct r) t = Ok cs /\ hd_error cs = Some c
     /\ w_store w' = upd_dicts (x_dicts (w_ctx w)) (fun d => select_candidate d c) (w_store w).
Proof.
  unfold exit_register_mode. destruct (x_stack (w_ctx w)) as [|s [|r rest]] eqn:E;
    [intros H; left; now injection H as _ <-..|].
  destruct (is_nil t) eqn:Et.
  { intros H. left. exact (quiet_modcur _ _ _ _ H). }
  cbn [tl]. set (w1 := set_stack (r :: rest) w).
  unfold bind at 1. unfold modcur at 1. cbn [w1 set_stack w_ctx x_stack]. unfold bind at 1. unfold cur at 1. cbn [set_stack w_ctx x_stack].
  unfold bind at 1, get at 1. unfold bind at 1, lift at 1.
  set (ds := ctx_dicts _). destruct (registered_candidates ds (set_cmode Direct r) t) as [cs|] eqn:Ec; [|discriminate].
  unfold bind at 1, modcur at 1. cbn [set_stack w_ctx x_stack]. intros H. apply confirm_store in H as (s2 & r2 & E2 & H).
  cbn [set_stack w_ctx x_stack x_dicts w_store w1] in E2, H. injection E2 as <- <-.
  unfold add_new_candidates in H. cbn [s_list set_list set_cokuri] in H. rewrite cl_add_current in H.
  destruct (hd_error cs) as [c|] eqn:Eh; [|left; exact H].
  right. exists s, r, rest, ds, cs, c. split; [reflexivity|]. split; [now destruct t|]. auto.
Qed.
End Learn.
