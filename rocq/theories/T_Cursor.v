(** C17, for the histories of a considerate user (C82): the position shown names a candidate. *)
From Coq Require Import Lia.
From Verif Require Import Str Keys Modes KanaBuilder FormChanger DictTypes Parser Lru
  Dictionary CState Context DefaultRule Demo Spec P_Monad P_Frames P_Inv P_Keeps P_Register P_Fresh CApi T_Observe T_Fresh.

(** After every considerate history of a new context - in particular no word with a number sign was
    registered - there is a position exactly when there are candidates, and then it is that of one of them. *)
Theorem C17_considerate_partial : forall X dbg st r kf am ds i ops outs w,
  tidy_rule (r_command r) ->
  let w0 := mkW st (ctx_new X r kf am ds i Direct) in
  considerate X dbg ops w0 -> run X dbg ops w0 = Ok (outs, w) ->
  exists cs, get_current_candidates w = Ok cs /\ get_current_candidate_count w = Ok (N.of_nat (length cs)) /\
    ((cs = [] /\ get_current_candidate_cursor_position w = Ok None)
     \/ exists n c, get_current_candidate_cursor_position w = Ok (Some n) /\ nth_error cs (N.to_nat n) = Some c).
Proof.
  intros X dbg st r kf am ds i ops outs w Ht w0 Hc Hr.
  destruct (run_good X dbg ops w0 outs w (start_good X r st kf am ds i Ht) Hc Hr) as [(s & l & Hf & K & _) _].
  apply K_displayed in K. unfold get_current_candidates, get_current_candidate_count, get_current_candidate_cursor_position, current_state_ref.
  rewrite Hf. cbn [rmap rbind]. exists (cl_list (s_list s)). split; [reflexivity|split; [reflexivity|]].
  unfold cl_is_empty. assert (D : candidate_count s = 0%N \/ cl_current (s_list s) <> None).
  { unfold all_displayed, nothing_left in K. destruct (s_cmode s); try tauto. }
  unfold candidate_count, cl_current in D. destruct (cl_list (s_list s)) as [|c cs] eqn:E; [left; split; reflexivity|right].
  cbn [is_nil]. destruct D as [D|D]; [cbn [length] in D; lia|].
  exists (cl_cur (s_list s)). destruct (nth_error (c :: cs) (N.to_nat (cl_cur (s_list s)))) as [d|]; [|congruence]. exists d. split; reflexivity.
Qed.
Definition two_words : list str := Eval vm_compute in [U ";; okuri-nasi entries."; U "あい /愛/藍/"].
Example C17_considerate_case : considerate ascii_xkb true (map OKey (dkeys (U "A i space space"))) (demo [user_dict two_words])
  /\ exists outs w, typed true (U "A i space space") (demo [user_dict two_words]) = Ok (outs, w)
     /\ (get_current_candidate_count w, get_current_candidate_cursor_position w) = (Ok 2%N, Ok (Some 1%N)).
Proof.
  split; [apply considerate_b_spec; vm_compute; reflexivity|]. apply run_case. vm_compute. reflexivity.
Qed.
