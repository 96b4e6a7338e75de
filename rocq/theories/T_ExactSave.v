(** C57, more exactly: which interrupted saves are survived. *)
From Verif Require Import Str Keys Modes KanaBuilder FormChanger DictTypes Parser Lru Dictionary
  CState Context Demo Spec T_Escape T_Line T_Load SaveFs T_Save.

(** Histories of sessions, each of which reads the file, gets a change and saves until it is
    interrupted (or fails, or ends).  The flag tells whether the last session that touched the
    files was cut off; a session may be cut off only if the last one was not. *)
Inductive careful_sessions (enc : str -> bool) (f : fs) : fs -> bool -> Prop :=
| cs_start : careful_sessions enc f f false
| cs_nothing f1 cut d p : careful_sessions enc f f1 cut -> f_main f1 <> None ->
    save_steps (save_text enc d) (f1, AtRename) (f1, p) -> careful_sessions enc f f1 cut
| cs_written f1 cut d f2 p : careful_sessions enc f f1 cut -> f_main f1 <> None ->
    save_steps (save_text enc d) (f1, AtRename) (f2, p) -> f_main f2 = Some (save_text enc d) -> careful_sessions enc f f2 false
| cs_cut f1 d f2 p : careful_sessions enc f f1 false -> f_main f1 <> None ->
    save_steps (save_text enc d) (f1, AtRename) (f2, p) -> careful_sessions enc f f2 true.
(** Then some complete contents survive: in the file itself, or, after a session was cut off,
    in the file or its .BAK. *)
Theorem C57_one_cut_partial enc old bak f cut : careful_sessions enc (mkFs (Some old) bak) f cut ->
  (cut = false -> exists t, f_main f = Some t /\ complete_contents old enc t)
  /\ exists t, (f_main f = Some t \/ f_bak f = Some t) /\ complete_contents old enc t.
Proof.
  induction 1 as [|f1 cut d p Hc IH Hm Hs|f1 cut d f2 p Hc IH Hm Hs Hw|f1 d f2 p Hc IH Hm Hs].
  - split; [intros _|]; (exists old; split; [cbn; auto|now left]).
  - exact IH.
  - split; [intros _|]; (exists (save_text enc d); split; [auto|right; now exists d]).
  - split; [discriminate|]. destruct (proj1 IH eq_refl) as (t & Et & Ht). exists t. split; [|exact Ht].
    destruct f1 as [m1 b1]. cbn [f_main] in Et. subst m1. pose proof (saving_keeps t b1 _ _ Hs) as Hi.
    unfold saving_inv in Hi. cbn [fst snd] in Hi. destruct p as [| |rest| |].
    + now left.
    + subst f2. now right.
    + destruct Hi as (x & -> & _). now right.
    + subst f2. now right.
    + exact Hi.
Qed.
(** A second session cut off loses everything there was: whatever the .BAK held before is gone
    as soon as the second save has renamed the cut-off file. *)
Theorem C57_second_cut : forall enc d torn bak f p,
  save_steps (save_text enc d) (mkFs (Some torn) bak, AtRename) (f, p) ->
  f = mkFs (Some torn) bak
  \/ (f_bak f = Some torn /\ (f_main f = None \/ exists done rest, f_main f = Some done /\ done ++ rest = save_text enc d)).
Proof.
  intros enc d torn bak f p H.
  assert (G : match p with
    | AtRename => f = mkFs (Some torn) bak
    | AtCreate => f = mkFs None (Some torn)
    | Writing rest => exists done, f = mkFs (Some done) (Some torn) /\ done ++ rest = save_text enc d
    | Saved => f = mkFs (Some (save_text enc d)) (Some torn)
    | Failed => f = mkFs (Some torn) bak
        \/ (f_bak f = Some torn /\ (f_main f = None \/ exists done rest, f_main f = Some done /\ done ++ rest = save_text enc d))
    end).
  { remember (mkFs (Some torn) bak, AtRename) as x0 eqn:E0. remember (f, p) as x eqn:E. revert f p E.
    induction H as [x|x y z Hs IH Hst]; intros f p E; [subst x; injection E as <- <-; reflexivity|].
    destruct y as [fy py]. specialize (IH E0 fy py eq_refl). subst z.
    inversion Hst; subst; clear Hst; cbn in IH.
    - now injection IH as -> ->.
    - left. exact IH.
    - injection IH as ->. exists []. auto.
    - right. subst f. cbn. auto.
    - destruct IH as (dn & Ef & Ed). injection Ef as -> ->. exists (dn ++ chunk). split; [reflexivity|]. rewrite <- app_assoc. exact Ed.
    - destruct IH as (dn & -> & Ed). right. cbn. split; [reflexivity|]. right. exists dn, rest. auto.
    - destruct IH as (dn & -> & Ed). rewrite app_nil_r in Ed. now subst dn. }
  destruct p as [| |rest| |]; [left; exact G|right; subst f; cbn; auto| | |exact G].
  - destruct G as (dn & -> & Ed). right. cbn. split; [reflexivity|right; exists dn, rest; auto].
  - subst f. right. cbn. split; [reflexivity|]. right. exists (save_text enc d), []. rewrite app_nil_r. auto.
Qed.
(** One session cut off right after the file was created. *)
Example C57_one_cut_case : careful_sessions (fun _ => true) (mkFs (Some (U "old")) None) (mkFs (Some []) (Some (U "old"))) true.
Proof.
  eapply (cs_cut _ _ (mkFs (Some (U "old")) None) dents_empty); [constructor|discriminate|].
  eapply ss_step; [eapply ss_step; [apply ss_refl|apply st_rename]|apply st_create].
Qed.
