(** C63: memory handed out by the C API. *)
From Verif Require Import Str Keys Modes KanaBuilder FormChanger DictTypes Parser Lru
  Dictionary CState Context CApi CMem DefaultRule Demo Spec P_Monad P_Inv.
From Coq Require Import Permutation.
From Verif Require T_Frames T_Observe.

(** ** Specification *)
Definition addresses (l : list ptr) : list N := flat_map (fun p => match p with Some a => [a] | None => [] end) l.
(** every pointer in a structure *)
Definition fields (f : ffi) : list ptr :=
  match f with
  | FDirect c u => [c; u]
  | FPreComposition c k o u | FPreCompositionOkurigana c k o u => [c; k; o; u]
  | FCompositionSelection c t o a => [c; t; o; a]
  | FRegister c k o p => [c; k; o; p]
  | FComplete c origin oo m t o a => [c; origin; oo; m; t; o; a]
  end.
(** everything the client can reach from what it holds *)
Definition reach (h : handle) : list N :=
  match h with
  | HString p => addresses [p]
  | HDetail v l => flat_map (fun f => addresses (fields f)) l ++ addresses [v]
  | HCandidates l => l
  | HKey _ a => [a]
  end.
Definition fresh_client (w : world) : client := mkClient w empty_heap [].
(** The client never asks for details while a completion is shown. *)
Fixpoint no_completion_details (X : xkb) (dbg : bool) (ks : list call) (c : client) : Prop :=
  match ks with
  | [] => True
  | k :: r => (k = KDetail -> Forall (fun s => s_cmode s <> Completion) (frames (k_world c)))
              /\ forall c', client_step X dbg k c = Done c' -> no_completion_details X dbg r c'
  end.

(** ** Proofs *)
Lemma remove_one_spec a : forall l, In a l -> exists r, remove_one a l = Some r /\ Permutation l (a :: r).
Proof.
  induction l as [|x l IH]; intros H; [destruct H|]. cbn. destruct (N.eqb a x) eqn:E.
  - apply N.eqb_eq in E as <-. exists l. auto.
  - destruct H as [->|H]; [rewrite N.eqb_refl in E; discriminate|]. destruct (IH H) as (r & -> & P). exists (x :: r).
    split; [reflexivity|]. rewrite P. apply perm_swap.
Qed.
(** [h] owns exactly the addresses [l] *)
Definition has (h : heap) (l : list N) : Prop := Permutation (h_live h) l /\ NoDup l /\ Forall (fun a => (a < h_next h)%N) l.
Lemma has_perm h l l' : has h l -> Permutation l l' -> has h l'.
Proof.
  intros (H1 & H2 & H3) P. split; [now rewrite H1|]. split; [now apply (Permutation_NoDup P)|].
  rewrite Forall_forall in *. intros a Ha. apply H3. now apply (Permutation_in _ (Permutation_sym P)).
Qed.
Lemma free_has h a l : has h (a :: l) -> exists h', hfree a h = Some (tt, h') /\ has h' l.
Proof.
  intros (H1 & H2 & H3). unfold hfree.
  destruct (remove_one_spec a (h_live h)) as (r & -> & P); [apply (Permutation_in _ (Permutation_sym H1)); now left|].
  eexists. split; [reflexivity|]. inversion H2; inversion H3; subst. split; [|split; assumption]. cbn.
  apply (Permutation_cons_inv (a := a)). now rewrite <- P.
Qed.
Lemma frees_has ps : forall h l, has h (ps ++ l) -> exists h', hseq hfree ps h = Some (tt, h') /\ has h' l.
Proof.
  induction ps as [|p ps IH]; intros h l H; [exists h; auto|]. cbn [hseq app] in *. unfold hbind.
  destruct (free_has h p (ps ++ l) H) as (h1 & -> & H1). apply IH, H1.
Qed.
Lemma drops_has ps : forall h l, has h (addresses ps ++ l) -> exists h', hseq hdrop ps h = Some (tt, h') /\ has h' l.
Proof.
  induction ps as [|[a|] ps IH]; intros h l H; cbn [hseq] in *; unfold hbind.
  - exists h; auto.
  - destruct (free_has h a (addresses ps ++ l) H) as (h1 & E & H1). cbn [hdrop]. rewrite E. apply IH, H1.
  - cbn [hdrop hret]. apply IH, H.
Qed.
Lemma alloc_has h l : has h l -> exists a h', halloc h = Some (a, h') /\ has h' (a :: l).
Proof.
  intros (H1 & H2 & H3). exists (h_next h). eexists. split; [reflexivity|]. split; [cbn; now rewrite H1|].
  rewrite Forall_forall in H3. split.
  - constructor; [|exact H2]. intros Hin. specialize (H3 _ Hin). lia.
  - cbn. constructor; [lia|]. apply Forall_forall. intros a Ha. specialize (H3 _ Ha). lia.
Qed.
Lemma ptr_has o h l : has h l -> exists p h', hptr o h = Some (p, h') /\ has h' (addresses [p] ++ l).
Proof.
  intros H. destruct o as [s|]; cbn [hptr].
  - unfold hbind. destruct (alloc_has h l H) as (a & h' & -> & H'). exists (Some a), h'. auto.
  - exists None, h. auto.
Qed.
Ltac step_ptr := match goal with
  | H : has ?h ?l |- context [hptr ?o ?h] =>
      let p := fresh "p" in let h' := fresh "h" in let E := fresh "E" in let H' := fresh "H" in
      destruct (ptr_has o h l H) as (p & h' & E & H'); rewrite E; clear E; try clear H
  end.
Lemma addresses_app a b : addresses (a ++ b) = addresses a ++ addresses b.
Proof. unfold addresses. apply flat_map_app. Qed.
Lemma addresses_cons a b : addresses (a :: b) = addresses [a] ++ addresses b.
Proof. change (a :: b) with ([a] ++ b). apply addresses_app. Qed.
(** is it a completion *)
Definition is_complete (d : state_info) : bool := match d with SComplete _ _ _ _ _ _ => true | _ => false end.
Definition lost (f : ffi) : list N := match f with FComplete _ _ _ m _ _ _ => addresses [m] | _ => [] end.
Ltac same_members := apply (Permutation_count_occ N.eq_dec); intros ?;
  change (addresses [None]) with (@nil N); repeat (progress (rewrite ?count_occ_app; cbn [count_occ]));
  repeat match goal with |- context [N.eq_dec ?a ?b] => destruct (N.eq_dec a b) end; lia.
Lemma to_ffi_has d h l : has h l -> exists f h', to_ffi d h = Some (f, h') /\ has h' (addresses (fields f) ++ l)
  /\ (is_complete d = false -> lost f = []).
Proof.
  intros H. destruct d; cbn [to_ffi]; unfold hbind, hret; repeat step_ptr; eexists _, _;
    (split; [reflexivity|]); (split; [|intros Hc; try discriminate Hc; reflexivity]); (eapply has_perm; [eassumption|]);
    cbn [fields]; repeat rewrite (addresses_cons _ (_ :: _)); same_members.
Qed.
Lemma drop_ffi_has f h l : has h (addresses (fields f) ++ l) -> exists h', drop_ffi f h = Some (tt, h') /\ has h' (lost f ++ l).
Proof.
  intros H. destruct f; cbn [drop_ffi]; apply drops_has; cbn [lost app]; (eapply has_perm; [exact H|]); cbn [fields];
    repeat rewrite (addresses_cons _ (_ :: _)); same_members.
Qed.
Lemma details_has ds : forall h l, has h l -> exists fs h', hmap to_ffi ds h = Some (fs, h')
  /\ has h' (flat_map (fun f => addresses (fields f)) fs ++ l)
  /\ (Forall (fun d => is_complete d = false) ds -> flat_map lost fs = []) /\ length fs = length ds.
Proof.
  induction ds as [|d ds IH]; intros h l H; cbn [hmap]; unfold hbind, hret.
  - exists [], h. auto.
  - destruct (to_ffi_has d h l H) as (f & h1 & -> & H1 & L1).
    destruct (IH h1 _ H1) as (fs & h2 & -> & H2 & L2 & L3). exists (f :: fs), h2. split; [reflexivity|].
    split; [eapply has_perm; [exact H2|]; cbn [flat_map]; same_members|]. split; [|cbn; now rewrite L3].
    intros Hd. inversion Hd; subst. cbn [flat_map]. now rewrite L1, L2.
Qed.
Lemma drop_details_has fs : forall h l, has h (flat_map (fun f => addresses (fields f)) fs ++ l)
  -> exists h', hseq drop_ffi fs h = Some (tt, h') /\ has h' (flat_map lost fs ++ l).
Proof.
  induction fs as [|f fs IH]; intros h l H; cbn [hseq]; unfold hbind.
  - exists h. auto.
  - cbn [flat_map] in H. rewrite <- app_assoc in H. destruct (drop_ffi_has f h _ H) as (h1 & -> & H1).
    destruct (IH h1 (lost f ++ l)) as (h2 & E & H2); [eapply has_perm; [exact H1|]; same_members|].
    exists h2. split; [exact E|]. eapply has_perm; [exact H2|]. cbn [flat_map]. same_members.
Qed.
Lemma fill_has cs : forall written h l, has h (written ++ l) -> exists o h', fill_candidates cs written h = Some (o, h')
  /\ has h' (match o with Some r => r | None => [] end ++ l).
Proof.
  induction cs as [|c cs IH]; intros written h l H; cbn [fill_candidates].
  - exists (Some written), h. auto.
  - destruct (c_string (c_output c)); unfold hbind.
    + destruct (alloc_has h _ H) as (a & h1 & -> & H1). apply IH. eapply has_perm; [exact H1|]. same_members.
    + destruct (frees_has written h l H) as (h1 & -> & H1). exists None, h1. auto.
Qed.
(** what stays allocated for ever when a handle is taken back *)
Definition wasted (h : handle) : list N := match h with HDetail _ l => flat_map lost l | _ => [] end.
(** the array exists when it has elements *)
Definition proper (h : handle) : Prop := match h with HDetail None l => l = [] | _ => True end.
Definition gives (m : H handle) (clean : Prop) : Prop := forall h l, has h l ->
  exists r h', m h = Some (r, h') /\ has h' (reach r ++ l) /\ proper r /\ (clean -> wasted r = []).
Lemma gives_string o : gives (give_string o) True.
Proof.
  intros h l H. unfold give_string, hbind. destruct (ptr_has o h l H) as (p & h' & -> & H'). exists (HString p), h'. cbn [proper wasted]. auto.
Qed.
Lemma gives_candidates cs : gives (give_candidates cs) True.
Proof.
  intros h l H. unfold give_candidates, hbind. destruct (fill_has cs [] h l H) as (o & h' & -> & H').
  eexists _, h'. split; [reflexivity|]. cbn [proper wasted reach]. auto.
Qed.
Lemma gives_key k : gives (give_key k) True.
Proof.
  intros h l H. unfold give_key, hbind. destruct (alloc_has h l H) as (a & h' & -> & H'). exists (HKey k a), h'. cbn [proper wasted]. auto.
Qed.
Lemma gives_detail ds : gives (give_detail ds) (Forall (fun d => is_complete d = false) ds).
Proof.
  intros h l H. unfold give_detail, hbind. destruct (details_has ds h l H) as (fs & h1 & -> & H1 & L1 & L2).
  destruct fs as [|f fs]; cbn [is_nil].
  - exists (HDetail None []), h1. cbn [proper wasted reach]. auto.
  - destruct (alloc_has h1 _ H1) as (v & h2 & -> & H2). exists (HDetail (Some v) (f :: fs)), h2. split; [reflexivity|].
    split; [|cbn [proper wasted]; auto]. eapply has_perm; [exact H2|]. cbn [reach].
    change (addresses [Some v]) with [v]. same_members.
Qed.
Lemma take_back_has r h l : proper r -> has h (reach r ++ l) -> exists h', take_back r h = Some (tt, h') /\ has h' (wasted r ++ l).
Proof.
  intros Hp H. destruct r as [p|[v|] fs|cs|k a]; cbn [take_back wasted].
  - destruct p as [a|]; cbn [hdrop]; [|exists h; auto]. apply free_has. exact H.
  - unfold hbind. cbn [reach] in H. change (addresses [Some v]) with [v] in H. rewrite <- app_assoc in H.
    destruct (drop_details_has fs h _ H) as (h1 & -> & H1). apply free_has. eapply has_perm; [exact H1|]. same_members.
  - cbn in Hp. subst fs. exists h. auto.
  - cbn [app]. apply frees_has, H.
  - cbn [app]. apply free_has, H.
Qed.
Lemma take_nth_perm {A} i (l : list A) x r : take_nth i l = Some (x, r) -> Permutation l (x :: r).
Proof.
  unfold take_nth. revert l r. induction i as [|i IH]; intros [|y l] r; cbn; try discriminate.
  - intros [= <- <-]. reflexivity.
  - destruct (nth_error l i) as [z|] eqn:E; [|discriminate]. intros [= <- <-].
    specialize (IH l (firstn i l ++ skipn (S i) l)). rewrite E in IH. rewrite (IH eq_refl) at 1. apply perm_swap.
Qed.
Lemma reach_perm l l' : Permutation l l' -> Permutation (flat_map reach l) (flat_map reach l').
Proof. apply Permutation_flat_map. Qed.
(** The invariant; [w]: what has been lost for good. *)
Definition fine (c : client) (w : list N) : Prop := has (k_heap c) (flat_map reach (k_holds c) ++ w) /\ Forall proper (k_holds c).
Section Steps.
Context (X : xkb) (dbg : bool).
Lemma hand_out_fine m clean world c w : gives m clean -> fine c w ->
  exists c', hand_out m world c = Done c' /\ fine c' w
    /\ (clean -> Forall (fun h => wasted h = []) (k_holds c) -> Forall (fun h => wasted h = []) (k_holds c')) .
Proof.
  intros G (H & P). unfold hand_out. destruct (G _ _ H) as (r & h' & -> & H' & Pr & Cl). eexists. split; [reflexivity|].
  split; [|cbn; auto]. split; cbn [k_heap k_holds flat_map]; [rewrite <- app_assoc; exact H'|auto].
Qed.
Lemma sound_details w ds : Forall (fun s => s_cmode s <> Completion) (frames w) -> c_get_preedit_detail X w = Ok ds
  -> Forall (fun d => is_complete d = false) ds.
Proof.
  unfold c_get_preedit_detail, get_preedit_detail, frames. intros H. apply Forall_rev in H. revert ds.
  induction H as [|s l Hs Hl IH]; intros ds; cbn [map res_map]; [intros [= <-]; constructor|].
  set (d := preedit_detail _ _ _ _). assert (Hd : is_complete d = false).
  { subst d. unfold preedit_detail. destruct (s_cmode s); try reflexivity; [destruct (s_use s); reflexivity|congruence]. }
  clearbody d. assert (Hc : forall d', convert_state_info d = Ok d' -> is_complete d' = false).
  { intros d'. destruct d; try discriminate Hd; cbn [convert_state_info]; unfold convert_precomposition_data, c_unwrap, c_opt_unwrap, c_unwrap;
      repeat (match goal with |- context [match ?o with Some _ => _ | None => _ end] => destruct o end; cbn [rmap rbind]);
      intros [=]; subst; reflexivity. }
  destruct (convert_state_info d) as [d'|]; cbn [rbind]; [|discriminate].
  destruct (res_map _ _) as [ds'|]; cbn [rbind]; [|discriminate]. intros [= <-]. constructor; auto.
Qed.
Lemma step_fine k c w : fine c w -> match client_step X dbg k c with
  | Undefined => False | Panics => True
  | Done c' => exists w', fine c' (w' ++ w)
      /\ ((k = KDetail -> Forall (fun s => s_cmode s <> Completion) (frames (k_world c))) ->
          Forall (fun h => wasted h = []) (k_holds c) -> Forall (fun h => wasted h = []) (k_holds c') /\ w' = [])
  end.
Proof.
  intros F. assert (HO : forall m (clean : Prop) world, gives m clean ->
     ((k = KDetail -> Forall (fun s => s_cmode s <> Completion) (frames (k_world c))) -> clean) ->
     match hand_out m world c with Undefined => False | Panics => True
     | Done c' => exists w', fine c' (w' ++ w)
      /\ ((k = KDetail -> Forall (fun s => s_cmode s <> Completion) (frames (k_world c))) ->
          Forall (fun h => wasted h = []) (k_holds c) -> Forall (fun h => wasted h = []) (k_holds c') /\ w' = []) end).
  { intros m clean world G Hc. destruct (hand_out_fine m clean world c w G F) as (c' & -> & F' & Cl). exists []. split; [exact F'|]. auto. }
  destruct k; cbn [client_step].
  - destruct (exec X dbg o (k_world c)) as [[? ?]|]; [|exact I]. exists []. split; [exact F|]. auto.
  - destruct (c_poll_output (k_world c)) as [[? ?]|]; [|exact I]. eapply HO; [apply gives_string|auto].
  - eapply HO; [apply gives_string|auto].
  - destruct (c_get_current_to_composite (k_world c)) as [?|]; [|exact I]. eapply HO; [apply gives_string|auto].
  - destruct (c_get_preedit_detail X (k_world c)) as [ds|] eqn:E; [|exact I]. eapply HO; [apply gives_detail|].
    intros Hk. eapply sound_details; [apply Hk; reflexivity|exact E].
  - destruct (get_current_candidates (k_world c)) as [?|]; [|exact I]. eapply HO; [apply gives_candidates|auto].
  - eapply HO; [apply gives_key|auto].
  - destruct (take_nth i (k_holds c)) as [[h rest]|] eqn:E; [|exists []; split; [exact F|auto]].
    destruct h; try (exists []; split; [exact F|auto]).
    destruct (exec X dbg (OKey k) (k_world c)) as [[? ?]|]; [|exact I]. apply take_nth_perm in E.
    destruct F as (F1 & F2). destruct (free_has (k_heap c) a (flat_map reach rest ++ w)) as (h' & -> & H').
    { eapply has_perm; [exact F1|]. rewrite (reach_perm _ _ E). reflexivity. }
    exists []. split; [split; [exact H'|]|]; cbn [k_holds].
    + rewrite Forall_forall in *. intros x Hx. apply F2. apply (Permutation_in _ (Permutation_sym E)). now right.
    + intros _ Hw. split; [|reflexivity]. rewrite Forall_forall in *. intros x Hx. apply Hw. apply (Permutation_in _ (Permutation_sym E)). now right.
  - destruct (take_nth i (k_holds c)) as [[h rest]|] eqn:E; [|exists []; split; [exact F|auto]]. apply take_nth_perm in E.
    assert (G : match match take_back h (k_heap c) with Some (_, hp) => Done (mkClient (k_world c) hp rest) | None => Undefined end with
       Undefined => False | Panics => True
     | Done c' => exists w', fine c' (w' ++ w)
      /\ ((KFree i = KDetail -> Forall (fun s => s_cmode s <> Completion) (frames (k_world c))) ->
          Forall (fun h => wasted h = []) (k_holds c) -> Forall (fun h => wasted h = []) (k_holds c') /\ w' = []) end).
    { destruct F as (F1 & F2). destruct (take_back_has h (k_heap c) (flat_map reach rest ++ w)) as (h' & -> & H').
      - rewrite Forall_forall in F2. apply F2. apply (Permutation_in _ (Permutation_sym E)). now left.
      - eapply has_perm; [exact F1|]. rewrite (reach_perm _ _ E). cbn [flat_map]. now rewrite <- app_assoc.
      - exists (wasted h). split; [split; cbn [k_heap k_holds]|].
        + eapply has_perm; [exact H'|]. same_members.
        + rewrite Forall_forall in *. intros x Hx. apply F2. apply (Permutation_in _ (Permutation_sym E)). now right.
        + intros _ Hw. cbn [k_holds]. rewrite Forall_forall in *. split.
          * intros x Hx. apply Hw. apply (Permutation_in _ (Permutation_sym E)). now right.
          * apply Hw. apply (Permutation_in _ (Permutation_sym E)). now left. }
    destruct h; try exact G. exists []. split; [exact F|auto].
Qed.
Lemma run_fine ks : forall c w, fine c w -> match client_run X dbg ks c with
  | Undefined => False | Panics => True
  | Done c' => exists w', fine c' (w' ++ w)
      /\ (no_completion_details X dbg ks c ->
          Forall (fun h => wasted h = []) (k_holds c) -> Forall (fun h => wasted h = []) (k_holds c') /\ w' = [])
  end.
Proof.
  induction ks as [|k ks IH]; intros c w F; cbn [client_run no_completion_details].
  - exists []. split; [exact F|auto].
  - pose proof (step_fine k c w F) as S. destruct (client_step X dbg k c) as [c1| |] eqn:E; [|exact I|exact S].
    destruct S as (w1 & F1 & C1). specialize (IH c1 _ F1). destruct (client_run X dbg ks c1) as [c2| |]; [|exact I|exact IH].
    destruct IH as (w2 & F2 & C2). exists (w2 ++ w1). rewrite <- app_assoc. split; [exact F2|].
    intros (N1 & N2) Hw. destruct (C1 N1 Hw) as (Hw1 & ->). destruct (C2 (N2 _ eq_refl) Hw1) as (Hw2 & ->). auto.
Qed.
End Steps.
Lemma nodup_left {A} (a b : list A) : NoDup (a ++ b) -> NoDup a.
Proof.
  induction a as [|x a IH]; intros H; [constructor|]. inversion H; subst. constructor; [|auto].
  intros Hx. apply H2. apply in_or_app. now left.
Qed.
Lemma fresh_fine w : fine (fresh_client w) [].
Proof. split; [|constructor]. split; [constructor|]. split; constructor. Qed.

(** ** Theorems *)
(** However a C program interleaves its calls, as long as it frees only what it was given and
    each thing once: nothing is freed that is not allocated, and no two pointers within its
    reach are the same or dangling. *)
Theorem C63_safe : forall X dbg ks w, match client_run X dbg ks (fresh_client w) with
  | Undefined => False
  | Panics => True
  | Done c => NoDup (flat_map reach (k_holds c)) /\ (forall a, In a (flat_map reach (k_holds c)) -> In a (h_live (k_heap c)))
  end.
Proof.
  intros X dbg ks w. pose proof (run_fine X dbg ks _ _ (fresh_fine w)) as H.
  destruct (client_run _ _ _ _) as [c| |]; [|exact I|exact H]. destruct H as (l & ((P & D & _) & _) & _). split.
  - exact (nodup_left _ _ D).
  - intros a Ha. apply (Permutation_in _ (Permutation_sym P)). apply in_or_app. now left.
Qed.
(** A program that never asks for the preedit detail while a completion is shown can give
    everything back: what is allocated is exactly what it still holds. *)
Theorem C63_no_leak_partial : forall X dbg ks w c, no_completion_details X dbg ks (fresh_client w) ->
  client_run X dbg ks (fresh_client w) = Done c -> Permutation (h_live (k_heap c)) (flat_map reach (k_holds c)).
Proof.
  intros X dbg ks w c N E. pose proof (run_fine X dbg ks _ _ (fresh_fine w)) as H. rewrite E in H.
  destruct H as (l & ((P & _) & _) & Cl). destruct (Cl N) as (_ & ->); [constructor|]. now rewrite !app_nil_r in P.
Qed.
Theorem C63_all_returned_partial : forall X dbg ks w c, no_completion_details X dbg ks (fresh_client w) ->
  client_run X dbg ks (fresh_client w) = Done c -> k_holds c = [] -> h_live (k_heap c) = [].
Proof.
  intros X dbg ks w c N E Z. pose proof (C63_no_leak_partial X dbg ks w c N E) as P. rewrite Z in P.
  now apply Permutation_sym, Permutation_nil in P.
Qed.
(** C63 as stated is false: a completion is shown, its detail is fetched and freed at once with
    skk_free_preedit_detail, nothing is held any more, and a string stays allocated. *)
Fixpoint presses (ks : list keyev) : list call := match ks with [] => [] | k :: r => KKey k :: KPress 0 :: presses r end.
Definition heap_after (dbg : bool) (ks : list call) (w : world) : option (nat * nat) :=
  match client_run ascii_xkb dbg ks (fresh_client w) with
  | Done c => Some (length (k_holds c), length (h_live (k_heap c)))
  | _ => None
  end.
Lemma heap_after_case dbg ks w a b : heap_after dbg ks w = Some (a, b) ->
  exists c, client_run ascii_xkb dbg ks (fresh_client w) = Done c /\ length (k_holds c) = a /\ length (h_live (k_heap c)) = b.
Proof.
  unfold heap_after. destruct (client_run _ _ ks _) as [c| |]; [|discriminate|discriminate]. intros [= E1 E2]. exists c. auto.
Qed.
Theorem C63_refuted : exists w ks c, started ascii_xkb w /\ client_run ascii_xkb true ks (fresh_client w) = Done c
  /\ k_holds c = [] /\ h_live (k_heap c) <> [].
Proof.
  destruct (heap_after_case true (presses (dkeys (U "A Tab")) ++ [KDetail; KFree 0]) (demo [user_dict dic_small]) 0 1)
    as (c & E & E1 & E2); [vm_compute; reflexivity|].
  exists (demo [user_dict dic_small]), (presses (dkeys (U "A Tab")) ++ [KDetail; KFree 0]), c.
  split; [apply T_Frames.demo_started|]. split; [exact E|]. split; [now apply length_zero_iff_nil|].
  intros H. rewrite H in E2. discriminate.
Qed.
(** The hypotheses are met: a word is typed, looked at in every way, and everything returned in
    another order. *)
Fixpoint no_completion_details_b (X : xkb) (dbg : bool) (ks : list call) (c : client) : bool :=
  match ks with
  | [] => true
  | k :: r => (match k with KDetail => forallb (fun s => negb (cmode_eqb (s_cmode s) Completion)) (x_stack (w_ctx (k_world c))) | _ => true end)
              && match client_step X dbg k c with Done c' => no_completion_details_b X dbg r c' | _ => true end
  end.
Lemma no_completion_details_b_spec X dbg ks : forall c, no_completion_details_b X dbg ks c = true -> no_completion_details X dbg ks c.
Proof.
  induction ks as [|k ks IH]; intros c; cbn; [auto|]. intros H. apply andb_prop in H as (H1 & H2). split.
  - intros ->. apply Forall_forall. intros s Hs. rewrite forallb_forall in H1. specialize (H1 s Hs). intros E. rewrite E in H1. discriminate.
  - intros c' E. rewrite E in H2. auto.
Qed.
Definition look : list call := presses (dkeys (U "K a n a space")) ++ [KDetail; KCandidates 4 0; KPreedit; KComposite]
  ++ presses (dkeys (U "Return")) ++ [KPoll].
Example C63_example :
  heap_after true look (demo [user_dict dic_small]) = Some (5, 7)
  /\ heap_after true (look ++ [KFree 4; KFree 0; KFree 1; KFree 0; KFree 0]) (demo [user_dict dic_small]) = Some (0, 0)
  /\ no_completion_details ascii_xkb true (look ++ [KFree 4; KFree 0; KFree 1; KFree 0; KFree 0]) (fresh_client (demo [user_dict dic_small])).
Proof.
  split; [vm_compute; reflexivity|]. split; [vm_compute; reflexivity|].
  apply no_completion_details_b_spec. vm_compute. reflexivity.
Qed.
