(** Properties C24, C25, C27 and C29: what confirming and purging do to a user dictionary. *)
From Coq Require Import Permutation.
From Verif Require Import Str Keys Modes KanaBuilder FormChanger DictTypes Parser Lru Dictionary
  CState Context Demo Spec P_Monad P_Frames P_Inv P_Step T_Keys T_Dedup.

(** * Specification: the candidates a dictionary lists, per section (with okurigana or not),
    midashi and strict okurigana ([] for those valid for any okurigana). *)
Definition section (ari : bool) (d : dict) : lmap entry :=
  if ari then d_ari (dict_ents d) else d_nashi (dict_ents d).
Definition listed (d : dict) (ari : bool) (m o : str) : list dcand :=
  match lpeek m (section ari d) with
  | Some e => match bget o (e_map e) with Some l => l | None => [] end
  | None => []
  end.
Definition texts (l : list dcand) : list str := map dc_kouho l.
Definition user (d : dict) : Prop := match d_kind d with DUser _ _ => True | _ => False end.

(** * Maps *)
Lemma bget_bset {A} k (v : A) m : forall k', bget k' (bset k v m) = if str_eqb k' k then Some v else bget k' m.
Proof.
  unfold bget. induction m as [|[k0 v0] m IH]; intros k'; cbn; [reflexivity|].
  destruct (str_cmp k k0) eqn:E; cbn.
  - apply str_cmp_eq in E. subst k0. destruct (str_eqb k' k); reflexivity.
  - reflexivity.
  - rewrite IH. destruct (str_eqb_spec k' k0) as [->|]; [|reflexivity].
    destruct (str_eqb_spec k0 k) as [->|]; [|reflexivity]. rewrite str_cmp_refl in E. discriminate.
Qed.
Lemma lpeek_remove {V} k k' (m : lmap V) : lpeek k' (lremove k m) = if str_eqb k' k then None else lpeek k' m.
Proof.
  unfold lpeek, lremove. induction m as [|[k0 v0] m IH]; cbn; [now destruct (str_eqb k' k)|].
  destruct (str_eqb_spec k k0) as [->|]; cbn.
  - rewrite IH. destruct (str_eqb_spec k' k0); reflexivity.
  - rewrite IH. destruct (str_eqb_spec k' k0) as [->|]; [|reflexivity].
    destruct (str_eqb_spec k0 k); [congruence|reflexivity].
Qed.
Lemma lpeek_push {V} k v k' (m : lmap V) : lpeek k' (lpush k v m) = if str_eqb k' k then Some v else lpeek k' m.
Proof.
  unfold lpush. unfold lpeek at 1. cbn. fold (lpeek k' (lremove k m)). rewrite lpeek_remove.
  destruct (str_eqb k' k); reflexivity.
Qed.
Lemma lpeek_update {V} k f k' (m : lmap V) :
  lpeek k' (lupdate k f m) = if str_eqb k' k then option_map f (lpeek k m) else lpeek k' m.
Proof.
  unfold lupdate. destruct (lpeek k m) as [v|] eqn:E.
  - unfold lpeek at 1. cbn. fold (lpeek k' (lremove k m)). rewrite lpeek_remove.
    destruct (str_eqb k' k); reflexivity.
  - destruct (str_eqb_spec k' k) as [->|]; [rewrite E|]; reflexivity.
Qed.

(** * Lists *)
Lemma position_spec {A} (f : A -> bool) l :
  match position f l with
  | Some i => exists a x b, l = a ++ x :: b /\ length a = i /\ f x = true /\ Forall (fun y => f y = false) a
  | None => Forall (fun y => f y = false) l
  end.
Proof.
  induction l as [|x l IH]; cbn; [constructor|].
  destruct (f x) eqn:E; [exists [], x, l; repeat split; auto|].
  destruct (position f l) as [i|]; cbn.
  - destruct IH as (a & y & b & -> & <- & Hy & Ha). exists (x :: a), y, b. repeat split; auto.
  - now constructor.
Qed.
Lemma set_nth_app {A} (a : list A) x v b : set_nth (length a) v (a ++ x :: b) = a ++ v :: b.
Proof. induction a as [|y a IH]; cbn; [reflexivity|]. now rewrite IH. Qed.
Lemma swap0_app {A} (h : A) a x b : swap0 (S (length a)) (h :: a ++ x :: b) = x :: a ++ h :: b.
Proof.
  cbn. rewrite nth_error_app2 by lia. rewrite Nat.sub_diag. cbn. now rewrite set_nth_app.
Qed.

(** How one list of candidates changes when [c] is confirmed. *)
Definition taken_to_front (c : candidate) (before after : list dcand) : Prop :=
  (* unknown: added in front *)
  (~ In (c_kouho c) (texts before) /\ after = dcand_of c :: before)
  (* known *)
  \/ (exists x, In x before /\ dc_kouho x = c_kouho c /\ hd_error after = Some x /\ Permutation before after).
Lemma not_listed c l : Forall (fun d => str_eqb (dc_kouho d) (c_kouho c) = false) l -> ~ In (c_kouho c) (texts l).
Proof.
  intros H Hin. apply in_map_iff in Hin as (x & E & Hx). rewrite Forall_forall in H.
  specialize (H x Hx). apply str_eqb_neq in H. congruence.
Qed.
Lemma prioritize_front c l : taken_to_front c l (prioritize_list c l).
Proof.
  unfold prioritize_list, taken_to_front.
  pose proof (position_spec (fun d => str_eqb (dc_kouho d) (c_kouho c)) l) as H.
  destruct (position _ l) as [i|].
  - destruct H as (a & x & b & -> & <- & Hx & _). right. exists x. apply str_eqb_eq in Hx.
    split; [apply in_app_iff; right; now left|split; [exact Hx|]].
    destruct a as [|h a]; cbn [length app].
    + split; reflexivity.
    + rewrite swap0_app. split; [reflexivity|].
      change (h :: a ++ x :: b) with ((h :: a) ++ x :: b).
      rewrite <- Permutation_middle. cbn. apply perm_skip. rewrite <- Permutation_middle. reflexivity.
  - left. split; [now apply not_listed|reflexivity].
Qed.
Lemma prioritize_again c l : prioritize_list c (prioritize_list c l) = prioritize_list c l.
Proof.
  assert (G : forall x r, dc_kouho x = c_kouho c -> prioritize_list c (x :: r) = x :: r).
  { intros x r E. unfold prioritize_list. cbn. apply str_eqb_eq in E. now rewrite E. }
  destruct (prioritize_front c l) as [(_ & ->)|(x & _ & E & Hh & _)].
  - now apply G.
  - destruct (prioritize_list c l) as [|y r]; [discriminate|]. injection Hh as ->. now apply G.
Qed.

Definition lst (o : str) (m : bmap (list dcand)) : list dcand :=
  match bget o m with Some l => l | None => [] end.
Lemma lst_prioritize_for o c m o' :
  lst o' (prioritize_for o c m) = if str_eqb o' o then prioritize_list c (lst o m) else lst o' m.
Proof.
  unfold lst, prioritize_for. destruct (bget o m) as [l|] eqn:E; rewrite bget_bset;
    destruct (str_eqb_spec o' o) as [->|]; reflexivity.
Qed.
Lemma lst_prioritize c e o :
  lst o (e_map (prioritize_candidate c e))
  = if is_nil o || match c_strict c with Some s => str_eqb o s | None => false end
    then prioritize_list c (lst o (e_map e)) else lst o (e_map e).
Proof.
  unfold prioritize_candidate. cbn [e_map].
  destruct (c_strict c) as [s|].
  - rewrite lst_prioritize_for. destruct (str_eqb_spec o []) as [->|En].
    + cbn [is_nil orb]. rewrite lst_prioritize_for. destruct (str_eqb_spec [] s) as [<-|]; [|reflexivity].
      apply prioritize_again.
    + assert (Ei : is_nil o = false) by now apply is_nil_false. rewrite Ei. cbn [orb].
      rewrite lst_prioritize_for. destruct (str_eqb_spec o s) as [->|]; reflexivity.
  - rewrite lst_prioritize_for, orb_false_r. destruct o; reflexivity.
Qed.
Lemma lst_new c m o :
  lst o (e_map (entry_new m c))
  = if is_nil o || match c_strict c with Some s => str_eqb o s | None => false end
    then [dcand_of c] else [].
Proof.
  unfold entry_new, lst. cbn [e_map]. rewrite bget_bset.
  destruct (str_eqb_spec o []) as [->|En]; [reflexivity|].
  assert (Ei : is_nil o = false) by now apply is_nil_false. rewrite Ei. cbn [orb].
  destruct (c_strict c) as [s|]; cbn; [|reflexivity].
  destruct (str_eqb o s); reflexivity.
Qed.

(** The okurigana under which a confirmed or purged candidate is listed. *)
Definition concerns (strict : option str) (o : str) : bool :=
  is_nil o || match strict with Some s => str_eqb o s | None => false end.

Lemma listed_select d c ari m o : user d ->
  listed (select_candidate d c) ari m o =
  if Bool.eqb ari (c_okuri c) && str_eqb m (c_midashi c) && concerns (c_strict c) o
  then prioritize_list c (listed d ari m o) else listed d ari m o.
Proof.
  unfold user, listed, section, select_candidate, dict_ents. destruct (d_kind d) as [|e h|]; try tauto. intros _.
  cbn [d_kind]. fold (lst o).
  assert (G : forall mp : lmap entry,
     match lpeek m (select_in_map c mp) with Some e0 => lst o (e_map e0) | None => [] end
     = if str_eqb m (c_midashi c) && concerns (c_strict c) o
       then prioritize_list c (match lpeek m mp with Some e0 => lst o (e_map e0) | None => [] end)
       else match lpeek m mp with Some e0 => lst o (e_map e0) | None => [] end).
  { intros mp. unfold select_in_map. destruct (lpeek (c_midashi c) mp) as [e0|] eqn:E.
    - rewrite lpeek_update. destruct (str_eqb_spec m (c_midashi c)) as [->|]; [|reflexivity].
      rewrite E. cbn [option_map andb]. apply lst_prioritize.
    - rewrite lpeek_push. destruct (str_eqb_spec m (c_midashi c)) as [->|]; [|reflexivity].
      rewrite E. cbn [andb]. rewrite lst_new. unfold concerns.
      destruct (is_nil o || _); reflexivity. }
  destruct ari, (c_okuri c); cbn [d_ari d_nashi Bool.eqb andb]; try reflexivity; apply G.
Qed.

(** * C24 *)
(** [d'] is [d] after confirming [c]: first in the lists it belongs to, nothing lost. *)
Definition confirmed_first (d d' : dict) (c : candidate) : Prop :=
  forall o, o = [] \/ c_strict c = Some o ->
    let before := listed d (c_okuri c) (c_midashi c) o in
    let after := listed d' (c_okuri c) (c_midashi c) o in
    hd_error (texts after) = Some (c_kouho c)
    /\ ((~ In (c_kouho c) (texts before) /\ after = dcand_of c :: before)
        \/ (In (c_kouho c) (texts before) /\ Permutation before after)).
Lemma concerns_iff strict o : concerns strict o = true <-> o = [] \/ strict = Some o.
Proof.
  unfold concerns. rewrite orb_true_iff, is_nil_true. destruct strict as [s|].
  - rewrite str_eqb_eq. split; intros [H|H]; auto; right; congruence.
  - split; intros [H|H]; auto; discriminate.
Qed.
Theorem C24_confirm : forall d c, user d -> confirmed_first d (select_candidate d c) c.
Proof.
  intros d c Hu o Ho. cbv zeta. apply concerns_iff in Ho. rewrite listed_select by exact Hu.
  rewrite eqb_reflx, str_eqb_refl, Ho. cbn [andb].
  set (l := listed d (c_okuri c) (c_midashi c) o).
  destruct (prioritize_front c l) as [(Hn & ->)|(x & Hx & E & Hh & Hp)].
  - split; [reflexivity|left; auto].
  - split; [|right; split; [|exact Hp]].
    + destruct (prioritize_list c l); [discriminate|]. injection Hh as ->. cbn. now rewrite E.
    + rewrite <- E. now apply in_map.
Qed.

Lemma upd_dicts_nth f ids : NoDup ids -> forall st j,
  nth_error (upd_dicts ids f st) j
  = if existsb (Nat.eqb j) ids then option_map f (nth_error st j) else nth_error st j.
Proof.
  unfold upd_dicts. induction 1 as [|i ids Hi Hn IH]; intros st j; cbn; [reflexivity|].
  rewrite IH, nth_error_update_nth. rewrite (Nat.eqb_sym i j).
  destruct (Nat.eqb_spec j i) as [->|]; cbn; [|reflexivity].
  replace (existsb (Nat.eqb i) ids) with false; [reflexivity|].
  symmetry. apply not_true_iff_false. rewrite existsb_exists. intros (y & Hy & E).
  apply Nat.eqb_eq in E. now subst.
Qed.
(** Through the API: confirming the i-th candidate of the list shown. *)
Theorem C24_confirm_at : forall X dbg i w s r c j d,
  frames w = s :: r -> s_cmode s = CompositionSelection ->
  nth_error (cl_list (s_list s)) (N.to_nat i) = Some c ->
  NoDup (x_dicts (w_ctx w)) -> In j (x_dicts (w_ctx w)) -> dict_at j w = Some d -> user d ->
  exists w' d', exec X dbg (OConfirmAt i) w = Ok (OutBool true, w') /\ dict_at j w' = Some d'
    /\ confirmed_first d d' c.
Proof.
  intros X dbg i w s r c j d Hs Hm Hc Hnd Hj Hd Hu.
  destruct (C48_confirm_in_range X dbg i w s r c Hs (or_introl Hm) Hc) as (t & -> & _).
  eexists _, (select_candidate d c). split; [reflexivity|split; [|now apply C24_confirm]].
  unfold dict_at, with_frames. cbn [w_store set_store]. rewrite upd_dicts_nth by exact Hnd.
  replace (existsb (Nat.eqb j) _) with true.
  - unfold dict_at in Hd. now rewrite Hd.
  - symmetry. apply existsb_exists. exists j. split; [exact Hj|apply Nat.eqb_refl].
Qed.
(** The same for every key that confirms: it is the instruction ConfirmComposition. *)
Theorem C24_confirm_instruction : forall w s r c j d,
  frames w = s :: r -> cl_current (s_list s) = Some c ->
  NoDup (x_dicts (w_ctx w)) -> In j (x_dicts (w_ctx w)) -> dict_at j w = Some d -> user d ->
  exists w' d', confirm_current w = Ok (tt, w') /\ dict_at j w' = Some d' /\ confirmed_first d d' c.
Proof.
  intros w s r c j d Hs Hc Hnd Hj Hd Hu. unfold confirm_current, bind, cur, get. unfold frames in Hs.
  rewrite Hs, Hc. unfold for_dicts, modcur. cbn [set_store w_ctx]. rewrite Hs.
  eexists _, (select_candidate d c). split; [reflexivity|split; [|now apply C24_confirm]].
  unfold dict_at, set_stack. cbn [w_store set_store]. rewrite upd_dicts_nth by exact Hnd.
  replace (existsb (Nat.eqb j) _) with true.
  - unfold dict_at in Hd. now rewrite Hd.
  - symmetry. apply existsb_exists. exists j. split; [exact Hj|apply Nat.eqb_refl].
Qed.
Example C24_case :
  let d := mkDict true (DUser (load_text (U "おくr /奥/送/[り/送;x/贈/]/")) false) in
  let c := mkCand (U "おくr") (Some (U "り")) true (U "贈") None (U "贈") in
  user d /\ texts (listed (select_candidate d c) true (U "おくr") (U "り")) = [U "贈"; U "送"]
  /\ texts (listed (select_candidate d c) true (U "おくr") []) = [U "贈"; U "奥"; U "送"].
Proof. vm_compute. auto. Qed.

(** * C25 *)
(** The other candidates of a list, in order. *)
Definition others (c : candidate) (l : list dcand) : list dcand :=
  filter (fun d => negb (str_eqb (dc_kouho d) (c_kouho c))) l.
(** The order is kept when the candidate is new or among the first two. *)
Theorem C25_order_partial : forall d c o, user d -> o = [] \/ c_strict c = Some o ->
  let before := listed d (c_okuri c) (c_midashi c) o in
  let after := listed (select_candidate d c) (c_okuri c) (c_midashi c) o in
  ~ In (c_kouho c) (texts before)
  \/ nth_error (texts before) 0 = Some (c_kouho c) \/ nth_error (texts before) 1 = Some (c_kouho c) ->
  others c after = others c before.
Proof.
  intros d c o Hu Ho. cbv zeta. apply concerns_iff in Ho. rewrite listed_select by exact Hu.
  rewrite eqb_reflx, str_eqb_refl, Ho. cbn [andb].
  generalize (listed d (c_okuri c) (c_midashi c) o). intros l H.
  unfold prioritize_list. destruct H as [H|[H|H]].
  - pose proof (position_spec (fun d => str_eqb (dc_kouho d) (c_kouho c)) l) as Hp.
    destruct (position _ l) as [i|].
    + exfalso. destruct Hp as (a & x & b & -> & _ & E & _). apply H. apply str_eqb_eq in E.
      rewrite <- E. apply in_map, in_app_iff. right. now left.
    + unfold others. cbn. now rewrite str_eqb_refl.
  - destruct l as [|x l]; [discriminate|]. cbn in H. injection H as H. cbn [position].
    rewrite H, str_eqb_refl. reflexivity.
  - destruct l as [|y [|x l]]; try discriminate. cbn in H. injection H as H. cbn [position].
    destruct (str_eqb (dc_kouho y) (c_kouho c)) eqn:E; [reflexivity|].
    rewrite H, str_eqb_refl. unfold others. cbn. rewrite E, H, str_eqb_refl. reflexivity.
Qed.
(** In general the former first candidate takes the place of the confirmed one. *)
Theorem C25_swap_partial : forall d c o first mid x post, user d -> o = [] \/ c_strict c = Some o ->
  listed d (c_okuri c) (c_midashi c) o = first :: mid ++ x :: post ->
  ~ In (c_kouho c) (texts (first :: mid)) -> dc_kouho x = c_kouho c ->
  listed (select_candidate d c) (c_okuri c) (c_midashi c) o = x :: mid ++ first :: post.
Proof.
  intros d c o first mid x post Hu Ho E Hn Hx. apply concerns_iff in Ho. rewrite listed_select by exact Hu.
  rewrite eqb_reflx, str_eqb_refl, Ho, E. cbn [andb]. unfold prioritize_list.
  replace (position (fun d0 => str_eqb (dc_kouho d0) (c_kouho c)) (first :: mid ++ x :: post))
    with (Some (S (length mid))); [apply swap0_app|].
  symmetry. cbn [position]. cbn in Hn.
  destruct (str_eqb_spec (dc_kouho first) (c_kouho c)) as [H|_]; [exfalso; apply Hn; now left|].
  assert (Hm : ~ In (c_kouho c) (texts mid)) by (intros H; apply Hn; now right).
  clear -Hm Hx. assert (G : position (fun d0 => str_eqb (dc_kouho d0) (c_kouho c)) (mid ++ x :: post) = Some (length mid)).
  { induction mid as [|y mid IH]; cbn.
    - now rewrite Hx, str_eqb_refl.
    - cbn in Hm. destruct (str_eqb_spec (dc_kouho y) (c_kouho c)) as [H|_]; [exfalso; apply Hm; now left|].
      rewrite IH by (intros H; apply Hm; now right). reflexivity. }
  now rewrite G.
Qed.
Theorem C25_refuted :
  let d := mkDict true (DUser (load_text (U "あい /一/二/三/")) false) in
  let c := mkCand (U "あい") None false (U "三") None (U "三") in
  texts (listed d false (U "あい") []) = [U "一"; U "二"; U "三"]
  /\ texts (listed (select_candidate d c) false (U "あい") []) = [U "三"; U "二"; U "一"].
Proof. vm_compute. auto. Qed.
Example C25_case :
  let d := mkDict true (DUser (load_text (U "あい /一/二/三/")) false) in
  let c := mkCand (U "あい") None false (U "二") None (U "二") in
  user d /\ nth_error (texts (listed d (c_okuri c) (c_midashi c) [])) 1 = Some (c_kouho c)
  /\ texts (listed (select_candidate d c) false (U "あい") []) = [U "二"; U "一"; U "三"].
Proof. vm_compute. auto. Qed.

(** * C27 *)
Lemma lst_remove_for o c m o' :
  lst o' (remove_for o c m) = if str_eqb o' o then remove_list (c_kouho c) (lst o m) else lst o' m.
Proof.
  unfold lst, remove_for. destruct (bget o m) as [l|] eqn:E.
  - rewrite bget_bset. destruct (str_eqb_spec o' o) as [->|]; reflexivity.
  - destruct (str_eqb_spec o' o) as [->|]; [rewrite E|]; reflexivity.
Qed.
Lemma listed_purge d k c ari m o : user d -> ck_okuri k <> Some [] ->
  listed (purge_candidate d k c) ari m o =
  if Bool.eqb ari (c_okuri c) && str_eqb m (c_midashi c) && concerns (ck_okuri k) o
  then remove_list (c_kouho c) (listed d ari m o) else listed d ari m o.
Proof.
  unfold user, listed, section, purge_candidate, dict_ents. destruct (d_kind d) as [|e h|]; try tauto. intros _ Hk.
  cbn [d_kind]. fold (lst o).
  assert (G : forall mp : lmap entry,
     match lpeek m (purge_in_map k c mp) with Some e0 => lst o (e_map e0) | None => [] end
     = if str_eqb m (c_midashi c) && concerns (ck_okuri k) o
       then remove_list (c_kouho c) (match lpeek m mp with Some e0 => lst o (e_map e0) | None => [] end)
       else match lpeek m mp with Some e0 => lst o (e_map e0) | None => [] end).
  { intros mp. unfold purge_in_map. rewrite lpeek_update.
    destruct (str_eqb_spec m (c_midashi c)) as [->|]; [|reflexivity].
    destruct (lpeek (c_midashi c) mp) as [e0|]; cbn [option_map andb].
    - unfold remove_matching_candidate, concerns. cbn [e_map]. rewrite lst_remove_for.
      destruct (ck_okuri k) as [s|] eqn:Ek.
      + destruct (str_eqb_spec o []) as [->|En].
        * cbn [is_nil orb]. rewrite lst_remove_for.
          destruct (str_eqb_spec [] s) as [E0|E0]; [exfalso; apply Hk; now rewrite <- E0|reflexivity].
        * assert (Ei : is_nil o = false) by now apply is_nil_false. rewrite Ei. cbn [orb].
          rewrite lst_remove_for. destruct (str_eqb_spec o s) as [->|]; reflexivity.
      + rewrite orb_false_r. destruct o; reflexivity.
    - destruct (concerns (ck_okuri k) o); reflexivity. }
  destruct ari, (c_okuri c); cbn [d_ari d_nashi Bool.eqb andb]; try reflexivity; apply G.
Qed.
Lemma remove_list_others k l :
  filter (fun d => negb (str_eqb (dc_kouho d) k)) (remove_list k l)
  = filter (fun d => negb (str_eqb (dc_kouho d) k)) l.
Proof.
  unfold remove_list. pose proof (position_spec (fun d => str_eqb (dc_kouho d) k) l) as H.
  destruct (position _ l) as [i|]; [|reflexivity].
  destruct H as (a & x & b & -> & <- & Hx & _). rewrite remove_nth_app, !filter_app. cbn. now rewrite Hx.
Qed.
Lemma remove_list_nodup k l : NoDup (texts l) -> ~ In k (texts (remove_list k l)).
Proof.
  unfold remove_list. pose proof (position_spec (fun d => str_eqb (dc_kouho d) k) l) as H.
  destruct (position _ l) as [i|].
  - destruct H as (a & x & b & -> & <- & Hx & _). apply str_eqb_eq in Hx. rewrite remove_nth_app.
    unfold texts. rewrite !map_app. cbn. rewrite Hx. apply NoDup_remove_2.
  - intros _ Hin. apply in_map_iff in Hin as (x & E & Hx). rewrite Forall_forall in H.
    specialize (H x Hx). apply str_eqb_neq in H. congruence.
Qed.
(** All other candidates remain, in order, in every list. *)
Theorem C27_others_kept : forall d k c ari m o, user d -> ck_okuri k <> Some [] ->
  others c (listed (purge_candidate d k c) ari m o) = others c (listed d ari m o).
Proof.
  intros d k c ari m o Hu Hk. rewrite listed_purge by assumption.
  destruct (_ && _ && _); [apply remove_list_others|reflexivity].
Qed.
(** When the lists concerned hold no text twice, the purged one is offered no more for any
    key of the same midashi and okurigana. *)
Theorem C27_purged_partial : forall d k c k', user d -> ck_okuri k <> Some [] ->
  ck_okuri k' = ck_okuri k -> get_dict_key k' = Ok (c_midashi c) -> c_okuri c = has_okuri k' ->
  (forall o, o = [] \/ ck_okuri k = Some o -> NoDup (texts (listed d (c_okuri c) (c_midashi c) o))) ->
  ~ holds [purge_candidate d k c] k' (c_kouho c).
Proof.
  intros d k c k' Hu Hk Hk' Hm Hok Hnd (d' & e & [<-|[]] & He & H).
  assert (G : forall o l, o = [] \/ ck_okuri k = Some o -> bget o (e_map e) = Some l ->
              ~ In (c_kouho c) (texts l)).
  { intros o l Ho Hl.
    assert (E : l = listed (purge_candidate d k c) (c_okuri c) (c_midashi c) o).
    { unfold lookup in He. unfold listed, section.
      destruct (d_kind (purge_candidate d k c)) eqn:Ek; try discriminate;
      rewrite Hm in He; cbn in He; rewrite <- Hok in He; injection He as He;
      rewrite He, Hl; reflexivity. }
    rewrite E, listed_purge by assumption. apply concerns_iff in Ho as Ho'.
    rewrite eqb_reflx, str_eqb_refl, Ho'. cbn [andb]. apply remove_list_nodup. now apply Hnd. }
  destruct H as [(o & l & Eo & Hl & Hin)|(l & Hl & Hin)].
  - apply (G o l); auto. right. rewrite <- Hk'. exact Eo.
  - apply (G [] l); auto.
Qed.
(** Through the API: the instruction Purge while a candidate is shown. *)
Theorem C27_purge_instruction : forall w s r c,
  frames w = s :: r -> cl_current (s_list s) = Some c -> NoDup (x_dicts (w_ctx w)) ->
  exists w', purge_current w = Ok (tt, w') /\
    forall j, dict_at j w' = if existsb (Nat.eqb j) (x_dicts (w_ctx w))
                             then option_map (fun d => purge_candidate d (cl_key (s_list s)) c) (dict_at j w)
                             else dict_at j w.
Proof.
  intros w s r c Hs Hc Hnd. unfold purge_current, bind, cur. unfold frames in Hs.
  rewrite Hs, Hc. unfold for_dicts, modcur. cbn [set_store w_ctx]. rewrite Hs.
  eexists. split; [reflexivity|]. intros j.
  unfold dict_at, set_stack. cbn [w_store set_store]. now rewrite upd_dicts_nth by exact Hnd.
Qed.
Theorem C27_refuted :
  let d := mkDict true (DUser (load_text (U "あい /愛/藍/愛/")) false) in
  let k := mkCK (U "あい") None in
  let c := mkCand (U "あい") None false (U "愛") None (U "愛") in
  rmap (map c_kouho) (exact_candidates [purge_candidate d k c] k) = Ok [U "藍"; U "愛"].
Proof. vm_compute. reflexivity. Qed.
Example C27_case :
  let d := mkDict true (DUser (load_text (U "あい /愛/藍/哀/")) false) in
  let k := mkCK (U "あい") None in
  let c := mkCand (U "あい") None false (U "藍") None (U "藍") in
  user d /\ get_dict_key k = Ok (c_midashi c)
  /\ rmap (map c_kouho) (exact_candidates [purge_candidate d k c] k) = Ok [U "愛"; U "哀"].
Proof. vm_compute. auto. Qed.

(** * C29 *)
Lemma lookup_section d k : d_kind d <> DEmpty ->
  lookup d k = rmap (fun key => lpeek key (section (has_okuri k) d)) (get_dict_key k).
Proof. unfold lookup, section. destruct (d_kind d); intros H; try reflexivity. congruence. Qed.
Lemma rmap_ext_ok {A B} (f g : A -> B) (r : res A) : (forall a, r = Ok a -> f a = g a) -> rmap f r = rmap g r.
Proof. destruct r; cbn; intros H; [now rewrite H|reflexivity]. Qed.
Theorem C29_confirm : forall d c,
  d_completable (select_candidate d c) = d_completable d
  /\ (forall k, (has_okuri k <> c_okuri c \/ get_dict_key k <> Ok (c_midashi c)) ->
        lookup (select_candidate d c) k = lookup d k)
  /\ (forall ari m, ari <> c_okuri c \/ m <> c_midashi c ->
        lpeek m (section ari (select_candidate d c)) = lpeek m (section ari d)).
Proof.
  intros d c.
  assert (G : forall ari m, ari <> c_okuri c \/ m <> c_midashi c ->
        lpeek m (section ari (select_candidate d c)) = lpeek m (section ari d)).
  { intros ari m H. unfold section, select_candidate, dict_ents. destruct (d_kind d) as [|e h|] eqn:Ek; rewrite ?Ek; try reflexivity.
    cbn [d_kind].
    assert (Gm : forall mp : lmap entry, m <> c_midashi c -> lpeek m (select_in_map c mp) = lpeek m mp).
    { intros mp Hm. unfold select_in_map. apply str_eqb_neq in Hm.
      destruct (lpeek (c_midashi c) mp); rewrite ?lpeek_update, ?lpeek_push, Hm; reflexivity. }
    destruct ari, (c_okuri c); cbn [d_ari d_nashi]; destruct H as [H|H]; try congruence; try reflexivity; now apply Gm. }
  split; [unfold select_candidate; destruct (d_kind d); reflexivity|split; [|exact G]].
  intros k H. destruct (d_kind d) as [|e h|] eqn:Ek.
  - unfold select_candidate. now rewrite Ek.
  - rewrite !lookup_section; [|congruence|unfold select_candidate; rewrite Ek; discriminate].
    apply rmap_ext_ok. intros a Ha. apply G. destruct H as [H|H]; [left|right]; congruence.
  - unfold select_candidate. now rewrite Ek.
Qed.
Theorem C29_purge : forall d k0 c,
  d_completable (purge_candidate d k0 c) = d_completable d
  /\ (forall k, (has_okuri k <> c_okuri c \/ get_dict_key k <> Ok (c_midashi c)) ->
        lookup (purge_candidate d k0 c) k = lookup d k)
  /\ (forall ari m, ari <> c_okuri c \/ m <> c_midashi c ->
        lpeek m (section ari (purge_candidate d k0 c)) = lpeek m (section ari d)).
Proof.
  intros d k0 c.
  assert (G : forall ari m, ari <> c_okuri c \/ m <> c_midashi c ->
        lpeek m (section ari (purge_candidate d k0 c)) = lpeek m (section ari d)).
  { intros ari m H. unfold section, purge_candidate, dict_ents. destruct (d_kind d) as [|e h|] eqn:Ek; rewrite ?Ek; try reflexivity.
    cbn [d_kind].
    assert (Gm : forall mp : lmap entry, m <> c_midashi c -> lpeek m (purge_in_map k0 c mp) = lpeek m mp).
    { intros mp Hm. unfold purge_in_map. apply str_eqb_neq in Hm. now rewrite lpeek_update, Hm. }
    destruct ari, (c_okuri c); cbn [d_ari d_nashi]; destruct H as [H|H]; try congruence; try reflexivity; now apply Gm. }
  split; [unfold purge_candidate; destruct (d_kind d); reflexivity|split; [|exact G]].
  intros k H. destruct (d_kind d) as [|e h|] eqn:Ek.
  - unfold purge_candidate. now rewrite Ek.
  - rewrite !lookup_section; [|congruence|unfold purge_candidate; rewrite Ek; discriminate].
    apply rmap_ext_ok. intros a Ha. apply G. destruct H as [H|H]; [left|right]; congruence.
  - unfold purge_candidate. now rewrite Ek.
Qed.
Example C29_case :
  let d := mkDict true (DUser (load_text (U "あい /愛/
うえ /上/")) false) in
  let c := mkCand (U "あい") None false (U "藍") None (U "藍") in
  get_dict_key (mkCK (U "うえ") None) <> Ok (c_midashi c)
  /\ lookup (select_candidate d c) (mkCK (U "あい") None) <> lookup d (mkCK (U "あい") None).
Proof. split; vm_compute; discriminate. Qed.
