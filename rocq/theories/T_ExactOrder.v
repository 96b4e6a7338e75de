(** Property C25, exactly: what confirming a candidate does to the order of the others. *)
From Coq Require Import Permutation.
From Verif Require Import Str Keys Modes DictTypes Parser Lru Dictionary CState Context Spec T_Dedup T_Entry.
Open Scope nat_scope.

(** In the lists it belongs to, a confirmed candidate that was not listed is added in front; one
    that was listed changes places with the first, and nothing else moves.  These are all the
    cases. *)
Theorem C25_result : forall d c o, user d -> o = [] \/ c_strict c = Some o ->
  let before := listed d (c_okuri c) (c_midashi c) o in
  let after := listed (select_candidate d c) (c_okuri c) (c_midashi c) o in
  (~ In (c_kouho c) (texts before) /\ after = dcand_of c :: before)
  \/ (nth_error (texts before) 0 = Some (c_kouho c) /\ after = before)
  \/ (exists first mid x post, before = first :: mid ++ x :: post /\ after = x :: mid ++ first :: post
        /\ dc_kouho x = c_kouho c /\ ~ In (c_kouho c) (texts (first :: mid))).
Proof.
  intros d c o Hu Ho. cbv zeta. pose proof (C25_swap_partial d c o) as Sw.
  pose proof (C24_confirm d c Hu o Ho) as Co. cbv zeta in Co. destruct Co as (_ & Co).
  set (before := listed d (c_okuri c) (c_midashi c) o) in *.
  set (after := listed (select_candidate d c) (c_okuri c) (c_midashi c) o) in *.
  destruct Co as [Co|(Hin & _)]; [left; exact Co|right].
  pose proof (position_spec (fun y => str_eqb (dc_kouho y) (c_kouho c)) before) as P.
  destruct (position _ before) as [i|] eqn:Ei.
  2:{ exfalso. now apply not_listed in P. }
  destruct P as (a & x & b & Eb & _ & Hx & Ha). apply str_eqb_eq in Hx. apply not_listed in Ha.
  destruct a as [|f mid].
  - left. cbn [app] in Eb. rewrite Eb. cbn. rewrite Hx. split; [reflexivity|].
    unfold after. apply concerns_iff in Ho. rewrite listed_select by exact Hu.
    rewrite eqb_reflx, str_eqb_refl, Ho. cbn [andb]. fold before. rewrite Eb.
    unfold prioritize_list. cbn [position]. rewrite Hx, str_eqb_refl. reflexivity.
  - right. exists f, mid, x, b. cbn [app] in Eb. split; [exact Eb|]. split; [|split; [exact Hx|exact Ha]].
    unfold after. apply Sw; auto.
Qed.

Lemma rotate_same {A} (f : A) l : f :: l = l ++ [f] -> forall y, In y l -> y = f.
Proof.
  induction l as [|z l IH]; [intros _ y []|]. cbn. intros E y. injection E as E1 E2. subst z.
  intros [<-|Hy]; [reflexivity|]. now apply IH.
Qed.

(** If no text is listed twice, the others keep their order exactly when the candidate was new,
    or was first or second. *)
Theorem C25_exact : forall d c o, user d -> o = [] \/ c_strict c = Some o ->
  let before := listed d (c_okuri c) (c_midashi c) o in
  let after := listed (select_candidate d c) (c_okuri c) (c_midashi c) o in
  NoDup (texts before) ->
  (others c after = others c before
   <-> ~ In (c_kouho c) (texts before)
       \/ nth_error (texts before) 0 = Some (c_kouho c) \/ nth_error (texts before) 1 = Some (c_kouho c)).
Proof.
  intros d c o Hu Ho before after Hnd. split; [|now apply C25_order_partial].
  destruct (C25_result d c o Hu Ho) as [(Hn & _)|[(H0 & _)|(f & mid & x & post & Eb & Ea & Hx & Hn)]]; [now left|right; now left|].
  fold before in Eb. fold after in Ea. rewrite Ea, Eb. intros E. right. right.
  destruct mid as [|y mid].
  { cbn. now rewrite Hx. }
  exfalso. assert (K : forall l, ~ In (c_kouho c) (texts l) -> others c l = l).
  { induction l as [|z l IH]; [reflexivity|]. cbn. intros H.
    destruct (str_eqb_spec (dc_kouho z) (c_kouho c)) as [Hz|_]; [exfalso; apply H; now left|].
    cbn. f_equal. apply IH. intros H'. apply H. now right. }
  assert (Kf : others c [f] = [f]) by (apply K; intros [H|[]]; apply Hn; now left).
  assert (Km : others c (y :: mid) = y :: mid) by (apply K; intros H; apply Hn; now right).
  assert (Kx : others c [x] = []) by (cbn; now rewrite Hx, str_eqb_refl).
  assert (Ap : forall a b, others c (a ++ b) = others c a ++ others c b) by (intros; apply filter_app).
  change (x :: (y :: mid) ++ f :: post) with ([x] ++ (y :: mid) ++ [f] ++ post) in E.
  change (f :: (y :: mid) ++ x :: post) with ([f] ++ (y :: mid) ++ [x] ++ post) in E.
  rewrite !Ap, Kf, Km, Kx in E. cbn [app] in E. change (y :: mid ++ f :: others c post) with ((y :: mid) ++ [f] ++ others c post) in E.
  change (f :: y :: mid ++ others c post) with ((f :: y :: mid) ++ others c post) in E.
  rewrite app_assoc in E. apply app_inv_tail in E.
  assert (y = f) by (apply (rotate_same f (y :: mid)); [now rewrite E|now left]). subst y.
  rewrite Eb in Hnd. cbn in Hnd. inversion Hnd as [|? ? Hf _]; subst. apply Hf. now left.
Qed.
Example C25_exact_case :
  let d := mkDict true (DUser (load_text (U "あい /一/二/三/四/")) false) in
  let c := mkCand (U "あい") None false (U "三") None (U "三") in
  user d /\ texts (listed d false (U "あい") []) = [U "一"; U "二"; U "三"; U "四"]
  /\ NoDup (texts (listed d false (U "あい") []))
  /\ texts (listed (select_candidate d c) false (U "あい") []) = [U "三"; U "二"; U "一"; U "四"].
Proof.
  split; [exact I|]. assert (E : texts (listed (mkDict true (DUser (load_text (U "あい /一/二/三/四/")) false)) false (U "あい") []) = [U "一"; U "二"; U "三"; U "四"]) by (vm_compute; reflexivity).
  split; [exact E|]. rewrite E. split; [|vm_compute; reflexivity].
  repeat (apply NoDup_cons; [vm_compute; intros H; repeat destruct H as [H|H]; try discriminate H; exact H|]). apply NoDup_nil.
Qed.
