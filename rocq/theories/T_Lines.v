(** Properties C52 (the lines of a file) and C88 (opening a dictionary comes to an end). *)
From Coq Require Import Lia.
From Verif Require Import Str DictTypes Parser Lru Dictionary Reader T_Load T_Save.
Open Scope nat_scope.

(* ------------------------------------------------------------- specification *)
(** The lines of a text: each ends with a newline, or a carriage return and a newline; the last may
    end with the text. *)
Inductive lines_of : str -> list str -> Prop :=
| lo_none : lines_of [] []
| lo_last l : l <> [] -> ~ In 10%N l -> lines_of l [l]
| lo_lf l t ls : ~ In 10%N l -> (forall l', l <> l' ++ [13%N]) -> lines_of t ls -> lines_of (l ++ 10%N :: t) (l :: ls)
| lo_crlf l t ls : ~ In 10%N l -> lines_of t ls -> lines_of (l ++ 13%N :: 10%N :: t) (l :: ls).
(** The readable lines before the n-th call. *)
Fixpoint readable (rd : line_reader) (n : nat) : list str :=
  match n with
  | O => []
  | S m => readable rd m ++ match rd m with ILine l => [l] | _ => [] end
  end.

(* -------------------------------------------------------------------- proofs *)
Lemma strip_cr_snoc l c : strip_cr (l ++ [c]) = if N.eqb c 13 then l else l ++ [c].
Proof.
  unfold strip_cr, strip_suffix_char. rewrite rev_app_distr. cbn. destruct (N.eqb c 13); [apply rev_involutive|].
  cbn. now rewrite rev_involutive.
Qed.
Lemma strip_cr_other l : (forall l', l <> l' ++ [13%N]) -> strip_cr l = l.
Proof.
  intros H. destruct l as [|c l] using rev_ind; [reflexivity|]. rewrite strip_cr_snoc.
  destruct (N.eqb_spec c 13) as [->|]; [|reflexivity]. exfalso. now apply (H l).
Qed.
Lemma text_lines_cons l t : ~ In 10%N l -> text_lines (l ++ 10%N :: t) = strip_cr l :: text_lines t.
Proof.
  intros H. unfold text_lines. rewrite split_on_line by exact H.
  destruct (split_on 10 t) as [|x r] eqn:E; [now apply split_on_nonempty in E|]. reflexivity.
Qed.
Lemma text_lines_last l : ~ In 10%N l -> text_lines l = if is_nil l then [] else [l].
Proof.
  intros H. unfold text_lines. replace (split_on 10 l) with [l]; [reflexivity|].
  unfold split_on. assert (G : forall acc, split_aux 10 acc l = [rev acc ++ l]).
  { induction l as [|c l IH]; intros acc; cbn [split_aux]; [now rewrite app_nil_r|].
    destruct (N.eqb_spec c 10) as [->|]; [exfalso; apply H; now left|].
    rewrite IH by (intros H'; apply H; now right). cbn. now rewrite <- app_assoc. }
  symmetry. apply G.
Qed.
Lemma first_newline (t : str) : (~ In 10%N t) \/ exists l r, ~ In 10%N l /\ t = l ++ 10%N :: r.
Proof.
  induction t as [|c t IH]; [left; intros []|]. destruct (N.eq_dec c 10) as [->|Hc].
  - right. exists [], t. split; [intros []|reflexivity].
  - destruct IH as [H|(l & r & H & ->)]; [left; intros [E|E]; [congruence|now apply H]|].
    right. exists (c :: l), r. split; [intros [E|E]; [congruence|now apply H]|reflexivity].
Qed.
(** A file is read line by line as specified. *)
Theorem C52_lines : forall t ls, text_lines t = ls <-> lines_of t ls.
Proof.
  intros t ls. split.
  - intros <-. remember (length t) as n eqn:En. assert (Hn : length t <= n) by lia. clear En. revert t Hn.
    induction n as [|n IH]; intros t Hn.
    { destruct t; [constructor|cbn in Hn; lia]. }
    destruct (first_newline t) as [H|(l & r & H & ->)].
    + rewrite text_lines_last by exact H. destruct t as [|c t]; [constructor|]. cbn [is_nil]. apply lo_last; [discriminate|exact H].
    + rewrite text_lines_cons by exact H. rewrite app_length in Hn. cbn [length] in Hn.
      specialize (IH r ltac:(lia)). destruct l as [|c l _] using rev_ind.
      * apply lo_lf; auto. intros [|? ?]; discriminate.
      * rewrite strip_cr_snoc. destruct (N.eqb_spec c 13) as [->|Hc].
        -- rewrite <- app_assoc. cbn [app]. apply lo_crlf; [|exact IH]. intros H'. apply H, in_or_app. now left.
        -- apply lo_lf; [exact H| |exact IH]. intros l' E. apply app_inj_tail in E as [_ E]. congruence.
  - induction 1 as [|l Hl H|l t ls H Hc L IH|l t ls H L IH].
    + reflexivity.
    + rewrite text_lines_last by exact H. destruct l; [congruence|reflexivity].
    + rewrite text_lines_cons by exact H. rewrite strip_cr_other by exact Hc. now rewrite IH.
    + change (l ++ 13%N :: 10%N :: t) with (l ++ [13%N] ++ 10%N :: t). rewrite app_assoc, text_lines_cons.
      * rewrite strip_cr_snoc, IH. reflexivity.
      * intros H'. apply in_app_iff in H' as [H'|[H'|[]]]; [now apply H|discriminate].
Qed.
Example C52_lines_case : text_lines (U "a" ++ [13; 10; 10]%N ++ U "b" ++ [13]%N) = [U "a"; []; U "b" ++ [13%N]].
Proof. vm_compute. reflexivity. Qed.
(** So a dictionary whose lines end with carriage returns and newlines is the same dictionary. *)
Theorem C52_crlf : forall ls, Forall (fun l => ~ In 10%N l /\ forall l', l <> l' ++ [13%N]) ls ->
  load_text (flat_map (fun l => l ++ [13; 10]%N) ls) = load_text (flat_map (fun l => l ++ [10]%N) ls).
Proof.
  intros ls H. unfold load_text. f_equal. transitivity ls; [|symmetry]; apply C52_lines; induction H as [|l ls (Hn & Hc) H IH]; try constructor.
  - cbn [flat_map]. rewrite <- app_assoc. cbn [app]. now apply lo_crlf.
  - cbn [flat_map]. rewrite <- app_assoc. cbn [app]. now apply lo_lf.
Qed.
Example C52_crlf_case : Forall (fun l => ~ In 10%N l /\ forall l', l <> l' ++ [13%N]) [U "あ /亜/"]
  /\ load_text (U "あ /亜/" ++ [13; 10]%N) = load_text (U "あ /亜/" ++ [10]%N)
  /\ load_text (U "あ /亜/" ++ [13]%N) = dents_empty.
Proof.
  split; [|split; vm_compute; reflexivity].
  constructor; [|constructor]. split.
  - vm_compute. intros H. repeat destruct H as [H|H]; try discriminate H. exact H.
  - intros l' E. apply (f_equal (fun l => last l 0%N)) in E. rewrite last_last in E. discriminate E.
Qed.

(* ----------------------------------------------------------------------- C88 *)
Lemma load_loop_at rd n : rd n = IEnd -> (forall m, m < n -> rd m <> IEnd) ->
  forall i st, i <= n -> load_loop rd i st (snd (fold_left load_line (skipn (length (readable rd i)) (readable rd n)) st)).
Proof.
  intros Hn Hm i st Hi. remember (n - i) as k eqn:Ek. revert i st Hi Ek.
  assert (Pre : forall a b, a <= b -> exists r, readable rd b = readable rd a ++ r).
  { intros a b Hab. induction Hab as [|b Hab (r & IH)]; [exists []; now rewrite app_nil_r|].
    cbn [readable]. rewrite IH, <- app_assoc. eexists. reflexivity. }
  induction k as [|k IH]; intros i st Hi Ek.
  - assert (i = n) by lia. subst i. rewrite skipn_all. now apply ll_end.
  - assert (Hlt : i < n) by lia. specialize (IH (S i)). destruct (Pre (S i) n Hlt) as (r & Er). rewrite Er in IH |- *.
    specialize (fun st => IH st Hlt ltac:(lia)).
    assert (Es : forall a : list str, skipn (length a) (a ++ r) = r) by (intros a; rewrite skipn_app, skipn_all, Nat.sub_diag; reflexivity).
    setoid_rewrite Es in IH. cbn [readable] in *. destruct (rd i) as [l| |] eqn:Ei.
    + rewrite <- app_assoc, skipn_app, skipn_all, Nat.sub_diag. cbn [app skipn fold_left]. eapply ll_line; eauto.
    + rewrite app_nil_r, Es. eapply ll_error; eauto.
    + exfalso. now apply (Hm i).
Qed.
Lemma load_loop_ends rd i st d : load_loop rd i st d -> exists n, i <= n /\ rd n = IEnd.
Proof. induction 1 as [i st E|i st l d E L (n & Hn & IH)|i st d E L (n & Hn & IH)]; [eauto|exists n; split; [lia|exact IH]..]. Qed.
Lemma load_loop_only rd i st d d' : load_loop rd i st d -> load_loop rd i st d' -> d = d'.
Proof.
  intros A. revert d'. induction A as [i st E|i st l d E A IH|i st d E A IH]; intros d' B;
    inversion B as [? ? E'|? ? ? ? E' B'|? ? ? E' B']; subst; rewrite E in E'; try discriminate E'; auto.
  injection E' as <-. auto.
Qed.
Lemma least (P : nat -> Prop) : (forall n, P n \/ ~ P n) -> forall n, P n -> exists m, P m /\ forall k, k < m -> ~ P k.
Proof.
  intros D n. induction n as [n IH] using (well_founded_induction lt_wf). intros H.
  assert (G : forall b, (exists k, k < b /\ P k) \/ forall k, k < b -> ~ P k).
  { induction b as [|b [(k & Hk & Pk)|Hb]]; [right; lia|left; exists k; split; [lia|exact Pk]|].
    destruct (D b) as [Pb|Nb]; [left; exists b; split; [lia|exact Pb]|]. right. intros k Hk.
    destruct (Nat.eq_dec k b) as [->|]; [exact Nb|]. apply Hb. lia. }
  destruct (G n) as [(k & Hk & Pk)|Hn]; [now apply (IH k)|]. exists n. auto.
Qed.
(** Reading ends exactly when the reader says once that there is no more; the dictionary then is that
    of the lines that could be read before. *)
Theorem C88_exact : forall rd d,
  (load_loop rd 0 (true, dents_empty) d
   <-> exists n, rd n = IEnd /\ (forall m, m < n -> rd m <> IEnd) /\ d = load_lines (readable rd n)).
Proof.
  intros rd d. split.
  - intros L. destruct (load_loop_ends _ _ _ _ L) as (n & _ & Hn).
    destruct (least (fun n => rd n = IEnd)) with (n := n) as (m & Hm & Hmin); [|exact Hn|].
    { intros k. destruct (rd k); [right; discriminate|right; discriminate|now left]. }
    exists m. split; [exact Hm|split; [exact Hmin|]].
    pose proof (load_loop_at rd m Hm Hmin 0 (true, dents_empty) ltac:(lia)) as L'. cbn in L'.
    exact (load_loop_only _ _ _ _ _ L L').
  - intros (n & Hn & Hm & ->). exact (load_loop_at rd n Hn Hm 0 (true, dents_empty) ltac:(lia)).
Qed.
Lemma firstn_of (ls : list str) n :
  firstn (S n) ls = firstn n ls ++ match of_lines ls IEnd n with ILine l => [l] | _ => [] end.
Proof.
  unfold of_lines. revert ls. induction n as [|n IH]; intros [|x ls]; try reflexivity.
  cbn [firstn nth_error app]. f_equal. exact (IH ls).
Qed.
(** A file that can be read to its end is opened, and what is opened is its text. *)
Theorem C88_file_partial : forall t d, opens (Some (RegularFile t)) (Some d) <-> d = load_text t.
Proof.
  intros t d. assert (R : forall ls n, readable (of_lines ls IEnd) n = firstn n ls).
  { intros ls n. induction n as [|n IH]; [reflexivity|]. cbn [readable]. rewrite IH. symmetry. apply firstn_of. }
  assert (E : forall n, lines_of_source (RegularFile t) n = IEnd <-> length (text_lines t) <= n).
  { intros n. cbn. unfold of_lines. destruct (nth_error (text_lines t) n) eqn:En.
    - split; [discriminate|]. intros L. apply nth_error_None in L. congruence.
    - apply nth_error_None in En. split; auto. }
  assert (L : load_loop (lines_of_source (RegularFile t)) 0 (true, dents_empty) d <-> d = load_text t).
  { rewrite C88_exact. split.
    - intros (n & Hn & Hm & ->). apply E in Hn. unfold load_text. f_equal.
      cbn [lines_of_source]. rewrite R. now rewrite firstn_all2.
    - intros ->. exists (length (text_lines t)). split; [now apply E|split].
      + intros m Hm H. apply E in H. lia.
      + unfold load_text. f_equal. cbn [lines_of_source]. rewrite R. now rewrite firstn_all. }
  rewrite <- L. split.
  - intros O. inversion O as [|src d' Es L']; subst. injection Es as <-. exact L'.
  - intros L'. now apply (op_loaded _ (RegularFile t)).
Qed.
(** A path that names nothing is refused. *)
Theorem C88_missing : forall r, opens None r <-> r = None.
Proof. intros r. split; [intros O; inversion O; subst; [reflexivity|discriminate]|intros ->; now constructor]. Qed.
(** The full claim is false: opening a directory, or a file that cannot be read to its end, never
    returns. *)
Theorem C88_refuted : (forall r, ~ opens (Some Directory) r) /\ (forall t r, ~ opens (Some (FailingFile t)) r).
Proof.
  split; [intros r O|intros t r O]; inversion O as [|src d Es L]; subst; try discriminate; injection Es as <-.
  - apply load_loop_ends in L as (n & _ & Hn). discriminate Hn.
  - apply load_loop_ends in L as (n & _ & Hn). cbn in Hn. unfold of_lines in Hn. destruct (nth_error _ _); discriminate Hn.
Qed.
Example C88_case : opens (Some (RegularFile (U "あ /亜/" ++ [10%N]))) (Some (load_text (U "あ /亜/"))).
Proof. apply C88_file_partial. vm_compute. reflexivity. Qed.
