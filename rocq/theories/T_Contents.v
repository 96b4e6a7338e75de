(** Property C92: what a dictionary is does not matter, what it holds does. *)
From Coq Require Import Lia.
From Verif Require Import Str Keys Modes KanaBuilder FormChanger DictTypes Parser Lru Dictionary
  CState Context DefaultRule Demo Spec P_Dict T_Save P_Alike T_Entry T_Dedup P_Contents T_Frames.

(* ------------------------------------------------------------- specification *)
(** The dictionary made by skk_empty_dict_new. *)
Definition is_empty_dict (d : dict) : Prop := d_kind d = DEmpty.
(** The dictionaries of a context, in order, without those. *)
Inductive holding : list dict -> list dict -> Prop :=
| holding_nil : holding [] []
| holding_empty d l r : is_empty_dict d -> holding l r -> holding (d :: l) r
| holding_keep d l r : ~ is_empty_dict d -> holding l r -> holding (d :: l) (d :: r).
(** Two contexts that differ at most in the dictionaries. *)
Definition same_but_dictionaries (w w' : world) : Prop :=
  frames w = frames w' /\ x_cmd (w_ctx w) = x_cmd (w_ctx w') /\ x_kb (w_ctx w) = x_kb (w_ctx w')
  /\ x_kf (w_ctx w) = x_kf (w_ctx w') /\ x_am (w_ctx w) = x_am (w_ctx w') /\ x_cfg (w_ctx w) = x_cfg (w_ctx w').
(** Calls other than those that replace the dictionaries. *)
Definition no_replacement (o : op) : Prop := match o with OOther _ | OSetDictionaries _ => False | _ => True end.

(* -------------------------------------------------------------------- proofs *)
Lemma holding_kept l : holding l (filter kept l).
Proof.
  induction l as [|d l IH]; [constructor|]. cbn [filter]. unfold kept at 1; unfold is_empty_dict in *. destruct (d_kind d) eqn:E.
  - apply holding_keep; [unfold is_empty_dict; congruence|exact IH].
  - apply holding_keep; [unfold is_empty_dict; congruence|exact IH].
  - apply holding_empty; [exact E|exact IH].
Qed.
Lemma holding_is l r : holding l r -> filter kept l = r.
Proof.
  induction 1 as [|d l r E H IH|d l r E H IH]; [reflexivity| |]; cbn [filter]; unfold kept at 1; unfold is_empty_dict in *.
  - now rewrite E.
  - destruct (d_kind d); [now rewrite IH|now rewrite IH|congruence].
Qed.
(** C92: two contexts that differ only in which objects their dictionaries are, in empty dictionaries among them
    and in the order of entries in the files answer every call alike, for ever, and their dictionaries go on
    holding the same. *)
Theorem C92_contents : forall X dbg ops w w' l l',
  same_but_dictionaries w w' -> NoDup (x_dicts (w_ctx w)) -> NoDup (x_dicts (w_ctx w')) ->
  holding (ctx_dicts w) l -> holding (ctx_dicts w') l' -> Forall2 alike l l' -> Forall no_replacement ops ->
  match run X dbg ops w, run X dbg ops w' with
  | Ok (outs, w1), Ok (outs', w1') => outs = outs' /\ same_but_dictionaries w1 w1'
      /\ get_preedit X (w_ctx w1) = get_preedit X (w_ctx w1') /\ get_preedit_detail X (w_ctx w1) = get_preedit_detail X (w_ctx w1')
      /\ exists m m', holding (ctx_dicts w1) m /\ holding (ctx_dicts w1') m' /\ Forall2 alike m m'
  | Panic e, Panic e' => e = e'
  | _, _ => False
  end.
Proof.
  intros X dbg ops w w' l l' E N N' H H' A Ho. apply holding_is in H, H'.
  assert (G : rel (run X dbg ops w) (run X dbg ops w')).
  { apply sim_run.
    - eapply Forall_impl; [|exact Ho]. intros o Oo. split; intros x ->; exact Oo.
    - split; [split; [exact N|split; [exact N'|unfold contents; now rewrite H, H']]|exact E]. }
  unfold rel in G. destruct (run X dbg ops w) as [[outs w1]|e], (run X dbg ops w') as [[outs' w1']|e']; try exact G.
  destruct G as (-> & (_ & _ & F) & E1). split; [reflexivity|]. split; [exact E1|].
  destruct E1 as (S1 & _ & _ & S2 & _). split; [|split].
  - unfold get_preedit. now rewrite S1, S2.
  - unfold get_preedit_detail. now rewrite S1, S2.
  - exists (contents w1), (contents w1'). split; [apply holding_kept|split; [apply holding_kept|exact F]].
Qed.
Lemma alike_refl d : (forall ari, NoDup (map fst (section ari d))) -> alike d d.
Proof.
  intros H. split; [reflexivity|]. pose proof (H true) as H1. pose proof (H false) as H2. unfold section, dict_ents in H1, H2.
  destruct (d_kind d); [split; split; auto|split; split; auto|exact I].
Qed.
Lemma holding_app a b l m : holding a l -> holding b m -> holding (a ++ b) (l ++ m).
Proof. induction 1; cbn; intros; [assumption|now apply holding_empty; auto|now apply holding_keep; auto]. Qed.
(** Making a context with an empty dictionary among the others is the same as without it. *)
Theorem C92_empty : forall X dbg ops st r kf am a e b i c outs w1,
  NoDup (a ++ e :: b) -> is_empty_dict (nth e st empty_dict) -> Forall (fun d => forall ari, NoDup (map fst (section ari d))) st ->
  Forall no_replacement ops ->
  run X dbg ops (mkW st (ctx_new X r kf am (a ++ e :: b) i c)) = Ok (outs, w1) ->
  exists w1', run X dbg ops (mkW st (ctx_new X r kf am (a ++ b) i c)) = Ok (outs, w1') /\ same_but_dictionaries w1 w1'
    /\ get_preedit X (w_ctx w1) = get_preedit X (w_ctx w1').
Proof.
  intros X dbg ops st r kf am a e b i c outs w1 N He Hst Ho Hr.
  set (at_ := fun i => nth i st empty_dict).
  assert (Hu : forall i, forall ari, NoDup (map fst (section ari (at_ i)))).
  { intros j. unfold at_. destruct (nth_in_or_default j st empty_dict) as [H| ->].
    - rewrite Forall_forall in Hst. now apply Hst.
    - intros []; constructor. }
  pose proof (C92_contents X dbg ops (mkW st (ctx_new X r kf am (a ++ e :: b) i c)) (mkW st (ctx_new X r kf am (a ++ b) i c))
    (filter kept (map at_ a) ++ filter kept (map at_ b)) (filter kept (map at_ a) ++ filter kept (map at_ b))) as G.
  rewrite Hr in G. 
  destruct (run X dbg ops (mkW st (ctx_new X r kf am (a ++ b) i c))) as [[outs' w1']|p].
  - destruct G as (-> & G1 & G2 & _); [..|exists w1'; split; [reflexivity|split; [exact G1|exact G2]]].
    + repeat split.
    + exact N.
    + exact (NoDup_remove_1 _ _ _ N).
    + unfold ctx_dicts. cbn [w_ctx w_store ctx_new x_dicts]. rewrite map_app. apply holding_app; [apply holding_kept|].
      cbn [map]. apply holding_empty; [exact He|apply holding_kept].
    + unfold ctx_dicts. cbn [w_ctx w_store ctx_new x_dicts]. rewrite map_app. apply holding_app; apply holding_kept.
    + rewrite <- filter_app, <- map_app. generalize (a ++ b) as ids. intros ids. induction ids as [|j ids IH]; [constructor|].
      cbn [map filter]. destruct (kept (at_ j)); [constructor; [apply alike_refl, Hu|exact IH]|exact IH].
    + exact Ho.
  - exfalso. apply G; clear G.
    + repeat split.
    + exact N.
    + exact (NoDup_remove_1 _ _ _ N).
    + unfold ctx_dicts. cbn [w_ctx w_store ctx_new x_dicts]. rewrite map_app. apply holding_app; [apply holding_kept|].
      cbn [map]. apply holding_empty; [exact He|apply holding_kept].
    + unfold ctx_dicts. cbn [w_ctx w_store ctx_new x_dicts]. rewrite map_app. apply holding_app; apply holding_kept.
    + rewrite <- filter_app, <- map_app. generalize (a ++ b) as ids. intros ids. induction ids as [|j ids IH]; [constructor|].
      cbn [map filter]. destruct (kept (at_ j)); [constructor; [apply alike_refl, Hu|exact IH]|exact IH].
    + exact Ho.
Qed.
(** ** Another dictionary hides nothing. *)
Lemma holds_more ds ds' k t : incl ds ds' -> holds ds k t -> holds ds' k t.
Proof. intros I (d & e & H & R). exists d, e. split; [now apply I|exact R]. Qed.
Lemma exact_more ds ds' k cs cs' : incl ds ds' -> exact_candidates ds k = Ok cs -> exact_candidates ds' k = Ok cs' ->
  incl (map c_kouho cs) (map c_kouho cs').
Proof.
  intros I E E' t H. destruct (C21_offered _ _ _ E) as (_ & G & _). destruct (C21_offered _ _ _ E') as (_ & G' & _).
  apply G'. apply G in H. eapply holds_more; eauto.
Qed.
Lemma template_more ds ds' t n xs xs' : incl ds ds' -> template_texts ds t n = Ok xs -> template_texts ds' t n = Ok xs' -> incl xs xs'.
Proof.
  intros I. unfold template_texts. destruct (N.eqb t 48); [intros [= <-] [= <-]; apply incl_refl|]. destruct (N.eqb t 49); [intros [= <-] [= <-]; apply incl_refl|].
  destruct (N.eqb t 50); [intros [= <-] [= <-]; apply incl_refl|]. destruct (N.eqb t 51); [intros -> [= <-]; apply incl_refl|].
  destruct (N.eqb t 52).
  - destruct (exact_candidates ds _) as [cs|] eqn:E; [|discriminate]. destruct (exact_candidates ds' _) as [cs'|] eqn:E'; [|discriminate].
    intros [= <-] [= <-]. eapply exact_more; eauto.
  - destruct (N.eqb t 53); [intros -> [= <-]; apply incl_refl|intros [= <-] [= <-]; apply incl_refl].
Qed.
Lemma templates_more ds ds' : incl ds ds' -> forall ts ns cur cur' os os', incl cur cur' ->
  replace_templates ds ts ns cur = Ok os -> replace_templates ds' ts ns cur' = Ok os' -> incl os os'.
Proof.
  intros I. induction ts as [|t ts IH]; intros [|n ns] cur cur' os os' Hc; cbn [replace_templates]; try (intros [= <-] [= <-]; exact Hc).
  destruct cur as [|a cur]; [intros [= <-] _ x []|]. destruct cur' as [|a' cur']; [destruct (Hc a (or_introl eq_refl))|].
  destruct (template_texts ds t n) as [xs|] eqn:E; [|discriminate]. destruct (template_texts ds' t n) as [xs'|] eqn:E'; [|discriminate].
  cbn [rbind]. apply IH. intros x Hx. apply in_flat_map in Hx as (y & Hy & Hx). apply in_map_iff in Hx as (z & <- & Hz).
  apply in_flat_map. exists y. split; [now apply Hc|]. apply in_map_iff. exists z. split; [reflexivity|]. eapply template_more; eauto.
Qed.
Lemma res_map_in {A B} (f : A -> res B) l r : res_map f l = Ok r -> forall y, In y r <-> exists x, In x l /\ f x = Ok y.
Proof.
  revert r. induction l as [|x l IH]; cbn [res_map]; intros r.
  - intros [= <-] y. split; [intros []|intros (x & [] & _)].
  - destruct (f x) as [z|] eqn:E; [|discriminate]. cbn [rbind]. destruct (res_map f l) as [zs|]; [|discriminate]. intros [= <-] y.
    cbn [In]. rewrite (IH zs eq_refl y). split.
    + intros [<-|(x' & H & H')]; [exists x; auto|exists x'; auto].
    + intros (x' & [<-|H] & H'); [left; congruence|right; eauto].
Qed.
Lemma res_map_ok {A B} (f : A -> res B) l r x : res_map f l = Ok r -> In x l -> exists y, f x = Ok y /\ In y r.
Proof.
  revert r. induction l as [|a l IH]; cbn [res_map]; intros r; [intros _ []|].
  destruct (f a) as [z|] eqn:E; [|discriminate]. cbn [rbind]. destruct (res_map f l) as [zs|]; [|discriminate]. intros [= <-] [<-|H].
  - exists z. split; [exact E|now left].
  - destruct (IH zs eq_refl H) as (y & H1 & H2). exists y. split; [exact H1|now right].
Qed.
Lemma offered_exact ds k cs : exact_candidates ds k = Ok cs -> map c_output cs = map c_kouho cs.
Proof. intros E. destruct (C21_offered _ _ _ E) as (_ & _ & _ & F). apply map_ext_in. intros c Hc. rewrite Forall_forall in F. now apply F. Qed.
(** Every text offered for a reading is offered too when more dictionaries are asked. *)
Theorem C92_more : forall ds ds' k cs cs', incl ds ds' ->
  get_all_candidates ds k = Ok cs -> get_all_candidates ds' k = Ok cs' ->
  forall t, In t (map c_output cs) -> In t (map c_output cs').
Proof.
  intros ds ds' k cs cs' I E E' t Ht. unfold get_all_candidates in E, E'.
  destruct (exact_candidates ds k) as [ex|] eqn:X; [|discriminate]. destruct (exact_candidates ds' k) as [ex'|] eqn:X'; [|discriminate]. cbn [rbind] in E, E'.
  assert (B : In t (map c_output ex) -> In t (map c_output ex')).
  { rewrite (offered_exact _ _ _ X), (offered_exact _ _ _ X'). apply (exact_more ds ds' k ex ex' I X X'). }
  destruct (to_numeric_key k) as [k' ns]. destruct (ckey_eqb k' k); [injection E as <-; injection E' as <-; now apply B|].
  destruct (exact_candidates ds k') as [nc|] eqn:Y; [|discriminate]. destruct (exact_candidates ds' k') as [nc'|] eqn:Y'; [|discriminate]. cbn [rbind] in E, E'.
  destruct (res_map (replace_numeric_match ds ns) nc) as [ll|] eqn:R; [|discriminate]. destruct (res_map (replace_numeric_match ds' ns) nc') as [ll'|] eqn:R'; [|discriminate].
  injection E as <-. injection E' as <-. rewrite map_app, in_app_iff in *. destruct Ht as [Ht|Ht]; [left; now apply B|right].
  apply in_map_iff in Ht as (x & <- & Hx). apply in_concat in Hx as (l & Hl & Hx). apply (res_map_in _ _ _ R) in Hl as (c & Hc & Fc).
  unfold replace_numeric_match in Fc. destruct (replace_numeric_string ds (c_kouho c) ns) as [os|] eqn:O; [|discriminate]. injection Fc as <-.
  apply in_map_iff in Hx as (o & <- & Ho). cbn [c_output with_output].
  assert (K : In (c_kouho c) (map c_kouho nc')) by (apply (exact_more ds ds' k' nc nc' I Y Y'); now apply in_map).
  apply in_map_iff in K as (c' & Ec & Hc'). destruct (res_map_ok _ _ _ c' R' Hc') as (l' & Fl & Hl').
  unfold replace_numeric_match in Fl. rewrite Ec in Fl. destruct (replace_numeric_string ds' (c_kouho c) ns) as [os'|] eqn:O'; [|discriminate]. injection Fl as <-.
  apply in_map_iff. exists (with_output c' o). split; [reflexivity|]. apply in_concat. eexists. split; [exact Hl'|]. apply in_map.
  unfold replace_numeric_string in O, O'. exact (templates_more ds ds' I _ _ _ _ _ _ (incl_refl _) O O' o Ho).
Qed.
(** ** Non-vacuity. *)
Definition made (ids : list nat) (st : list dict) : world :=
  mkW st (ctx_new ascii_xkb default_rule default_kana_form default_ascii_map ids Hiragana Direct).
(** A user file between two empty dictionaries, and a shipped file: the second candidate is confirmed, and comes
    first when the word is asked for again. *)
Definition with_empties : list dict := [user_dict dic_small; empty_dict; static_dict [U "あい /藍/愛/"]].
Definition twice_keys : list op := map OKey (dkeys (U "A i space space Return A i space")).
Lemma keys_no_replacement ks : Forall no_replacement (map OKey ks).
Proof. induction ks; cbn; constructor; [exact I|assumption]. Qed.
Example C92_case : exists outs w w',
  run ascii_xkb false twice_keys (made [0; 1; 2] with_empties) = Ok (outs, w)
  /\ run ascii_xkb false twice_keys (made [0; 2] with_empties) = Ok (outs, w')
  /\ get_preedit ascii_xkb (w_ctx w) = U "哀▼哀" /\ get_preedit ascii_xkb (w_ctx w') = U "哀▼哀".
Proof.
  destruct (run_case (run ascii_xkb false twice_keys (made [0; 1; 2] with_empties)) (fun w => get_preedit ascii_xkb (w_ctx w)) (U "哀▼哀"))
    as (outs & w & E & P); [vm_compute; reflexivity|].
  destruct (C92_empty ascii_xkb false twice_keys with_empties default_rule default_kana_form default_ascii_map [0] 1 [2] Hiragana Direct outs w)
    as (w' & E' & _ & P').
  - cbn. repeat constructor; cbn; intuition congruence.
  - reflexivity.
  - assert (G : forallb (fun d => T_Frames.nodupb (map fst (section true d)) && T_Frames.nodupb (map fst (section false d))) with_empties = true) by (vm_compute; reflexivity).
    apply Forall_forall. intros d Hd ari. rewrite forallb_forall in G. specialize (G d Hd). apply andb_prop in G as (G1 & G2).
    destruct ari; apply T_Frames.nodupb_spec; assumption.
  - apply keys_no_replacement.
  - exact E.
  - exists outs, w, w'. split; [exact E|]. split; [exact E'|]. split; [exact P|]. rewrite <- P'. exact P.
Qed.
(** One more dictionary: what was offered is offered still. *)
Example C92_more_case : exists cs cs',
  get_all_candidates [static_dict [U "だい# /第#1/"]] (mkCK (U "だい5") None) = Ok cs
  /\ get_all_candidates [user_dict dic_small; static_dict [U "だい# /第#1/"]] (mkCK (U "だい5") None) = Ok cs'
  /\ map c_output cs = [U "第５"] /\ map c_output cs' = [U "第５"; U "第五"].
Proof. eexists _, _. split; [vm_compute; reflexivity|]. split; [vm_compute; reflexivity|]. split; vm_compute; reflexivity. Qed.
