(** C69: making a context and switching its rule; C70: where data files are looked for. *)
From Verif Require Import Str Keys Modes KanaBuilder FormChanger DictTypes Dictionary CState Context
  DefaultRule Spec T_KeyParse Setup.

(* ------------------------------------------------------------------ specification *)
(** The key texts of a rule file are ASCII (C45: all such texts parse or are refused). *)
Definition ascii_keys (t : rule_table) : Prop := Forall (fun r => ascii (snd (fst r))) (snd t).
(** Whatever file is found for [p] is readable and parses; so does the empty text. *)
Definition found_fine {A} (parse : str -> option A) (e : environment) (f : files) (p : str) : Prop :=
  parse [] <> None /\
  forall q, search_path e f p = Some q -> exists s, read_text f q = Some s /\ parse s <> None.

(** A path inside a directory: an absolute path is itself, any other goes behind the directory and one slash. *)
Definition relative (p : str) : Prop := forall q, p <> 47%N :: q.
Inductive joins : str -> str -> str -> Prop :=
| joins_absolute d p : joins d (47%N :: p) (47%N :: p)
| joins_nowhere p : relative p -> joins [] p p
| joins_slash d p : relative p -> joins (d ++ [47%N]) p (d ++ [47%N] ++ p)
| joins_name d c p : c <> 47%N -> relative p -> joins (d ++ [c]) p (d ++ [c] ++ [47%N] ++ p).

(** XDG base directory specification: variables that are not set or empty have defaults, the
    user's directory comes first, then the others in order; relative directories do not count. *)
Definition absolute (d : str) : bool := is_prefixb (U "/") d.
Definition or_default (o : option str) (d : list str) (g : str -> list str) : list str :=
  match o with Some (c :: r) => g (c :: r) | _ => d end.
Definition data_dirs (e : environment) : list str :=
  filter absolute
    (or_default (v_data_home e) (match v_home e with Some h => [h ++ U "/.local/share"] | None => [] end) (fun d => [d])
     ++ or_default (v_data_dirs e) [U "/usr/local/share/"; U "/usr/share/"] (split_on 58)).
Definition there (f : files) (p : str) : bool := match f p with Some _ => true | None => false end.
Definition first_found (f : files) (ps : list str) : option str := find (there f) ps.
(** the variables that are set are not empty and name absolute directories *)
Definition sensible (e : environment) : Prop :=
  (forall d, v_data_home e = Some d -> absolute d = true)
  /\ (forall h, v_home e = Some h -> absolute h = true)
  /\ (forall s, v_data_dirs e = Some s -> forallb absolute (split_on 58 s) = true).
(** the variables that count name directories by absolute paths: those of the system always, the user's own if it
    is set, the home directory only if it is not (an empty home directory does no harm) *)
Definition well_set (e : environment) : Prop :=
  (forall d, v_data_home e = Some d -> absolute d = true)
  /\ (v_data_home e = None -> forall h, v_home e = Some h -> h = [] \/ absolute h = true)
  /\ (forall s, v_data_dirs e = Some s -> forall d, In d (split_on 58 s) -> absolute d = true).

Lemma path_push_joins d p : joins d p (path_push d p).
Proof.
  assert (E : forall q, relative q -> joins d q (if is_nil d || is_suffixb (U "/") d then d ++ q else d ++ U "/" ++ q)).
  { intros q Hq.
    destruct d as [|x d0] eqn:Ed; [cbn; now constructor|]. rewrite <- Ed.
    assert (Hd : d <> []) by (rewrite Ed; discriminate). destruct (exists_last Hd) as (b & c & ->).
    replace (is_nil (b ++ [c])) with false by (destruct b; reflexivity). cbn [orb].
    destruct (is_suffixb (U "/") (b ++ [c])) eqn:S.
    - apply is_suffixb_spec in S as (a & S). change (U "/") with [47%N] in S. apply app_inj_tail in S as (-> & ->).
      rewrite <- app_assoc. now constructor.
    - rewrite <- app_assoc. change (U "/") with [47%N]. constructor; [|exact Hq]. intros ->.
      assert (G : is_suffixb (U "/") (b ++ [47%N]) = true) by (apply is_suffixb_spec; exists b; reflexivity). congruence. }
  unfold path_push. destruct p as [|c p].
  - specialize (E [] ltac:(intros q; discriminate)). now rewrite !app_nil_r in E.
  - destruct (N.eqb_spec c 47) as [->|Hc]; [constructor|]. apply E. intros q [= -> _]. now apply Hc.
Qed.

(* --------------------------------------------------------------------------- C70 *)
Lemma find_map_in {A B} (g : A -> B) (p : B -> bool) l : find p (map g l) = option_map g (find (fun x => p (g x)) l).
Proof. induction l as [|x l IH]; cbn; auto. destruct (p (g x)); auto. Qed.
Lemma absolute_app d t : absolute d = true -> absolute (d ++ t) = true.
Proof. destruct d; [discriminate|auto]. Qed.
Lemma filter_all {A} (p : A -> bool) l : forallb p l = true -> filter p l = l.
Proof. induction l as [|x l IH]; cbn; auto. intros H. apply andb_prop in H as [-> H]. now rewrite IH. Qed.
Lemma absolute_nonempty d : absolute d = true -> exists c r, d = c :: r.
Proof. destruct d; [discriminate|eauto]. Qed.
Theorem C70_partial : forall e f p, sensible e ->
  search_path e f p = first_found f (map (fun d => d ++ U "/" ++ p) (data_dirs e)).
Proof.
  intros e f p (Hdh & Hh & Hds). unfold first_found, data_dirs. change (there f) with (path_exists f).
  rewrite filter_app, map_app.
  assert (Happ : forall l1 l2 : list str, find (path_exists f) (l1 ++ l2)
    = match find (path_exists f) l1 with Some x => Some x | None => find (path_exists f) l2 end).
  { intros l1 l2. induction l1 as [|x l1 IH]; cbn; auto. destruct (path_exists f x); auto. }
  rewrite Happ. unfold search_path.
  match goal with |- match ?a with Some _ => _ | None => _ end = match ?b with Some _ => _ | None => _ end =>
    assert (E1 : a = b); [|rewrite <- E1; destruct a; [reflexivity|]] end.
  { destruct (v_data_home e) as [d|].
    - destruct (absolute_nonempty _ (Hdh _ eq_refl)) as (c & r & ->). cbn [or_default].
      rewrite filter_all by (cbn [forallb]; rewrite (Hdh _ eq_refl); reflexivity). reflexivity.
    - cbn [or_default]. destruct (v_home e) as [h|]; [|reflexivity].
      rewrite filter_all by (cbn [forallb]; rewrite absolute_app by (apply Hh; reflexivity); reflexivity). reflexivity. }
  rewrite find_map_in.
  assert (E2 : filter absolute (or_default (v_data_dirs e) [U "/usr/local/share/"; U "/usr/share/"] (split_on 58))
    = split_on 58 (match v_data_dirs e with Some s => s | None => U "/usr/local/share/:/usr/share/" end)).
  { destruct (v_data_dirs e) as [s|].
    - destruct s as [|c r].
      + specialize (Hds [] eq_refl). discriminate.
      + cbn [or_default]. now rewrite filter_all by now apply Hds.
    - cbn [or_default]. rewrite filter_all; vm_compute; reflexivity. }
  rewrite E2. unfold in_dir.
  match goal with |- match ?a with Some _ => _ | None => _ end = _ => destruct a; reflexivity end.
Qed.
(** Exactly when the files are looked for as the specification says. *)
Definition tried (e : environment) : list str :=
  match v_data_home e with
  | Some d => [d]
  | None => match v_home e with Some h => [h ++ U "/.local/share"] | None => [] end
  end ++ split_on 58 (match v_data_dirs e with Some s => s | None => U "/usr/local/share/:/usr/share/" end).
Lemma search_tried e f p : search_path e f p = first_found f (map (fun d => d ++ U "/" ++ p) (tried e)).
Proof.
  unfold search_path, tried, first_found. change (there f) with (path_exists f). fold (in_dir).
  assert (G : forall l, find (path_exists f) (map (fun d => d ++ U "/" ++ p) l)
    = match find (fun d => path_exists f (in_dir d p)) l with Some d => Some (in_dir d p) | None => None end).
  { induction l as [|d l IH]; [reflexivity|]. cbn [map find]. unfold in_dir at 1. destruct (path_exists f (d ++ U "/" ++ p)); [reflexivity|exact IH]. }
  destruct (v_data_home e) as [d|]; [|destruct (v_home e) as [h|]]; cbn [app map find]; rewrite ?G; unfold in_dir at 1 2; try reflexivity.
  - destruct (path_exists f (d ++ U "/" ++ p)); reflexivity.
  - destruct (path_exists f ((h ++ U "/.local/share") ++ U "/" ++ p)); reflexivity.
Qed.
Lemma well_set_tried e : well_set e <-> Forall (fun d => absolute d = true) (tried e).
Proof.
  unfold tried. rewrite Forall_app. split.
  - intros (H1 & H2 & H3). split.
    + destruct (v_data_home e) as [d|]; [repeat constructor; auto|]. destruct (v_home e) as [h|]; [|constructor].
      constructor; [|constructor]. destruct (H2 eq_refl h eq_refl) as [->|H]; [reflexivity|now apply absolute_app].
    + apply Forall_forall. destruct (v_data_dirs e) as [s|]; [now apply H3|]. apply Forall_forall.
      assert (B : forallb absolute (split_on 58 (U "/usr/local/share/:/usr/share/")) = true) by (vm_compute; reflexivity).
      apply Forall_forall. now apply forallb_forall.
  - intros (H1 & H2). split; [|split].
    + intros d E. rewrite E in H1. now inversion H1.
    + intros E h Eh. rewrite E, Eh in H1. inversion H1 as [|? ? H]; subst. destruct h as [|c h]; [now left|right; exact H].
    + intros s E. rewrite E in H2. now apply Forall_forall.
Qed.
Lemma well_set_dirs e : well_set e -> data_dirs e = tried e.
Proof.
  intros H. pose proof (proj1 (well_set_tried e) H) as F. destruct H as (H1 & _ & H3).
  assert (Fb : forallb absolute (tried e) = true) by (apply forallb_forall; now apply Forall_forall).
  rewrite <- (filter_all absolute (tried e) Fb). unfold data_dirs, tried. f_equal. f_equal.
  - destruct (v_data_home e) as [d|]; [|reflexivity]. destruct (absolute_nonempty _ (H1 d eq_refl)) as (c & r & ->). reflexivity.
  - destruct (v_data_dirs e) as [[|c r]|]; [|reflexivity|vm_compute; reflexivity].
    specialize (H3 [] eq_refl [] (or_introl eq_refl)). discriminate.
Qed.
(** Whatever the name [p] of the file: the files are looked for as the specification says in every file system
    if and only if the environment is [well_set]. *)
Theorem C70_exact : forall e p,
  (forall f, search_path e f p = first_found f (map (fun d => d ++ U "/" ++ p) (data_dirs e))) <-> well_set e.
Proof.
  intros e p. split.
  - intros H. apply well_set_tried, Forall_forall. intros d Hd.
    set (f := fun q => if str_eqb q (d ++ U "/" ++ p) then Some Directory else None).
    assert (Hf : forall q, there f q = true -> q = d ++ U "/" ++ p).
    { intros q. unfold there, f. destruct (str_eqb q _) eqn:E; [|discriminate]. intros _. now apply str_eqb_eq. }
    specialize (H f). rewrite search_tried in H. unfold first_found in H.
    destruct (find (there f) (map (fun d => d ++ U "/" ++ p) (tried e))) as [q|] eqn:E.
    + symmetry in H. apply find_some in E as (_ & E). apply Hf in E as ->. apply find_some in H as (H & _).
      apply in_map_iff in H as (d' & Ed & H). apply app_inv_tail in Ed as ->. apply filter_In in H. apply H.
    + exfalso. assert (Hn := find_none _ _ E (d ++ U "/" ++ p) (in_map (fun d => d ++ U "/" ++ p) _ _ Hd)).
      unfold there, f in Hn. now rewrite (proj2 (str_eqb_eq _ _) eq_refl) in Hn.
  - intros H f. now rewrite search_tried, well_set_dirs.
Qed.
(** An empty XDG_DATA_HOME hides the files of the user, an empty XDG_DATA_DIRS those of the system. *)
Theorem C70_refuted :
  exists e e' f p, v_data_home e = Some [] /\ v_data_dirs e' = Some [] /\
    first_found f (map (fun d => d ++ U "/" ++ p) (data_dirs e)) = Some (U "/home/u/.local/share/a") /\
    search_path e f p = Some (U "/usr/share//a") /\
    first_found f (map (fun d => d ++ U "/" ++ p) (data_dirs e')) = Some (U "/usr/share//a") /\
    search_path e' f p = None.
Proof.
  exists (mkEnv (Some (U "/home/u")) (Some []) None), (mkEnv (Some (U "/root")) None (Some [])),
    (fun q => if str_eqb q (U "/home/u/.local/share/a") || str_eqb q (U "/usr/share//a") then Some (Text []) else None), (U "a").
  repeat split; vm_compute; reflexivity.
Qed.
Example C70_case :
  let e := mkEnv (Some (U "/home/u")) None (Some (U "/opt/share:/usr/share")) in
  sensible e /\ data_dirs e = [U "/home/u/.local/share"; U "/opt/share"; U "/usr/share"] /\
  search_path e (fun q => if is_suffixb (U "share/x/y") q then Some Directory else None) (U "x/y")
  = Some (U "/home/u/.local/share/x/y") /\
  search_path e (fun q => if is_prefixb (U "/usr") q then Some Directory else None) (U "x/y")
  = Some (U "/usr/share/x/y").
Proof.
  cbv zeta. split; [|split; [|split]]; [|vm_compute; reflexivity..].
  split; [|split]; cbn; intros ? H; inversion H; vm_compute; reflexivity.
Qed.
(** Met by an environment that is not [sensible] (the home directory does not count here), and not by one whose list of
    directories ends in a colon. *)
Example C70_exact_case :
  let e := mkEnv (Some (U "home")) (Some (U "/data")) None in
  let e' := mkEnv (Some (U "/home/u")) None (Some (U "/usr/share:")) in
  well_set e /\ ~ sensible e /\ ~ well_set e'.
Proof.
  cbv zeta. split; [|split].
  - split; [|split]; cbn; [|discriminate|discriminate]. intros d [= <-]. reflexivity.
  - intros (_ & H & _). specialize (H (U "home") eq_refl). discriminate.
  - intros (_ & _ & H). specialize (H (U "/usr/share:") eq_refl [] ltac:(vm_compute; auto)). discriminate.
Qed.

(* --------------------------------------------------------------------------- C69 *)
Lemma read_rows_total x l : Forall (fun r : row_src => ascii (snd (fst r))) l -> exists o, read_rows x l = Ok o.
Proof.
  induction l as [|[[[c i] k] is_] l IH]; intros H; cbn [read_rows]; [eauto|]. inversion H as [|? ? Hk Hl]; subst.
  destruct (C45_ascii_partial x k Hk) as [pk ->]. cbn. destruct pk as [|k']; [eauto|].
  assert (Hi : forall l, exists o, read_instrs l = Ok o).
  { clear. induction l as [|s l IH]; cbn; [eauto|]. destruct (C47_total s) as [o ->]. cbn. destruct o; [|eauto].
    destruct IH as [o ->]. cbn. eauto. }
  destruct (Hi is_) as [o ->]. cbn. destruct o as [is2|]; [|eauto]. destruct (IH Hl) as [o ->]. cbn. eauto.
Qed.
Lemma read_rule_total x t : ascii_keys t -> exists o, read_rule x t = Ok o.
Proof. intros H. unfold read_rule. destruct (read_rows_total x _ H) as [o ->]. cbn. eauto. Qed.

Section S.
Context (X : xkb) (toml_rule : str -> option rule_table) (toml_metadata : str -> option metadata)
  (toml_kana : str -> option kana_form) (toml_ascii : str -> option (list str * list str)).
(** the rule file that is read has ASCII keys *)
Definition rules_fine (f : files) : Prop := forall p s t, read_text f p = Some s -> toml_rule s = Some t -> ascii_keys t.
Lemma load_total f m id : rules_fine f -> exists o, load_rule X toml_rule f m id = Ok o.
Proof.
  intros H. unfold load_rule. destruct (assoc_str id (snd m)) as [e|]; [|eauto].
  unfold load_rule_file. destruct (read_text f _) as [s|] eqn:E; [|eauto].
  destruct (toml_rule s) as [t|] eqn:Et; [|eauto]. eapply read_rule_total, H; eauto.
Qed.
Lemma kana_total e f : found_fine toml_kana e f (U "libcskk/rule/kana_form.toml") ->
  exists kf, default_kana_changer toml_kana e f = Ok kf.
Proof.
  intros [H0 H]. unfold default_kana_changer. destruct (search_path e f _) as [p|].
  - destruct (H p eq_refl) as (s & -> & Hs). destruct (toml_kana s); [eauto|congruence].
  - destruct (toml_kana []); [eauto|congruence].
Qed.
Lemma ascii_total e f : found_fine toml_ascii e f (U "libcskk/rule/ascii_form.toml") ->
  exists am, default_ascii_changer toml_ascii e f = Ok am.
Proof.
  intros [H0 H]. unfold default_ascii_changer. destruct (search_path e f _) as [p|].
  - destruct (H p eq_refl) as (s & -> & Hs). destruct (toml_ascii s) as [[h z]|]; [eauto|congruence].
  - destruct (toml_ascii []) as [[h z]|]; [eauto|congruence].
Qed.
End S.

(** With form files and rule files in order, making a context with the fallback always succeeds;
    the context is fresh, in the modes asked for, over the dictionaries given; it is the one that
    [context_new] makes, or, where that reports an error, one without conversion and commands. *)
Theorem C69_fallback_partial : forall X toml_rule toml_metadata toml_kana toml_ascii e f rules ds i c,
  found_fine toml_kana e f (U "libcskk/rule/kana_form.toml") ->
  found_fine toml_ascii e f (U "libcskk/rule/ascii_form.toml") ->
  rules_fine toml_rule f ->
  exists x, context_new_with_empty_fallback X toml_rule toml_metadata toml_kana toml_ascii e f rules ds i c = Ok x
    /\ (forall st, started X (mkW st x)) /\ x_dicts x = ds /\ x_stack x = [st_new i c] /\ x_cfg x = default_config
    /\ (context_new X toml_rule toml_metadata toml_kana toml_ascii e f rules ds i c = Ok (Some x)
        \/ (context_new X toml_rule toml_metadata toml_kana toml_ascii e f rules ds i c = Ok None
            /\ x_kb x = kb_empty /\ forall c i, x_cmd x c i = [])).
Proof.
  intros X tr tm tk ta e f rules ds i c Hk Ha Hr.
  destruct (kana_total tk e f Hk) as [kf Ek]. destruct (ascii_total ta e f Ha) as [am Ea].
  unfold context_new_with_empty_fallback.
  assert (H : (exists r, context_new X tr tm tk ta e f rules ds i c = Ok (Some (ctx_new X r kf am ds i c)))
              \/ context_new X tr tm tk ta e f rules ds i c = Ok None).
  { unfold context_new. destruct (load_metadata tm f rules) as [m|]; [|auto].
    destruct (load_total X tr f m (U "default") Hr) as [o ->]. cbn. destruct o as [r|]; [|auto].
    rewrite Ek, Ea. cbn. eauto. }
  destruct H as [[r ->]| ->]; cbn.
  - exists (ctx_new X r kf am ds i c). split; [reflexivity|]. split; [|repeat split; auto].
    intros st. exists st, kf, am, ds, i, c. left. eauto.
  - unfold context_new_empty. rewrite Ek, Ea. cbn. exists (ctx_new_empty kf am ds i c).
    split; [reflexivity|]. split; [|repeat split; auto].
    intros st. exists st, kf, am, ds, i, c. right. reflexivity.
Qed.
(** Without these conditions the fallback does not help: it panics on a form file that is there but
    does not parse or cannot be read, even with every rule in order, ... *)
Definition only (l : list (str * node)) : files := fun p => assoc_str p l.
Theorem C69_refuted : forall X toml_rule toml_metadata toml_kana toml_ascii ds i c broken,
  toml_kana broken = None ->
  exists e f,
    read_text f (U "/home/u/.local/share/libcskk/rule/kana_form.toml") = Some broken /\
    context_new_with_empty_fallback X toml_rule toml_metadata toml_kana toml_ascii e f None ds i c = Panic PanicExpect.
Proof.
  intros X tr tm tk ta ds i c broken Hb.
  exists (mkEnv (Some (U "/home/u")) None None),
    (only [(U "/home/u/.local/share/libcskk/rule/kana_form.toml", Text broken)]).
  set (f := only _).
  assert (E2 : read_text f (U "/home/u/.local/share/libcskk/rule/kana_form.toml") = Some broken)
    by (vm_compute; reflexivity).
  split; [exact E2|]. unfold context_new_with_empty_fallback, context_new, load_metadata. cbn [rbind].
  unfold context_new_empty, default_kana_changer.
  assert (E : search_path (mkEnv (Some (U "/home/u")) None None) f (U "libcskk/rule/kana_form.toml")
     = Some (U "/home/u/.local/share/libcskk/rule/kana_form.toml")) by (vm_compute; reflexivity).
  rewrite E, E2, Hb. reflexivity.
Qed.
(** ... and on a default rule that binds a key written in kana. *)
Theorem C69_kana_key_refuted : forall toml_rule toml_metadata toml_kana toml_ascii e ds i c m r name what conv instrs,
  toml_metadata m = Some [(U "default", mkMeta name what (U "default"))] ->
  toml_rule r = Some (conv, [(Direct, Hiragana, U "あ", instrs)]) ->
  let f := only [(U "/r/metadata.toml", Text m); (U "/r/default/rule.toml", Text r)] in
  context_new_with_empty_fallback ascii_xkb toml_rule toml_metadata toml_kana toml_ascii e f (Some (U "/r")) ds i c
  = Panic PanicIndex.
Proof.
  intros tr tm tk ta e ds i c m r name what conv instrs Hm Hr f.
  unfold context_new_with_empty_fallback, context_new, load_metadata.
  assert (E1 : read_text f (path_push (U "/r") (U "metadata.toml")) = Some m) by (vm_compute; reflexivity).
  rewrite E1, Hm. cbn [option_map]. unfold load_rule. cbn [snd fst].
  assert (E2 : assoc_str (U "default") [(U "default", mkMeta name what (U "default"))]
    = Some (mkMeta name what (U "default"))) by (vm_compute; reflexivity).
  rewrite E2. cbn [e_path]. unfold load_rule_file.
  assert (E3 : read_text f (path_push (path_push (U "/r") (U "default")) (U "rule.toml")) = Some r)
    by (vm_compute; reflexivity).
  rewrite E3, Hr. unfold read_rule. cbn [snd read_rows].
  assert (E4 : key_from_str ascii_xkb (U "あ") = Panic PanicIndex) by (vm_compute; reflexivity).
  rewrite E4. reflexivity.
Qed.

Ltac refused w := exists false, w; split; [reflexivity|]; split; [intros; reflexivity|]; do 6 (split; [reflexivity|]); discriminate.
(** Switching the rule: an error leaves the context as it was; success changes the commands and the
    conversion table and nothing else, so what is being typed goes on. *)
Theorem C69_set_rule : forall X toml_rule toml_metadata f rules id w,
  rules_fine toml_rule f ->
  exists done w', set_rule X toml_rule toml_metadata f rules id w = Ok (done, w')
    /\ (done = false -> w' = w)
    /\ w_store w' = w_store w /\ frames w' = frames w /\ x_dicts (w_ctx w') = x_dicts (w_ctx w)
    /\ x_cfg (w_ctx w') = x_cfg (w_ctx w) /\ x_kf (w_ctx w') = x_kf (w_ctx w) /\ x_am (w_ctx w') = x_am (w_ctx w)
    /\ (done = true -> exists d m e s t r p1 p2 p3,
          rules = Some d /\ joins d (U "metadata.toml") p1 /\ f p1 = Some (Text m) /\
          (exists names, toml_metadata m = Some names /\ assoc_str id names = Some e) /\
          joins d (e_path e) p2 /\ joins p2 (U "rule.toml") p3 /\ f p3 = Some (Text s) /\
          toml_rule s = Some t /\ read_rule X t = Ok (Some r) /\
          run X true [OSetRule r] w = Ok ([OutUnit], w')).
Proof.
  intros X tr tm f rules id w Hr. unfold set_rule, load_metadata.
  destruct rules as [d|]; [|refused w].
  destruct (read_text f _) as [m|] eqn:Em; [|refused w].
  destruct (tm m) as [names|] eqn:En; [|refused w].
  cbn [option_map].
  unfold load_rule. cbn [snd fst].
  destruct (assoc_str id names) as [en|] eqn:Ee; [|refused w].
  unfold load_rule_file. destruct (read_text f (path_push (path_push d (e_path en)) _)) as [s|] eqn:Es; [|refused w].
  destruct (tr s) as [t|] eqn:Et; [|refused w].
  destruct (read_rule_total X t (Hr _ _ _ Es Et)) as [o Eo]. rewrite Eo. cbn [rbind].
  destruct o as [r|]; [|refused w].
  destruct w as [st x]. cbn.
  eexists true, _. split; [reflexivity|]. split; [discriminate|]. do 6 (split; [reflexivity|]).
  intros _. exists d, m, en, s, t, r, (path_push d (U "metadata.toml")), (path_push d (e_path en)), (path_push (path_push d (e_path en)) (U "rule.toml")).
  assert (T : forall p z, read_text f p = Some z -> f p = Some (Text z)).
  { intros p z. unfold read_text. destruct (f p) as [[]|]; congruence. }
  split; [reflexivity|]. split; [apply path_push_joins|]. split; [now apply T|]. split; [exists names; auto|].
  do 2 (split; [apply path_push_joins|]). split; [now apply T|]. do 2 (split; [assumption|]). reflexivity.
Qed.

(** A case: the shipped default rule and forms; then the shipped azik rule; then a name that is not there. *)
Definition the_files : files :=
  only [(U "/r/metadata.toml", Text (U "m")); (U "/r/default/rule.toml", Text (U "d"));
        (U "/r/azik/rule.toml", Text (U "a"));
        (U "/usr/share//libcskk/rule/kana_form.toml", Text (U "k"))].
Definition the_metadata (s : str) : option metadata :=
  if str_eqb s (U "m") then Some [(U "default", mkMeta [] [] (U "default")); (U "azik", mkMeta [] [] (U "azik"))] else None.
Definition the_rules (s : str) : option rule_table :=
  if str_eqb s (U "d") then Some ([(U "a", ([], U "あ"))], default_rows_src)
  else if str_eqb s (U "a") then Some ([(U "a", ([], U "あ"))], azik_rows_src) else None.
Definition the_kana (s : str) : option kana_form :=
  if is_nil s || str_eqb s (U "k") then Some default_kana_form else None.
Definition the_ascii (s : str) : option (list str * list str) := if is_nil s then Some ([], []) else None.
Example C69_case :
  let e := mkEnv (Some (U "/home/u")) None None in
  found_fine the_kana e the_files (U "libcskk/rule/kana_form.toml") /\
  found_fine the_ascii e the_files (U "libcskk/rule/ascii_form.toml") /\
  rules_fine the_rules the_files /\
  match context_new ascii_xkb the_rules the_metadata the_kana the_ascii e the_files (Some (U "/r")) [] Hiragana Direct with
  | Ok (Some x) =>
      (match set_rule ascii_xkb the_rules the_metadata the_files (Some (U "/r")) (U "azik") (mkW [] x) with
       | Ok (b, _) => b | Panic _ => false end,
       match set_rule ascii_xkb the_rules the_metadata the_files (Some (U "/r")) (U "dvorak") (mkW [] x) with
       | Ok (b, _) => b | Panic _ => true end)
  | _ => (false, true)
  end = (true, false).
Proof.
  cbv zeta. split; [|split; [|split]].
  - split; [vm_compute; discriminate|]. intros q.
    assert (E : search_path (mkEnv (Some (U "/home/u")) None None) the_files (U "libcskk/rule/kana_form.toml")
      = Some (U "/usr/share//libcskk/rule/kana_form.toml")) by (vm_compute; reflexivity).
    rewrite E. intros H. injection H as <-. exists (U "k"). split; vm_compute; [reflexivity|discriminate].
  - split; [vm_compute; discriminate|]. intros q.
    assert (E : search_path (mkEnv (Some (U "/home/u")) None None) the_files (U "libcskk/rule/ascii_form.toml")
      = None) by (vm_compute; reflexivity).
    rewrite E. discriminate.
  - intros p s t _. unfold the_rules.
    assert (Hb : forall l : list row_src, forallb (fun r => forallb (fun c => N.ltb 0 c && N.ltb c 128) (snd (fst r))) l = true ->
      Forall (fun r : row_src => ascii (snd (fst r))) l).
    { intros l H. rewrite forallb_forall in H. apply Forall_forall. intros r Hr. specialize (H r Hr).
      rewrite forallb_forall in H. apply Forall_forall. intros ch Hc. specialize (H ch Hc). apply andb_prop in H as [H1 H2]. apply N.ltb_lt in H1, H2. auto. }
    destruct (str_eqb s (U "d")); [|destruct (str_eqb s (U "a")); [|discriminate]];
      intros H; injection H as <-; unfold ascii_keys; cbn [snd]; apply Hb; vm_compute; reflexivity.
  - vm_compute. reflexivity.
Qed.
