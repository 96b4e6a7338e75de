(** C61: nothing blank is ever offered: dictionaries read from files, confirming, registering,
    purging, number templates and completion never produce a candidate without a text.
    Consequence for C54. *)
From Verif Require Import Str Keys Modes KanaBuilder FormChanger DictTypes Parser Lru
  Dictionary CState Context DefaultRule Demo Spec P_Monad P_Frames P_Inv P_Keeps P_Register P_Cands
  T_Num T_Unhandled P_Tidy T_Handled.

(** No candidate of any entry has the empty text. *)
Definition texted (e : entry) : Prop := forall o l dc, In (o, l) (e_map e) -> In dc l -> dc_kouho dc <> [].
Definition no_blank (d : dict) : Prop := forall m e,
  In (m, e) (d_ari (dict_ents d)) \/ In (m, e) (d_nashi (dict_ents d)) -> texted e.
(** What is shown and what is learnt both have a text. *)
Definition has_text (c : candidate) : Prop := c_kouho c <> [] /\ c_output c <> [].

(** * Parsing *)
Lemma span_nonempty f s a b : p_while1 f s = Some (a, b) -> a <> [].
Proof. unfold p_while1. destruct (span f s) as [[|x y] z]; [discriminate|]. now intros [= <- <-]. Qed.
Lemma replacen1_nonempty p r s : r <> [] -> s <> [] -> replacen1 p r s <> [].
Proof.
  unfold replacen1. intros Hr Hs. destruct (split_once p s) as [[a b]|]; [|exact Hs].
  intros E. apply app_eq_nil in E as [_ E]. apply app_eq_nil in E as [E _]. auto.
Qed.
Lemma fold_replacen1_nonempty (l : list (str * str)) : (forall m r, In (m, r) l -> r <> []) -> forall s, s <> [] ->
  fold_left (fun acc '(m, r) => replacen1 m r acc) l s <> [].
Proof.
  induction l as [|[m r] l IH]; intros Hl s Hs; [exact Hs|]. cbn. apply IH; [intros; eapply Hl; right; eauto|].
  apply replacen1_nonempty; [eapply Hl; left; eauto|exact Hs].
Qed.
Lemma unescape_nonempty s : s <> [] -> unescape s <> [].
Proof.
  destruct s as [|c r]; [congruence|]. intros _. cbn [unescape]. destruct (N.eqb c 92); [|discriminate].
  destruct r as [|c' r']; [discriminate|]. destruct (is_octal c'); discriminate.
Qed.
Lemma concat_replacement_nonempty m r : concat_replacement m = Some r -> r <> [].
Proof.
  unfold concat_replacement. intros H.
  match type of H with (if is_nil ?f then _ else _) = _ => destruct f as [|x f0] eqn:E end; [discriminate|].
  cbn [is_nil] in H. injection H as <-. apply unescape_nonempty.
  match goal with |- fold_left ?F ?L0 ?S0 <> [] => assert (G : forall l s, s <> [] -> fold_left F l s <> []) end.
  { clear. intros l. induction l as [|o l IH]; intros s Hs; [exact Hs|]. cbn. apply IH, replacen1_nonempty; [discriminate|exact Hs]. }
  apply G. discriminate.
Qed.
Lemma map_opt_in {A B} (f : A -> option B) l : forall ys, map_opt f l = Some ys -> forall y, In y ys -> exists x, In x l /\ f x = Some y.
Proof.
  induction l as [|x l IH]; intros ys; cbn [map_opt]; [intros [= <-] y []|].
  destruct (f x) as [z|] eqn:E; [|discriminate]. destruct (map_opt f l) as [zs|] eqn:E2; [|discriminate].
  intros [= <-] y [<-|Hy]; [exists x; split; [now left|exact E]|]. destruct (IH zs eq_refl y Hy) as (x' & H1 & H2). exists x'. split; [now right|exact H2].
Qed.
Lemma process_lisp_nonempty s : s <> [] -> process_lisp_fun s <> [].
Proof.
  intros Hs. unfold process_lisp_fun.
  destruct (map_opt _ _) as [reps|] eqn:E; [|exact Hs]. apply fold_replacen1_nonempty; [|exact Hs].
  intros m r Hin. destruct (map_opt_in _ _ _ E _ Hin) as (x & _ & Hx).
  destruct (concat_replacement x) as [r'|] eqn:Er; [|discriminate]. cbn [option_map] in Hx. injection Hx as -> ->.
  eapply concat_replacement_nonempty, Er.
Qed.

Definition proto_ok (p : proto) : Prop := fst p <> [].
Lemma no_strict_ok s p r : p_no_strict s = Some (p, r) -> proto_ok p.
Proof.
  unfold p_no_strict, p_till1. destruct (p_while1 _ s) as [[k r1]|] eqn:E; [|discriminate]. apply span_nonempty in E.
  destruct (p_opt _ r1) as [[[[c a]|] r2]|]; [| |discriminate]; intros [= <- <-]; exact E.
Qed.
(** every successful parse satisfies a property *)
Definition gives_only {A} (p : parser A) (P : A -> Prop) : Prop := forall s a r, p s = Some (a, r) -> P a.
Lemma go_any {A} (p : parser A) : gives_only p (fun _ => True).
Proof. intros s a r _. exact I. Qed.
Lemma go_mono {A} (p : parser A) (P Q : A -> Prop) : gives_only p P -> (forall a, P a -> Q a) -> gives_only p Q.
Proof. intros H HPQ s a r E. eapply HPQ, H, E. Qed.
Lemma go_map {A B} (p : parser A) (f : A -> B) (P : A -> Prop) (Q : B -> Prop) : gives_only p P -> (forall a, P a -> Q (f a)) -> gives_only (p_map p f) Q.
Proof. intros H HPQ s b r E. unfold p_map in E. destruct (p s) as [[a r']|] eqn:Ep; [|discriminate]. injection E as <- <-. eapply HPQ, H, Ep. Qed.
Lemma go_alt {A} (p q : parser A) P : gives_only p P -> gives_only q P -> gives_only (p_alt p q) P.
Proof. intros Hp Hq s a r E. unfold p_alt in E. destruct (p s) as [[a' r']|] eqn:Ep; [injection E as <- <-; eapply Hp, Ep|eapply Hq, E]. Qed.
Lemma go_many0 {A} (p : parser A) P : gives_only p P -> forall fuel s l r, many0_fuel p fuel s = (l, r) -> Forall P l.
Proof.
  intros Hp. induction fuel as [|f IH]; intros s l r; cbn [many0_fuel]; [intros [= <- <-]; constructor|].
  destruct (p s) as [[a r']|] eqn:Ep; [|intros [= <- <-]; constructor].
  destruct (many0_fuel p f r') as [l' r''] eqn:E. intros [= <- <-]. constructor; [eapply Hp, Ep|eapply IH, E].
Qed.
Lemma go_many1 {A} (p : parser A) P : gives_only p P -> gives_only (many1 p) (Forall P).
Proof.
  intros Hp s l r E. unfold many1 in E. destruct (p s) as [[a r']|] eqn:Ep; [|discriminate].
  destruct (many0_fuel p (length r') r') as [l' r''] eqn:E2. injection E as <- <-. constructor; [eapply Hp, Ep|eapply go_many0, E2; exact Hp].
Qed.
Lemma go_perm2 {A B} (pa : parser A) (pb : parser B) (P : A -> Prop) (Q : B -> Prop) : gives_only pa P -> gives_only pb Q ->
  gives_only (perm2 pa pb) (fun x => P (fst x) /\ Q (snd x)).
Proof.
  intros Ha Hb. unfold perm2.
  enough (G : forall fuel a b s x r, (forall v, a = Some v -> P v) -> (forall v, b = Some v -> Q v) ->
            perm2_loop pa pb fuel a b s = Some (x, r) -> P (fst x) /\ Q (snd x)).
  { intros s x r E. eapply G; [| |exact E]; discriminate. }
  induction fuel as [|f IH]; intros a b s x r Pa Pb; cbn [perm2_loop]; [discriminate|].
  destruct a as [va|].
  - destruct b as [vb|].
    + intros [= <- <-]. cbn. split; [now apply Pa|now apply Pb].
    + destruct (pb s) as [[v r']|] eqn:E; [|discriminate]. apply IH; [exact Pa|]. intros v' [= <-]. eapply Hb, E.
  - destruct (pa s) as [[v r']|] eqn:E; [apply IH; [|exact Pb]; intros v' [= <-]; eapply Ha, E|].
    destruct b as [vb|]; [discriminate|].
    destruct (pb s) as [[v r']|] eqn:E2; [|discriminate]. apply IH; [exact Pa|]. intros v' [= <-]. eapply Hb, E2.
Qed.
Lemma go_perm3 {A B C} (pa : parser A) (pb : parser B) (pc : parser C) (R : C -> Prop) : gives_only pc R ->
  gives_only (perm3 pa pb pc) (fun x => R (snd x)).
Proof.
  intros Hc. unfold perm3.
  enough (G : forall fuel a b c s x r, (forall v, c = Some v -> R v) ->
            perm3_loop pa pb pc fuel a b c s = Some (x, r) -> R (snd x)).
  { intros s x r E. eapply G; [|exact E]; discriminate. }
  induction fuel as [|f IH]; intros a b c s x r Pc; cbn [perm3_loop]; [discriminate|].
  destruct (match a with None => pa s | Some _ => None end) as [[v r']|]; [apply IH, Pc|].
  destruct (match b with None => pb s | Some _ => None end) as [[v r']|]; [apply IH, Pc|].
  destruct c as [vc|].
  - destruct a, b; try discriminate. intros [= <- <-]. cbn. now apply Pc.
  - destruct (pc s) as [[v r']|] eqn:E; [apply IH; intros v' [= <-]; eapply Hc, E|]. destruct a, b; discriminate.
Qed.
Lemma go_perm5 {A B C D E} (pa : parser A) (pb : parser B) (pc : parser C) (pd : parser D) (pe : parser E) (R : D -> Prop) : gives_only pd R ->
  gives_only (perm5 pa pb pc pd pe) (fun x => R (snd (fst x))).
Proof.
  intros Hd. unfold perm5.
  enough (G : forall fuel a b c d e s x r, (forall v, d = Some v -> R v) ->
            perm5_loop pa pb pc pd pe fuel a b c d e s = Some (x, r) -> R (snd (fst x))).
  { intros s x r H. eapply G; [|exact H]; discriminate. }
  induction fuel as [|f IH]; intros a b c d e s x r Pd; cbn [perm5_loop]; [discriminate|].
  destruct (match a with None => pa s | Some _ => None end) as [[v r']|]; [apply IH, Pd|].
  destruct (match b with None => pb s | Some _ => None end) as [[v r']|]; [apply IH, Pd|].
  destruct (match c with None => pc s | Some _ => None end) as [[v r']|]; [apply IH, Pd|].
  destruct d as [vd|].
  - destruct (match e with None => pe s | Some _ => None end) as [[v r']|]; [apply IH, Pd|].
    destruct a, b, c, e; try discriminate. intros [= <- <-]. cbn. now apply Pd.
  - destruct (pd s) as [[v r']|] eqn:Ed; [apply IH; intros v' [= <-]; eapply Hd, Ed|].
    destruct (match e with None => pe s | Some _ => None end) as [[v r']|]; [apply IH, Pd|]. destruct a, b, c, e; discriminate.
Qed.
Lemma candidate_ok : gives_only p_candidate (fun b => Forall proto_ok (snd b)).
Proof.
  assert (Hn : gives_only p_no_strict proto_ok) by (intros s a r; apply no_strict_ok).
  unfold p_candidate. eapply go_map; [eapply (go_perm2 _ _ (fun b => Forall proto_ok (snd b))); [eapply go_alt|apply go_any]|].
  - unfold p_strict. eapply go_map; [eapply go_perm5; eapply go_many1; eapply go_map; [eapply go_perm2; [exact Hn|apply go_any]|]|].
    + intros a [H _]. exact H.
    + intros [[[[c1 o] c2] l] c3] H. exact H.
  - eapply go_map; [exact Hn|]. intros a H. cbn. auto.
  - intros [a b] [H _]. exact H.
Qed.
Definition protos_ok (m : bmap (list proto)) : Prop := forall o l, In (o, l) m -> Forall proto_ok l.
Lemma in_bset {A} k (v : A) m o l : In (o, l) (bset k v m) -> (o, l) = (k, v) \/ In (o, l) m.
Proof.
  induction m as [|[k' v'] m IH]; cbn; [intuition|]. destruct (str_cmp k k'); cbn; intuition.
Qed.
Lemma bget_in {A} k (m : bmap A) v : bget k m = Some v -> In (k, v) m.
Proof.
  unfold bget. induction m as [|[k' v'] m IH]; cbn; [discriminate|]. destruct (str_eqb k k') eqn:E; [|right; auto].
  apply str_eqb_eq in E. intros [= ->]. left. now subst.
Qed.
Lemma merge_ok m b : protos_ok m -> Forall proto_ok (snd b) -> protos_ok (merge_block m b).
Proof.
  intros Hm Hb o l. unfold merge_block. destruct (bget (fst b) m) as [l0|] eqn:E; intros Hin; apply in_bset in Hin as [[= -> ->]|Hin]; eauto.
  apply Forall_app. split; [|exact Hb]. eapply Hm, bget_in, E.
Qed.
Lemma candidates_ok : gives_only p_candidates protos_ok.
Proof.
  intros s m r. unfold p_candidates, all_consuming. destruct (perm2 (p_char 47) (many1 p_candidate) s) as [[[c l] r1]|] eqn:E; [|discriminate].
  destruct r1; [|discriminate]. intros [= <- <-].
  destruct (go_perm2 _ _ _ _ (go_any (p_char 47)) (go_many1 _ _ candidate_ok) _ _ _ E) as [_ H]. cbn in H.
  assert (G : forall l m, Forall (fun b => Forall proto_ok (snd b)) l -> protos_ok m -> protos_ok (fold_left merge_block l m)).
  { clear. induction l as [|b l IH]; intros m Hl Hm; [exact Hm|]. inversion Hl; subst. cbn. apply IH; auto. now apply merge_ok. }
  apply G; [exact H|]. intros o l0 [].
Qed.
Lemma line_texted line e : from_skkjisyo_line line = Some e -> texted e.
Proof.
  unfold from_skkjisyo_line, p_entry, all_consuming.
  destruct (perm3 p_midashi (p_while1 (N.eqb 32)) p_candidates line) as [[[[m x] c] r]|] eqn:E; [|discriminate].
  destruct r; [|discriminate]. intros [= <-].
  pose proof (go_perm3 _ _ _ _ candidates_ok _ _ _ E) as H. cbn in H.
  intros o l dc. unfold entry_of_proto. cbn [e_map snd]. intros Hin Hdc. apply in_map_iff in Hin as ([o' l'] & [= <- <-] & Hin).
  apply in_map_iff in Hdc as (p & <- & Hp). cbn [dcand_of_proto dc_kouho]. apply process_lisp_nonempty.
  specialize (H _ _ Hin). rewrite Forall_forall in H. apply H, Hp.
Qed.
Lemma in_lremove {V} k (m : lmap V) x : In x (lremove k m) -> In x m.
Proof. unfold lremove. intros H. now apply filter_In in H. Qed.
Definition map_texted (m : lmap entry) : Prop := forall k e, In (k, e) m -> texted e.
Lemma push_texted k e m : map_texted m -> texted e -> map_texted (lpush k e m).
Proof. intros Hm He k' e' [[= <- <-]|H]; [exact He|]. eapply Hm, in_lremove, H. Qed.
Lemma update_texted k f m : map_texted m -> (forall e, texted e -> texted (f e)) -> map_texted (lupdate k f m).
Proof.
  intros Hm Hf. unfold lupdate. destruct (lpeek k m) as [v|] eqn:E; [|exact Hm].
  intros k' e' [[= <- <-]|H]; [|eapply Hm, in_lremove, H]. apply Hf. apply bget_in in E. eapply Hm, E.
Qed.
Lemma load_texted ls : map_texted (d_ari (load_lines ls)) /\ map_texted (d_nashi (load_lines ls)).
Proof.
  unfold load_lines.
  assert (G : forall ls st, map_texted (d_ari (snd st)) /\ map_texted (d_nashi (snd st)) ->
    let st' := fold_left load_line ls st in map_texted (d_ari (snd st')) /\ map_texted (d_nashi (snd st'))).
  { clear. induction ls as [|ln ls IH]; intros st H; [exact H|]. cbn. apply IH. clear IH. destruct st as [b d]. unfold load_line. cbn [snd] in H.
    destruct (is_prefixb (U ";") ln).
    - destruct (contains (U ";; okuri-ari entries") ln); [exact H|]. destruct (contains (U ";; okuri-nasi entries") ln); exact H.
    - destruct (from_skkjisyo_line ln) as [e|] eqn:E; [|exact H]. apply line_texted in E. destruct H as [H1 H2].
      destruct (b && e_okuri e); cbn; split; auto using push_texted. }
  apply G. split; intros k e [].
Qed.
(** Every dictionary read from a file. *)
Theorem C61_loaded : forall ls c h, no_blank (mkDict c (DStatic (load_lines ls))) /\ no_blank (mkDict c (DUser (load_lines ls) h)).
Proof.
  intros ls c h. destruct (load_texted ls) as [H1 H2]. split; intros m e [H|H]; cbn in H; [eapply H1|eapply H2|eapply H1|eapply H2]; exact H.
Qed.

(** * Updates *)
Lemma dict_texted d : no_blank d <-> map_texted (d_ari (dict_ents d)) /\ map_texted (d_nashi (dict_ents d)).
Proof.
  split; [intros H; split; intros k e Hin; eapply H; eauto|]. intros [H1 H2] m e [H|H]; [eapply H1|eapply H2]; exact H.
Qed.
Lemma set_nth_in {A} (x y : A) l : forall i, In y (set_nth i x l) -> y = x \/ In y l.
Proof. induction l as [|a l IH]; intros [|i]; cbn; intuition. destruct (IH _ H0); auto. Qed.
Lemma swap0_in {A} i (l : list A) y : In y (swap0 i l) -> In y l.
Proof.
  destruct l as [|x r], i as [|j]; cbn; auto. destruct (nth_error r j) as [z|] eqn:E; cbn; [|tauto].
  intros [<-|H]; [right; eapply nth_error_In, E|]. apply set_nth_in in H as [->|H]; auto.
Qed.
Lemma remove_nth_in {A} (l : list A) y : forall i, In y (remove_nth i l) -> In y l.
Proof. induction l as [|a l IH]; intros [|i]; cbn; auto. intros [H|H]; eauto. Qed.
Definition map_kouho_ok (m : bmap (list dcand)) : Prop := forall o l dc, In (o, l) m -> In dc l -> dc_kouho dc <> [].
Lemma bset_ok o l m : map_kouho_ok m -> (forall dc, In dc l -> dc_kouho dc <> []) -> map_kouho_ok (bset o l m).
Proof. intros Hm Hl o' l' dc Hin Hdc. apply in_bset in Hin as [[= -> ->]|Hin]; [auto|]. eapply Hm; eauto. Qed.
Lemma prioritize_for_ok o c m : c_kouho c <> [] -> map_kouho_ok m -> map_kouho_ok (prioritize_for o c m).
Proof.
  intros Hc Hm. unfold prioritize_for. destruct (bget o m) as [l|] eqn:E.
  - apply bset_ok; [exact Hm|]. intros dc. unfold prioritize_list. apply bget_in in E.
    destruct (position _ l) as [i|]; [intros H; apply swap0_in in H; eapply Hm; eauto|]. intros [<-|H]; [exact Hc|eapply Hm; eauto].
  - apply bset_ok; [exact Hm|]. intros dc [<-|[]]. exact Hc.
Qed.
Lemma remove_for_ok o c m : map_kouho_ok m -> map_kouho_ok (remove_for o c m).
Proof.
  intros Hm. unfold remove_for. destruct (bget o m) as [l|] eqn:E; [|exact Hm]. apply bget_in in E.
  apply bset_ok; [exact Hm|]. intros dc. unfold remove_list. destruct (position _ l) as [i|]; intros H; [apply remove_nth_in in H|]; eapply Hm; eauto.
Qed.
Lemma prioritize_texted c e : c_kouho c <> [] -> texted e -> texted (prioritize_candidate c e).
Proof.
  intros Hc He. unfold prioritize_candidate. change (map_kouho_ok (prioritize_for [] c match c_strict c with Some o => prioritize_for o c (e_map e) | None => e_map e end)).
  apply prioritize_for_ok; [exact Hc|]. destruct (c_strict c); [apply prioritize_for_ok; [exact Hc|exact He]|exact He].
Qed.
Lemma remove_texted k c e : texted e -> texted (remove_matching_candidate k c e).
Proof.
  intros He. unfold remove_matching_candidate. change (map_kouho_ok (remove_for [] c match ck_okuri k with Some o => remove_for o c (e_map e) | None => e_map e end)).
  apply remove_for_ok. destruct (ck_okuri k); [apply remove_for_ok; exact He|exact He].
Qed.
Lemma new_texted m c : c_kouho c <> [] -> texted (entry_new m c).
Proof.
  intros Hc. unfold entry_new. change (map_kouho_ok (bset [] [dcand_of c] match c_strict c with Some o => bset o [dcand_of c] [] | None => [] end)).
  assert (H : forall dc, In dc [dcand_of c] -> dc_kouho dc <> []) by (intros dc [<-|[]]; exact Hc).
  apply bset_ok; [|exact H]. destruct (c_strict c); [apply bset_ok; [|exact H]|]; intros o' l' dc [].
Qed.
Lemma select_no_blank c d : c_kouho c <> [] -> no_blank d -> no_blank (select_candidate d c).
Proof.
  intros Hc Hd. unfold select_candidate. destruct (d_kind d) as [e|e h|] eqn:E; try exact Hd.
  apply dict_texted in Hd. unfold dict_ents in Hd. rewrite E in Hd. destruct Hd as [H1 H2].
  assert (G : forall m, map_texted m -> map_texted (select_in_map c m)).
  { intros m Hm. unfold select_in_map. destruct (lpeek (c_midashi c) m);
      [apply update_texted; auto using prioritize_texted|apply push_texted; auto using new_texted]. }
  apply dict_texted. unfold dict_ents. cbn. destruct (c_okuri c); cbn; auto.
Qed.
Lemma purge_no_blank k c d : no_blank d -> no_blank (purge_candidate d k c).
Proof.
  intros Hd. unfold purge_candidate. destruct (d_kind d) as [e|e h|] eqn:E; try exact Hd.
  apply dict_texted in Hd. unfold dict_ents in Hd. rewrite E in Hd. destruct Hd as [H1 H2].
  assert (G : forall m, map_texted m -> map_texted (purge_in_map k c m)).
  { intros m Hm. unfold purge_in_map. apply update_texted; auto using remove_texted. }
  apply dict_texted. unfold dict_ents. cbn. destruct (c_okuri c); cbn; auto.
Qed.
Lemma empty_no_blank : no_blank empty_dict.
Proof. intros m e [[]|[]]. Qed.
Lemma ctx_dicts_no_blank w : Forall no_blank (w_store w) -> Forall no_blank (ctx_dicts w).
Proof.
  intros H. apply Forall_forall. intros d Hin. apply in_map_iff in Hin as (i & <- & _).
  destruct (nth_in_or_default i (w_store w) empty_dict) as [Hi| ->]; [|exact empty_no_blank]. rewrite Forall_forall in H. auto.
Qed.

(** * Offering *)
Lemma lookup_texted d k e : no_blank d -> lookup d k = Ok (Some e) -> texted e.
Proof.
  intros Hd. apply dict_texted in Hd as [H1 H2]. unfold lookup. destruct (d_kind d) eqn:E; [| |discriminate];
    destruct (get_dict_key k) as [key|]; cbn; try discriminate; intros [= Hl]; apply bget_in in Hl;
    (destruct (has_okuri k); [eapply H1|eapply H2]; exact Hl).
Qed.
Lemma bget_texted e o l dc : texted e -> bget o (e_map e) = Some l -> In dc l -> dc_kouho dc <> [].
Proof. intros He Hl. apply bget_in in Hl. eapply He, Hl. Qed.
Lemma in_order_texted ds k : Forall no_blank ds -> forall l, candidates_in_order ds k = Ok l -> forall dc, In dc l -> dc_kouho dc <> [].
Proof.
  induction 1 as [|d ds Hd Hds IH]; intros l; cbn [candidates_in_order]; [intros [= <-] dc []|].
  destruct (lookup d k) as [oe|] eqn:El; cbn [rbind]; [|discriminate].
  destruct (candidates_in_order ds k) as [l'|]; cbn [rmap]; [|discriminate]. intros [= <-] dc Hin.
  apply in_app_iff in Hin as [Hin|Hin]; [|eapply IH; eauto]. destruct oe as [e|]; [|destruct Hin].
  pose proof (lookup_texted d k e Hd El) as He. cbn [dict_candidates] in Hin. apply in_app_iff in Hin as [Hin|Hin].
  - destruct (has_okuri k); [|destruct Hin]. destruct (ck_okuri k) as [o|]; cbn [entry_candidates] in Hin;
      match type of Hin with context [bget ?x (e_map e)] => destruct (bget x (e_map e)) as [l0|] eqn:Eb end; try destruct Hin; eapply bget_texted; eauto; cbn; auto.
  - cbn [entry_candidates] in Hin. destruct (bget [] (e_map e)) as [l0|] eqn:Eb; [|destruct Hin]. eapply bget_texted; eauto.
Qed.
Section DedupIn.
  Context {T : Type} (cmp : T -> T -> comparison) (kouho : T -> str).
  Lemma insert_cmp_in x l y : In y (insert_cmp cmp x l) -> y = x \/ In y l.
  Proof. induction l as [|a l IH]; cbn; [intuition|]. destruct (cmp x a); cbn; intuition. Qed.
  Lemma sort_cmp_in l y : In y (sort_cmp cmp l) -> In y l.
  Proof. induction l as [|a l IH]; cbn; [tauto|]. intros H. apply insert_cmp_in in H as [->|H]; auto. Qed.
  Lemma dedup_from_in l : forall prev y, In y (dedup_from kouho prev l) -> In y l.
  Proof. induction l as [|a l IH]; intros prev y; cbn; [tauto|]. destruct (str_eqb _ _); cbn; [intros H; right; eauto|intros [H|H]; eauto]. Qed.
  Lemma dedup_by_in l y : In y (dedup_by kouho l) -> In y l.
  Proof. destruct l as [|a l]; cbn; [tauto|]. intros [H|H]; [now left|right; eapply dedup_from_in, H]. Qed.
  Lemma matches_in x D y : forall pos acc at_, In y (fst (matches cmp x pos D acc at_)) -> In y acc \/ In y D.
  Proof.
    induction D as [|a D IH]; intros pos acc at_; cbn [matches]; [tauto|].
    destruct (eq_cmp cmp a x); intros H; apply IH in H as [H|H]; [|right; now right|now left|right; now right].
    apply in_app_iff in H as [H|[H|[]]]; [now left|right; now left].
  Qed.
  Lemma pick_in l : forall D y, In y (pick cmp l D) -> In y D.
  Proof.
    induction l as [|x l IH]; intros D y; cbn [pick]; [intros []|].
    destruct (matches cmp x 0 D [] None) as [m at_] eqn:E. intros H. apply in_app_iff in H as [H|H].
    - pose proof (matches_in x D y 0 [] None) as M. rewrite E in M. destruct (M H) as [[]|M']. exact M'.
    - apply IH in H. destruct at_ as [i|]; [eapply remove_nth_in, H|exact H].
  Qed.
  Lemma dedup_in l y : In y (dedup_candidates cmp kouho l) -> In y l.
  Proof. intros H. apply pick_in, in_rev, dedup_by_in, in_rev, sort_cmp_in in H. exact H. Qed.
End DedupIn.
Lemma res_map_back {A B} (f : A -> res B) l : forall r y, res_map f l = Ok r -> In y r -> exists x, In x l /\ f x = Ok y.
Proof.
  induction l as [|a l IH]; intros r y; cbn; [intros [= <-] []|]. destruct (f a) as [z|] eqn:E; cbn; [|discriminate].
  destruct (res_map f l) as [ys|]; cbn; [|discriminate]. intros [= <-] [<-|H]; [exists a; auto|].
  destruct (IH ys y eq_refl H) as (x & H1 & H2). eauto.
Qed.
Lemma exact_texts ds k cs : Forall no_blank ds -> exact_candidates ds k = Ok cs -> Forall has_text cs.
Proof.
  intros Hds. unfold exact_candidates. destruct (candidates_in_order ds k) as [l|] eqn:El; cbn [rbind]; [|discriminate].
  intros H. apply Forall_forall. intros c Hc. destruct (res_map_back _ _ _ _ H Hc) as (x & Hx & Ec).
  apply dedup_in in Hx. pose proof (in_order_texted ds k Hds l El x Hx) as Hk.
  unfold candidate_of_dcand in Ec. destruct (get_dict_key k); cbn in Ec; [|discriminate]. injection Ec as <-. now split.
Qed.

(** ** Number templates *)
Lemma digit_runs_digits fuel : forall s n, In n (digit_runs fuel s) -> digits n.
Proof.
  induction fuel as [|f IH]; intros s n; cbn [digit_runs]; [intros []|].
  destruct (find_digits s) as [[[p d] r]|] eqn:E; [|intros []]. intros [<-|H]; [|eapply IH, H].
  now destruct (find_digits_spec _ _ _ _ E) as (_ & _ & H & _).
Qed.
Lemma to_numeric_digits k k' ns : to_numeric_key k = (k', ns) -> Forall digits ns.
Proof. unfold to_numeric_key. intros [= _ <-]. apply Forall_forall. intros n. apply digit_runs_digits. Qed.
Lemma replace_each_length from to : forall s, length (replace_each from to s) = length s.
Proof.
  unfold replace_each. generalize (combine from to). intros l. induction l as [|[a b] l IH]; intros s; [reflexivity|].
  cbn. rewrite IH, replace_char_map. apply map_length.
Qed.
Lemma length_nonempty {A B} (a : list A) (b : list B) : length a = length b -> b <> [] -> a <> [].
Proof. destruct a, b; cbn; congruence. Qed.
Lemma format_nonempty n e : format_number_kanji n e <> [].
Proof.
  unfold format_number_kanji. destruct (N.leb_spec 10000000000000000000 n) as [H|H]; [vm_compute; discriminate|].
  destruct (N.eqb_spec n 0) as [->|Hn]; [vm_compute; discriminate|]. intros E.
  assert (R : reads_as kanji_numerals (format_number_kanji n e) = Some n) by (apply read_format; exact H).
  unfold format_number_kanji in R. apply N.leb_gt in H. rewrite H in R. apply N.eqb_neq in Hn. rewrite Hn, E in R.
  vm_compute in R. first [discriminate R|inversion R; subst; now rewrite N.eqb_refl in Hn].
Qed.
Lemma kanji_nonempty d t : digits d -> numeric_to_simple_kanji_as_number d = Ok t -> t <> [].
Proof.
  intros Hd. unfold numeric_to_simple_kanji_as_number. rewrite (find_digits_all d Hd). destruct (parse_u64 d) as [n|]; [|discriminate].
  intros [= <-] E. cbn [app] in E. apply app_eq_nil in E as [E _]. now apply format_nonempty in E.
Qed.
Lemma replace_each_nonempty from to s : s <> [] -> replace_each from to s <> [].
Proof. intros H. eapply length_nonempty; [apply replace_each_length|exact H]. Qed.
Lemma daiji_nonempty d b t : digits d -> numeric_to_daiji_as_number d b = Ok t -> t <> [].
Proof.
  intros Hd. unfold numeric_to_daiji_as_number. rewrite (find_digits_all d Hd). destruct (parse_u64 d) as [n|]; [|discriminate].
  pose proof (replace_each_nonempty kanji_17 (if b then legal_daiji_17 else daiji_17) _ (format_nonempty n true)) as H.
  revert H. generalize (replace_each kanji_17 (if b then legal_daiji_17 else daiji_17) (format_number_kanji n true)).
  intros x Hx [= <-]. cbn [app]. rewrite app_nil_r. exact Hx.
Qed.
Lemma separator_nonempty d : digits d -> numeric_to_thousand_separator d <> [].
Proof.
  intros Hd. unfold numeric_to_thousand_separator. rewrite (find_digits_all d Hd). destruct Hd as [Hd _].
  destruct (Nat.ltb _ 4); [exact Hd|]. destruct d; [congruence|discriminate].
Qed.
Lemma template_nonempty ds t n l : Forall no_blank ds -> digits n -> template_texts ds t n = Ok l -> Forall (fun x => x <> []) l.
Proof.
  intros Hds Hn. unfold template_texts. pose proof (proj1 Hn) as Hn0.
  destruct (N.eqb t 48); [intros [= <-]; auto|].
  destruct (N.eqb t 49); [intros [= <-]; constructor; [|constructor]; apply replace_each_nonempty; exact Hn0|].
  destruct (N.eqb t 50); [intros [= <-]; constructor; [|constructor]; apply replace_each_nonempty; exact Hn0|].
  destruct (N.eqb t 51).
  { destruct (numeric_to_simple_kanji_as_number n) as [x|] eqn:E; cbn; [|discriminate]. intros [= <-]. constructor; [eapply kanji_nonempty; eauto|constructor]. }
  destruct (N.eqb t 52).
  { destruct (exact_candidates ds (mkCK n None)) as [cs|] eqn:E; cbn; [|discriminate]. intros [= <-].
    apply exact_texts in E; [|exact Hds]. clear -E. induction E as [|c cs [Hc _] _ IH]; cbn; constructor; auto. }
  destruct (N.eqb t 53).
  { destruct (numeric_to_daiji_as_number n false) as [a|] eqn:Ea; cbn; [|discriminate].
    destruct (numeric_to_daiji_as_number n true) as [b|] eqn:Eb; cbn; [|discriminate]. intros [= <-]. repeat constructor; eapply daiji_nonempty; eauto. }
  intros [= <-]. constructor; [now apply separator_nonempty|constructor].
Qed.
Lemma replace_templates_nonempty ds : Forall no_blank ds -> forall ts ns cur l, Forall digits ns -> Forall (fun x : str => x <> []) cur ->
  replace_templates ds ts ns cur = Ok l -> Forall (fun x : str => x <> []) l.
Proof.
  intros Hds. induction ts as [|t ts IH]; intros ns cur l Hns Hcur; cbn [replace_templates]; [intros [= <-]; exact Hcur|].
  destruct ns as [|n ns]; [intros [= <-]; exact Hcur|]. inversion Hns; subst.
  destruct cur as [|c0 cur]; [intros [= <-]; constructor|].
  destruct (template_texts ds t n) as [reps|] eqn:E; cbn [rbind]; [|discriminate].
  apply IH; [assumption|]. apply Forall_forall. intros x Hx. apply in_flat_map in Hx as (text & Ht & Hx). apply in_map_iff in Hx as (r & <- & Hr).
  apply template_nonempty in E; auto. rewrite Forall_forall in E, Hcur. apply replacen1_nonempty; auto.
Qed.
Lemma replace_numeric_nonempty ds kouho ns l : Forall no_blank ds -> Forall digits ns -> kouho <> [] ->
  replace_numeric_string ds kouho ns = Ok l -> Forall (fun x : str => x <> []) l.
Proof. intros Hds Hns Hk. apply replace_templates_nonempty; auto. Qed.
Lemma all_candidates_texts ds k cs : Forall no_blank ds -> get_all_candidates ds k = Ok cs -> Forall has_text cs.
Proof.
  intros Hds. unfold get_all_candidates. destruct (exact_candidates ds k) as [ex|] eqn:Ee; cbn [rbind]; [|discriminate].
  pose proof (exact_texts _ _ _ Hds Ee) as Hex. destruct (to_numeric_key k) as [k' ns] eqn:En. pose proof (to_numeric_digits _ _ _ En) as Hns.
  destruct (ckey_eqb k' k); [intros [= <-]; exact Hex|].
  destruct (exact_candidates ds k') as [cs'|] eqn:Ec; cbn [rbind]; [|discriminate]. pose proof (exact_texts _ _ _ Hds Ec) as Hcs.
  destruct (res_map (replace_numeric_match ds ns) cs') as [ll|] eqn:Er; cbn [rmap]; [|discriminate]. intros [= <-].
  apply Forall_app. split; [exact Hex|]. apply Forall_forall. intros c Hc. apply in_concat in Hc as (l & Hl & Hc).
  destruct (res_map_back _ _ _ _ Er Hl) as (c0 & Hc0 & E0). unfold replace_numeric_match in E0.
  rewrite Forall_forall in Hcs. destruct (Hcs _ Hc0) as [Hk _].
  destruct (replace_numeric_string ds (c_kouho c0) ns) as [os|] eqn:Eo; cbn in E0; [|discriminate]. injection E0 as <-.
  apply in_map_iff in Hc as (o & <- & Ho). apply replace_numeric_nonempty in Eo; auto. rewrite Forall_forall in Eo. split; cbn; auto.
Qed.
Lemma take_skip_in {A} (f g : A -> bool) l x : In x (take_while f (skip_while g l)) -> In x l.
Proof.
  assert (T : forall l, In x (take_while f l) -> In x l) by (clear; intros l; induction l as [|a l IH]; cbn; auto; destruct (f a); cbn; intuition).
  assert (S : forall l, In x (skip_while g l) -> In x l) by (clear; intros l; induction l as [|a l IH]; cbn; auto; destruct (g a); cbn; intuition).
  auto.
Qed.
Lemma linsert_in {V} (kv : str * V) l x : In x (linsert_sorted kv l) -> x = kv \/ In x l.
Proof. induction l as [|a l IH]; cbn; [intuition|]. destruct (str_ltb _ _); cbn; intuition. Qed.
Lemma liter_sorted_in {V} (m : lmap V) x : In x (liter_sorted m) -> In x m.
Proof. unfold liter_sorted. induction m as [|a m IH]; cbn; auto. intros H. apply linsert_in in H as [->|H]; auto. Qed.
Lemma complete_texted d k es : no_blank d -> complete d k = Ok es -> Forall texted es.
Proof.
  intros Hd. apply dict_texted in Hd as [H1 H2]. unfold complete.
  set (m := if has_okuri k then d_ari (dict_ents d) else d_nashi (dict_ents d)).
  assert (Hm : map_texted m) by (subst m; destruct (has_okuri k); assumption). clearbody m.
  pose proof (fun x => liter_sorted_in m x) as Hin. destruct (liter_sorted m) as [|a l]; [intros [= <-]; constructor|].
  destruct (get_dict_key k) as [key|]; cbn [rmap]; [|discriminate]. intros [= <-]. apply Forall_forall. intros e He.
  apply in_map_iff in He as ([k' e'] & <- & He).
  apply (take_skip_in (fun kv => is_prefixb key (fst kv)) (fun kv => negb (is_prefixb key (fst kv))) (a :: l) (k', e')) in He. cbn. eapply Hm, Hin, He.
Qed.
Lemma all_complete_texts ds k cs : Forall no_blank ds -> get_all_complete ds k = Ok cs -> Forall has_text cs.
Proof.
  intros Hds. unfold get_all_complete. destruct (complete_in_order ds k) as [l|] eqn:E; cbn [rmap]; [|discriminate]. intros [= <-].
  assert (Hl : forall x, In x l -> cc_kouho x <> []).
  { revert l E. induction Hds as [|d ds Hd Hds IH]; intros l; cbn [complete_in_order]; [intros [= <-] x []|].
    destruct (if d_completable d then complete d k else Ok []) as [es|] eqn:Ee; cbn [rbind]; [|discriminate].
    assert (Hes : Forall texted es) by (destruct (d_completable d); [eapply complete_texted; eauto|injection Ee as <-; constructor]).
    destruct (complete_in_order ds k) as [l'|]; cbn [rmap]; [|discriminate]. intros [= <-] x Hx.
    apply in_app_iff in Hx as [Hx|Hx]; [|eapply IH; eauto]. apply in_flat_map in Hx as (e & He & Hx).
    rewrite Forall_forall in Hes. specialize (Hes e He).
    destruct (entry_candidates (ck_okuri k) e) as [dcs|] eqn:Ec; [|destruct Hx]. apply in_map_iff in Hx as (dc & <- & Hdc). cbn.
    destruct (ck_okuri k) as [o|]; cbn [entry_candidates] in Ec; eapply bget_texted; eauto. }
  apply Forall_forall. intros c Hc. apply in_map_iff in Hc as (x & <- & Hx). apply dedup_in in Hx. split; cbn; auto.
Qed.
Lemma registered_texts ds s t cs : Forall no_blank ds -> t <> [] -> registered_candidates ds s t = Ok cs -> Forall has_text cs.
Proof.
  intros Hds Ht. unfold registered_candidates.
  match goal with |- (if ?b then _ else _) = _ -> _ => destruct b end.
  - destruct (to_numeric_key (cl_key (s_list s))) as [dk ns] eqn:En. pose proof (to_numeric_digits _ _ _ En) as Hns.
    destruct (replace_numeric_string ds t ns) as [os|] eqn:Eo; cbn; [|discriminate]. intros [= <-].
    apply replace_numeric_nonempty in Eo; auto. apply Forall_forall. intros c Hc. apply in_map_iff in Hc as (o & <- & Ho).
    rewrite Forall_forall in Eo. split; cbn; auto.
  - intros [= <-]. constructor; [|constructor]. now split.
Qed.

(** * Histories *)
Definition others_no_blank (o : op) : Prop := match o with OOther st => Forall no_blank st | _ => True end.
Lemma upd_forall (P : dict -> Prop) ids f st : (forall d, P d -> P (f d)) -> Forall P st -> Forall P (upd_dicts ids f st).
Proof.
  intros Hf. unfold upd_dicts. revert st. induction ids as [|i ids IH]; intros st H; [exact H|]. cbn. apply IH. clear IH.
  revert i. induction H as [|d st Hd Hst IHs]; intros [|i]; cbn; constructor; auto.
Qed.
(** After every history of public calls from dictionaries without blanks, with any interference by
    others that keeps them so: every candidate of every list has a text, and the dictionaries have
    no blanks either. *)
Theorem C61_no_blank : forall X dbg w ops outs w', started X w -> Forall no_blank (w_store w) ->
  Forall others_no_blank ops -> run X dbg ops w = Ok (outs, w') ->
  Forall no_blank (w_store w')
  /\ forall s c, In s (x_stack (w_ctx w')) -> In c (cl_list (s_list s)) -> has_text c.
Proof.
  intros X dbg w ops outs w' Hst Hw Ho Hr.
  assert (H : IC (Forall no_blank) has_text true (fun _ => True) w').
  { eapply (run_IC (Forall no_blank) has_text true (fun _ => True)) with (ops := ops) (w := w); [..|exact Hr].
    - intros ids st c H [Hc _]. apply upd_forall; [|exact H]. intros d. now apply select_no_blank.
    - intros _ ids st k c H _. apply upd_forall; [|exact H]. intros d. now apply purge_no_blank.
    - intros w0 k cs H. apply all_candidates_texts, ctx_dicts_no_blank, H.
    - intros w0 k cs H. apply all_complete_texts, ctx_dicts_no_blank, H.
    - intros w0 s t cs H. apply registered_texts, ctx_dicts_no_blank, H.
    - eapply Forall_impl; [|exact Ho]. intros [] H; cbn in *; auto. now left.
    - split; [exact Hw|]. split; [|now left].
      destruct Hst as (st & kf & am & ds & i & c & [[r ->]| ->]); (constructor; [apply gl_nil; reflexivity|constructor]). }
  destruct H as (H1 & H2 & _). split; [exact H1|]. intros s c Hs Hc. rewrite Forall_forall in H2.
  specialize (H2 s Hs). unfold gl in H2. rewrite Forall_forall in H2. auto.
Qed.

(** C54 without the condition on the shown candidate: dictionaries without blanks (all that come
    from files) suffice. *)
Theorem C54_loaded_partial : forall X dbg r st kf am ds i ops outs w k w',
  printable X -> command_shape (r_command r) -> conversions_yield r -> Forall no_blank st ->
  Forall others_no_blank ops ->
  gentle X dbg ops (mkW st (ctx_new X r kf am ds i Direct)) ->
  run X dbg ops (mkW st (ctx_new X r kf am ds i Direct)) = Ok (outs, w) ->
  process_key_event X dbg k w = Ok (false, w') -> w' = w.
Proof.
  intros X dbg r st kf am ds i ops outs w k w' HX Hr Hy Hst Ho Hg Hrun. eapply C54_partial; eauto.
  destruct (C61_no_blank X dbg _ ops outs w (ex_intro _ st (ex_intro _ kf (ex_intro _ am (ex_intro _ ds (ex_intro _ i
    (ex_intro _ Direct (or_introl (ex_intro _ r eq_refl)))))))) Hst Ho Hrun) as [_ H].
  intros s Hs _ c Hc. unfold current in Hs. destruct (x_stack (w_ctx w)) as [|s0 fr]; [discriminate|]. injection Hs as ->.
  destruct (H s c (or_introl eq_refl)) as [_ Hout]; [|exact Hout]. unfold cl_current in Hc. eapply nth_error_In, Hc.
Qed.
(** Typing with the default rule and any dictionaries read from files. *)
Theorem C54_typing_loaded_partial : forall dbg (files : list (bool * list str)) ks outs w k w',
  run ascii_xkb dbg (map OKey ks) (demo (map (fun f : bool * list str =>
    mkDict true (if fst f then DUser (load_lines (snd f)) false else DStatic (load_lines (snd f)))) files)) = Ok (outs, w) ->
  process_key_event ascii_xkb dbg k w = Ok (false, w') -> w' = w.
Proof.
  intros dbg files ks outs w k w' Hrun. eapply (C54_loaded_partial ascii_xkb dbg default_rule);
    [exact ascii_printable|exact default_command_shape|exact default_yields| | |apply keys_gentle|exact Hrun].
  - apply Forall_forall. intros d Hd. apply in_map_iff in Hd as ([b ls] & <- & _). destruct (C61_loaded ls true false) as [H1 H2]. destruct b; assumption.
  - apply Forall_forall. intros o Ho. apply in_map_iff in Ho as (k0 & <- & _). exact I.
Qed.
(** The hypotheses are met by the demonstration dictionary, and candidates are offered. *)
Example C61_case : no_blank (user_dict dic_small)
  /\ exists outs w s, typed false (U "A i space") (demo [user_dict dic_small]) = Ok (outs, w)
       /\ current w = Some s /\ map c_output (cl_list (s_list s)) = [U "愛"; U "哀"; U "相"].
Proof.
  split; [exact (proj2 (C61_loaded _ true false))|].
  destruct (run_case (typed false (U "A i space") (demo [user_dict dic_small]))
    (fun w => option_map (fun s => map c_output (cl_list (s_list s))) (current w))
    (Some [U "愛"; U "哀"; U "相"])) as (outs & w & E & F); [vm_compute; reflexivity|].
  destruct (current w) as [s|] eqn:Ec; [|discriminate]. injection F as F. exists outs, w, s. auto.
Qed.
