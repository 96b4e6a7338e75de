(** C77: dictionaries that could not be opened, given to a context all the same.
    C78: texts and numbers that come in through the C API. *)
From Verif Require Import Str Keys Modes KanaBuilder FormChanger DictTypes Dictionary CState Context
  Spec CApi CMem Handles T_Handles Encoding T_Encoding CText DefaultRule Demo.

(* ------------------------------------------------------------------ C78: specification *)
(** The bytes are the text in UTF-8. *)
Definition utf8_of (b : bytes) (t : str) : Prop := bytes_of utf8 t = Some b.
Definition not_utf8 (b : bytes) : Prop := forall t, ~ utf8_of b t.
(** The keywords of an array of C strings without NULL. *)
Inductive keywords_of : list (option bytes) -> list str -> Prop :=
| kw_end : keywords_of [] []
| kw_text b t l ts : utf8_of b t -> keywords_of l ts -> keywords_of (Some b :: l) (t :: ts)
| kw_skip b l ts : not_utf8 b -> keywords_of l ts -> keywords_of (Some b :: l) ts.
Definition has_nul (t : str) : Prop := In 0%N t.
(** What a Rust program calls in the place of a C call, and how the C answer follows from its answers. *)
Section Says.
Context (X : xkb) (find_rule : str -> res (option rule)).
Inductive says : text_call -> list op -> list out -> text_answer -> Prop :=
| says_keys b t ks outs : utf8_of b t -> deserialize_seq X t = Ok (Some ks) ->
    says (TKeyEvents b) (map OKey ks) outs (ABool true)
| says_no_text b : not_utf8 b -> says (TKeyEvents b) [] [] (ABool false)
| says_key s m r b : says (TKeyEvent s m r) [OKey (from_fcitx_keyevent s m r)] [OutBool b] (ABool b)
| says_poll_nothing : says TPoll [OPoll] [OutText None] (AText (Some []))
| says_poll t : ~ has_nul t -> says TPoll [OPoll] [OutText (Some t)] (AText (Some t))
| says_poll_nul t : has_nul t -> says TPoll [OPoll] [OutText (Some t)] (AText None)
| says_reset : says TReset [OReset] [OutUnit] ANothing
| says_input_mode i : says (TSetInputMode i) [OSetInputMode i] [OutUnit] ANothing
| says_select i b : says (TSelectAt i) [OSelectAt i] [OutBool b] (ABool b)
| says_confirm i b : says (TConfirmAt i) [OConfirmAt i] [OutBool b] (ABool b)
| says_keywords l ts : keywords_of l ts -> says (TKeywords l) [OSetAutoStart ts] [OutUnit] ANothing
| says_null_keywords l : says (TKeywords (None :: l)) [OSetAutoStart []] [OutUnit] ANothing
| says_period p : says (TSetPeriod p) [OSetPeriod p] [OutUnit] ANothing
| says_comma p : says (TSetComma p) [OSetComma p] [OutUnit] ANothing
| says_rule b id r : utf8_of b id -> find_rule id = Ok (Some r) -> says (TSetRule b) [OSetRule r] [OutUnit] (AInt 0)
| says_no_rule b id : utf8_of b id -> find_rule id = Ok None -> says (TSetRule b) [] [] (AInt (-1))
| says_bad_rule b : not_utf8 b -> says (TSetRule b) [] [] (AInt (-1)).
(** The same for a whole program. *)
Inductive says_all : list text_call -> list op -> list out -> list text_answer -> Prop :=
| sa_end : says_all [] [] [] []
| sa_call k ks os os' xs xs' a l : says k os xs a -> length xs = length os -> says_all ks os' xs' l ->
    says_all (k :: ks) (os ++ os') (xs ++ xs') (a :: l).
(** Calls that are not allowed: a NULL among the keywords that is not the first. *)
Definition misused (k : text_call) : Prop :=
  match k with TKeywords (Some _ :: l) => In None l | _ => False end.
(** Calls that bring the program down by themselves: a text that is no key sequence. *)
Definition unreadable (k : text_call) : Prop :=
  match k with
  | TKeyEvents b => exists t, utf8_of b t /\ forall ks, deserialize_seq X t <> Ok (Some ks)
  | TSetRule b => exists id e, utf8_of b id /\ find_rule id = Panic e
  | _ => False
  end.
End Says.

(* ------------------------------------------------------------------------------- UTF-8 *)
Lemma tail_range b : tail b = true -> (128 <= b < 192)%N.
Proof. unfold tail. intros H. apply andb_prop in H as [H1 H2]. apply N.leb_le in H1. apply N.ltb_lt in H2. lia. Qed.
Lemma utf8_read_back l : forall t, utf8_read l = Some t -> bytes_of utf8 t = Some l.
Proof.
  remember (length l) as n eqn:Hn. assert (Hle : length l <= n) by lia. clear Hn. revert l Hle.
  induction n as [|n IH]; intros [|b r] Hle t; cbn [length] in Hle; try lia; cbn [utf8_read].
  1, 2: intros E; apply some_inj in E; subst; reflexivity.
  assert (Step : forall r', length r' <= n -> forall c bs, utf8 c = Some bs ->
     option_map (cons c) (utf8_read r') = Some t -> bs ++ r' = b :: r -> bytes_of utf8 t = Some (b :: r)).
  { intros r' Hr c bs Hc E Hb. destruct (utf8_read r') as [t'|] eqn:Et; [|discriminate]. cbn [option_map] in E. apply some_inj in E. subst t.
    cbn [bytes_of]. rewrite Hc, (IH r' Hr t' Et), Hb. reflexivity. }
  destruct (N.ltb_spec b 128) as [H1|H1].
  { intros E. apply (Step r ltac:(lia) b [b]); auto. unfold utf8, scalar. isb (b <? 55296)%N true. isb (b <? 128)%N true. reflexivity. }
  destruct (N.ltb_spec b 194) as [H2|H2]; [discriminate|].
  destruct (N.ltb_spec b 224) as [H3|H3].
  { destruct r as [|b1 r1]; [discriminate|]. destruct (tail b1) eqn:T1; [|discriminate]. apply tail_range in T1.
    set (c := ((b - 192) * 64 + (b1 - 128))%N). intros E. cbn [length] in Hle.
    apply (Step r1 ltac:(lia) c [b; b1]); auto. unfold utf8, scalar.
    assert (Hc : (128 <= c < 2048)%N) by (unfold c; lia).
    isb (c <? 55296)%N true. isb (c <? 128)%N false. isb (c <? 2048)%N true. cbn [negb orb].
    replace (192 + c / 64)%N with b by (unfold c; nlia). replace (128 + c mod 64)%N with b1 by (unfold c; nlia). reflexivity. }
  destruct (N.ltb_spec b 240) as [H4|H4].
  { destruct r as [|b1 [|b2 r2]]; [discriminate|discriminate|]. cbv zeta. set (c := ((b - 224) * 4096 + (b1 - 128) * 64 + (b2 - 128))%N).
    destruct (tail b1) eqn:T1; [|discriminate]. destruct (tail b2) eqn:T2; [|discriminate]. apply tail_range in T1. apply tail_range in T2.
    destruct (N.leb_spec 2048 c) as [Hc|]; [|discriminate]. destruct (scalar c) eqn:Hs; [|discriminate]. cbn [andb]. intros E. cbn [length] in Hle.
    apply (Step r2 ltac:(lia) c [b; b1; b2]); auto. unfold utf8. rewrite Hs. cbn [negb].
    assert (Hc2 : (c < 65536)%N) by (unfold c; lia).
    isb (c <? 128)%N false. isb (c <? 2048)%N false. isb (c <? 65536)%N true.
    replace (224 + c / 4096)%N with b by (unfold c; nlia). replace (128 + (c / 64) mod 64)%N with b1 by (unfold c; nlia).
    replace (128 + c mod 64)%N with b2 by (unfold c; nlia). reflexivity. }
  destruct (N.ltb_spec b 245) as [H5|H5]; [|discriminate].
  destruct r as [|b1 [|b2 [|b3 r3]]]; try discriminate. cbv zeta.
  set (c := ((b - 240) * 262144 + (b1 - 128) * 4096 + (b2 - 128) * 64 + (b3 - 128))%N).
  destruct (tail b1) eqn:T1; [|discriminate]. destruct (tail b2) eqn:T2; [|discriminate]. destruct (tail b3) eqn:T3; [|discriminate].
  apply tail_range in T1. apply tail_range in T2. apply tail_range in T3.
  destruct (N.leb_spec 65536 c) as [Hc|]; [|discriminate]. destruct (scalar c) eqn:Hs; [|discriminate]. cbn [andb]. intros E. cbn [length] in Hle.
  apply (Step r3 ltac:(lia) c [b; b1; b2; b3]); auto. unfold utf8. rewrite Hs. cbn [negb].
  isb (c <? 128)%N false. isb (c <? 2048)%N false. isb (c <? 65536)%N false.
  replace (240 + c / 262144)%N with b by (unfold c; nlia). replace (128 + (c / 4096) mod 64)%N with b1 by (unfold c; nlia).
  replace (128 + (c / 64) mod 64)%N with b2 by (unfold c; nlia). replace (128 + c mod 64)%N with b3 by (unfold c; nlia). reflexivity.
Qed.
(** Reading UTF-8 gives a text exactly for the bytes some text of Unicode characters is written as, and
    gives that text. *)
Theorem C76_utf8_reads : forall bytes t, utf8_read bytes = Some t <-> Forall unicode t /\ bytes_of utf8 t = Some bytes.
Proof.
  intros bytes t. split.
  - intros H. apply utf8_read_back in H. split; [apply utf8_text; eauto|exact H].
  - intros [_ H]. apply (C76_utf8 t bytes H).
Qed.
(** The letter ka in three bytes; a surrogate and an overlong form are refused. *)
Example C76_reads_case : utf8_read [227; 129; 139; 65]%N = Some [12363; 65]%N /\ utf8_read [237; 160; 128]%N = None /\ utf8_read [192; 128]%N = None.
Proof. vm_compute. auto. Qed.
Lemma to_str_some b t : to_str b = Some t <-> utf8_of b t.
Proof. split; [apply utf8_read_back|]. intros H. apply (C76_utf8 t b H). Qed.
Lemma to_str_none b : to_str b = None -> not_utf8 b.
Proof. intros E t H. apply to_str_some in H. congruence. Qed.

(* ------------------------------------------------------------------------- one call *)
Section Step.
Context (X : xkb) (dbg : bool) (find_rule : str -> res (option rule)).
Definition out_like (o : op) (x : out) : Prop :=
  match o with
  | OKey _ | OSelectAt _ | OConfirmAt _ => exists b, x = OutBool b
  | OPoll => exists t, x = OutText t
  | _ => x = OutUnit
  end.
Lemma exec_out o w x w' : exec X dbg o w = Ok (x, w') -> out_like o x.
Proof.
  destruct o; cbn [exec out_like]; unfold bind, ret; try (intros E; injection E as <- <-; reflexivity).
  - destruct (process_key_event X dbg k w) as [[b w1]|]; [|discriminate]. intros E; injection E as <- <-. eauto.
  - destruct (poll_output w) as [[b w1]|]; [|discriminate]. intros E; injection E as <- <-. eauto.
  - destruct (reset_state_stack w) as [[b w1]|]; [|discriminate]. intros E; injection E as <- <-. eauto.
  - destruct (set_composition_mode c w) as [[b w1]|]; [|discriminate]. intros E; injection E as <- <-. eauto.
  - destruct (set_input_mode i w) as [[b w1]|]; [|discriminate]. intros E; injection E as <- <-. eauto.
  - destruct (select_candidate_at i w) as [[b w1]|]; [|discriminate]. intros E; injection E as <- <-. eauto.
  - destruct (confirm_candidate_at i w) as [[b w1]|]; [|discriminate]. intros E; injection E as <- <-. eauto.
Qed.
Lemma run_one o w : run X dbg [o] w = match exec X dbg o w with Ok (x, w') => Ok ([x], w') | Panic e => Panic e end.
Proof. cbn [run]. unfold bind, ret. destruct (exec X dbg o w) as [[x w']|e]; reflexivity. Qed.
Lemma press_run ks : forall w, press X dbg ks w = match run X dbg (map OKey ks) w with Ok (_, w') => Ok w' | Panic e => Panic e end.
Proof.
  induction ks as [|k ks IH]; intros w; [reflexivity|]. cbn [press map run]. unfold bind at 1.
  destruct (exec X dbg (OKey k) w) as [[x w1]|e]; [|reflexivity]. rewrite IH. unfold bind, ret.
  destruct (run X dbg (map OKey ks) w1) as [[xs w2]|e]; reflexivity.
Qed.
Lemma run_len os : forall w xs w', run X dbg os w = Ok (xs, w') -> length xs = length os.
Proof.
  induction os as [|o os IH]; intros w xs w'; cbn [run]; unfold bind, ret.
  - intros E; injection E as <- _. reflexivity.
  - destruct (exec X dbg o w) as [[x w1]|e]; [|discriminate]. destruct (run X dbg os w1) as [[ys w2]|e] eqn:E1; [|discriminate].
    intros E; injection E as <- _. cbn. f_equal. eapply IH, E1.
Qed.
Lemma keywords_exact l : match keywords l with
  | Some ts => keywords_of l ts /\ (forall ts', keywords_of l ts' -> ts' = ts)
  | None => In None l
  end.
Proof.
  induction l as [|[b|] l IH]; cbn [keywords].
  - split; [constructor|]. intros ts H. now inversion H.
  - destruct (keywords l) as [ts|]; [|now right]. destruct IH as [H1 H2].
    destruct (to_str b) as [t|] eqn:E.
    + apply to_str_some in E. split; [now constructor|]. intros ts' H. inversion H as [|? t' ? ts'' Ht Hr|? ? ? Hn Hr]; subst.
      * f_equal; [|auto]. apply to_str_some in Ht. apply to_str_some in E. congruence.
      * destruct (Hn t E).
    + apply to_str_none in E. split; [now apply kw_skip|]. intros ts' H. inversion H as [|? t' ? ts'' Ht Hr|? ? ? Hn Hr]; subst; auto.
      destruct (E _ Ht).
  - now left.
Qed.
Lemma keywords_no_null l ts : keywords_of l ts -> ~ In None l.
Proof. induction 1; cbn; intuition congruence. Qed.
Lemma utf8_of_unique b t t' : utf8_of b t -> utf8_of b t' -> t = t'.
Proof. intros H H'. apply to_str_some in H. apply to_str_some in H'. congruence. Qed.
Lemma c_string_nul t : c_string t = None <-> has_nul t.
Proof.
  unfold c_string, has_nul. destruct (existsb (N.eqb 0) t) eqn:E.
  - split; [|reflexivity]. intros _. apply existsb_exists in E as (x & Hx & Ex). apply N.eqb_eq in Ex. now subst.
  - split; [discriminate|]. intros H. exfalso. assert (E' : existsb (N.eqb 0) t = true) by (apply existsb_exists; exists 0%N; auto). congruence.
Qed.
Lemma c_string_some t : ~ has_nul t -> c_string t = Some t.
Proof. intros H. destruct (c_string t) as [t'|] eqn:E; [|apply c_string_nul in E; contradiction]. unfold c_string in E. destruct (existsb (N.eqb 0) t); congruence. Qed.
Lemma poll_exec w : exec X dbg OPoll w = match poll_output w with Ok (t, w') => Ok (OutText t, w') | Panic e => Panic e end.
Proof. reflexivity. Qed.

(** One call through C does what the Rust calls do, and answers accordingly. *)
Theorem C78_call : forall k w a w',
  text_step X dbg find_rule k w = TDone a w' <->
  exists os xs, says X find_rule k os xs a /\ run X dbg os w = Ok (xs, w').
Proof.
  intros k w a w'.
  assert (Thr : forall o f, (forall x, out_like o x -> forall a', f x = a' -> says X find_rule k [o] [x] a') ->
    (forall os xs a', says X find_rule k os xs a' -> os = [o] /\ forall x, xs = [x] -> f x = a') ->
    (through X dbg o f w = TDone a w' <-> exists os xs, says X find_rule k os xs a /\ run X dbg os w = Ok (xs, w'))).
  { intros o f H1 H2. unfold through. split.
    - destruct (exec X dbg o w) as [[x w1]|e] eqn:E; [|discriminate]. intros E1; injection E1 as E1 <-.
      exists [o], [x]. split; [apply H1; [eapply exec_out, E|exact E1]|]. rewrite run_one, E. reflexivity.
    - intros (os & xs & Hs & Hr). destruct (H2 _ _ _ Hs) as [-> Hx]. rewrite run_one in Hr.
      destruct (exec X dbg o w) as [[x w1]|e] eqn:E; [|discriminate]. injection Hr as <- <-. now rewrite (Hx x eq_refl). }
  assert (Nil : forall a0, (forall os xs a', says X find_rule k os xs a' -> os = [] /\ a' = a0) -> says X find_rule k [] [] a0 ->
    (TDone a0 w = TDone a w' <-> exists os xs, says X find_rule k os xs a /\ run X dbg os w = Ok (xs, w'))).
  { intros a0 H1 H2. split.
    - intros E; injection E as <- <-. exists [], []. split; [exact H2|reflexivity].
    - intros (os & xs & Hs & Hr). destruct (H1 _ _ _ Hs) as [-> ->]. cbn in Hr. injection Hr as _ <-. reflexivity. }
  destruct k as [b|s m r| | |i|i|i|l|p|p|b]; cbn [text_step].
  - destruct (to_str b) as [t|] eqn:Eb.
    + apply to_str_some in Eb. destruct (deserialize_seq X t) as [[ks|]|e] eqn:Ek.
      * rewrite press_run. split.
        -- destruct (run X dbg (map OKey ks) w) as [[xs w1]|e] eqn:E; [|discriminate]. intros E1; injection E1 as <- <-.
           exists (map OKey ks), xs. split; [econstructor; eauto|exact E].
        -- intros (os & xs & Hs & Hr). inversion Hs as [? t' ks' ? Ht Hk|? Hn| | | | | | | | | | | | | | |]; subst.
           ++ rewrite (utf8_of_unique _ _ _ Ht Eb), Ek in Hk. injection Hk as <-. now rewrite Hr.
           ++ destruct (Hn t Eb).
      * split; [discriminate|]. intros (os & xs & Hs & Hr). inversion Hs as [? t' ks' ? Ht Hk|? Hn| | | | | | | | | | | | | | |]; subst.
        -- rewrite (utf8_of_unique _ _ _ Ht Eb), Ek in Hk. discriminate.
        -- destruct (Hn t Eb).
      * split; [discriminate|]. intros (os & xs & Hs & Hr). inversion Hs as [? t' ks' ? Ht Hk|? Hn| | | | | | | | | | | | | | |]; subst.
        -- rewrite (utf8_of_unique _ _ _ Ht Eb), Ek in Hk. discriminate.
        -- destruct (Hn t Eb).
    + apply to_str_none in Eb. apply Nil; [|now constructor]. intros os xs a' Hs. inversion Hs as [? t' ks' ? Ht Hk|? Hn| | | | | | | | | | | | | | |]; subst; auto. destruct (Eb _ Ht).
  - apply Thr; [intros x [bb ->] a' <-; constructor|]. intros os xs a' Hs; inversion Hs; subst. split; [reflexivity|]. intros x [= <-]. reflexivity.
  - unfold c_poll_output. split.
    + destruct (poll_output w) as [[t w1]|e] eqn:E; [|discriminate]. intros E1; injection E1 as <- <-.
      exists [OPoll], [OutText t]. split; [|rewrite run_one, poll_exec, E; reflexivity].
      destruct t as [t|]; [|constructor]. destruct (c_string t) as [t'|] eqn:Ec.
      * assert (~ has_nul t) by (intros H; apply c_string_nul in H; congruence). rewrite c_string_some in Ec by assumption.
        apply some_inj in Ec. subst. now constructor.
      * apply c_string_nul in Ec. now constructor.
    + intros (os & xs & Hs & Hr). assert (Hos : os = [OPoll]) by (now inversion Hs). subst os. rewrite run_one, poll_exec in Hr.
      destruct (poll_output w) as [[t w1]|e] eqn:E; [|discriminate]. injection Hr as <- <-. inversion Hs; subst.
      * reflexivity.
      * now rewrite c_string_some.
      * match goal with H : has_nul _ |- _ => apply c_string_nul in H; now rewrite H end.
  - apply Thr; [intros x -> a' <-; constructor|]. intros os xs a' Hs; inversion Hs; subst. split; reflexivity.
  - apply Thr; [intros x -> a' <-; constructor|]. intros os xs a' Hs; inversion Hs; subst. split; reflexivity.
  - apply Thr; [intros x [bb ->] a' <-; constructor|]. intros os xs a' Hs; inversion Hs; subst. split; [reflexivity|]. intros x [= <-]. reflexivity.
  - apply Thr; [intros x [bb ->] a' <-; constructor|]. intros os xs a' Hs; inversion Hs; subst. split; [reflexivity|]. intros x [= <-]. reflexivity.
  - destruct l as [|[b|] l].
    + apply Thr; [intros x -> a' <-; constructor; constructor|]. intros os xs a' Hs; inversion Hs as [| | | | | | | | | |? ts Hk| | | | | |]; subst. inversion Hk; subst. split; reflexivity.
    + pose proof (keywords_exact (Some b :: l)) as Hk. destruct (keywords (Some b :: l)) as [ts|].
      * destruct Hk as [K1 K2]. apply Thr; [intros x -> a' <-; now constructor|]. intros os xs a' Hs; inversion Hs as [| | | | | | | | | |? ts' Hk'| | | | | |]; subst. rewrite (K2 _ Hk'). split; reflexivity.
      * split; [discriminate|]. intros (os & xs & Hs & _). inversion Hs as [| | | | | | | | | |? ts' Hk'| | | | | |]; subst. destruct (keywords_no_null _ _ Hk' Hk).
    + apply Thr; [intros x -> a' <-; apply says_null_keywords|]. intros os xs a' Hs; inversion Hs as [| | | | | | | | | |? ts' Hk'| | | | | |]; subst; [inversion Hk'|split; reflexivity].
  - apply Thr; [intros x -> a' <-; constructor|]. intros os xs a' Hs; inversion Hs; subst. split; reflexivity.
  - apply Thr; [intros x -> a' <-; constructor|]. intros os xs a' Hs; inversion Hs; subst. split; reflexivity.
  - destruct (to_str b) as [id|] eqn:Eb.
    + apply to_str_some in Eb.
      assert (Inv : forall os xs a', says X find_rule (TSetRule b) os xs a' ->
        (exists r, find_rule id = Ok (Some r) /\ os = [OSetRule r] /\ a' = AInt 0) \/ (find_rule id = Ok None /\ os = [] /\ a' = AInt (-1))).
      { intros os xs a' Hs; inversion Hs as [| | | | | | | | | | | | | |? id' r Hi Hr|? id' Hi Hr|? Hn]; subst.
        - rewrite (utf8_of_unique _ _ _ Hi Eb) in Hr. left; eauto.
        - rewrite (utf8_of_unique _ _ _ Hi Eb) in Hr. right; auto.
        - destruct (Hn _ Eb). }
      destruct (find_rule id) as [[r|]|e] eqn:Ef.
      * apply Thr; [intros x -> a' <-; econstructor; eauto|]. intros os xs a' Hs.
        destruct (Inv _ _ _ Hs) as [(r' & E & -> & ->)|(E & _)]; [|discriminate]. injection E as <-. split; reflexivity.
      * apply Nil; [|econstructor; eauto]. intros os xs a' Hs. destruct (Inv _ _ _ Hs) as [(r' & E & _)|(_ & H)]; [discriminate|exact H].
      * split; [discriminate|]. intros (os & xs & Hs & _). destruct (Inv _ _ _ Hs) as [(r' & E & _)|(E & _)]; discriminate.
    + apply to_str_none in Eb. apply Nil; [|now apply says_bad_rule]. intros os xs a' Hs; inversion Hs as [| | | | | | | | | | | | | |? id' r Hi Hr|? id' Hi Hr|? Hn]; subst; auto; destruct (Eb _ Hi).
Qed.
(** The only calls that are undefined are those with a NULL among the keywords that is not the first. *)
Theorem C78_undefined : forall k w, text_step X dbg find_rule k w = TUndefined <-> misused k.
Proof.
  intros k w. assert (Thr : forall o f, through X dbg o f w <> TUndefined).
  { intros o f. unfold through. destruct (exec X dbg o w) as [[x w']|e]; discriminate. }
  destruct k as [b|s m r| | |i|i|i|l|p|p|b]; cbn [text_step misused];
    try (split; [intros H; now apply Thr in H|intros []]).
  - split; [|intros []]. destruct (to_str b) as [t|]; [|discriminate]. destruct (deserialize_seq X t) as [[ks|]|e]; try discriminate.
    destruct (press X dbg ks w); discriminate.
  - split; [|intros []]. destruct (c_poll_output w) as [[x w']|e]; discriminate.
  - destruct l as [|[b|] l]; try (split; [intros H; now apply Thr in H|intros []]).
    pose proof (keywords_exact (Some b :: l)) as Hk. destruct (keywords (Some b :: l)) as [ts|].
    + split; [intros H; now apply Thr in H|]. intros H. destruct Hk as [Hk _]. destruct (keywords_no_null _ _ Hk). now right.
    + split; [|reflexivity]. intros _. destruct Hk as [Hk|Hk]; [discriminate|exact Hk].
  - split; [|intros []]. destruct (to_str b) as [t|]; [|discriminate]. destruct (find_rule t) as [[r|]|e]; discriminate.
Qed.
(** The calls that bring the program down: a text that is no key sequence (or a rule file whose reading
    panics), or a Rust call that does. *)
Theorem C78_down : forall k w, text_step X dbg find_rule k w = TPanics <->
  unreadable X find_rule k \/ exists os xs a e, says X find_rule k os xs a /\ run X dbg os w = Panic e.
Proof.
  intros k w. split.
  - assert (Thr : forall o f x, (forall x', out_like o x' -> exists xs a, says X find_rule k [o] xs a) -> out_like o x -> through X dbg o f w = TPanics ->
      exists os xs a e, says X find_rule k os xs a /\ run X dbg os w = Panic e).
    { intros o f x H Hx. unfold through. destruct (exec X dbg o w) as [[y w']|e] eqn:E; [discriminate|]. intros _.
      destruct (H x Hx) as (xs & a & Hs). exists [o], xs, a, e. split; [exact Hs|]. now rewrite run_one, E. }
    destruct k as [b|s m r| | |i|i|i|l|p|p|b]; cbn [text_step unreadable].
    + destruct (to_str b) as [t|] eqn:Eb; [|discriminate]. apply to_str_some in Eb.
      destruct (deserialize_seq X t) as [[ks|]|e] eqn:Ek.
      * rewrite press_run. destruct (run X dbg (map OKey ks) w) as [[xs w']|e] eqn:Er; [discriminate|]. intros _. right.
        exists (map OKey ks), [], (ABool true), e. split; [econstructor; eauto|exact Er].
      * intros _. left. exists t. split; [exact Eb|]. intros ks. congruence.
      * intros _. left. exists t. split; [exact Eb|]. intros ks. congruence.
    + intros E. right. refine (Thr _ _ (OutBool true) _ _ E); [|exists true; reflexivity]. intros x [bb ->]. exists [OutBool bb], (ABool bb). constructor.
    + unfold c_poll_output. destruct (poll_output w) as [[t w']|e] eqn:E; [discriminate|]. intros _. right.
      exists [OPoll], [OutText None], (AText (Some [])), e. split; [constructor|]. now rewrite run_one, poll_exec, E.
    + intros E. right. refine (Thr _ _ OutUnit _ _ E); [|reflexivity]. intros; do 2 eexists; constructor.
    + intros E. right. refine (Thr _ _ OutUnit _ _ E); [|reflexivity]. intros; do 2 eexists; constructor.
    + intros E. right. refine (Thr _ _ (OutBool true) _ _ E); [|exists true; reflexivity]. intros x [bb ->]. exists [OutBool bb], (ABool bb). constructor.
    + intros E. right. refine (Thr _ _ (OutBool true) _ _ E); [|exists true; reflexivity]. intros x [bb ->]. exists [OutBool bb], (ABool bb). constructor.
    + destruct l as [|[b|] l].
      * intros E. right. refine (Thr _ _ OutUnit _ _ E); [|reflexivity]. intros; do 2 eexists; constructor; constructor.
      * pose proof (keywords_exact (Some b :: l)) as Hk. destruct (keywords (Some b :: l)) as [ts|]; [|discriminate].
        intros E. right. refine (Thr _ _ OutUnit _ _ E); [|reflexivity]. intros; do 2 eexists; constructor; apply Hk.
      * intros E. right. refine (Thr _ _ OutUnit _ _ E); [|reflexivity]. intros; do 2 eexists; apply says_null_keywords.
    + intros E. right. refine (Thr _ _ OutUnit _ _ E); [|reflexivity]. intros; do 2 eexists; constructor.
    + intros E. right. refine (Thr _ _ OutUnit _ _ E); [|reflexivity]. intros; do 2 eexists; constructor.
    + destruct (to_str b) as [id|] eqn:Eb; [|discriminate]. apply to_str_some in Eb. destruct (find_rule id) as [[r|]|e] eqn:Ef; [|discriminate|].
      * intros E. right. refine (Thr _ _ OutUnit _ _ E); [|reflexivity]. intros; do 2 eexists; econstructor; eauto.
      * intros _. left. eauto.
  - intros [H|(os & xs & a & e & Hs & Hr)].
    + destruct k as [b|s m r| | |i|i|i|l|p|p|b]; try destruct H; cbn [text_step].
      * destruct H as (Ht & Hk). apply to_str_some in Ht. rewrite Ht. destruct (deserialize_seq X x) as [[ks|]|e]; auto. destruct (Hk ks eq_refl).
      * destruct H as (e & Ht & Hk). apply to_str_some in Ht. rewrite Ht, Hk. reflexivity.
    + destruct (text_step X dbg find_rule k w) as [a' w'| |] eqn:E; [|reflexivity|].
      * exfalso. apply C78_call in E as (os' & xs' & Hs' & Hr').
        assert (os' = os); [|congruence].
        { inversion Hs; subst; inversion Hs'; subst; auto;
            repeat match goal with
            | H : utf8_of ?b ?t, H' : utf8_of ?b ?t' |- _ => assert (t' = t) by (eapply utf8_of_unique; eauto); clear H'; subst
            | H : not_utf8 ?b, H' : utf8_of ?b ?t |- _ => destruct (H t H')
            | H : keywords_of (None :: _) _ |- _ => inversion H
            end; try congruence.
          pose proof (keywords_exact l) as Hk. destruct (keywords l) as [t0|].
          - destruct Hk as [_ Hk]. f_equal. f_equal. rewrite (Hk ts), (Hk ts0); auto.
          - exfalso. match goal with H : keywords_of l _ |- _ => apply (keywords_no_null _ _ H Hk) end. }
      * exfalso. apply C78_undefined in E. destruct k as [b|s m r| | |i|i|i|l|p|p|b]; try destruct E. destruct l as [|[b|] l]; try destruct E.
        inversion Hs; subst. match goal with H : keywords_of _ _ |- _ => apply (keywords_no_null _ _ H) end. now right.
Qed.
(** A whole program of C calls that comes to its end is the Rust program. *)
Theorem C78_program : forall ks w l w', text_run X dbg find_rule ks w = TAll l w' ->
  exists os xs, says_all X find_rule ks os xs l /\ run X dbg os w = Ok (xs, w').
Proof.
  induction ks as [|k ks IH]; intros w l w'; cbn [text_run].
  - intros E; injection E as <- <-. exists [], []. split; [constructor|reflexivity].
  - destruct (text_step X dbg find_rule k w) as [a w1| |] eqn:E1; try discriminate.
    destruct (text_run X dbg find_rule ks w1) as [l1 w2| |] eqn:E2; try discriminate. intros E; injection E as <- <-.
    apply C78_call in E1 as (os & xs & Hs & Hr). destruct (IH _ _ _ E2) as (os' & xs' & Hs' & Hr').
    exists (os ++ os'), (xs ++ xs'). split; [constructor; auto; eapply run_len, Hr|].
    clear - Hr Hr'. revert w xs Hr. induction os as [|o os IHo]; intros w xs; cbn [run app]; unfold bind, ret.
    + intros E; injection E as <- <-. exact Hr'.
    + destruct (exec X dbg o w) as [[x w3]|e]; [|discriminate]. destruct (run X dbg os w3) as [[ys w4]|e] eqn:E; [|discriminate].
      intros E0; injection E0 as <- <-. now rewrite (IHo _ _ E).
Qed.
(** A program that follows the rules is never undefined. *)
Theorem C78_safe : forall ks w, Forall (fun k => ~ misused k) ks -> text_run X dbg find_rule ks w <> TRunUndefined.
Proof.
  induction ks as [|k ks IH]; intros w Hf; cbn [text_run]; [discriminate|]. inversion Hf as [|? ? Hk Hr]; subst.
  destruct (text_step X dbg find_rule k w) as [a w1| |] eqn:E; [|discriminate|apply C78_undefined in E; contradiction].
  specialize (IH w1 Hr). destruct (text_run X dbg find_rule ks w1); congruence.
Qed.
End Step.

(* ------------------------------------------------------------------------- C78: a case *)
Definition c_bytes (s : str) : bytes := match bytes_of utf8 s with Some b => b | None => [] end.
(** A C program sets keywords (one of them is not UTF-8), types, converts by a keyword, chooses and polls. *)
Definition c_program : list text_call :=
  [TKeywords [Some (c_bytes (U "を")); Some [255%N]; Some (c_bytes (U "。"))];
   TSetRule [192%N; 128%N]; TKeyEvents [227%N];
   TKeyEvents (c_bytes (U "A i period")); TSelectAt 1; TConfirmAt 0;
   TKeyEvent 97 0 false; TPoll; TKeywords [None; Some [65%N]]; TPoll].
Example C78_case :
  match text_run ascii_xkb true (fun _ => Ok None) c_program (demo [user_dict dic_small]) with
  | TAll l w => l = [ANothing; AInt (-1); ABool false; ABool true; ABool true; ABool true; ABool true;
                     AText (Some (U "愛。あ")); ANothing; AText (Some [])]
  | _ => False
  end.
Proof. vm_compute. reflexivity. Qed.
(** A text that is no key sequence, and a NULL that is not the first. *)
Example C78_down_case :
  unreadable ascii_xkb (fun _ => Ok None) (TKeyEvents (c_bytes (U "(oops"))) /\
  text_step ascii_xkb true (fun _ => Ok None) (TKeyEvents (c_bytes (U "(oops"))) (demo []) = TPanics /\
  text_step ascii_xkb true (fun _ => Ok None) (TKeywords [Some [65%N]; None]) (demo []) = TUndefined.
Proof.
  split; [|split; vm_compute; reflexivity].
  exists (U "(oops"). split; [vm_compute; reflexivity|]. intros ks. vm_compute. discriminate.
Qed.

(* ----------------------------------------------------------------- C77: specification *)
(** What the client passes is what it was given when it opened its dictionaries: a handle, or NULL for
    one that could not be opened.  [refers s p i]: the pointer is a live handle of dictionary [i]. *)
Definition refers (s : shared) (p : ptr) (i : nat) : Prop := exists a, p = Some a /\ Handles.lookup a (g_boxes s) = Some i.
(** One would expect: a context uses those of its dictionaries that could be opened. *)
Definition uses_the_others (hs : list ptr) (s : shared) (used : list nat) : Prop :=
  Forall2 (refers s) (filter (fun p : ptr => match p with Some _ => true | None => false end) hs) used.
(** The ways to give dictionaries to a context. *)
Definition gives (hs : list ptr) (k : ccall) : Prop :=
  match k with
  | CContextNew (Some _) _ _ hs' | CContextFallback _ _ _ hs' | CSetDictionaries _ hs' => hs' = hs
  | _ => False
  end.
(** the dictionaries of the context that the call made or changed *)
Definition has_dictionaries (k : ccall) (a : canswer) (s : shared) (used : list nat) : Prop :=
  match k, a with
  | CSetDictionaries c _, _ | _, APtr (Some c) => exists x, Handles.lookup c (g_ctxs s) = Some x /\ x_dicts x = used
  | _, _ => False
  end.

(* ------------------------------------------------------------------------ C77: proofs *)
Lemma clone_boxes_refers l : forall s v s1, clone_boxes l s = Some (v, s1) ->
  Forall2 (refers s) (map Some l) v /\ g_boxes s1 = g_boxes s /\ g_ctxs s1 = g_ctxs s.
Proof.
  induction l as [|a l IH]; intros s v s1; cbn [clone_boxes map].
  - intros E; injection E as <- <-. auto.
  - destruct (Handles.lookup a (g_boxes s)) as [i|] eqn:Ea; [|discriminate]. unfold arc_clone.
    destruct (Nat.eqb (arc_count s i) 0); [discriminate|].
    destruct (clone_boxes l (set_count (update_nth i S (g_count s)) s)) as [[v' s2]|] eqn:E; [|discriminate].
    intros E0; injection E0 as <- <-. destruct (IH _ _ _ E) as (H1 & H2 & H3). cbn [set_count g_boxes g_ctxs] in H2, H3.
    split; [|auto]. constructor; [exists a; auto|]. exact H1.
Qed.
Lemma no_nulls_none hs : no_nulls hs = None <-> In None hs.
Proof.
  induction hs as [|[a|] hs IH]; cbn.
  - split; [discriminate|intros []].
  - destruct (no_nulls hs); cbn; [split; [discriminate|]|split; [|reflexivity]].
    + intros [H|H]; [discriminate|]. apply IH in H. discriminate.
    + intros _. right. now apply IH.
  - split; auto.
Qed.
Lemma no_nulls_map hs l : no_nulls hs = Some l -> hs = map Some l.
Proof.
  revert l. induction hs as [|[a|] hs IH]; intros l; cbn.
  - intros E; injection E as <-. reflexivity.
  - destruct (no_nulls hs) as [l'|]; [|discriminate]. intros E; cbn in E. apply some_inj in E. subst. cbn. f_equal. auto.
  - discriminate.
Qed.
Lemma from_c_exact hs s v s1 : dictionaries_from_c_repr hs s = Some (v, s1) ->
  g_boxes s1 = g_boxes s /\ g_ctxs s1 = g_ctxs s /\
  ((exists r, hs = None :: r) /\ v = [] \/ ~ In None hs /\ Forall2 (refers s) hs v).
Proof.
  destruct hs as [|[a|] hs]; unfold dictionaries_from_c_repr.
  - intros E; injection E as <- <-. split; [auto|]. split; [auto|]. right. split; [intros []|constructor].
  - destruct (no_nulls _) as [l|] eqn:En; intros E; [|discriminate E].
    apply clone_boxes_refers in E as (H1 & H2 & H3). apply no_nulls_map in En as El. rewrite El.
    split; [auto|]. split; [auto|]. right. split; [|exact H1]. rewrite <- El. intros H. apply no_nulls_none in H. congruence.
  - intros E; injection E as <- <-. split; [auto|]. split; [auto|]. left. split; [eauto|reflexivity].
Qed.
Lemma drop_ctxs junk v : forall s s1, each_arc (arc_drop junk) v s = Some s1 -> g_ctxs s1 = g_ctxs s /\ g_boxes s1 = g_boxes s.
Proof.
  induction v as [|i v IH]; intros s s1; cbn [each_arc].
  - intros E; injection E as <-. auto.
  - unfold arc_drop at 1. destruct (arc_count s i) as [|[|n]]; [discriminate| |]; intros E; apply IH in E as [E1 E2]; rewrite E1, E2; auto.
Qed.
Lemma clone_ctxs v : forall s s1, each_arc arc_clone v s = Some s1 -> g_ctxs s1 = g_ctxs s /\ g_boxes s1 = g_boxes s.
Proof.
  induction v as [|i v IH]; intros s s1; cbn [each_arc].
  - intros E; injection E as <-. auto.
  - unfold arc_clone at 1. destruct (Nat.eqb (arc_count s i) 0); [discriminate|]. intros E; apply IH in E as [E1 E2]; rewrite E1, E2; auto.
Qed.
(** What a context gets: everything, in order, if nothing is NULL; nothing at all if the first is NULL. *)
Theorem C77_exact : forall X dbg junk k hs s a s1, gives hs k -> ccall_step X dbg junk k s = CDone a s1 ->
  exists used, has_dictionaries k a s1 used /\
    ((exists r, hs = None :: r) /\ used = [] \/ ~ In None hs /\ Forall2 (refers s) hs used).
Proof.
  intros X dbg junk k hs s a s1 Hk. destruct k as [d|[r|] kf am hs'|r kf am hs'|c hs'|c o|p|p]; try destruct Hk; cbn [ccall_step].
  - destruct (dictionaries_from_c_repr hs' s) as [[v s2]|] eqn:E; [|discriminate]. cbn. intros E1; injection E1 as <- <-.
    destruct (from_c_exact _ _ _ _ E) as (_ & _ & H). exists v. split; [|exact H].
    exists (ctx_new X r kf am v Hiragana Direct). cbn. unfold Handles.lookup. cbn. rewrite N.eqb_refl. auto.
  - destruct (dictionaries_from_c_repr hs' s) as [[v s2]|] eqn:E; [|discriminate].
    destruct (each_arc arc_clone v s2) as [s3|]; [|discriminate]. destruct (each_arc (arc_drop junk) v s3) as [s4|]; [|discriminate].
    cbn. intros E1; injection E1 as <- <-. destruct (from_c_exact _ _ _ _ E) as (_ & _ & H). exists v. split; [|exact H].
    eexists. cbn. unfold Handles.lookup. cbn. rewrite N.eqb_refl. split; [reflexivity|]. destruct r; reflexivity.
  - destruct (Handles.lookup c (g_ctxs s)) as [x|] eqn:Ex; [|discriminate].
    destruct (dictionaries_from_c_repr hs' s) as [[v s2]|] eqn:E; [|discriminate]. cbn [exec w_ctx w_store].
    destruct (each_arc (arc_drop junk) (x_dicts x) _) as [s3|] eqn:E3; [|discriminate]. intros E1; injection E1 as <- <-.
    destruct (from_c_exact _ _ _ _ E) as (_ & Ec & H). exists v. split; [|exact H].
    apply drop_ctxs in E3 as [E3 _]. cbn [has_dictionaries]. rewrite E3. cbn [set_ctx g_ctxs]. rewrite Ec.
    fold (replaced c (mkCtx (x_stack x) (x_cmd x) (x_kb x) (x_kf x) (x_am x) v (x_cfg x)) (g_ctxs s)).
    rewrite lookup_replaced, Ex, N.eqb_refl. eexists; split; [reflexivity|]. reflexivity.
Qed.
(** So it is what one expects as long as every dictionary could be opened. *)
Theorem C77_all_opened_partial : forall X dbg junk k hs s a s1, gives hs k -> ~ In None hs ->
  ccall_step X dbg junk k s = CDone a s1 -> exists used, has_dictionaries k a s1 used /\ uses_the_others hs s used.
Proof.
  intros X dbg junk k hs s a s1 Hk Hn E. destruct (C77_exact _ _ _ _ _ _ _ _ Hk E) as (used & Hd & H). exists used. split; [exact Hd|].
  destruct H as [((r & ->) & _)|(_ & H)]; [destruct Hn; now left|]. unfold uses_the_others.
  replace (filter _ hs) with hs; [exact H|]. clear - Hn. induction hs as [|[p|] hs IH]; cbn; auto.
  - f_equal. apply IH. intros H. apply Hn. now right.
  - destruct Hn. now left.
Qed.
(** A NULL after the first is undefined, in every state. *)
Theorem C77_null_later : forall X dbg junk k p hs s, gives (Some p :: hs) k -> In None hs ->
  ccall_step X dbg junk k s = CUndefined.
Proof.
  intros X dbg junk k p hs s Hk Hn.
  assert (E : dictionaries_from_c_repr (Some p :: hs) s = None).
  { unfold dictionaries_from_c_repr. destruct (no_nulls _) eqn:En; [|reflexivity]. exfalso.
    assert (H : no_nulls (Some p :: hs) = None) by (apply no_nulls_none; now right). congruence. }
  destruct k as [d|[r|] kf am hs'|r kf am hs'|c hs'|c o|q|q]; try destruct Hk; cbn [ccall_step]; rewrite E; auto.
  destruct (Handles.lookup c (g_ctxs s)); reflexivity.
Qed.
(** Two dictionaries are opened, one of them cannot be; the client passes what it got. *)
Definition opened_two (first second : option dict) (array : list ptr) : list ccall :=
  [CDictNew first; CDictNew second; CContextNew (Some default_rule) default_kana_form default_ascii_map array]
  ++ keys_of 1 (U "A i space Return") ++ [CUse 1 OPoll].
Definition last_answer (r : cresult) : option canswer :=
  match r with RDone l _ => Some (last l AUnit) | _ => None end.
(** The other one is not used, or worse. *)
Theorem C77_others_used_refuted :
  ~ (forall X dbg junk ks k hs s l a s1, gives hs k -> ccalls X dbg junk ks no_handles = RDone l s ->
       ccall_step X dbg junk k s = CDone a s1 -> exists used, has_dictionaries k a s1 used /\ uses_the_others hs s used) /\
  last_answer (ccalls ascii_xkb true empty_dict (opened_two None (Some (user_dict dic_small)) [Some 0%N]) no_handles)
    = Some (AOut (OutText (Some (U "愛")))) /\
  last_answer (ccalls ascii_xkb true empty_dict (opened_two None (Some (user_dict dic_small)) [None; Some 0%N]) no_handles)
    = Some (AOut (OutText None)) /\
  ccalls ascii_xkb true empty_dict (opened_two (Some (user_dict dic_small)) None [Some 0%N; None]) no_handles = RUndefined.
Proof.
  split; [|repeat split; vm_compute; reflexivity].
  intros H. set (d := empty_dict).
  specialize (H ascii_xkb true d [CDictNew (Some d)] (CContextNew (Some default_rule) default_kana_form default_ascii_map [None; Some 0%N])
    [None; Some 0%N]). cbn [ccalls ccall_step give_box no_handles g_store g_count g_boxes g_ctxs g_next length app] in H.
  specialize (H _ _ _ _ eq_refl eq_refl eq_refl). destruct H as (used & (x & Hx & <-) & Hu).
  unfold Handles.lookup in Hx. cbn [give_ctx g_ctxs g_next find fst N.eqb option_map snd] in Hx.
  rewrite N.eqb_refl in Hx. cbn [option_map snd] in Hx. apply some_inj in Hx. subst x. cbn in Hu. inversion Hu.
Qed.
