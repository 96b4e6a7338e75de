(** C76: the encoding of a dictionary file. *)
From Verif Require Import Str Keys Modes KanaBuilder FormChanger DictTypes Parser Lru LruPtr
  Dictionary CState Context DefaultRule Demo Spec P_Inv T_Lru T_Dedup T_Entry P_Dict T_Escape T_Line SaveFs T_Load T_Save T_Saved Encoding.

(** * Specification *)
(** A line an encoding can write, with its newline. *)
Definition encodable (cs : charset) (l : str) : bool :=
  match bytes_of cs (l ++ [10%N]) with Some _ => true | None => false end.
(** Reading what was written gives the text back. *)
Definition faithful (e : encoding) (s : str) : Prop := forall bs, bytes_of (writes e) s = Some bs -> reads e bs = Some s.
(** Every character fits into the buffer. *)
Definition fits (cs : charset) (cap : nat) : Prop := forall c bs, cs c = Some bs -> length bs <= cap.

(** * One line *)
Lemma bytes_app cs a b : bytes_of cs (a ++ b) = match bytes_of cs a, bytes_of cs b with Some x, Some y => Some (x ++ y) | _, _ => None end.
Proof.
  induction a as [|c a IH]; cbn; [destruct (bytes_of cs b); reflexivity|]. rewrite IH.
  destruct (cs c), (bytes_of cs a), (bytes_of cs b); try reflexivity. now rewrite app_assoc.
Qed.
(** However the encoder cuts the text into buffers: a line is written completely or not at all, and it is
    left out exactly when one of its characters cannot be written. *)
Theorem C76_line : forall cs cap s res, s <> [] -> encode_string cs cap s res -> res = bytes_of cs s.
Proof.
  intros cs cap s res Hs H. revert Hs. induction H as [s r bs Hc|s n bs Hc Hn|s n bs Hc Hn|s n bs res Hc Hn He IH]; intros Hs.
  - exfalso. inversion Hc; subst.
    + destruct s; [now apply Hs|discriminate].
    + match goal with H : length ?x = 0, H' : ?x <> [] |- _ => destruct x; [now apply H'|discriminate] end.
  - inversion Hc; subst. rewrite bytes_app. cbn [bytes_of].
    match goal with H : cs _ = None |- _ => rewrite H end. now destruct (bytes_of cs _).
  - inversion Hc; subst. now symmetry.
  - inversion Hc; subst. rewrite skipn_app, skipn_all, Nat.sub_diag in IH. cbn [skipn app] in IH. rewrite IH by assumption.
    rewrite bytes_app. match goal with H : bytes_of cs _ = Some bs |- _ => rewrite H end. destruct (bytes_of cs _); reflexivity.
Qed.
(** The loop always comes to an end, whatever the length of the line. *)
Theorem C76_line_ends : forall cs cap s, fits cs cap -> s <> [] -> exists res, encode_string cs cap s res.
Proof.
  intros cs cap s Hf. remember (length s) as n eqn:En. revert s En. induction n as [n IH] using lt_wf_ind. intros s En Hs.
  destruct s as [|c r]; [now contradiction Hs|]. destruct (cs c) as [b|] eqn:Ec.
  - assert (Hb : bytes_of cs [c] = Some b) by (cbn; rewrite Ec; now rewrite app_nil_r).
    destruct r as [|c' r].
    + exists (Some b). apply (es_done cs cap [c] 1 b); [|discriminate]. apply (ec_all cs cap [c] b); [exact Hb|eapply Hf; exact Ec].
    + destruct (IH (length (c' :: r))) with (s := c' :: r) as (res & Hr); [subst n; cbn; lia|reflexivity|discriminate|].
      exists (option_map (app b) res). apply (es_more cs cap (c :: c' :: r) 1 b); [|discriminate|exact Hr].
      apply (ec_full cs cap [c] (c' :: r) b); [exact Hb|eapply Hf; exact Ec|discriminate|discriminate].
  - exists None. apply (es_unmappable cs cap (c :: r) 1 []); [|discriminate].
    apply (ec_unmappable cs cap [] c r []); [reflexivity|cbn; lia|exact Ec].
Qed.
(** * The file *)
Lemma lines_bytes cs cap ls bs : written_lines cs cap ls bs ->
  bytes_of cs (flat_map (fun l => l ++ [10%N]) (filter (encodable cs) ls)) = Some bs.
Proof.
  induction 1 as [|l ls b rest He Hw IH|l ls rest He Hw IH]; cbn [filter flat_map]; [reflexivity| |].
  - apply C76_line in He; [|destruct l; discriminate]. unfold encodable at 1. rewrite <- He. cbn [flat_map]. now rewrite bytes_app, <- He, IH.
  - apply C76_line in He; [|destruct l; discriminate]. unfold encodable at 1. rewrite <- He. exact IH.
Qed.
(** Whatever the buffering: the file is the encoding of the headers and of exactly the lines that can be
    written, in order. *)
Theorem C76_file : forall cs cap d bs, written_file cs cap d bs -> bytes_of cs (save_text (encodable cs) d) = Some bs.
Proof.
  intros cs cap d bs H. destruct H as [h1 b1 h2 b2 H1 W1 H2 W2].
  apply C76_line in H1; [|discriminate]. apply C76_line in H2; [|discriminate]. apply lines_bytes in W1, W2.
  unfold save_text, save_lines, entry_lines. cbn [flat_map]. rewrite flat_map_app. cbn [flat_map].
  rewrite bytes_app, <- H1, bytes_app. unfold str in *. rewrite W1.
  rewrite bytes_app, <- H2, W2. reflexivity.
Qed.
(** And it can always be written. *)
Theorem C76_written : forall cs cap d, fits cs cap -> (forall c, (c < 128)%N -> cs c <> None) -> exists bs, written_file cs cap d bs.
Proof.
  intros cs cap d Hf Ha.
  assert (Hl : forall ls, exists bs, written_lines cs cap ls bs).
  { induction ls as [|l ls (bs & IH)]; [exists []; constructor|].
    destruct (C76_line_ends cs cap (l ++ [10%N]) Hf) as ([b|] & He); [destruct l; discriminate|eexists; econstructor; eassumption|eexists; apply wl_none; eassumption]. }
  assert (Hh : forall h, Forall (fun c => (c < 128)%N) h -> h <> [] -> exists bs, encode_string cs cap h (Some bs)).
  { intros h Hc Hh. destruct (C76_line_ends cs cap h Hf Hh) as (res & He). pose proof (C76_line cs cap h res Hh He) as E.
    assert (Hs : exists bs, bytes_of cs h = Some bs).
    { clear - Hc Ha. induction Hc as [|c h Hc Hr (bs & IH)]; [exists []; reflexivity|]. cbn. destruct (cs c) eqn:E; [|now apply Ha in E]. rewrite IH. eauto. }
    destruct Hs as (bs & Hs). exists bs. now rewrite <- Hs, <- E. }
  destruct (Hl (map (fun kv => entry_to_string (snd kv)) (liter_lru (d_ari d)))) as (b1 & W1).
  destruct (Hl (map (fun kv => entry_to_string (snd kv)) (liter_lru (d_nashi d)))) as (b2 & W2).
  destruct (Hh (ari_header ++ [10%N])) as (h1 & H1); [apply Forall_forall; intros c Hc; apply N.ltb_lt; revert c Hc; apply Forall_forall; vm_compute; repeat constructor|discriminate|].
  destruct (Hh (nasi_header ++ [10%N])) as (h2 & H2); [apply Forall_forall; intros c Hc; apply N.ltb_lt; revert c Hc; apply Forall_forall; vm_compute; repeat constructor|discriminate|].
  exists (h1 ++ b1 ++ h2 ++ b2). now constructor.
Qed.

(** * UTF-8 *)
Ltac nlia := zify; Z.to_euclidean_division_equations; lia.
Ltac yes := apply N.ltb_lt; nlia.
Ltac no := apply N.ltb_ge; nlia.
Ltac isb b v := replace b with v by (symmetry; first [yes|no|apply N.leb_le; nlia]).
Lemma some_inj {A} (a b : A) : Some a = Some b -> a = b.
Proof. congruence. Qed.
Lemma tail_ok x : (x < 64)%N -> tail (128 + x) = true.
Proof. intros H. unfold tail. apply andb_true_intro. split; [apply N.leb_le; lia|apply N.ltb_lt; lia]. Qed.
Lemma utf8_one c bs r : utf8 c = Some bs -> utf8_read (bs ++ r) = option_map (cons c) (utf8_read r).
Proof.
  unfold utf8. destruct (scalar c) eqn:Hs; [|discriminate]. cbn [negb].
  assert (Hmax : (c < 1114112)%N).
  { unfold scalar in Hs. apply Bool.orb_true_iff in Hs as [Hs|Hs]; [apply N.ltb_lt in Hs; lia|]. apply andb_prop in Hs as [_ Hs]. now apply N.ltb_lt in Hs. }
  assert (Hm : forall x, (x mod 64 < 64)%N) by (intros; apply N.mod_lt; discriminate).
  destruct (c <? 128)%N eqn:E1; [|destruct (c <? 2048)%N eqn:E2; [|destruct (c <? 65536)%N eqn:E3]]; intros E; apply some_inj in E; subst bs; cbn [app utf8_read];
    rewrite ?N.ltb_lt, ?N.ltb_ge in *.
  - apply N.ltb_lt in E1. now rewrite E1.
  - assert (D : (c / 64 < 32 /\ 2 <= c / 64)%N) by nlia.
    isb (192 + c / 64 <? 128)%N false. isb (192 + c / 64 <? 194)%N false. isb (192 + c / 64 <? 224)%N true.
    rewrite tail_ok by apply Hm. replace ((192 + c / 64 - 192) * 64 + (128 + c mod 64 - 128))%N with c by nlia. reflexivity.
  - assert (D : (c / 4096 < 16)%N) by nlia.
    isb (224 + c / 4096 <? 128)%N false. isb (224 + c / 4096 <? 194)%N false. isb (224 + c / 4096 <? 224)%N false. isb (224 + c / 4096 <? 240)%N true.
    rewrite !tail_ok by apply Hm. replace ((224 + c / 4096 - 224) * 4096 + (128 + (c / 64) mod 64 - 128) * 64 + (128 + c mod 64 - 128))%N with c by nlia.
    apply N.leb_le in E2. rewrite E2, Hs. reflexivity.
  - assert (D : (c / 262144 < 5)%N) by nlia.
    isb (240 + c / 262144 <? 128)%N false. isb (240 + c / 262144 <? 194)%N false. isb (240 + c / 262144 <? 224)%N false.
    isb (240 + c / 262144 <? 240)%N false. isb (240 + c / 262144 <? 245)%N true.
    rewrite !tail_ok by apply Hm.
    replace ((240 + c / 262144 - 240) * 262144 + (128 + (c / 4096) mod 64 - 128) * 4096 + (128 + (c / 64) mod 64 - 128) * 64 + (128 + c mod 64 - 128))%N with c by nlia.
    apply N.leb_le in E3. rewrite E3, Hs. reflexivity.
Qed.
(** UTF-8 gives every text back. *)
Theorem C76_utf8 : forall s, faithful Utf8 s.
Proof.
  intros s. unfold faithful. cbn [writes reads]. induction s as [|c s IH]; intros bs H; cbn [bytes_of] in H; [injection H as <-; reflexivity|].
  destruct (utf8 c) as [b|] eqn:E; [|discriminate]. destruct (bytes_of utf8 s) as [r|]; [|discriminate]. injection H as <-.
  rewrite (utf8_one c b r E), (IH r eq_refl). reflexivity.
Qed.
(** The Unicode scalar values: all code points but the surrogates. *)
Definition unicode (c : N) : Prop := (c <= 55295 \/ 57344 <= c <= 1114111)%N.
Lemma scalar_unicode c : scalar c = true <-> unicode c.
Proof.
  unfold scalar, unicode. rewrite Bool.orb_true_iff, Bool.andb_true_iff, !N.ltb_lt, N.leb_le. lia.
Qed.
Lemma utf8_char c : (exists b, utf8 c = Some b) <-> unicode c.
Proof.
  rewrite <- scalar_unicode. unfold utf8. destruct (scalar c); cbn [negb].
  - split; [reflexivity|intros _]. destruct (c <? 128)%N; [eauto|]. destruct (c <? 2048)%N; [eauto|]. destruct (c <? 65536)%N; eauto.
  - split; [intros (b & E); discriminate|discriminate].
Qed.
Lemma utf8_text s : (exists bs, bytes_of utf8 s = Some bs) <-> Forall unicode s.
Proof.
  induction s as [|c s IH]; cbn [bytes_of]; [split; eauto|]. rewrite Forall_cons_iff, <- IH, <- utf8_char.
  destruct (utf8 c) as [b|]; [|split; [intros (x & E); discriminate|intros ((x & E) & _); discriminate]].
  destruct (bytes_of utf8 s) as [bs|]; (split; [intros (x & E)|intros (_ & (x & E))]); try discriminate; [split|]; eexists; reflexivity.
Qed.
(** UTF-8 writes exactly the texts of Unicode characters. *)
Theorem C76_utf8_writes_all : forall s, encodable utf8 s = true <-> Forall unicode s.
Proof.
  intros s. unfold encodable.
  assert (G : Forall unicode s <-> Forall unicode (s ++ [10%N])).
  { rewrite Forall_app. split; [intros H; split; [exact H|]|tauto]. constructor; [left; lia|constructor]. }
  rewrite G, <- utf8_text. destruct (bytes_of utf8 (s ++ [10%N])) as [bs|]; split; eauto; [discriminate|]. intros (x & E). discriminate.
Qed.

(** * EUC-JP *)
(** A JIS X 0208 table and its inverse. *)
Definition table (jis sij : N -> option N) : Prop := forall c p, jis c = Some p -> (p < 8836)%N /\ sij p = Some c.
(** EUC-JP gives back every text without yen sign, overline and minus sign. *)
Theorem C76_eucjp_partial : forall jis sij s, table jis sij -> Forall (fun c => c <> 165 /\ c <> 8254 /\ c <> 8722)%N s -> faithful (Eucjp jis sij) s.
Proof.
  intros jis sij s Ht H. unfold faithful. cbn [writes reads]. induction H as [|c s (H1 & H2 & H3) Hs IH]; intros bs E; cbn [bytes_of] in E; [injection E as <-; reflexivity|].
  destruct (eucjp jis c) as [b|] eqn:Eb; [|discriminate]. destruct (bytes_of (eucjp jis) s) as [r|]; [|discriminate]. injection E as <-.
  specialize (IH r eq_refl). unfold eucjp in Eb.
  apply N.eqb_neq in H1, H2, H3. rewrite H1, H2, H3 in Eb.
  destruct (c <? 128)%N eqn:E1; [apply some_inj in Eb; subst b; cbn [app eucjp_read]; now rewrite E1, IH|].
  destruct ((65377 <=? c) && (c <=? 65439))%N eqn:E2.
  - apply some_inj in Eb; subst b. apply andb_prop in E2 as [L1 L2]. apply N.leb_le in L1, L2. cbn [app]. unfold eucjp_read; fold (eucjp_read sij).
    change (142 <? 128)%N with false. change (142 =? 142)%N with true. cbv iota.
    replace ((161 <=? c - 65377 + 161)%N) with true by (symmetry; apply N.leb_le; lia).
    replace ((c - 65377 + 161 <=? 223)%N) with true by (symmetry; apply N.leb_le; lia). cbn [andb].
    rewrite IH. replace (65377 - 161 + (c - 65377 + 161))%N with c by lia. reflexivity.
  - destruct (jis c) as [p|] eqn:Ej; [|discriminate]. apply some_inj in Eb; subst b. destruct (Ht c p Ej) as [Hp Hc]. cbn [app]. unfold eucjp_read; fold (eucjp_read sij).
    assert (D : (p / 94 < 94 /\ p mod 94 < 94)%N) by nlia. assert (Ep : (p / 94 * 94 + p mod 94 = p)%N) by nlia.
    revert D Ep. generalize (p / 94)%N as q, (p mod 94)%N as m. intros q m D Ep.
    replace (q + 161 <? 128)%N with false by (symmetry; apply N.ltb_ge; lia). replace (q + 161 =? 142)%N with false by (symmetry; apply N.eqb_neq; lia).
    replace (161 <=? q + 161)%N with true by (symmetry; apply N.leb_le; lia).
    replace (q + 161 <=? 254)%N with true by (symmetry; apply N.leb_le; lia).
    replace (161 <=? m + 161)%N with true by (symmetry; apply N.leb_le; lia).
    replace (m + 161 <=? 254)%N with true by (symmetry; apply N.leb_le; lia). cbn [andb].
    replace ((q + 161 - 161) * 94 + (m + 161 - 161))%N with p by lia. now rewrite Hc, IH.
Qed.

(** * Saving and opening again *)
(** Where the encoding is faithful to the text saved: the dictionary that is opened from the file written
    answers everything as before. *)
Theorem C76_kept_partial : forall lossy enc c d f out, sound_dents d -> keepable (encodable (writes enc)) d ->
  faithful enc (save_text (encodable (writes enc)) d) -> b_main f <> None ->
  save_file (Some enc) (mkU d true) f out ->
  exists bs old, b_main f = Some old /\ out = Written (mkFiles (Some bs) (Some old))
    /\ (enc <> Replacement -> same_answers (mkDict c (DUser d true)) (mkDict c (DUser (read_file lossy (Some enc) bs) false))).
Proof.
  intros lossy enc c d f out Hs Hk Hf Hm H. inversion H as [| ? ? Hn|? ? ? ? He|? ? old enc' bs Ho He Hw]; subst; try congruence.
  injection He as <-. exists bs, old. split; [exact Ho|]. split; [reflexivity|]. intros Hr.
  apply C76_file in Hw. apply Hf in Hw. unfold read_file.
  replace (no_replacement (Some enc)) with (Some enc) by (destruct enc; try reflexivity; congruence).
  rewrite Hw, (reload_exact _ d Hs Hk). now apply remade_answers.
Qed.

(** * Where it fails *)
Definition utf8_bytes (s : str) : list N := match bytes_of utf8 s with Some b => b | None => [] end.
Lemma unknown_panics d old bak out : save_file None (mkU d true) (mkFiles (Some old) bak) out -> out = SavePanics (mkFiles (Some []) (Some old)).
Proof. intros H. inversion H as [| ? ? Hn|? ? old' Ho He|? ? old' enc' bs Ho He Hw]; subst; try discriminate. cbn [b_main] in Ho. now apply some_inj in Ho as ->. Qed.
Lemma known_writes e d old bak out : save_file (Some e) (mkU d true) (mkFiles (Some old) bak) out ->
  exists bs, out = Written (mkFiles (Some bs) (Some old)) /\ bytes_of (writes e) (save_text (encodable (writes e)) d) = Some bs.
Proof.
  intros H. inversion H as [| ? ? Hn|? ? old' Ho He|? ? old' enc' bs Ho He Hw]; subst; try discriminate.
  cbn [b_main] in Ho. apply some_inj in Ho, He. subst old' enc'. exists bs. split; [reflexivity|]. now apply C76_file in Hw.
Qed.
(** A label that names no encoding: the dictionary opens (the bytes are taken for UTF-8) and is used, but saving
    it panics after the file was renamed away and created anew: the file is left empty. *)
Theorem C76_unknown_refuted : forall lossy, exists outs w' d,
  typed false (U "K a space space Return") (demo [mkDict true (DUser (read_file lossy None (utf8_bytes mosquito)) false)]) = Ok (outs, w')
  /\ dict_at 0 w' = Some (mkDict true (DUser d true))
  /\ forall bak out, save_file None (mkU d true) (mkFiles (Some (utf8_bytes mosquito)) bak) out ->
       out = SavePanics (mkFiles (Some []) (Some (utf8_bytes mosquito)))
       /\ read_file lossy None [] = dents_empty.
Proof.
  intros lossy.
  replace (read_file lossy None (utf8_bytes mosquito)) with (load_text mosquito) by (vm_compute; reflexivity).
  destruct (run_case (typed false (U "K a space space Return") (demo [mkDict true (DUser (load_text mosquito) false)])) (fun w => dict_at 0 w)
    (Some (mkDict true (DUser learnt true)))) as (outs & w & E & F); [vm_compute; reflexivity|].
  exists outs, w, learnt. split; [exact E|]. split; [exact F|]. intros bak out H. split; [|reflexivity].
  now apply unknown_panics in H.
Qed.
(** A label that names UTF-16: the file is read as UTF-16 and written as UTF-8, so everything in it is lost. *)
Definition utf16_bytes (s : str) : list N := flat_map (fun c => [c mod 256; c / 256]%N) s.
Definition loves : str := U "あい /愛/哀/" ++ [10%N].
Definition loves_learnt : dents := mkDents [] [(U "あい", mkEntry (U "あい") false [([], [mkDC (U "哀") None; mkDC (U "愛") None])])].
Theorem C76_utf16_refuted : forall lossy, exists outs w',
  typed false (U "A i space space Return") (demo [mkDict true (DUser (read_file lossy (Some Utf16le) (utf16_bytes loves)) false)]) = Ok (outs, w')
  /\ dict_at 0 w' = Some (mkDict true (DUser loves_learnt true))
  /\ (forall old out, save_file (Some Utf16le) (mkU loves_learnt true) (mkFiles (Some old) None) out ->
       exists bs, out = Written (mkFiles (Some bs) (Some old)) /\ read_file lossy (Some Utf16le) bs = dents_empty).
Proof.
  intros lossy.
  replace (read_file lossy (Some Utf16le) (utf16_bytes loves)) with (load_text loves) by (vm_compute; reflexivity).
  destruct (run_case (typed false (U "A i space space Return") (demo [mkDict true (DUser (load_text loves) false)])) (fun w => dict_at 0 w)
    (Some (mkDict true (DUser loves_learnt true)))) as (outs & w & E & F); [vm_compute; reflexivity|].
  exists outs, w. split; [exact E|]. split; [exact F|]. intros old out H.
  apply known_writes in H as (bs & -> & Hw). exists bs. split; [reflexivity|]. cbn [writes] in Hw.
  assert (Eb : bytes_of utf8 (save_text (encodable utf8) loves_learnt) = Some (utf8_bytes (save_text (encodable utf8) loves_learnt))) by (vm_compute; reflexivity).
  rewrite Eb in Hw. apply some_inj in Hw. subst bs. vm_compute. reflexivity.
Qed.
(** EUC-JP: a yen sign that was registered comes back as a backslash. *)
Definition kana_jis (c : N) : option N := if ((12353 <=? c) && (c <=? 12435))%N then Some (c - 12353 + 282)%N else None.
Definition kana_sij (p : N) : option N := if ((282 <=? p) && (p <=? 364))%N then Some (p - 282 + 12353)%N else None.
Definition kana_eucjp : encoding := Eucjp kana_jis kana_sij.
Lemma kana_table : table kana_jis kana_sij.
Proof.
  intros c p. unfold kana_jis, kana_sij. destruct ((12353 <=? c) && (c <=? 12435))%N eqn:E; [|discriminate]. intros H. apply some_inj in H. subst p.
  apply andb_prop in E as [L1 L2]. apply N.leb_le in L1, L2. split; [lia|].
  replace ((282 <=? c - 12353 + 282)%N) with true by (symmetry; apply N.leb_le; lia).
  replace ((c - 12353 + 282 <=? 364)%N) with true by (symmetry; apply N.leb_le; lia). cbn [andb]. f_equal. lia.
Qed.
Definition with_yen (y : N) : dents := mkDents [] [(U "かね", mkEntry (U "かね") false [([], [mkDC [y] None])])].
Theorem C76_yen_refuted : forall lossy, exists outs w',
  typed false (U "K a n e space Return") (demo [static_dict [U "かね /¥/"]; mkDict true (DUser (read_file lossy (Some kana_eucjp) []) false)]) = Ok (outs, w')
  /\ dict_at 1 w' = Some (mkDict true (DUser (with_yen 165) true))
  /\ (forall old out, save_file (Some kana_eucjp) (mkU (with_yen 165) true) (mkFiles (Some old) None) out ->
       exists bs, out = Written (mkFiles (Some bs) (Some old)) /\ read_file lossy (Some kana_eucjp) bs = with_yen 92).
Proof.
  intros lossy.
  replace (read_file lossy (Some kana_eucjp) []) with dents_empty by (vm_compute; reflexivity).
  destruct (run_case (typed false (U "K a n e space Return") (demo [static_dict [U "かね /¥/"]; mkDict true (DUser dents_empty false)])) (fun w => dict_at 1 w)
    (Some (mkDict true (DUser (with_yen 165) true)))) as (outs & w & E & F); [vm_compute; reflexivity|].
  exists outs, w. split; [exact E|]. split; [exact F|]. intros old out H.
  apply known_writes in H as (bs & -> & Hw). exists bs. split; [reflexivity|].
  assert (Eb : bytes_of (writes kana_eucjp) (save_text (encodable (writes kana_eucjp)) (with_yen 165)) = Some (match bytes_of (writes kana_eucjp) (save_text (encodable (writes kana_eucjp)) (with_yen 165)) with Some b => b | None => [] end)) by (vm_compute; reflexivity).
  rewrite Eb in Hw. apply some_inj in Hw. subst bs. vm_compute. reflexivity.
Qed.
(** What C76_kept_partial asks for is met by what was learnt from か. *)
Example C76_case : sound_dents learnt /\ keepable (encodable (writes Utf8)) learnt /\ faithful Utf8 (save_text (encodable (writes Utf8)) learnt)
  /\ exists bs, save_file (Some Utf8) (mkU learnt true) (mkFiles (Some (utf8_bytes mosquito)) None) (Written (mkFiles (Some bs) (Some (utf8_bytes mosquito)))).
Proof.
  destruct C64_case as (outs & w & E & F & K).
  split.
  - assert (S : load_text (U "か /香/蚊/" ++ [10%N]) = learnt) by (vm_compute; reflexivity). rewrite <- S. apply sound_load.
  - split.
    + destruct K as [K1 K2]. split; [|exact K2]. intros k e He. destruct (K1 k e He) as (A & B & _). split; [exact A|]. split; [exact B|].
      cbn in He. destruct He as [[= <- <-]|[]]. vm_compute. reflexivity.
    + split; [apply C76_utf8|]. destruct (C76_written utf8 BUF_SIZE learnt) as (bs & H).
      * intros c b. unfold utf8. destruct (negb (scalar c)); [discriminate|]. unfold BUF_SIZE.
        destruct (c <? 128)%N; [|destruct (c <? 2048)%N; [|destruct (c <? 65536)%N]]; intros Hb; apply some_inj in Hb; subst b; cbn [length]; lia.
      * intros c Hc. unfold utf8. apply N.ltb_lt in Hc as Hc'. unfold scalar.
        replace (c <? 55296)%N with true by (symmetry; apply N.ltb_lt; lia). cbn [orb negb]. rewrite Hc'. discriminate.
      * exists bs. eapply sf_written; [reflexivity|reflexivity|exact H].
Qed.
