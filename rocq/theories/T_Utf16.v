(** Property C76, UTF-16: which bytes read as which text. *)
From Coq Require Import Lia.
From Verif Require Import Str Encoding T_Encoding T_CText.
Local Open Scope N_scope.

(** The units of a character: itself, or a high and a low surrogate; each unit as two bytes, the low
    one first (The Unicode Standard, table 3-5). *)
Definition utf16_of (c : N) : list N :=
  let unit u := [u mod 256; u / 256] in
  if c <? 65536 then unit c
  else unit (55296 + (c - 65536) / 1024) ++ unit (56320 + (c - 65536) mod 1024).
Definition byte (b : N) : Prop := b < 256.
Lemma utf16_one c r : scalar c = true -> utf16_read (utf16_of c ++ r) = option_map (cons c) (utf16_read r).
Proof.
  unfold scalar. intros H. apply orb_prop in H as [H|H]; [apply N.ltb_lt in H|apply andb_prop in H as [H1 H2]; apply N.leb_le in H1; apply N.ltb_lt in H2].
  - unfold utf16_of. isb (c <? 65536) true. cbn [app utf16_read]. replace (c / 256 * 256 + c mod 256) with c by nlia.
    isb (c <? 55296) true. reflexivity.
  - unfold utf16_of. destruct (N.ltb_spec c 65536) as [L|L].
    + cbn [app utf16_read]. replace (c / 256 * 256 + c mod 256) with c by nlia.
      isb (c <? 55296) false. isb (57344 <=? c) true. reflexivity.
    + set (h := 55296 + (c - 65536) / 1024). set (l := 56320 + (c - 65536) mod 1024).
      assert (Hh : 55296 <= h < 56320) by (unfold h; nlia). assert (Hl : 56320 <= l < 57344) by (unfold l; nlia).
      assert (E : 65536 + (h - 55296) * 1024 + (l - 56320) = c) by (unfold h, l; nlia).
      clearbody h l. cbn [app utf16_read]. replace (h / 256 * 256 + h mod 256) with h by nlia. replace (l / 256 * 256 + l mod 256) with l by nlia.
      isb (h <? 55296) false. isb (h <? 56320) true. isb (56320 <=? l) true. isb (l <? 57344) true.
      replace (57344 <=? h) with false by (symmetry; apply N.leb_gt; lia). cbn [orb andb]. now rewrite E.
Qed.
Lemma utf16_unit a b : byte a -> byte b -> [(b * 256 + a) mod 256; (b * 256 + a) / 256] = [a; b].
Proof. unfold byte. intros Ha Hb. repeat f_equal; nlia. Qed.
Lemma pair_of a b a1 b1 : byte a -> byte b -> byte a1 -> byte b1 ->
  55296 <= b * 256 + a -> b * 256 + a < 56320 -> 56320 <= b1 * 256 + a1 -> b1 * 256 + a1 < 57344 ->
  let c := 65536 + (b * 256 + a - 55296) * 1024 + (b1 * 256 + a1 - 56320) in
  unicode c /\ utf16_of c = [a; b; a1; b1].
Proof.
  intros Ha Hb Ha1 Hb1. pose proof (utf16_unit a b Ha Hb) as Eu. pose proof (utf16_unit a1 b1 Ha1 Hb1) as Ev.
  generalize dependent (b * 256 + a). generalize dependent (b1 * 256 + a1). intros v Ev u Eu H1 H2 H3 H4 c.
  split; [unfold unicode; right; unfold c; lia|].
  unfold utf16_of. isb (c <? 65536) false. replace (55296 + (c - 65536) / 1024) with u by (unfold c; nlia).
  replace (56320 + (c - 65536) mod 1024) with v by (unfold c; nlia). cbv zeta. rewrite Eu, Ev. reflexivity.
Qed.
(** Reading UTF-16 gives a text exactly for the bytes that text is written as, and gives that text. *)
Theorem C76_utf16_reads : forall bytes t, Forall byte bytes ->
  (utf16_read bytes = Some t <-> Forall unicode t /\ bytes = flat_map utf16_of t).
Proof.
  intros bytes t Hb. split.
  - revert t. remember (length bytes) as n eqn:En. assert (Hn : (length bytes <= n)%nat) by lia. clear En.
    revert bytes Hb Hn. induction n as [|n IH]; intros bytes Hb Hn t.
    { destruct bytes; [|cbn in Hn; lia]. cbn. intros [= <-]. split; [constructor|reflexivity]. }
    destruct bytes as [|a [|b r]]; cbn [utf16_read]; [intros [= <-]; split; [constructor|reflexivity]|discriminate|].
    inversion Hb as [|? ? Ha Hb1]; subst. inversion Hb1 as [|? ? Hb0 Hr]; subst. clear Hb Hb1. cbn [length] in Hn.
    destruct ((b * 256 + a <? 55296) || (57344 <=? b * 256 + a)) eqn:Es.
    + destruct (utf16_read r) as [t'|] eqn:Er; [|discriminate]. cbn [option_map]. intros [= <-].
      destruct (IH r Hr ltac:(lia) t' Er) as [F E]. split.
      * constructor; [|exact F]. apply scalar_unicode. unfold scalar. apply orb_prop in Es as [Es|Es]; [now rewrite Es|].
        rewrite Es. unfold byte in *. isb (b * 256 + a <? 1114112) true. apply orb_true_r.
      * cbn [flat_map]. unfold utf16_of at 1. unfold byte in *. isb (b * 256 + a <? 65536) true. rewrite utf16_unit by assumption. now rewrite <- E.
    + apply orb_false_elim in Es as [E1 E2]. apply N.ltb_ge in E1. apply N.leb_gt in E2.
      destruct (N.ltb_spec (b * 256 + a) 56320) as [L|L]; [|discriminate].
      destruct r as [|a1 [|b1 r1]]; try discriminate.
      destruct ((56320 <=? b1 * 256 + a1) && (b1 * 256 + a1 <? 57344)) eqn:Ev; [|discriminate].
      apply andb_prop in Ev as [V1 V2]. apply N.leb_le in V1. apply N.ltb_lt in V2.
      inversion Hr as [|? ? Ha1 Hr1]; subst. inversion Hr1 as [|? ? Hb1 Hr2]; subst. cbn [length] in Hn.
      destruct (utf16_read r1) as [t'|] eqn:Er; [|discriminate]. intros Et. apply some_inj in Et. subst t.
      destruct (IH r1 Hr2 ltac:(lia) t' Er) as [F E]. destruct (pair_of a b a1 b1) as [P1 P2]; auto.
      split; [constructor; [exact P1|exact F]|]. cbn [flat_map]. rewrite P2, <- E. reflexivity.
  - intros [F ->]. clear Hb. induction F as [|c t Hc F IH]; [reflexivity|]. cbn [flat_map]. rewrite utf16_one by now apply scalar_unicode. now rewrite IH.
Qed.
Example C76_utf16_case : utf16_read [75; 48; 64; 216; 11; 220]%N = Some [12363; 131083] /\ utf16_read [64; 216; 75; 48] = None.
Proof. vm_compute. auto. Qed.
