(** Strings, panics and machine arithmetic used by the whole model.

    Rust [char] = Unicode scalar value, modelled by its code point ([N]);
    Rust [String]/[&str] = [list N].  Rust compares strings by their UTF-8 bytes, which
    coincides with the lexicographic order of code points ([str_cmp]). *)
From Coq Require Import Ascii String.
From Coq Require Export List NArith ZArith Lia Bool Arith.
Export ListNotations.
From Coq Require String.
Export String.StringSyntax.

Definition str := list N.

(** UTF-8 decoding of a Coq string literal (the bytes of the source file), so that the
    model can contain readable Japanese literals: [U "..."].  Only used on literals. *)
Definition b2n (a : ascii) : N := N_of_ascii a.

Fixpoint utf8_aux (pending : nat) (acc : N) (s : string) : str :=
  match s with
  | EmptyString => []
  | String a r =>
      let b := b2n a in
      match pending with
      | O => if N.ltb b 128 then b :: utf8_aux 0 0%N r
             else if N.ltb b 224 then utf8_aux 1 (b - 192)%N r
             else if N.ltb b 240 then utf8_aux 2 (b - 224)%N r
             else utf8_aux 3 (b - 240)%N r
      | S O => (acc * 64 + (b - 128))%N :: utf8_aux 0 0%N r
      | S k => utf8_aux k (acc * 64 + (b - 128))%N r
      end
  end.
Definition U (s : string) : str := utf8_aux 0 0%N s.
Arguments U s%string_scope.

(** First character of a literal. *)
Definition C (s : string) : N := hd 0%N (U s).
Arguments C s%string_scope.

Fixpoint str_eqb (a b : str) : bool :=
  match a, b with
  | [], [] => true
  | x :: a', y :: b' => N.eqb x y && str_eqb a' b'
  | _, _ => false
  end.

Lemma str_eqb_spec a b : reflect (a = b) (str_eqb a b).
Proof.
  revert b; induction a as [|x a IH]; intros [|y b]; cbn; try (constructor; congruence).
  destruct (N.eqb_spec x y) as [->|Hn]; cbn; [|constructor; congruence].
  destruct (IH b) as [->|Hn]; constructor; congruence.
Qed.
Lemma str_eqb_eq a b : str_eqb a b = true <-> a = b.
Proof. destruct (str_eqb_spec a b); split; congruence. Qed.
Lemma str_eqb_refl a : str_eqb a a = true.
Proof. apply str_eqb_eq; reflexivity. Qed.
Lemma str_eqb_neq a b : str_eqb a b = false <-> a <> b.
Proof. destruct (str_eqb_spec a b); split; congruence. Qed.
Lemma str_eqb_sym a b : str_eqb a b = str_eqb b a.
Proof. destruct (str_eqb_spec a b), (str_eqb_spec b a); congruence. Qed.
Definition str_eq_dec (a b : str) : {a = b} + {a <> b} := list_eq_dec N.eq_dec a b.

(** Lexicographic comparison ([Ord] of [String]). *)
Fixpoint str_cmp (a b : str) : comparison :=
  match a, b with
  | [], [] => Eq
  | [], _ => Lt
  | _, [] => Gt
  | x :: a', y :: b' => match N.compare x y with Eq => str_cmp a' b' | c => c end
  end.
Definition str_ltb a b := match str_cmp a b with Lt => true | _ => false end.
Definition str_leb a b := match str_cmp a b with Gt => false | _ => true end.

Lemma str_cmp_eq a b : str_cmp a b = Eq <-> a = b.
Proof.
  revert b; induction a as [|x a IH]; intros [|y b]; cbn; try (split; congruence).
  destruct (N.compare_spec x y) as [->|H|H].
  - rewrite IH; split; congruence.
  - split; [congruence|]. intros [= -> ->]; lia.
  - split; [congruence|]. intros [= -> ->]; lia.
Qed.
Lemma str_cmp_refl a : str_cmp a a = Eq.
Proof. apply str_cmp_eq; reflexivity. Qed.
Lemma str_cmp_antisym a b : str_cmp b a = CompOpp (str_cmp a b).
Proof.
  revert b; induction a as [|x a IH]; intros [|y b]; cbn; try reflexivity.
  rewrite (N.compare_antisym x y). destruct (N.compare x y); cbn; auto.
Qed.
Lemma str_cmp_lt_trans a b c : str_cmp a b = Lt -> str_cmp b c = Lt -> str_cmp a c = Lt.
Proof.
  revert b c; induction a as [|x a IH]; intros [|y b] [|z c]; cbn; try congruence.
  destruct (N.compare_spec x y) as [->|H|H]; try congruence.
  - destruct (N.compare_spec y z); try congruence. apply IH.
  - intros _. destruct (N.compare_spec y z) as [->|H2|H2]; try congruence.
    + assert (Hc : N.compare x z = Lt) by (apply N.compare_lt_iff; lia).
      rewrite Hc; reflexivity.
    + assert (Hc : N.compare x z = Lt) by (apply N.compare_lt_iff; lia).
      rewrite Hc; reflexivity.
Qed.
Definition str_lt a b : Prop := str_cmp a b = Lt.
Lemma str_lt_irrefl a : ~ str_lt a a.
Proof. unfold str_lt; rewrite str_cmp_refl; congruence. Qed.
Lemma str_lt_trans a b c : str_lt a b -> str_lt b c -> str_lt a c.
Proof. apply str_cmp_lt_trans. Qed.

Definition is_nil {A} (l : list A) : bool := match l with [] => true | _ => false end.
Lemma is_nil_true {A} (l : list A) : is_nil l = true <-> l = [].
Proof. destruct l; cbn; split; congruence. Qed.
Lemma is_nil_false {A} (l : list A) : is_nil l = false <-> l <> [].
Proof. destruct l; cbn; split; congruence. Qed.

Fixpoint is_prefixb (p s : str) : bool :=
  match p, s with
  | [], _ => true
  | x :: p', y :: s' => N.eqb x y && is_prefixb p' s'
  | _ :: _, [] => false
  end.
Lemma is_prefixb_spec p s : is_prefixb p s = true <-> exists r, s = p ++ r.
Proof.
  revert s; induction p as [|x p IH]; intros s; cbn.
  - split; [intros _; now exists s | reflexivity].
  - destruct s as [|y s]; [split; [congruence|intros [r H]; discriminate]|].
    destruct (N.eqb_spec x y) as [->|Hn]; cbn.
    + rewrite IH. split; intros [r H]; exists r; congruence.
    + split; [congruence|]. intros [r H]; cbn in H; congruence.
Qed.
Definition is_suffixb (p s : str) : bool := is_prefixb (rev p) (rev s).
Lemma is_suffixb_spec p s : is_suffixb p s = true <-> exists r, s = r ++ p.
Proof.
  unfold is_suffixb; rewrite is_prefixb_spec. split; intros [r H].
  - exists (rev r). rewrite <- (rev_involutive s), H, rev_app_distr, rev_involutive.
    reflexivity.
  - exists (rev r). rewrite H, rev_app_distr. reflexivity.
Qed.

Definition last_opt {A} (l : list A) : option A := List.last (map Some l) None.
Lemma last_opt_app {A} (l : list A) x : last_opt (l ++ [x]) = Some x.
Proof. unfold last_opt; rewrite map_app; cbn. now rewrite last_last. Qed.
Definition str_pop (s : str) : str := removelast s.

(** [String::replace(one_char, text)]. *)
Definition replace_char (c : N) (r : str) (s : str) : str :=
  flat_map (fun x => if N.eqb x c then r else [x]) s.

(** Association lists: last binding inserted first. *)
Fixpoint assoc_str {A} (k : str) (l : list (str * A)) : option A :=
  match l with
  | [] => None
  | (k', v) :: r => if str_eqb k k' then Some v else assoc_str k r
  end.
Fixpoint assoc_N {A} (k : N) (l : list (N * A)) : option A :=
  match l with
  | [] => None
  | (k', v) :: r => if N.eqb k k' then Some v else assoc_N k r
  end.

(** Results with explicit panics. *)
Inductive reason := PanicUnwrap | PanicIndex | PanicUnderflow | PanicDebugAssert
                  | PanicEmptyStack | PanicExpect.
Inductive res (A : Type) := Ok (a : A) | Panic (r : reason).
Arguments Ok {A} a.
Arguments Panic {A} r.
Definition rbind {A B} (m : res A) (f : A -> res B) : res B :=
  match m with Ok a => f a | Panic r => Panic r end.
Definition rmap {A B} (f : A -> B) (m : res A) : res B :=
  match m with Ok a => Ok (f a) | Panic r => Panic r end.
Definition is_ok {A} (m : res A) : bool := match m with Ok _ => true | _ => false end.

(** [usize] subtraction: panics in debug builds, wraps in release builds (64 bit). *)
Definition usize_mod : N := 18446744073709551616%N.
Definition usize_sub (dbg : bool) (a b : N) : res N :=
  if N.leb b a then Ok (a - b)%N
  else if dbg then Panic PanicUnderflow else Ok (a + usize_mod - b)%N.
Definition usize_add (dbg : bool) (a b : N) : res N :=
  if N.ltb (a + b) usize_mod then Ok (a + b)%N
  else if dbg then Panic PanicUnderflow else Ok ((a + b) mod usize_mod)%N.

(** UTF-8 length of a character and of a string (Rust [len()] is a byte length). *)
Definition char_len (c : N) : nat :=
  if N.ltb c 128 then 1 else if N.ltb c 2048 then 2 else if N.ltb c 65536 then 3 else 4.
Definition byte_len (s : str) : nat := fold_right (fun c n => char_len c + n) 0 s.

(** White space according to [char::is_whitespace] (Unicode White_Space). *)
Definition is_ws (c : N) : bool :=
  existsb (N.eqb c) [9;10;11;12;13;32;133;160;5760;8232;8233;8239;8287;12288]%N
  || (N.leb 8192 c && N.leb c 8202).
Fixpoint trim_start (s : str) : str :=
  match s with [] => [] | c :: r => if is_ws c then trim_start r else s end.
Definition trim_end (s : str) : str := rev (trim_start (rev s)).
Definition trim (s : str) : str := trim_end (trim_start s).
Fixpoint trim_start_matches (x : N) (s : str) : str :=
  match s with [] => [] | c :: r => if N.eqb c x then trim_start_matches x r else s end.
Definition trim_end_matches (x : N) (s : str) : str := rev (trim_start_matches x (rev s)).

(** [str::split(char)] and [char_indices].  [split] never returns an empty list. *)
Fixpoint split_aux (x : N) (acc : str) (s : str) : list str :=
  match s with
  | [] => [rev acc]
  | c :: r => if N.eqb c x then rev acc :: split_aux x [] r else split_aux x (c :: acc) r
  end.
Definition split_on (x : N) (s : str) : list str := split_aux x [] s.

(** [split_once(pat)] for a string pattern: leftmost occurrence. *)
Fixpoint split_once (pat s : str) : option (str * str) :=
  if is_prefixb pat s then Some ([], skipn (length pat) s)
  else match s with
       | [] => None
       | c :: r => match split_once pat r with
                   | Some (a, b) => Some (c :: a, b)
                   | None => None
                   end
       end.
