(** Model of /repo/src/dictionary/dictionary_parser.rs and dictentry.rs:134-176, with the
    nom 7.1 combinators it uses. *)
From Verif Require Import Str Keys Modes FormChanger DictTypes.

(** A parser returns the value and the rest; [None] is a recoverable error.  Nothing here
    produces nom's Failure or Incomplete. *)
Definition parser (A : Type) := str -> option (A * str).

(** nom::character::complete::char *)
Definition p_char (c : N) : parser N := fun s =>
  match s with x :: r => if N.eqb x c then Some (c, r) else None | [] => None end.
(** take_while1 / take_till1 (complete versions): the longest non-empty prefix of accepted
    characters; the whole input if all are accepted. *)
Fixpoint span (f : N -> bool) (s : str) : str * str :=
  match s with
  | [] => ([], [])
  | c :: r => if f c then let '(a, b) := span f r in (c :: a, b) else ([], s)
  end.
Definition p_while1 (f : N -> bool) : parser str := fun s =>
  match span f s with ([], _) => None | (a, b) => Some (a, b) end.
Definition p_till1 (f : N -> bool) : parser str := p_while1 (fun c => negb (f c)).
Definition p_map {A B} (p : parser A) (f : A -> B) : parser B := fun s =>
  match p s with Some (a, r) => Some (f a, r) | None => None end.
Definition p_alt {A} (p q : parser A) : parser A := fun s =>
  match p s with Some x => Some x | None => q s end.
Definition p_opt {A} (p : parser A) : parser (option A) := fun s =>
  match p s with Some (a, r) => Some (Some a, r) | None => Some (None, s) end.
Definition all_consuming {A} (p : parser A) : parser A := fun s =>
  match p s with Some (a, []) => Some (a, []) | _ => None end.
(** many1: the element parsers here always consume, so the fuel (input length) suffices. *)
Fixpoint many0_fuel {A} (p : parser A) (fuel : nat) (s : str) : list A * str :=
  match fuel with
  | O => ([], s)
  | S f => match p s with
           | Some (a, r) => let '(l, r') := many0_fuel p f r in (a :: l, r')
           | None => ([], s)
           end
  end.
Definition many1 {A} (p : parser A) : parser (list A) := fun s =>
  match p s with
  | Some (a, r) => let '(l, r') := many0_fuel p (length r) r in Some (a :: l, r')
  | None => None
  end.

(** nom::branch::permutation: repeatedly run, on the current input, the first not yet
    successful parser that succeeds; stop when none does; succeed if all have. *)
Section Permutation.
  Context {A B C D E : Type}.
  Fixpoint perm2_loop (pa : parser A) (pb : parser B) (fuel : nat)
           (a : option A) (b : option B) (s : str) : option ((A * B) * str) :=
    match fuel with
    | O => None
    | S f =>
      match (match a with None => pa s | Some _ => None end) with
      | Some (x, r) => perm2_loop pa pb f (Some x) b r
      | None =>
      match (match b with None => pb s | Some _ => None end) with
      | Some (x, r) => perm2_loop pa pb f a (Some x) r
      | None => match a, b with Some x, Some y => Some ((x, y), s) | _, _ => None end
      end end
    end.
  Definition perm2 pa pb : parser (A * B) := perm2_loop pa pb 3 None None.

  Fixpoint perm3_loop (pa : parser A) (pb : parser B) (pc : parser C) (fuel : nat)
           (a : option A) (b : option B) (c : option C) (s : str)
    : option ((A * B * C) * str) :=
    match fuel with
    | O => None
    | S f =>
      match (match a with None => pa s | Some _ => None end) with
      | Some (x, r) => perm3_loop pa pb pc f (Some x) b c r
      | None =>
      match (match b with None => pb s | Some _ => None end) with
      | Some (x, r) => perm3_loop pa pb pc f a (Some x) c r
      | None =>
      match (match c with None => pc s | Some _ => None end) with
      | Some (x, r) => perm3_loop pa pb pc f a b (Some x) r
      | None => match a, b, c with
                | Some x, Some y, Some z => Some ((x, y, z), s)
                | _, _, _ => None
                end
      end end end
    end.
  Definition perm3 pa pb pc : parser (A * B * C) := perm3_loop pa pb pc 4 None None None.

  Fixpoint perm5_loop (pa : parser A) (pb : parser B) (pc : parser C) (pd : parser D)
           (pe : parser E) (fuel : nat)
           (a : option A) (b : option B) (c : option C) (d : option D) (e : option E) (s : str)
    : option ((A * B * C * D * E) * str) :=
    match fuel with
    | O => None
    | S f =>
      match (match a with None => pa s | Some _ => None end) with
      | Some (x, r) => perm5_loop pa pb pc pd pe f (Some x) b c d e r
      | None =>
      match (match b with None => pb s | Some _ => None end) with
      | Some (x, r) => perm5_loop pa pb pc pd pe f a (Some x) c d e r
      | None =>
      match (match c with None => pc s | Some _ => None end) with
      | Some (x, r) => perm5_loop pa pb pc pd pe f a b (Some x) d e r
      | None =>
      match (match d with None => pd s | Some _ => None end) with
      | Some (x, r) => perm5_loop pa pb pc pd pe f a b c (Some x) e r
      | None =>
      match (match e with None => pe s | Some _ => None end) with
      | Some (x, r) => perm5_loop pa pb pc pd pe f a b c d (Some x) r
      | None => match a, b, c, d, e with
                | Some x, Some y, Some z, Some w, Some v => Some ((x, y, z, w, v), s)
                | _, _, _, _, _ => None
                end
      end end end end end
    end.
  Definition perm5 pa pb pc pd pe : parser (A * B * C * D * E) :=
    perm5_loop pa pb pc pd pe 6 None None None None None.
End Permutation.

(** dictionary_parser.rs:147-153 *)
Definition kouho_illegal (c : N) : bool := existsb (N.eqb c) [47; 59; 91; 93]%N.
Definition annot_illegal (c : N) : bool := existsb (N.eqb c) [47; 59]%N.
(** dictionary_parser.rs:100, the half-open range from U+3041 to U+3096 *)
Definition is_okuri_kana (c : N) : bool := N.leb 12353 c && N.ltb c 12438.

(** A CandidatePrototype (dictionary_parser.rs:26-30) before the lisp escapes are undone. *)
Definition proto := (str * option str)%type.

(** dictionary_parser.rs:118-144 *)
Definition p_no_strict : parser proto := fun s =>
  match p_till1 kouho_illegal s with
  | None => None
  | Some (k, r) =>
      match p_opt (perm2 (p_char 59) (p_till1 annot_illegal)) r with
      | Some (Some (_, a), r') => Some ((k, Some a), r')
      | Some (None, r') => Some ((k, None), r')
      | None => None
      end
  end.
(** dictionary_parser.rs:97-114 *)
Definition p_strict : parser (str * list proto) :=
  p_map (perm5 (p_char 91) (p_while1 is_okuri_kana) (p_char 47)
               (many1 (p_map (perm2 p_no_strict (p_char 47)) fst))
               (p_char 93))
        (fun '(_, o, _, l, _) => (o, l)).
(** dictionary_parser.rs:80-94; the one-element map is a pair *)
Definition p_candidate : parser (str * list proto) :=
  p_map (perm2 (p_alt p_strict (p_map p_no_strict (fun c => ([], [c])))) (p_char 47)) fst.
(** dictionary_parser.rs:60-76; [candidates] keeps for each okurigana the concatenation *)
Definition merge_block (m : bmap (list proto)) (b : str * list proto) : bmap (list proto) :=
  match bget (fst b) m with
  | Some l => bset (fst b) (l ++ snd b) m
  | None => bset (fst b) (snd b) m
  end.
Definition p_candidates : parser (bmap (list proto)) := fun s =>
  match all_consuming (perm2 (p_char 47) (many1 p_candidate)) s with
  | Some ((_, l), _) => Some (fold_left merge_block l [], [])
  | None => None
  end.
(** dictionary_parser.rs:54-57 *)
Definition p_midashi : parser str := p_till1 (N.eqb 32).
(** dictionary_parser.rs:38-52 *)
Definition p_entry : parser (str * bmap (list proto)) := fun s =>
  match all_consuming (perm3 p_midashi (p_while1 (N.eqb 32)) p_candidates) s with
  | Some ((m, _, c), r) => Some ((m, c), r)
  | None => None
  end.

(** dictionary_candidate.rs:20-33 *)
Definition dcand_of_proto (p : proto) : dcand :=
  mkDC (process_lisp_fun (fst p)) (option_map process_lisp_fun (snd p)).
(** dictentry.rs:144-160 *)
Definition is_lower_ascii (c : N) : bool := N.leb 97 c && N.leb c 122.
Definition looks_okuri_ari (m : str) : bool :=
  negb (match m with c :: _ => is_lower_ascii c | [] => false end)
  && (match rev m with c :: _ => is_lower_ascii c | [] => false end).
(** dictentry.rs:144-176 *)
Definition entry_of_proto (p : str * bmap (list proto)) : entry :=
  let m := process_lisp_fun (fst p) in
  mkEntry m (looks_okuri_ari m) (map (fun '(k, l) => (k, map dcand_of_proto l)) (snd p)).
(** dictentry.rs:134-142; None is Err *)
Definition from_skkjisyo_line (line : str) : option entry :=
  match p_entry line with
  | Some (p, _) => Some (entry_of_proto p)
  | None => None
  end.
