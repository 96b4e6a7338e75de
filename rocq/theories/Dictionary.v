(** Model of /repo/src/dictionary/{mod,file_dictionary,user_dictionary,static_dict,empty_dict}.rs
    except file access (SaveFs.v). *)
From Verif Require Import Str Keys Modes FormChanger DictTypes Parser Lru.

(** file_dictionary.rs:11-14 *)
Record dents := mkDents { d_ari : lmap entry; d_nashi : lmap entry }.
Definition dents_empty : dents := mkDents [] [].

(** mod.rs:31-35; user_dictionary.rs:16-24 (path and encoding are in SaveFs.v) *)
Inductive dkind := DStatic (d : dents) | DUser (d : dents) (has_change : bool) | DEmpty.
(** mod.rs:39-42 *)
Record dict := mkDict { d_completable : bool; d_kind : dkind }.
Definition dict_ents (d : dict) : dents :=
  match d_kind d with DStatic e => e | DUser e _ => e | DEmpty => dents_empty end.

(* ------------------------------------------------------------------- load *)
(** [BufRead::lines] (std/src/io/mod.rs, Lines::next): a line ends with a newline, which is removed
    together with one carriage return before it; what follows the last newline is a line too unless
    it is empty, and nothing is removed from it. *)
Definition strip_cr (s : str) : str := strip_suffix_char 13 s.
Fixpoint end_lines (l : list str) : list str :=
  match l with
  | [] => []
  | [x] => if is_nil x then [] else [x]
  | x :: r => strip_cr x :: end_lines r
  end.
Definition text_lines (t : str) : list str := end_lines (split_on 10 t).

Fixpoint contains (pat s : str) : bool :=
  is_prefixb pat s || match s with [] => false | _ :: r => contains pat r end.

(** file_dictionary.rs:85-141: one line; the boolean is DictionaryLoadMode::OkuriAri. *)
Definition load_line (st : bool * dents) (line : str) : bool * dents :=
  let '(ari_mode, d) := st in
  if is_prefixb (U ";") line then
    if contains (U ";; okuri-ari entries") line then (true, d)
    else if contains (U ";; okuri-nasi entries") line then (false, d)
    else (ari_mode, d)
  else
    match from_skkjisyo_line line with
    | None => (ari_mode, d)
    | Some e =>
        if ari_mode && e_okuri e
        then (ari_mode, mkDents (lpush (e_midashi e) e (d_ari d)) (d_nashi d))
        else (ari_mode, mkDents (d_ari d) (lpush (e_midashi e) e (d_nashi d)))
    end.
(** file_dictionary.rs:86-142, load_dictionary on the decoded text *)
Definition load_lines (ls : list str) : dents := snd (fold_left load_line ls (true, dents_empty)).
Definition load_text (t : str) : dents := load_lines (text_lines t).

(* ----------------------------------------------------------------- lookup *)
(** user_dictionary.rs:43-51, static_dict.rs:33-41, empty_dict.rs:11-13 *)
Definition lookup (d : dict) (k : ckey) : res (option entry) :=
  match d_kind d with
  | DEmpty => Ok None
  | _ => rmap (fun key => lpeek key (if has_okuri k then d_ari (dict_ents d) else d_nashi (dict_ents d)))
              (get_dict_key k)
  end.

Fixpoint skip_while {A} (f : A -> bool) (l : list A) : list A :=
  match l with [] => [] | x :: r => if f x then skip_while f r else l end.
Fixpoint take_while {A} (f : A -> bool) (l : list A) : list A :=
  match l with [] => [] | x :: r => if f x then x :: take_while f r else [] end.
(** file_dictionary.rs:34-75, complete.  [get_dict_key] is only evaluated when there is an
    element. *)
Definition complete (d : dict) (k : ckey) : res (list entry) :=
  let sorted := liter_sorted (if has_okuri k then d_ari (dict_ents d) else d_nashi (dict_ents d)) in
  match sorted with
  | [] => Ok []
  | _ => rmap (fun key =>
           map snd (take_while (fun kv => is_prefixb key (fst kv))
                     (skip_while (fun kv => negb (is_prefixb key (fst kv))) sorted)))
         (get_dict_key k)
  end.

(* ---------------------------------------------------------------- updates *)
(** user_dictionary.rs:119-143 *)
Definition select_in_map (c : candidate) (m : lmap entry) : lmap entry :=
  match lpeek (c_midashi c) m with
  | Some _ => lupdate (c_midashi c) (prioritize_candidate c) m
  | None => lpush (c_midashi c) (entry_new (c_midashi c) c) m
  end.
Definition select_candidate (d : dict) (c : candidate) : dict :=
  match d_kind d with
  | DUser e _ =>
      mkDict (d_completable d)
        (DUser (if c_okuri c then mkDents (select_in_map c (d_ari e)) (d_nashi e)
                else mkDents (d_ari e) (select_in_map c (d_nashi e))) true)
  | _ => d
  end.
(** user_dictionary.rs:145-162 *)
Definition purge_in_map (k : ckey) (c : candidate) (m : lmap entry) : lmap entry :=
  lupdate (c_midashi c) (remove_matching_candidate k c) m.
Definition purge_candidate (d : dict) (k : ckey) (c : candidate) : dict :=
  match d_kind d with
  | DUser e _ =>
      mkDict (d_completable d)
        (DUser (if c_okuri c then mkDents (purge_in_map k c (d_ari e)) (d_nashi e)
                else mkDents (d_ari e) (purge_in_map k c (d_nashi e))) true)
  | _ => d
  end.

(* ------------------------------------------------------------------ dedup *)
(** mod.rs:240-278, dedup_candidates, for a type with a total order [cmp] and the text
    [kouho].  Sorting twice equal elements cannot be observed, so any sort will do. *)
Section Dedup.
  Context {T : Type} (cmp : T -> T -> comparison) (kouho : T -> str).
  Fixpoint insert_cmp (x : T) (l : list T) : list T :=
    match l with
    | [] => [x]
    | y :: r => match cmp x y with Gt => y :: insert_cmp x r | _ => x :: l end
    end.
  Definition sort_cmp (l : list T) : list T := fold_right insert_cmp [] l.
  (** Vec::dedup_by with equality of texts: keeps the first of each run *)
  Fixpoint dedup_from (prev : T) (l : list T) : list T :=
    match l with
    | [] => []
    | x :: r => if str_eqb (kouho x) (kouho prev) then dedup_from prev r
                else x :: dedup_from x r
    end.
  Definition dedup_by (l : list T) : list T :=
    match l with [] => [] | x :: r => x :: dedup_from x r end.
  Definition eq_cmp (a b : T) : bool := match cmp a b with Eq => true | _ => false end.
  (** inner loop (mod.rs:264-269): pushes every equal element, remembers the last position *)
  Fixpoint matches (x : T) (pos : nat) (l : list T) (acc : list T) (at_ : option nat)
    : list T * option nat :=
    match l with
    | [] => (acc, at_)
    | y :: r => if eq_cmp y x then matches x (S pos) r (acc ++ [y]) (Some pos)
                else matches x (S pos) r acc at_
    end.
  Fixpoint pick (ordered deduped : list T) : list T :=
    match ordered with
    | [] => []
    | x :: r => let '(m, at_) := matches x 0 deduped [] None in
                m ++ pick r (match at_ with Some i => remove_nth i deduped | None => deduped end)
    end.
  Definition dedup_candidates (l : list T) : list T :=
    pick l (rev (dedup_by (rev (sort_cmp l)))).
End Dedup.

(* ------------------------------------------------------- candidate search *)
(** mod.rs:287-319, get_candidates_in_order *)
Definition dict_candidates (k : ckey) (oe : option entry) : list dcand :=
  match oe with
  | None => []
  | Some e =>
      (if has_okuri k then match entry_candidates (ck_okuri k) e with Some l => l | None => [] end
       else [])
      ++ match entry_candidates None e with Some l => l | None => [] end
  end.
Fixpoint candidates_in_order (ds : list dict) (k : ckey) : res (list dcand) :=
  match ds with
  | [] => Ok []
  | d :: r => rbind (lookup d k) (fun oe =>
              rmap (fun l => dict_candidates k oe ++ l) (candidates_in_order r k))
  end.
Fixpoint res_map {A B} (f : A -> res B) (l : list A) : res (list B) :=
  match l with
  | [] => Ok []
  | x :: r => rbind (f x) (fun y => rmap (cons y) (res_map f r))
  end.
(** The exact-match part of get_all_candidates_inner (mod.rs:199-210, 215-225). *)
Definition exact_candidates (ds : list dict) (k : ckey) : res (list candidate) :=
  rbind (candidates_in_order ds k) (fun l =>
  res_map (candidate_of_dcand k) (dedup_candidates dcand_cmp dc_kouho l)).

(** Regex \d+ find_iter: all maximal digit runs (mod.rs:321-323). *)
Fixpoint digit_runs (fuel : nat) (s : str) : list str :=
  match fuel with
  | O => []
  | S f => match find_digits s with
           | None => []
           | Some (_, d, r) => d :: digit_runs f r
           end
  end.
Definition numbers_of (s : str) : list str := digit_runs (length s) s.
(** mod.rs:329-344, to_composite_to_numeric_dict_key *)
Definition to_numeric_key (k : ckey) : ckey * list str :=
  let ns := numbers_of (ck_to k) in
  (mkCK (fold_left (fun acc n => replacen1 n (U "#") acc) ns (ck_to k)) (ck_okuri k), ns).
(** mod.rs:354-356, numeric_string_count *)
Definition numeric_string_count (s : str) : nat := length (numbers_of s).

(** Regex #[0123458] find_iter (mod.rs:367, 399): the template characters in order. *)
Definition is_template (c : N) : bool := existsb (N.eqb c) (U "0123458").
Fixpoint templates (s : str) : list N :=
  match s with
  | [] => []
  | c :: r => match r with
              | c' :: r' => if N.eqb c 35 && is_template c' then c' :: templates r' else templates r
              | [] => []
              end
  end.
(** mod.rs:365-370, numeric_entry_count *)
Definition numeric_entry_count (s : str) : nat := length (templates s).

(** mod.rs:405-490, one template: the texts that may replace it. *)
Definition template_texts (ds : list dict) (t : N) (n : str) : res (list str) :=
  if N.eqb t 48 then Ok [n]
  else if N.eqb t 49 then Ok [numeric_to_zenkaku n]
  else if N.eqb t 50 then Ok [numeric_to_kanji_each n]
  else if N.eqb t 51 then rmap (fun x => [x]) (numeric_to_simple_kanji_as_number n)
  else if N.eqb t 52 then rmap (map c_kouho) (exact_candidates ds (mkCK n None))
  else if N.eqb t 53 then
    rbind (numeric_to_daiji_as_number n false) (fun a =>
    rmap (fun b => [a; b]) (numeric_to_daiji_as_number n true))
  else Ok [numeric_to_thousand_separator n].
(** mod.rs:392-494, replace_numeric_string.  Templates beyond the numbers are left alone.
    Simplification: in the code the conversion of #3/#5 is evaluated once per current text,
    so with an empty list of texts (a preceding #4 without candidates) it is not evaluated. *)
Fixpoint replace_templates (ds : list dict) (ts : list N) (ns : list str) (cur : list str)
  : res (list str) :=
  match ts, ns with
  | t :: ts', n :: ns' =>
      match cur with
      | [] => Ok []
      | _ => rbind (template_texts ds t n) (fun reps =>
             replace_templates ds ts' ns'
               (flat_map (fun text => map (fun r => replacen1 [35%N; t] r text) reps) cur))
      end
  | _, _ => Ok cur
  end.
Definition replace_numeric_string (ds : list dict) (kouho : str) (ns : list str) : res (list str) :=
  replace_templates ds (templates kouho) ns [kouho].
(** mod.rs:373-389, replace_numeric_match *)
Definition with_output (c : candidate) (o : str) : candidate :=
  mkCand (c_midashi c) (c_strict c) (c_okuri c) (c_kouho c) (c_annot c) o.
Definition replace_numeric_match (ds : list dict) (ns : list str) (c : candidate)
  : res (list candidate) :=
  rmap (map (with_output c)) (replace_numeric_string ds (c_kouho c) ns).
(** mod.rs:128-133 and 188-236, get_all_candidates *)
Definition get_all_candidates (ds : list dict) (k : ckey) : res (list candidate) :=
  rbind (exact_candidates ds k) (fun exact =>
    let '(k', ns) := to_numeric_key k in
    if ckey_eqb k' k then Ok exact
    else rbind (exact_candidates ds k') (fun cs =>
         rmap (fun ll => exact ++ concat ll) (res_map (replace_numeric_match ds ns) cs))).

(** mod.rs:140-185, get_all_complete *)
Fixpoint complete_in_order (ds : list dict) (k : ckey) : res (list ccand) :=
  match ds with
  | [] => Ok []
  | d :: r =>
      rbind (if d_completable d then complete d k else Ok []) (fun es =>
      rmap (fun l =>
        flat_map (fun e => match entry_candidates (ck_okuri k) e with
                           | Some cs => map (fun c => mkCC (e_midashi e) (ck_okuri k)
                                                           (dc_kouho c) (dc_annot c)) cs
                           | None => []
                           end) es ++ l)
        (complete_in_order r k))
  end.
Definition get_all_complete (ds : list dict) (k : ckey) : res (list candidate) :=
  rmap (fun l => map candidate_of_ccand (dedup_candidates ccand_cmp cc_kouho l))
       (complete_in_order ds k).
