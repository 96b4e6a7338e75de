(** Model of /repo/src/dictionary/{candidate,dictionary_candidate,composite_key,dictentry}.rs
    (the line parser is in Parser.v). *)
From Verif Require Import Str Keys Modes FormChanger.

(* ------------------------------------------------------------- BTreeMap *)
(** BTreeMap<String, A>: association list kept in increasing key order. *)
Definition bmap (A : Type) := list (str * A).
Definition bget {A} (k : str) (m : bmap A) : option A := assoc_str k m.
Fixpoint bset {A} (k : str) (v : A) (m : bmap A) : bmap A :=
  match m with
  | [] => [(k, v)]
  | (k', v') :: r =>
      match str_cmp k k' with
      | Eq => (k, v) :: r
      | Lt => (k, v) :: m
      | Gt => (k', v') :: bset k v r
      end
  end.
Inductive bsorted {A} : bmap A -> Prop :=
| bs_nil : bsorted []
| bs_one k v : bsorted [(k, v)]
| bs_cons k v k' v' m : str_lt k k' -> bsorted ((k', v') :: m) ->
    bsorted ((k, v) :: (k', v') :: m).

(* ------------------------------------------------------------ candidates *)
(** candidate.rs:6-19 *)
Record candidate := mkCand {
  c_midashi : str; c_strict : option str; c_okuri : bool;
  c_kouho : str; c_annot : option str; c_output : str }.
(** candidate.rs:21-32 *)
Definition default_candidate : candidate :=
  mkCand (U "エラー") None false (U "エラー") None (U "エラー").
(** candidate.rs:34-41, PartialEq: midashi and kouho_text only *)
Definition cand_eqb (a b : candidate) : bool :=
  str_eqb (c_midashi a) (c_midashi b) && str_eqb (c_kouho a) (c_kouho b).

(** dictionary_candidate.rs:12-16 *)
Record dcand := mkDC { dc_kouho : str; dc_annot : option str }.
(** dictionary_candidate.rs:36-44 *)
Definition dcand_of (c : candidate) : dcand := mkDC (c_kouho c) (c_annot c).
(** dictionary_candidate.rs:76-83 *)
Record ccand := mkCC { cc_midashi : str; cc_okuri : option str; cc_kouho : str; cc_annot : option str }.

Definition ostr_cmp (a b : option str) : comparison :=
  match a, b with
  | None, None => Eq
  | None, Some _ => Lt
  | Some _, None => Gt
  | Some x, Some y => str_cmp x y
  end.
(** derived Ord: fields in declaration order (dictionary_candidate.rs:11 and 76) *)
Definition dcand_cmp (a b : dcand) : comparison :=
  match str_cmp (dc_kouho a) (dc_kouho b) with
  | Eq => ostr_cmp (dc_annot a) (dc_annot b)
  | c => c
  end.
Definition ccand_cmp (a b : ccand) : comparison :=
  match str_cmp (cc_midashi a) (cc_midashi b) with
  | Eq => match ostr_cmp (cc_okuri a) (cc_okuri b) with
          | Eq => match str_cmp (cc_kouho a) (cc_kouho b) with
                  | Eq => ostr_cmp (cc_annot a) (cc_annot b)
                  | c => c
                  end
          | c => c
          end
  | c => c
  end.

(* --------------------------------------------------------- composite key *)
(** composite_key.rs:6-10 *)
Record ckey := mkCK { ck_to : str; ck_okuri : option str }.
Definition ostr_eqb (a b : option str) : bool :=
  match a, b with
  | None, None => true
  | Some x, Some y => str_eqb x y
  | _, _ => false
  end.
Definition ckey_eqb (a b : ckey) : bool :=
  str_eqb (ck_to a) (ck_to b) && ostr_eqb (ck_okuri a) (ck_okuri b).
(** composite_key.rs:28-30 *)
Definition has_okuri (k : ckey) : bool := match ck_okuri k with Some _ => true | None => false end.
(** composite_key.rs:33-48; [chars().next().unwrap()] panics on an empty okuri *)
Definition get_dict_key (k : ckey) : res str :=
  match ck_okuri k with
  | None => Ok (ck_to k)
  | Some [] => Panic PanicUnwrap
  | Some (c :: _) => match kana_to_okuri_prefix c with
                     | Some p => Ok (ck_to k ++ [p])
                     | None => Ok (ck_to k)
                     end
  end.

(** candidate.rs:65-80 *)
Definition candidate_of_dcand (k : ckey) (dc : dcand) : res candidate :=
  rmap (fun m => mkCand m (ck_okuri k) (has_okuri k) (dc_kouho dc) (dc_annot dc) (dc_kouho dc))
       (get_dict_key k).
(** candidate.rs:82-93 *)
Definition candidate_of_ccand (cc : ccand) : candidate :=
  mkCand (cc_midashi cc) (cc_okuri cc) (match cc_okuri cc with Some _ => true | None => false end)
         (cc_kouho cc) (cc_annot cc) (cc_kouho cc).

(* ------------------------------------------------------- dictionary entry *)
(** dictentry.rs:12-20 *)
Record entry := mkEntry { e_midashi : str; e_okuri : bool; e_map : bmap (list dcand) }.

(** dictentry.rs:27-46 *)
Definition entry_new (midashi : str) (c : candidate) : entry :=
  let m := match c_strict c with
           | Some o => bset o [dcand_of c] []
           | None => []
           end in
  mkEntry midashi (c_okuri c) (bset [] [dcand_of c] m).

Fixpoint position {A} (f : A -> bool) (l : list A) : option nat :=
  match l with
  | [] => None
  | x :: r => if f x then Some O else option_map S (position f r)
  end.
Fixpoint set_nth {A} (i : nat) (v : A) (l : list A) : list A :=
  match l, i with
  | [], _ => []
  | _ :: r, O => v :: r
  | x :: r, S j => x :: set_nth j v r
  end.
(** [Vec::swap(0, i)] for [i < len] *)
Definition swap0 {A} (i : nat) (l : list A) : list A :=
  match l, i with
  | [], _ => []
  | _, O => l
  | x :: r, S j => match nth_error r j with
                   | Some y => y :: set_nth j x r
                   | None => l
                   end
  end.
Fixpoint remove_nth {A} (i : nat) (l : list A) : list A :=
  match l, i with
  | [], _ => []
  | _ :: r, O => r
  | x :: r, S j => x :: remove_nth j r
  end.

(** dictentry.rs:60-88 *)
Definition prioritize_list (c : candidate) (l : list dcand) : list dcand :=
  match position (fun d => str_eqb (dc_kouho d) (c_kouho c)) l with
  | Some i => swap0 i l
  | None => dcand_of c :: l
  end.
Definition prioritize_for (o : str) (c : candidate) (m : bmap (list dcand)) : bmap (list dcand) :=
  match bget o m with
  | Some l => bset o (prioritize_list c l) m
  | None => bset o [dcand_of c] m
  end.
(** dictentry.rs:51-57 *)
Definition prioritize_candidate (c : candidate) (e : entry) : entry :=
  let m := match c_strict c with
           | Some o => prioritize_for o c (e_map e)
           | None => e_map e
           end in
  mkEntry (e_midashi e) (e_okuri e) (prioritize_for [] c m).

(** dictentry.rs:106-115 *)
Definition remove_list (kouho : str) (l : list dcand) : list dcand :=
  match position (fun d => str_eqb (dc_kouho d) kouho) l with
  | Some i => remove_nth i l
  | None => l
  end.
Definition remove_for (o : str) (c : candidate) (m : bmap (list dcand)) : bmap (list dcand) :=
  match bget o m with
  | Some l => bset o (remove_list (c_kouho c) l) m
  | None => m
  end.
(** dictentry.rs:94-104 *)
Definition remove_matching_candidate (k : ckey) (c : candidate) (e : entry) : entry :=
  let m := match ck_okuri k with
           | Some o => remove_for o c (e_map e)
           | None => e_map e
           end in
  mkEntry (e_midashi e) (e_okuri e) (remove_for [] c m).

(** dictentry.rs:119-128 *)
Definition entry_candidates (o : option str) (e : entry) : option (list dcand) :=
  match o with Some x => bget x (e_map e) | None => bget [] (e_map e) end.

(* --------------------------------------------- lisp escapes of candidates *)
(** dictentry.rs:255-265 *)
Definition escape_dictionary_string (s : str) : str :=
  if existsb (N.eqb 59) s || existsb (N.eqb 47) s then
    let r := replace_char 47 (U "\057") s in
    let r := replace_char 59 (U "\073") r in
    let r := replace_char 34 [92%N; 34%N] r in
    U "(concat " ++ [34%N] ++ r ++ [34%N] ++ U ")"
  else s.

(** [str::replacen(pat, rep, 1)] *)
Definition replacen1 (pat rep s : str) : str :=
  match split_once pat s with
  | Some (a, b) => a ++ rep ++ b
  | None => s
  end.

(** [trim_start_matches] with a string pattern: strips it repeatedly. *)
Fixpoint trim_start_str (fuel : nat) (pat s : str) : str :=
  match fuel with
  | O => s
  | S f => if is_prefixb pat s then trim_start_str f pat (skipn (length pat) s) else s
  end.
Definition strip_prefix_char (c : N) (s : str) : str :=
  match s with x :: r => if N.eqb x c then r else s | [] => s end.
Definition strip_suffix_char (c : N) (s : str) : str :=
  rev (strip_prefix_char c (rev s)).

Definition is_octal (c : N) : bool := N.leb 48 c && N.leb c 55.
(** OCTAL_REGEX (dictentry.rs:199): a backslash, one to three octal digits (greedy) and an
    optional backslash; [find_iter] over the text, as the list of matched texts.
    The digits are counted down by [octal_digits]. *)
Fixpoint octal_digits (max : nat) (s : str) : str * str :=
  match max, s with
  | S m, c :: r => if is_octal c then let '(a, b) := octal_digits m r in (c :: a, b) else ([], s)
  | _, _ => ([], s)
  end.
Fixpoint find_octals (fuel : nat) (s : str) : list str :=
  match fuel with
  | O => []
  | S f =>
      match s with
      | [] => []
      | c :: r =>
          if N.eqb c 92 then
            match octal_digits 3 r with
            | ([], _) => find_octals f r
            | (ds, rest) =>
                match rest with
                | c' :: rest' => if N.eqb c' 92 then (92%N :: ds ++ [92%N]) :: find_octals f rest'
                                 else (92%N :: ds) :: find_octals f rest
                | [] => [92%N :: ds]
                end
            end
          else find_octals f r
      end
  end.
(** dictentry.rs:220-232: value of the octal digits (at most 0o777, always a char). *)
Definition octal_value (m : str) : N :=
  fold_left (fun acc c => acc * 8 + (c - 48))%N
            (trim_end_matches 92 (trim_start_matches 92 m)) 0%N.

(** ESCAPE_REGEX replace_all (dictentry.rs:200 and 238-242): a backslash followed by any
    character but an octal digit becomes that character. *)
Fixpoint unescape (s : str) : str :=
  match s with
  | [] => []
  | c :: r => if N.eqb c 92 then
                match r with
                | c' :: r' => if is_octal c' then c :: unescape r else c' :: unescape r'
                | [] => [c]
                end
              else c :: unescape r
  end.

(** CONCAT_REGEX find_iter (dictentry.rs:196 and 208): in each line the first opening
    [concat] marker up to the last closing paren after it.  [last_close] splits a line after
    its last closing paren. *)
Fixpoint last_close (s : str) : option (str * str) :=
  match s with
  | [] => None
  | c :: r => match last_close r with
              | Some (a, b) => Some (c :: a, b)
              | None => if N.eqb c 41 then Some ([c], r) else None
              end
  end.
Definition concat_in_line (line : str) : list str :=
  match split_once (U "(concat ") line with
  | Some (_, rest) => match last_close rest with
                      | Some (a, _) => [U "(concat " ++ a]
                      | None => []
                      end
  | None => []
  end.
Definition find_concats (s : str) : list str := flat_map concat_in_line (split_on 10 s).

(** dictentry.rs:209-243, the body of the loop; None is the bail. *)
Definition concat_replacement (m : str) : option str :=
  let f := trim_end_matches 32 (trim_end_matches 41
             (trim_start_matches 32 (trim_start_str (length m) (U "(concat") m))) in
  let f := strip_suffix_char 34 (strip_prefix_char 34 f) in
  if is_nil f then None
  else
    let t := fold_left (fun acc o => replacen1 o [octal_value o] acc)
                       (find_octals (length f) f) f in
    Some (unescape t).
Fixpoint map_opt {A B} (f : A -> option B) (l : list A) : option (list B) :=
  match l with
  | [] => Some []
  | x :: r => match f x, map_opt f r with Some y, Some ys => Some (y :: ys) | _, _ => None end
  end.
(** dictentry.rs:186-252 *)
Definition process_lisp_fun (s : str) : str :=
  match map_opt (fun m => option_map (fun r => (m, r)) (concat_replacement m)) (find_concats s) with
  | None => s
  | Some reps => fold_left (fun acc '(m, r) => replacen1 m r acc) reps s
  end.

(* --------------------------------------------------------------- printing *)
(** dictionary_candidate.rs:47-64 *)
Definition dcand_to_string (d : dcand) : str :=
  match dc_annot d with
  | Some a => escape_dictionary_string (dc_kouho d) ++ [59%N] ++ escape_dictionary_string a
  | None => escape_dictionary_string (dc_kouho d)
  end.
(** dictentry.rs:273-296 *)
Definition cands_to_string (l : list dcand) : str :=
  flat_map (fun d => 47%N :: dcand_to_string d) l.
Definition block_to_string (b : str * list dcand) : str :=
  let '(o, l) := b in
  if is_nil o then cands_to_string l
  else U "/[" ++ o ++ cands_to_string l ++ U "/]".
Definition entry_to_string (e : entry) : str :=
  escape_dictionary_string (e_midashi e) ++ U " " ++ flat_map block_to_string (e_map e) ++ U "/".
