(** Model of /repo/src/form_changer/*.rs. *)
From Verif Require Import Str Keys Modes.

(* ------------------------------------------------------------------ ascii *)
(** ascii_form_changer.rs:7-9; a BTreeMap as an association list.  Keys of more than one
    character are never hit. *)
Definition ascii_map := list (str * str).
(** ascii_form_changer.rs:37-53: pairs the two columns; unequal lengths give an empty map;
    a later duplicate key overwrites. *)
Definition ascii_form_map (hankaku zenkaku : list str) : ascii_map :=
  if Nat.eqb (length hankaku) (length zenkaku)
  then rev (combine hankaku zenkaku) else [].
(** ascii_form_changer.rs:55-61 *)
Definition adjust_ascii_char (m : ascii_map) (c : N) : str :=
  match assoc_str [c] m with Some z => z | None => [c] end.
(** ascii_form_changer.rs:63-73 *)
Definition adjust_ascii_string (m : ascii_map) (s : str) : str :=
  flat_map (adjust_ascii_char m) s.

(* ------------------------------------------------------------------- kana *)
(** kana_form_changer.rs:7-20 *)
Record kana_form := mkKF { kf_katakana : list (str * str); kf_jisx0201 : list (str * str) }.
(** kana_form_changer.rs:143-154 *)
Definition key_maxlen (m : list (str * str)) : nat :=
  fold_right (fun '(k, _) n => Nat.max (length k) n) 0 m.

(** kana_form_changer.rs:222-233, the loop [for i in (1..max_len+1).rev()]: the first [i],
    from [max_len] down to 1, whose prefix is a key. *)
Fixpoint longest_key (m : list (str * str)) (i : nat) (s : str) : option (nat * str) :=
  match i with
  | O => None
  | S j => match assoc_str (firstn i s) m with
           | Some r => Some (i, r)
           | None => longest_key m j s
           end
  end.
(** kana_form_changer.rs:211-240; recursion on fuel (the length of the text). *)
Fixpoint adjust_recur (m : list (str * str)) (maxlen : nat) (fuel : nat) (s : str) : str :=
  match fuel with
  | O => []
  | S f =>
      match s with
      | [] => []
      | c :: r => match longest_key m maxlen s with
                  | Some (i, rep) => rep ++ adjust_recur m maxlen f (skipn i s)
                  | None => c :: adjust_recur m maxlen f r
                  end
      end
  end.
(** kana_form_changer.rs:190-208 *)
Definition adjust_kana_string (kf : kana_form) (i : imode) (s : str) : str :=
  match i with
  | Katakana => adjust_recur (kf_katakana kf) (key_maxlen (kf_katakana kf)) (length s) s
  | HankakuKatakana => adjust_recur (kf_jisx0201 kf) (key_maxlen (kf_jisx0201 kf)) (length s) s
  | _ => s
  end.

(** kana_form_changer.rs:34-119, KANA_ROM_MAP *)
Definition kana_rom_rows : list (str * str) :=
  [(U "あ", U "a"); (U "い", U "i"); (U "う", U "u"); (U "え", U "e"); (U "お", U "o");
   (U "かきくけこ", U "k"); (U "さしすせそ", U "s"); (U "たちつてと", U "t");
   (U "なにぬねの", U "n"); (U "はひふへほ", U "h"); (U "まみむめも", U "m");
   (U "やゆよ", U "y"); (U "らりるれろ", U "r"); (U "わ", U "w"); (U "ゐゑ", U "x");
   (U "を", U "w"); (U "ん", U "n"); (U "がぎぐげご", U "g"); (U "ざじずぜぞ", U "z");
   (U "だぢづでど", U "d"); (U "ばびぶべぼ", U "b"); (U "ぱぴぷぺぽ", U "p");
   (U "ぁぃぅぇぉ", U "x"); (U "っ", U "t"); (U "ゃゅょゎ", U "x")].
Definition kana_rom_map : list (N * N) :=
  Eval vm_compute in
    flat_map (fun '(ks, r) => map (fun k => (k, hd 0%N r)) ks) kana_rom_rows.
(** kana_form_changer.rs:245-247 *)
Definition kana_to_okuri_prefix (c : N) : option N := assoc_N c kana_rom_map.

(* ---------------------------------------------------------------- numeric *)
(** regex \d (Unicode): general category Nd, Unicode 14. *)
Definition nd_ranges : list (N * N) :=
  [(48, 57); (1632, 1641); (1776, 1785); (1984, 1993); (2406, 2415); (2534, 2543); (2662, 2671);
   (2790, 2799); (2918, 2927); (3046, 3055); (3174, 3183); (3302, 3311); (3430, 3439);
   (3558, 3567); (3664, 3673); (3792, 3801); (3872, 3881); (4160, 4169); (4240, 4249);
   (6112, 6121); (6160, 6169); (6470, 6479); (6608, 6617); (6784, 6793); (6800, 6809);
   (6992, 7001); (7088, 7097); (7232, 7241); (7248, 7257); (42528, 42537); (43216, 43225);
   (43264, 43273); (43472, 43481); (43504, 43513); (43600, 43609); (44016, 44025);
   (65296, 65305); (66720, 66729); (68912, 68921); (69734, 69743); (69872, 69881);
   (69942, 69951); (70096, 70105); (70384, 70393); (70736, 70745); (70864, 70873);
   (71248, 71257); (71360, 71369); (71472, 71481); (71904, 71913); (72016, 72025);
   (72784, 72793); (73040, 73049); (73120, 73129); (92768, 92777); (92864, 92873);
   (93008, 93017); (120782, 120831); (123200, 123209); (123632, 123641); (125264, 125273);
   (130032, 130041)]%N.
Definition is_digit (c : N) : bool :=
  existsb (fun '(a, b) => N.leb a c && N.leb c b) nd_ranges.
Definition is_ascii_digit (c : N) : bool := N.leb 48 c && N.leb c 57.

(** Regex [\d+], [find]: the text before, the first maximal digit run, the text after. *)
Fixpoint span_digits (s : str) : str * str :=
  match s with
  | [] => ([], [])
  | c :: r => if is_digit c then let '(a, b) := span_digits r in (c :: a, b) else ([], s)
  end.
Fixpoint find_digits (s : str) : option (str * str * str) :=
  match s with
  | [] => None
  | c :: r => if is_digit c then let '(a, b) := span_digits s in Some ([], a, b)
              else match find_digits r with
                   | Some (p, a, b) => Some (c :: p, a, b)
                   | None => None
                   end
  end.

(** numeric_form_changer.rs:7-28 *)
Definition digit_kanji : str := U "〇一二三四五六七八九".
Definition digit_zenkaku : str := U "０１２３４５６７８９".
Definition kanji_17 : str := U "〇一二三四五六七八九十百千万億兆京".
Definition daiji_17 : str := U "零壱弐参四伍六七八九拾百阡萬億兆京".
Definition legal_daiji_17 : str := U "〇壱弐参四五六七八九拾百千万億兆京".

(** The replacement loops: every element of the first list in turn is replaced everywhere
    (numeric_form_changer.rs:32-34, 69-72, 143-145). *)
Definition replace_each (from to : str) (s : str) : str :=
  fold_left (fun acc '(a, b) => replace_char a [b] acc) (combine from to) s.
(** numeric_form_changer.rs:30-36 *)
Definition numeric_to_kanji_each (s : str) : str := replace_each (U "0123456789") digit_kanji s.
(** numeric_form_changer.rs:141-147 *)
Definition numeric_to_zenkaku (s : str) : str := replace_each (U "0123456789") digit_zenkaku s.

(** [str::parse::<u64>]: ASCII digits only (a leading plus sign cannot occur after [\d+]),
    non-empty, value below 2^64. *)
Definition parse_u64 (s : str) : option N :=
  if is_nil s then None
  else if forallb is_ascii_digit s then
    let n := fold_left (fun acc c => acc * 10 + (c - 48))%N s 0%N in
    if N.ltb n 18446744073709551616 then Some n else None
  else None.

(** numeric_form_changer.rs:87-139.  [keta] are the decimal digits, least significant first;
    20 of them are extracted and all five groups of four are visited from the top. *)
Definition nth_char (s : str) (n : N) : str :=
  match nth_error s (N.to_nat n) with Some c => [c] | None => [] end.
Definition digit_at (num : N) (i : N) : N := ((num / 10 ^ i) mod 10)%N.
Definition keta_part (d : N) (explicit_one : bool) (unit : str) : str :=
  if N.eqb d 0 then []
  else (if negb (N.eqb d 1) || explicit_one then nth_char digit_kanji d else []) ++ unit.
Definition kurai : list str := [[]; U "万"; U "億"; U "兆"; U "京"].
Definition keta_group (num : N) (explicit_one : bool) (i : nat) : str :=
  let b := N.of_nat (i * 4) in
  let k0 := digit_at num b in
  let k1 := digit_at num (b + 1) in
  let k2 := digit_at num (b + 2) in
  let k3 := digit_at num (b + 3) in
  if N.eqb k0 0 && N.eqb k1 0 && N.eqb k2 0 && N.eqb k3 0 then []
  else keta_part k3 explicit_one (U "千") ++ keta_part k2 explicit_one (U "百")
       ++ keta_part k1 explicit_one (U "十")
       ++ (if N.eqb k0 0 then [] else nth_char digit_kanji k0)
       ++ nth i kurai [].
Definition too_large : str := U "数字が大きすぎます".
Definition format_number_kanji (num : N) (explicit_one : bool) : str :=
  if N.leb 10000000000000000000 num then too_large
  else if N.eqb num 0 then U "〇"
  else flat_map (keta_group num explicit_one) [4; 3; 2; 1; 0]%nat.

(** numeric_form_changer.rs:41-52; [parse().unwrap()] panics. *)
Definition numeric_to_simple_kanji_as_number (s : str) : res str :=
  match find_digits s with
  | None => Ok s
  | Some (p, d, r) =>
      match parse_u64 d with
      | None => Panic PanicUnwrap
      | Some n => Ok (p ++ format_number_kanji n false ++ r)
      end
  end.
(** numeric_form_changer.rs:57-77 *)
Definition numeric_to_daiji_as_number (s : str) (legal : bool) : res str :=
  let to := if legal then legal_daiji_17 else daiji_17 in
  match find_digits s with
  | None => Ok s
  | Some (p, d, r) =>
      match parse_u64 d with
      | None => Panic PanicUnwrap
      | Some n => Ok (p ++ replace_each kanji_17 to (format_number_kanji n true) ++ r)
      end
  end.
(** numeric_form_changer.rs:152-171.  [num_len] is the byte length.  Note that the text
    around the digits is dropped. *)
Fixpoint sep_loop (num_len cnt : nat) (s : str) : str :=
  match s with
  | [] => []
  | c :: r => c :: (if Nat.eqb (Nat.modulo cnt 3) 2 && Nat.ltb cnt num_len then [44%N] else [])
                ++ sep_loop num_len (S cnt) r
  end.
Definition numeric_to_thousand_separator (s : str) : str :=
  match find_digits s with
  | None => []
  | Some (_, d, _) =>
      let num_len := byte_len d in
      if Nat.ltb num_len 4 then d
      else sep_loop num_len (3 - Nat.modulo num_len 3) d
  end.
