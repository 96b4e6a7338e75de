(** The tests of /repo that tools/mktests.py does not transcribe, written out by hand: the
    remaining integration tests of /repo/tests and the unit tests of /repo/src.  They are tests
    of the transcription (does the model answer as the project says the code answers?), not
    proofs of properties.  Left out: tests of crates' own work (serde, file and directory
    loading of real files), and three integration tests that the project itself marks as
    failing or ignored. *)
From Verif Require Import Str Keys Modes KanaBuilder FormChanger DictTypes Parser Lru LruPtr
  Dictionary CState Context DefaultRule ModelTests Demo SaveFs.

Definition small (ls : list str) : world := tworld default_rule [static_dict ls].
Definition usual : world := tworld default_rule [mkDict true (DStatic dic_SKK_JISYO_S)].
Definition blank : world := tworld default_rule [mkDict false (DUser dents_empty false)].
Definition key (s : str) : keyev :=
  match key_from_str ascii_xkb s with Ok (PKey k) => k | _ => mkKey 0 0 end.
Definition save_all (w : world) : list str :=
  flat_map (fun d => save_lines (fun _ => true) (dict_ents d)) (w_store w).

(* ------------------------------------------------------------------ /repo/tests *)
(** tests/tests.rs:209-225 *)
Definition zougo : list str :=
  [U "ぞうご /象語;象の話す言葉/像檎;たぶん伝承上の果物/造語;このエントリの他の項目/"].
Example m_save_dict : tsteps_ok true [
  TCheck Direct Hiragana (U "Z o u g o space Return") (U "") (U "象語") Hiragana]
  (tworld default_rule [mkDict false (DUser (load_lines zougo) false)]) = true
  /\ load_lines (save_lines (fun _ => true) (load_lines zougo)) = load_lines zougo.
Proof. vm_compute. split; reflexivity. Qed.
(** tests/tests.rs:986-997 *)
Example m_arrow : map (fun s => match process_key_event ascii_xkb true (key s) usual with
                                | Ok (b, _) => Some b | Panic _ => None end)
    [U "Right"; U "Up"; U "Left"; U "Down"] = [Some false; Some false; Some false; Some false].
Proof. vm_compute. reflexivity. Qed.
(** tests/tests.rs:1002-1027; the command table of the test rule does not matter here *)
Example m_using_capital_letter : tsteps_ok true [
  TCheck Direct Hiragana (U "t s U") (U "") (U "ちいさいっ") Hiragana]
  (tworld (mkRule [(U "a", ([], U "あ")); (U "ba", ([], U "ば")); (U "tsU", ([], U "ちいさいっ"))]
             (r_command default_rule)) [mkDict true (DStatic dic_SKK_JISYO_S)]) = true.
Proof. vm_compute. reflexivity. Qed.
(** tests/tests.rs:1178-1217 *)
Example m_semicolon_entry :
  match tstep_ok true (TCheck Direct Hiragana
          (U "Z o u g o space l semicolon C-j a l semicolon Return") (U "") (U ";あ;") Hiragana) blank with
  | Some w1 =>
      match tstep_ok true TReset w1 with
      | Some w2 =>
          match tstep_ok true (TCheck Direct Hiragana (U "Z o u g o space Return") (U "") (U ";あ;") Hiragana) w2 with
          | Some w3 => Some (map (fun l => length (filter (N.eqb 59) l))
                               (filter (fun l => negb (is_prefixb (U ";;") l)) (save_all w3)))
          | None => None
          end
      | None => None
      end
  | None => None
  end = Some [0].
Proof. vm_compute. reflexivity. Qed.
(** tests/tests.rs:1297-1330 *)
Example m_strict_okuri_entry : tsteps_ok true [
  TCheck Direct Hiragana (U "H o S e") (U "▼干せ") (U "") Hiragana; TReset;
  TCheck Direct Hiragana (U "O k u T t e") (U "▼贈って") (U "") Hiragana]
  (small [U "ほs /欲/乾/干/補/保/[せ/干/乾/]/[す/欲/]/[さ/補/保/]/"; U "おくt /送/贈/[って/贈/]/"]) = true.
Proof. vm_compute. reflexivity. Qed.
(** tests/tests.rs:1332-1385 *)
Example m_strict_okuri_precedence : tsteps_ok true [
  TCheck Direct Hiragana (U "O o K i") (U "▼大き") (U "") Hiragana; TReset;
  TCheck Direct Hiragana (U "O o K u") (U "▼多く") (U "") Hiragana; TReset;
  TCheck Direct Hiragana (U "O o K i space Return") (U "") (U "多き") Hiragana; TReset;
  TCheck Direct Hiragana (U "O o K i") (U "▼多き") (U "") Hiragana]
  (tworld default_rule [mkDict false (DUser (load_lines [U "おおk /大/多/[く/多/]/[き/大/]/"]) false)]) = true.
Proof. vm_compute. reflexivity. Qed.
(** tests/tests.rs:1389-1417 *)
Example m_auto_start_register :
  match tstep_ok true (TCheck Direct Hiragana (U "A a period a Return") (U "") (U "あ。") Hiragana) blank with
  | Some w => Some (filter (fun l => negb (is_prefixb (U ";;") l)) (save_all w))
  | None => None
  end = Some [U "ああ /あ/"].
Proof. vm_compute. reflexivity. Qed.
(** tests/tests.rs:1455-1470 *)
Example m_abort :
  match tkeys true (dkeys (U "A space Return A C-g C-g")) usual with
  | Some w => map (fun s => (s_conf s, s_pre s, s_cmode s, s_imode s)) (x_stack (w_ctx w))
  | None => []
  end = [(U "阿", [], Direct, Hiragana)].
Proof. vm_compute. reflexivity. Qed.
(** tests/tests.rs:1472-1492 *)
Example m_maruichi :
  match tkeys true (dkeys (U "M a r u 1 space Return")) (small [U "まる1 /①/❶/⓵/"]) with
  | Some w => map (fun s => (s_conf s, s_pre s, s_cmode s, s_imode s)) (x_stack (w_ctx w))
  | None => []
  end = [(U "①", [], Direct, Hiragana)].
Proof. vm_compute. reflexivity. Qed.
(** tests/libskk_compatibility/okuri_nasi_transitions.rs:62-86 *)
Example m_all_capital : tsteps_ok true [
  TCheck Direct Hiragana (U "N A") (U "▽な") (U "") Hiragana; TReset;
  TCheck Direct Hiragana (U "N A N") (U "▽な*n") (U "") Hiragana] usual = true.
Proof. vm_compute. reflexivity. Qed.
(** tests/rule_specific/default_rule.rs:21-35 *)
Example m_z_minus : tsteps_ok true [
  TCheck Direct Hiragana (U "z minus") (U "") (U "〜") Hiragana] usual = true
  /\ U "〜" = [12316%N].
Proof. vm_compute. split; reflexivity. Qed.

(* ------------------------------------------------------------------ keyevent.rs *)
(** keyevent.rs:392-437, without the names that only xkbcommon's table knows *)
Example m_keyevent_from_str :
  map (key_from_str ascii_xkb)
    [U "a"; U " a"; U "B"; U "(control b)"; U "LATIN SMALL LETTER U WITH ACUTE"; U "C-a"; U "M-Left";
     U "space"; U "Return"; U "period"; U "(shift Tab)"]
  = [Ok (PKey (mkKey 97 0)); Ok (PKey (mkKey 97 0)); Ok (PKey (mkKey 66 0));
     Ok (PKey (mkKey 98 M_CONTROL)); Ok PErr; Ok (PKey (mkKey 97 M_CONTROL));
     Ok (PKey (mkKey 65361 M_META)); Ok (PKey (mkKey 32 0)); Ok (PKey (mkKey 65293 0));
     Ok (PKey (mkKey 46 0)); Ok (PKey (mkKey 65289 M_SHIFT))].
Proof. vm_compute. reflexivity. Qed.
(** keyevent.rs:446-467 *)
Example m_key_names : xk_name ascii_xkb 97 = U "a"
  /\ deserialize_seq ascii_xkb (U "a b c") = Ok (Some [key (U "a"); key (U "b"); key (U "c")]).
Proof. vm_compute. split; reflexivity. Qed.
(** keyevent.rs:477-495, 518-522 *)
Example m_symbol_char :
  map (fun k => get_symbol_char ascii_xkb (mkKey k 0)) [48; 67; 65288; 65360]%N
  = [Some 48; Some 67; Some 8; None]%N
  /\ is_modifierless_input (key (U "C-c")) = false.
Proof. vm_compute. split; reflexivity. Qed.
(** keyevent.rs:497-515 *)
Example m_keysyms_from_string :
  map (keysyms_from_str ascii_xkb)
    [U "space 無視"; U "lk Shift_L"; U "ab"; U "at"; U "question"]
  = [[32]; [108; 107; 65505]; [97; 98]; [64]; [63]]%N.
Proof. vm_compute. reflexivity. Qed.

(* ------------------------------------------------------------------ dictionary *)
(** dictionary_parser.rs:157-346 *)
Example m_midashi : p_midashi (U "ほげr ////") = Some (U "ほげr", U " ////").
Proof. vm_compute. reflexivity. Qed.
Example m_candidates : p_candidates (U "/愛;love/相/[す/愛/]/")
  = Some ([([], [(U "愛", Some (U "love")); (U "相", None)]); (U "す", [(U "愛", None)])], []).
Proof. vm_compute. reflexivity. Qed.
Example m_candidate : p_candidate (U "愛/相/") = Some ([], [(U "愛", None)], U "相/").
Proof. vm_compute. reflexivity. Qed.
Example m_strict_in_candidates : p_candidate (U "[つ/打;hit/討/]/打/")
  = Some (U "つ", [(U "打", Some (U "hit")); (U "討", None)], U "打/").
Proof. vm_compute. reflexivity. Qed.
Example m_strict : p_strict (U "[って/送/贈/]") = Some (U "って", [(U "送", None); (U "贈", None)], []).
Proof. vm_compute. reflexivity. Qed.
Example m_no_strict : p_no_strict (U "送/贈/") = Some (U "送", None, U "/贈/")
  /\ p_no_strict (U "送;アノテーション/贈/") = Some (U "送", Some (U "アノテーション"), U "/贈/").
Proof. vm_compute. split; reflexivity. Qed.
Example m_strict_annotated : p_strict (U "[う/合;[match]/会;[meet]/]/")
  = Some (U "う", [(U "合", Some (U "[match]")); (U "会", Some (U "[meet]"))], U "/").
Proof. vm_compute. reflexivity. Qed.
Example m_annotation_with_bracket : p_candidates (U "/愛;love/藍;color[004c71]/[す/愛;[love]/]/")
  = Some ([([], [(U "愛", Some (U "love")); (U "藍", Some (U "color[004c71]"))]);
           (U "す", [(U "愛", Some (U "[love]"))])], []).
Proof. vm_compute. reflexivity. Qed.
Definition issue244 : str :=
  U "よし /由/葦/葭/葭/余資/余矢;[数学]versed cosine/好/良/美/吉/純/義/喜/善/佳/圭/慶/祥/芳/嘉/克/宜/淑/禎/禧/譱/縦/".
Example m_issue244 :
  match p_entry issue244 with
  | Some (m, [(o, l)], rest) => Some (m, o, rest, length l, nth_error l 5, nth_error l 26)
  | _ => None
  end = Some (U "よし", [], [], 27, Some (U "余矢", Some (U "[数学]versed cosine")), Some (U "縦", None)).
Proof. vm_compute. reflexivity. Qed.

(** dictentry.rs:300-440 *)
Definition ai_line : str :=
  U "あい /愛/相/藍/間/合/亜衣;人名/哀;悲哀/埃;(ほこり)塵埃/挨;挨拶/曖;曖昧/瞹;「曖」の異体字/靉/噫;ああ/欸/隘;狭隘/娃/藹;和気藹々/阨;≒隘/穢;(慣用音)/姶;姶良町/会;?/饗;?/".
Definition ais_line : str :=
  U "あいs /愛/相/藍/間/合/亜衣;人名/哀;悲哀/埃;(ほこり)塵埃/挨;挨拶/曖;曖昧/瞹;「曖」の異体字/靉/噫;ああ/欸/隘;狭隘/娃/藹;和気藹々/阨;≒隘/穢;(慣用音)/姶;姶良町/会;?/饗;?/[さ/ダミー1/ダミー2/]/[せ/ダミー/]/".
Definition plain_at (n : nat) (oe : option entry) : option dcand :=
  match oe with
  | Some e => match bget [] (e_map e) with Some l => nth_error l n | None => None end
  | None => None
  end.
Example m_split_okuri_nashi :
  option_map e_midashi (from_skkjisyo_line ai_line) = Some (U "あい")
  /\ plain_at 0 (from_skkjisyo_line ai_line) = Some (mkDC (U "愛") None)
  /\ plain_at 5 (from_skkjisyo_line ai_line) = Some (mkDC (U "亜衣") (Some (U "人名"))).
Proof. vm_compute. repeat split; reflexivity. Qed.
Example m_split_okuri_ari :
  let l := from_skkjisyo_line (U "おどr /踊;dance/躍;jump/踴;「踊」の異体字/") in
  option_map e_midashi l = Some (U "おどr")
  /\ plain_at 0 l = Some (mkDC (U "踊") (Some (U "dance")))
  /\ plain_at 1 l = Some (mkDC (U "躍") (Some (U "jump"))).
Proof. vm_compute. repeat split; reflexivity. Qed.
Example m_space_in_annotation :
  let l := from_skkjisyo_line (U "おくr /送;(send)/贈;(present) 賞を贈る/遅/後;気後れ/遲;「遅」の旧字/") in
  option_map dc_kouho (plain_at 0 l) = Some (U "送") /\ option_map dc_kouho (plain_at 2 l) = Some (U "遅").
Proof. vm_compute. split; reflexivity. Qed.
Example m_to_string :
  option_map entry_to_string (from_skkjisyo_line ai_line) = Some ai_line
  /\ option_map entry_to_string (from_skkjisyo_line ais_line) = Some ais_line.
Proof. vm_compute. split; reflexivity. Qed.
Example m_remove :
  plain_at 0 (option_map (remove_matching_candidate (mkCK (U "あい") None)
                            (mkCand (U "あい") None false (U "愛") None (U "愛")))
                (from_skkjisyo_line ai_line)) = Some (mkDC (U "相") None).
Proof. vm_compute. reflexivity. Qed.
Example m_lisp :
  map process_lisp_fun [U "(concat ""DOS\057V"")"; U "(concat ""M\073tG"")"; U "(concat ""\""it\"""")"]
  = [U "DOS/V"; U "M;tG"; U """it"""].
Proof. vm_compute. reflexivity. Qed.
Example m_escape : map escape_dictionary_string [U "Nothing"; U "(;;/)"]
  = [U "Nothing"; U "(concat ""(\073\073\057)"")"].
Proof. vm_compute. reflexivity. Qed.
Example m_is_okuri_ari : option_map e_okuri (from_skkjisyo_line (U "おくr /送;(send)/")) = Some true.
Proof. vm_compute. reflexivity. Qed.

(** lru_ordered_map.rs:390-470, on the pointer model and on its abstraction *)
Definition abc (p q r : str) : lmap str := lpush r r (lpush q q (lpush p p [])).
Definition ptr_abc (p q r : str) : option (lru str) :=
  obind (ptr_push p p (lru_new)) (fun l => obind (ptr_push q q l) (ptr_push r r)).
Example m_lru_remove :
  obind (ptr_abc (U "a") (U "b") (U "c")) (fun l =>
    obind (ptr_remove (U "a") l) (fun '(v, l') =>
      obind (ptr_iter_lru l') (fun it => Some (v, length it)))) = Some (Some (U "a"), 2)
  /\ length (liter_lru (lremove (U "a") (abc (U "a") (U "b") (U "c")))) = 2.
Proof. vm_compute. split; reflexivity. Qed.
Example m_lru_order :
  obind (ptr_abc (U "a") (U "b") (U "c")) (fun l =>
    obind (ptr_get_mut (U "b") (fun v => v) l) (fun '(_, l') => ptr_iter_lru l'))
  = Some [(Some (U "b"), Some (U "b")); (Some (U "c"), Some (U "c")); (Some (U "a"), Some (U "a"))]
  /\ map fst (liter_lru (lupdate (U "b") (fun v => v) (abc (U "a") (U "b") (U "c")))) = [U "b"; U "c"; U "a"].
Proof. vm_compute. split; reflexivity. Qed.
Example m_lru_sorted :
  obind (ptr_abc (U "b") (U "a") (U "c")) (ptr_iter_sorted)
  = Some [(Some (U "a"), Some (U "a")); (Some (U "b"), Some (U "b")); (Some (U "c"), Some (U "c"))]
  /\ map fst (liter_sorted (abc (U "b") (U "a") (U "c"))) = [U "a"; U "b"; U "c"].
Proof. vm_compute. split; reflexivity. Qed.

(** user_dictionary.rs:226-330 *)
Definition plain_word (m t : str) : candidate := mkCand m None false t None t.
Definition okuri_word (m o t : str) : candidate := mkCand m (Some o) true t None t.
Example m_userdict :
  save_lines (fun _ => true) (dict_ents
    (purge_candidate (select_candidate (user_dict []) (mkCand (U "あああ") None false (U "アアア") (Some (U "wow")) (U "アアア")))
       (mkCK (U "あああ") None) (mkCand (U "あああ") None false (U "アアア") (Some (U "wow")) (U "アアア"))))
  = [ari_header; nasi_header; U "あああ /"].
Proof. vm_compute. reflexivity. Qed.
Example m_userdict_ordering :
  save_lines (fun _ => true) (dict_ents (fold_left select_candidate
    [plain_word (U "あ") (U "候補"); plain_word (U "い") (U "候補"); okuri_word (U "あb") (U "ば") (U "候補");
     okuri_word (U "いb") (U "ば") (U "候補"); okuri_word (U "あb") (U "ば") (U "候補")] (user_dict [])))
  = [U ";; okuri-ari entries."; U "あb /候補/[ば/候補/]/"; U "いb /候補/[ば/候補/]/";
     U ";; okuri-nasi entries."; U "い /候補/"; U "あ /候補/"].
Proof. vm_compute. reflexivity. Qed.

(** dictionary/mod.rs:562-615, static_dict.rs:82-128 *)
Example m_numeric_string_count :
  map numeric_string_count [U "123つぶ"; U "1にち1かい"; U "1じつせんしゅう"] = [1; 2; 1].
Proof. vm_compute. reflexivity. Qed.
Definition offered (ds : list dict) (s : str) : list (str * str * str) :=
  match get_all_candidates ds (mkCK s None) with
  | Ok l => map (fun c => (c_midashi c, c_kouho c, c_output c)) l
  | Panic _ => []
  end.
Example m_all_candidates :
  hd_error (offered [mkDict true (DStatic dic_SKK_JISYO_S)] (U "あい")) = Some (U "あい", U "愛", U "愛")
  /\ hd_error (offered [static_dict [U "#かい /#0回/#1回/#2回/#3回/#4回/#5回/"; U "#ひき /#1匹/#3匹/#0匹/#2匹/";
                         U "#/# /#0月#0日/#1／#1/#1月#1日/"; U "#にち /#4日/"; U "1 /初/"]] (U "5/1"))
     = Some (U "#/#", U "#0月#0日", U "5月1日")
  /\ map (fun x => snd (fst x)) (offered [static_dict [U "まる1 /①/❶/⓵/"]] (U "まる1"))
     = [U "①"; U "❶"; U "⓵"].
Proof. vm_compute. repeat split; reflexivity. Qed.
Definition unsorted : dict :=
  static_dict [U ";; テストのためソートしていない"; U "い /候補/"; U "あ /候補/"; U "いあ /候補/"; U "いい /候補/"].
Example m_complete :
  rmap (map e_midashi) (complete unsorted (mkCK [] None)) = Ok [U "あ"; U "い"; U "いあ"; U "いい"]
  /\ rmap (map e_midashi) (complete unsorted (mkCK (U "い") None)) = Ok [U "い"; U "いあ"; U "いい"].
Proof. vm_compute. split; reflexivity. Qed.

(* ------------------------------------------------------------------ form_changer *)
(** numeric_form_changer.rs:177-208 *)
Example m_numeric :
  numeric_to_zenkaku (U "foobar123") = U "foobar１２３"
  /\ numeric_to_kanji_each (U "foobar123") = U "foobar一二三"
  /\ numeric_to_simple_kanji_as_number (U "foobar1234") = Ok (U "foobar千二百三十四")
  /\ format_number_kanji 123456789987654321 false
     = U "十二京三千四百五十六兆七千八百九十九億八千七百六十五万四千三百二十一"
  /\ map numeric_to_thousand_separator [U "123"; U "12345"; U "123456"] = [U "123"; U "12,345"; U "123,456"].
Proof. vm_compute. repeat split; reflexivity. Qed.
(** kana_form_changer.rs:249-307, ascii_form_changer.rs:92-104 *)
Definition test_kana_form : kana_form :=
  mkKF [(U "あ", U "ア"); (U "ぁ", U "ァ"); (U "い", U "イ"); (U "き", U "キ"); (U "ん", U "ン");
        (U "う゛", U "ヴ"); (U "ぐ", U "グ"); (U "っ", U "ッ")] [(U "あ", U "ｱ")].
Example m_kana_form :
  key_maxlen (kf_katakana test_kana_form) = 2
  /\ adjust_kana_string test_kana_form Katakana (U "う゛ぁいきんぐ") = U "ヴァイキング"
  /\ adjust_kana_string test_kana_form Hiragana (U "っ") = U "っ"
  /\ map kana_to_okuri_prefix (U "りすわ") = map Some (U "rsw")
  /\ adjust_kana_string (mkKF [] []) Katakana (U "あ") = U "あ".
Proof. vm_compute. repeat split; reflexivity. Qed.
Example m_ascii_form :
  map (adjust_ascii_char default_ascii_map) (U "a1!") = [U "ａ"; U "１"; U "！"]
  /\ adjust_ascii_char [] 97 = U "a".
Proof. vm_compute. split; reflexivity. Qed.

(* ------------------------------------------------------------------ kana_builder.rs *)
(** kana_builder.rs:203-237 *)
Definition test_converter : kb :=
  fold_left (fun t '(k, v) => tinsert k (v, []) t)
    [([97], U "あ"); ([105], U "い"); ([117], U "う"); ([101], U "え"); ([111], U "お");
     ([107; 97], U "か"); ([107; 105], U "き"); ([107; 117], U "く"); ([107; 101], U "け");
     ([107; 111], U "こ"); ([116; 115; 117], U "つ")]%N tempty.
Definition ant_converter : kb :=
  fold_left (fun t '(k, v) => tinsert k v t)
    [([97], (U "あ", [])); ([110], (U "ん", [])); ([110; 110], (U "ん", [])); ([110; 110], (U "な", []));
     ([116; 97], (U "た", [])); ([116; 116], (U "っ", [116]))]%N tempty.
(** kana_builder.rs:241-355 *)
Example m_combine :
  combine_lower (key (U "a")) [98%N] = [98; 97]%N /\ combine_lower (key (U "k")) [] = [107%N]
  /\ combine_lower (key (U "B")) [] = [98%N]
  /\ map uncapitalize [65; 66; 55; 64; 91]%N = [97; 98; 55; 64; 91]%N.
Proof. vm_compute. repeat split; reflexivity. Qed.
Example m_convert :
  convert_greedy test_converter [107%N] = None /\ convert_greedy ant_converter [116%N] = None
  /\ convert_greedy ant_converter [116; 116]%N = Some (U "っ", [116%N]).
Proof. vm_compute. repeat split; reflexivity. Qed.
Example m_can_continue :
  can_continue test_converter (key (U "Q")) [] = false
  /\ can_continue test_converter (key (U "s")) [116%N] = true
  /\ can_continue ant_converter (key (U "a")) [110%N] = false
  /\ can_continue ant_converter (key (U "space")) [] = false
  /\ next_unprocessed_state ant_converter (key (U "space")) [] = [].
Proof. vm_compute. repeat split; reflexivity. Qed.

(* ------------------------------------------------------------------ lib.rs *)
(** configurable_command_handler.rs:59-70 *)
Example m_get_instruction :
  match get_instruction true (r_command default_rule) (key (U "BackSpace")) Hiragana Direct with
  | Ok (Some l) => hd_error l
  | _ => None
  end = Some IDelete.
Proof. vm_compute. reflexivity. Qed.
(** lib.rs:1630-1655 *)
Definition unit_ctx (i : imode) : world :=
  mkW [mkDict false (DStatic dic_SKK_JISYO_S)]
    {| x_stack := [st_new i Direct]; x_cmd := r_command default_rule; x_kb := test_converter;
       x_kf := test_kana_form; x_am := default_ascii_map; x_dicts := [0];
       x_cfg := x_cfg (demo_ctx []) |}.
Definition after (keys : str) (w : world) : list (option bool) * option world :=
  fold_left (fun '(bs, ow) k =>
    match ow with
    | Some w => match process_key_event ascii_xkb true k w with
                | Ok (b, w') => (bs ++ [Some b], Some w')
                | Panic _ => (bs ++ [None], None)
                end
    | None => (bs, None)
    end) (dkeys keys) ([], Some w).
(** lib.rs:1658-1674 *)
Example m_will_process :
  will_process true (key (U "a")) (unit_ctx Ascii) = Ok true
  /\ will_process true (key (U "C-c")) (unit_ctx Ascii) = Ok false
  /\ fst (after (U "a") (unit_ctx Ascii)) = [Some true].
Proof. vm_compute. repeat split; reflexivity. Qed.
(** lib.rs:1676-1698; retrieving with polling is poll_output, without it is reading the text *)
Example m_retrieve_output :
  match after (U "a") (unit_ctx Ascii) with
  | (_, Some w) =>
      match poll_output w with
      | Ok (t, w') => Some (t, match poll_output w' with Ok (t', _) => t' | Panic _ => Some [] end)
      | Panic _ => None
      end
  | _ => None
  end = Some (Some (U "a"), None).
Proof. vm_compute. reflexivity. Qed.
(** lib.rs:1700-1709, 1766-1787 *)
Example m_get_preedit :
  match after (U "A") (unit_ctx Hiragana) with
  | (_, Some w) => Some (get_preedit ascii_xkb (w_ctx w), get_preedit_detail ascii_xkb (w_ctx w))
  | _ => None
  end = Some (U "▽あ", [SPreComposition [] (U "あ") None None]).
Proof. vm_compute. reflexivity. Qed.
(** lib.rs:1711-1724 *)
Example m_get_preedit_register_mode :
  match (modcur (push_string_for (U "ほげ") PreComposition) ;;
         enter_register_mode Direct ;; append_converted (U "あか") ;;
         modcur (fun s => set_pre (s_pre s ++ [115%N]) s)) (unit_ctx Hiragana) with
  | Ok (_, w) => get_preedit ascii_xkb (w_ctx w)
  | Panic _ => []
  end = U "▼ほげ【あかs】".
Proof. vm_compute. reflexivity. Qed.
(** lib.rs:1726-1763 *)
Example m_answers :
  fst (after (U "h BackSpace") (unit_ctx Hiragana)) = [Some true; Some true]
  /\ fst (after (U "h period") (unit_ctx Hiragana)) = [Some true; Some true]
  /\ fst (after (U "Return") (unit_ctx Hiragana)) = [Some false]
  /\ fst (after (U "A BackSpace BackSpace") (unit_ctx Hiragana)) = [Some true; Some true; Some true].
Proof. vm_compute. repeat split; reflexivity. Qed.
(** The decimal digits of Unicode come in tens (regex's table for the class d), in increasing order. *)
Example m_digits_in_tens :
  forallb (fun '(a, b) => N.eqb ((b + 1 - a) mod 10) 0 && N.leb a b) nd_ranges = true
  /\ fst (fold_left (fun '(ok, last) '(a, b) => (ok && N.ltb last a, b)) nd_ranges (true, 0%N)) = true.
Proof. vm_compute. split; reflexivity. Qed.
