{
 "claims": [
  {
   "property": "C01",
   "status": "proved",
   "theorems": [
    "C01_release_inert"
   ],
   "note": "For every world (also unreachable ones) and every modifier set with bit 30."
  },
  {
   "property": "C02",
   "status": "proved",
   "theorems": [
    "C02_nesting_bounded",
    "C02_no_empty_stack_panic"
   ],
   "note": "Every history of public calls, with arbitrary interference of other users of the dictionaries between calls."
  },
  {
   "property": "C03",
   "status": "proved",
   "theorems": [
    "C03_register_frames"
   ],
   "note": "Every history without reset and without Register mode set by hand or by a rule; the shipped default rule satisfies the hypothesis (default_rule_no_register)."
  },
  {
   "property": "C04",
   "status": "partial",
   "theorems": [
    "C04_exact",
    "C04_reset_partial",
    "C04_refuted"
   ],
   "note": "Partial: reset clears every input and all registration frames and keeps input mode and settings. C04_refuted: the composition mode is not reset to Direct. C04_exact: the mode after a reset is that of the outermost frame, so Direct exactly if it was Direct there; with a registration open it is Register, and then every key is refused (C04_exact_case)."
  },
  {
   "property": "C05",
   "status": "partial",
   "theorems": [
    "C05_refuted",
    "C05_partial",
    "C05_default_partial",
    "C05_abbreviation_partial",
    "C05_default_exact"
   ],
   "note": "C05_refuted: with the shipped rule, A i C-j l C-g leaves a mode in which every key is ignored. C05_partial: holds for every rule binding some control key to steady instructions in every mode (no reset, no Register mode set by hand); C05_default_partial, C05_abbreviation_partial: for both shipped rules (default and azik), all states of the kana input modes, Direct and Abbreviation. C05_default_exact (T_Exact) settles both shipped rules: after any calls on a context made in direct input, it is dead if and only if the current state is a composition in ASCII/Zenkaku mode, a candidate list there with nothing at the cursor, or a bare Register state; otherwise some key is accepted."
  },
  {
   "property": "C06",
   "status": "proved",
   "theorems": [
    "C06_poll",
    "C06_poll_twice",
    "C06_polls_in_order",
    "C06_schedules"
   ],
   "note": "C06_poll: one poll; C06_poll_twice: a second one; C06_polls_in_order and C06_schedules: any history of calls, with the polls anywhere. Excluded there: reset and Purge (they drop confirmed text not polled yet), ClearKanaConvertedInputs, and Delete commands answered with false."
  },
  {
   "property": "C07",
   "status": "partial",
   "theorems": [
    "C07_exact",
    "C07_confirmed_kept_partial",
    "C07_refuted"
   ],
   "note": "Partial: the key may run neither Delete nor Purge, and the rule never uses ClearKanaConvertedInputs (no shipped rule does). C07_refuted: Purge wipes text confirmed earlier. C07_exact (T_Exact): for both shipped rules and every key, the text is only added to, or loses its last character to Delete, or is wiped by Purge, the last two only in the outermost frame and only in modes binding that command."
  },
  {
   "property": "C08",
   "status": "proved",
   "theorems": [
    "C08_ascii_transparent",
    "C08_ascii_polled"
   ],
   "note": "Also with SHIFT; the confirmed text grows by exactly the characters, nothing else changes."
  },
  {
   "property": "C09",
   "status": "proved",
   "theorems": [
    "C09_zenkaku"
   ],
   "note": ""
  },
  {
   "property": "C10",
   "status": "proved",
   "theorems": [
    "C10_romaji",
    "C10_spelled"
   ],
   "note": "Rules with distinct key sequences; a syllable is a maximal key sequence without carry-over."
  },
  {
   "property": "C11",
   "status": "proved",
   "theorems": [
    "C11_convert_at_once",
    "C11_force_convert",
    "C11_may_continue"
   ],
   "note": "For rules whose key sequences are distinct (they are the keys of a TOML table)."
  },
  {
   "property": "C12",
   "status": "proved",
   "theorems": [
    "C12_pending_completable"
   ],
   "note": "Every history without switching the rule."
  },
  {
   "property": "C13",
   "status": "partial",
   "theorems": [
    "C13_dropped_exact",
    "C13_pending_not_dropped_partial",
    "C13_refuted",
    "C13_rule_partial",
    "C13_rule_dropped_exact"
   ],
   "note": "Partial: the further key has no conversion of its own. C13_refuted: otherwise (n then minus) the pending n is dropped. C13_dropped_exact (T_Exact): such a key acts exactly as if nothing had been pending, so together the two theorems settle every key that cannot continue. C13_rule_partial, C13_rule_dropped_exact (T_RuleWords): the same in terms of the rows of the rule."
  },
  {
   "property": "C14",
   "status": "proved",
   "theorems": [
    "C14_shift_on_capitals"
   ],
   "note": ""
  },
  {
   "property": "C15",
   "status": "partial",
   "theorems": [
    "C15_partial",
    "C15_reachable_partial",
    "C15_refuted",
    "C15_exact"
   ],
   "note": "C15_refuted: the same witness. C15_partial: if the key aborts in every mode the frames can be in or fall back to, the exact number of presses of the measure suffices and the dictionaries are untouched; C15_reachable_partial: 419 presses suffice from every reachable state, for rules binding the key everywhere. C15_exact (T_ExactAbort): with both shipped rules, after any such calls, either 419 presses of C-g and any greater number lead home, or after at most 419 they come to an abbreviation or to anything but direct input in ASCII or full-width mode, where all further presses are ignored."
  },
  {
   "property": "C16",
   "status": "proved",
   "theorems": [
    "C16_history_bounded"
   ],
   "note": ""
  },
  {
   "property": "C17",
   "status": "partial",
   "theorems": [
    "C17_considerate_partial",
    "C17_cursor_in_range_partial",
    "C17_refuted",
    "C17_refuted_release"
   ],
   "note": "Partial: position at most the count (and 0 on an empty list with debug assertions). C17_refuted: the position can equal the count; C17_refuted_release: in a release build it moves on an empty list. C17_considerate_partial (T_Cursor.v): after every considerate history (C82: in particular no word with a number sign is registered) there is a position exactly when there are candidates, and it is that of one of them."
  },
  {
   "property": "C18",
   "status": "partial",
   "theorems": [
    "C18_release_partial",
    "C18_few_digits_partial",
    "C18_debug_partial",
    "C18_refuted",
    "C18_debug_refuted",
    "C18_debug_careful_partial"
   ],
   "note": "Full claim false (C18_refuted: a reading of 20 digits with a #3 entry panics in every build; C18_debug_refuted: debug builds panic on ordinary typing). Proved: release builds panic only on number conversion, in every reachable state (C18_release_partial); no call at all panics while fewer than 20 digits were typed, for all API histories, dictionaries and rules whose kana have no digits (C18_few_digits_partial); debug builds do not panic while the list moved in is not empty and the frame is not waiting for a registration (C18_debug_partial). Over histories: a careful user (see C19) under an orderly rule such as the default sees no panic in debug builds either (C18_debug_careful_partial)."
  },
  {
   "property": "C19",
   "status": "partial",
   "theorems": [
    "C19_partial",
    "C19_refuted"
   ],
   "note": "Full claim false (C19_refuted: stepping back from the first candidate, or purging, then aborting). Proved for all histories in which the user does not purge from a list, does not step back from the first candidate and registers no word with a number sign, for every rule of the stated shape (the default rule has it): every frame in a list mode has a candidate and shows it (C19_partial)."
  },
  {
   "property": "C20",
   "status": "partial",
   "theorems": [
    "C20_entry",
    "C20_partial",
    "C20_refuted"
   ],
   "note": "Full claim false (C20_refuted: deleting the okurigana also pops the hidden raw copy, so the list looks up another key than the reading shown). C20_partial: for every history in which okurigana mode is not left by deleting the okurigana, and every rule of the stated shape (the default rule has it), every frame in a reading mode would look up exactly the reading it shows. C20_entry: the entry asked for is the reading with the letter of the okurigana's row (own table)."
  },
  {
   "property": "C21",
   "status": "proved",
   "theorems": [
    "C21_dedup",
    "C21_offered"
   ],
   "note": "Both for the deduplication of any list and for the candidates offered by the dictionaries."
  },
  {
   "property": "C22",
   "status": "partial",
   "theorems": [
    "C22_exact",
    "C22_order_partial",
    "C22_subsequence",
    "C22_refuted"
   ],
   "note": "C22_exact: the result is the order of first appearance of the preferred (annotated) copies; the plain order of first appearance holds when copies carry the same annotation (C22_order_partial) and fails otherwise (C22_refuted)."
  },
  {
   "property": "C23",
   "status": "partial",
   "theorems": [
    "C23_without_okuri_partial",
    "C23_one_dictionary_partial",
    "C23_refuted",
    "C23_exact",
    "C23_no_digits"
   ],
   "note": "C23_refuted: strict matches of a later dictionary come after non-strict candidates of an earlier one. Proved for one dictionary and without okurigana (copies carrying the same annotation). C23_exact: the order offered for every key and any dictionaries (first appearances of the copies with the greatest annotation in the list of the dictionaries); C23_no_digits: nothing else is offered for a reading without digits."
  },
  {
   "property": "C24",
   "status": "proved",
   "theorems": [
    "C24_confirm",
    "C24_confirm_at",
    "C24_confirm_instruction"
   ],
   "note": "For the dictionary operation and through confirm_candidate_at and the ConfirmComposition instruction; contexts listing each dictionary once."
  },
  {
   "property": "C25",
   "status": "partial",
   "theorems": [
    "C25_order_partial",
    "C25_swap_partial",
    "C25_refuted",
    "C25_result",
    "C25_exact"
   ],
   "note": "The full claim is false (C25_refuted: the confirmed candidate is swapped with the first). C25_result: the exact new list in every case (new: added in front; first: unchanged; otherwise it changes places with the first and nothing else moves). C25_exact: if no text is listed twice, the others keep their order exactly when the candidate was new, first or second. C25_order_partial and C25_swap_partial are the directions used elsewhere."
  },
  {
   "property": "C26",
   "status": "partial",
   "theorems": [
    "C26_partial",
    "C26_number_partial",
    "C26_okuri_lost",
    "C26_refuted",
    "C26_word_partial",
    "C26_form_partial",
    "C26_lookup_partial"
   ],
   "note": "Full claim false (C26_refuted by typing; C26_okuri_lost: registering a word with okurigana changes nothing that is offered for its reading). C26_partial: for a reading without okurigana, after any later history that runs no Purge (in the default rule only X purges: default_quiet), converting the same reading offers the registered word. C26_number_partial: the same for number templates. C26_word_partial and C26_form_partial say the two in terms of the texts alone (T_OfferedForm.v): no number sign before a form's digit; a word with one template for each number of the reading is offered for every reading that differs in the numbers only, with those numbers written in the forms the word asks for (all forms but #4). C26_lookup_partial (T_OfferedLookup.v): all forms; in place of a #4 comes any text that the dictionaries then list for the number, if none they list has a number sign."
  },
  {
   "property": "C27",
   "status": "partial",
   "theorems": [
    "C27_others_kept",
    "C27_purged_partial",
    "C27_purge_instruction",
    "C27_refuted",
    "C27_copies",
    "C27_exact"
   ],
   "note": "C27_others_kept in full; the candidate is gone when the lists hold no text twice (C27_purged_partial); C27_refuted with a text listed twice. C27_copies, C27_exact: the concerned lists lose exactly one copy, so the text is still offered if and only if a concerned list held it twice."
  },
  {
   "property": "C28",
   "status": "proved",
   "theorems": [
    "C28_read_only_dictionaries"
   ],
   "note": ""
  },
  {
   "property": "C29",
   "status": "proved",
   "theorems": [
    "C29_confirm",
    "C29_purge"
   ],
   "note": ""
  },
  {
   "property": "C30",
   "status": "proved",
   "theorems": [
    "C30_refinement",
    "C30_one_binding",
    "C30_most_recent_first",
    "C30_lookup",
    "C30_links"
   ],
   "note": "Heap-level model of the linked list; wild pointers would be None."
  },
  {
   "property": "C31",
   "status": "proved",
   "theorems": [
    "C31_sorted"
   ],
   "note": ""
  },
  {
   "property": "C32",
   "status": "proved",
   "theorems": [
    "C32_complete",
    "C32_without_okuri",
    "C32_reachable"
   ],
   "note": "For dictionaries built by loading lines, confirming and purging; C32_reachable for every reachable world."
  },
  {
   "property": "C33",
   "status": "partial",
   "theorems": [
    "C33_line",
    "C33_round_trip",
    "C33_mark",
    "C33_refuted"
   ],
   "note": "C33_line: a savable entry (its texts are those that come back by C34_exact, without brackets in a candidate), parsed back from its line, is the same entry. C33_refuted: entries the library itself can build whose line does not parse back. C33_mark: the mark with okurigana of an entry read from a line is exactly that its midashi ends in one of a to z and does not begin with one."
  },
  {
   "property": "C34",
   "status": "partial",
   "theorems": [
    "C34_round_trip_partial",
    "C34_no_separator",
    "C34_refuted",
    "C34_exact"
   ],
   "note": "Partial: texts without newline and without a text looking like a concat form; if they hold / or ; then also no backslash and no two of / ; in a row. C34_no_separator for all texts; C34_refuted for the others. C34_exact, for every text without a newline and (if it holds / or ;) without a backslash before an octal digit: it comes back exactly if it holds / or ;, never followed by another one or by a backslash, and every backslash is last or before a quote; or holds none and its widest concat form, if any, is blank."
  },
  {
   "property": "C35",
   "status": "partial",
   "theorems": [
    "C35_partial",
    "C35_lists_partial",
    "C35_refuted"
   ],
   "note": "C35_partial/C35_lists_partial: contents the file can carry (keepable) answer every lookup and completion as before, among any other dictionaries. C35_refuted: three contents reachable by typing that do not."
  },
  {
   "property": "C36",
   "status": "partial",
   "theorems": [
    "C36_reversed",
    "C36_two_rounds_partial",
    "C36_refuted"
   ],
   "note": "C36_refuted (reached by typing) and C36_reversed: one save and reload exactly reverses the recency order; two restore it."
  },
  {
   "property": "C37",
   "status": "proved",
   "theorems": [
    "C37_crash",
    "C37_success"
   ],
   "note": "One save, every crash point; the process dies, the file system does not reorder."
  },
  {
   "property": "C38",
   "status": "partial",
   "theorems": [
    "C38_retry_partial",
    "C38_missing_partial",
    "C38_refuted"
   ],
   "note": "C38_retry_partial: any failure that leaves the file in place; C38_refuted: failing to create the file makes every later save fail; C38_missing_partial: this is the only way."
  },
  {
   "property": "C39",
   "status": "proved",
   "theorems": [
    "C39_kanji",
    "C39_daiji",
    "C39_too_large"
   ],
   "note": "All numbers below 10^19, with an independent reader of Japanese numerals as the specification."
  },
  {
   "property": "C40",
   "status": "proved",
   "theorems": [
    "C40_thousands",
    "C40_commas_removed"
   ],
   "note": ""
  },
  {
   "property": "C41",
   "status": "proved",
   "theorems": [
    "C41_zenkaku",
    "C41_kanji_each"
   ],
   "note": ""
  },
  {
   "property": "C42",
   "status": "proved",
   "theorems": [
    "C42_numeric_key",
    "C42_pieces_unique"
   ],
   "note": "Decomposition of the reading into digit runs and other text, which is unique."
  },
  {
   "property": "C43",
   "status": "partial",
   "theorems": [
    "C43_templates_partial",
    "C43_undisturbed_partial",
    "C43_forms",
    "C43_no_hash",
    "C43_refuted"
   ],
   "note": "Partial: every #n is filled in order while there are numbers, provided the numbers are parsable (#3/#5) and the text itself holds no digits of other templates; C43_undisturbed_partial states it also for texts and pieces holding a number sign, provided no template still to be filled comes up in what is already filled; C43_refuted gives the failing case."
  },
  {
   "property": "C44",
   "status": "proved",
   "theorems": [
    "C44_longest_match",
    "C44_deterministic",
    "C44_other_modes"
   ],
   "note": "Characterised by a relational longest-match specification with a unique result."
  },
  {
   "property": "C45",
   "status": "partial",
   "theorems": [
    "C45_exact_partial",
    "C45_ascii_partial",
    "C45_refuted",
    "C45_plain_partial",
    "C45_modifier_partial",
    "C45_sequence_partial",
    "C45_sequence_ascii_partial",
    "C45_every_text_splits",
    "C45_sequence_exact",
    "C45_parenthesised"
   ],
   "note": "C45_refuted: one hiragana panics (byte slice inside a character), so does NUL. Partial: exact characterisation of the panics for texts without NUL, totality on ASCII for single keys and sequences, and what the accepted notations denote. C45_sequence_exact and C45_parenthesised (T_KeySeq.v) give the exact grammar of sequences and of parenthesised keys."
  },
  {
   "property": "C46",
   "status": "proved",
   "theorems": [
    "C46_fcitx"
   ],
   "note": "Bit by bit, for all symbols and modifier words of any size."
  },
  {
   "property": "C47",
   "status": "partial",
   "theorems": [
    "C47_exact",
    "C47_parse_back",
    "C47_total",
    "C47_rejects_partial",
    "C47_refuted"
   ],
   "note": "Every instruction parses back and parsing never panics. C47_refuted: trailing text after a mode instruction is accepted; C47_rejects_partial says what may be accepted; C47_exact (T_ExactInstr) says of every text whether it is accepted and as what."
  },
  {
   "property": "C48",
   "status": "proved",
   "theorems": [
    "C48_select_no_candidates",
    "C48_select_negative",
    "C48_select_in_range",
    "C48_select_beyond",
    "C48_confirm_out_of_range",
    "C48_confirm_in_range"
   ],
   "note": "Candidate counts below 2^31 for select_candidate_at."
  },
  {
   "property": "C49",
   "status": "partial",
   "theorems": [
    "C49_exact",
    "C49_text_partial",
    "C49_promise_partial",
    "C49_agree_partial",
    "C49_conversion_partial",
    "C49_command_partial",
    "C49_release_partial",
    "C49_refuted"
   ],
   "note": "Full claim false (C49_refuted: a capital letter is used although will_process says no; Return in Direct mode is promised but answered with false). C49_text_partial: for text keys that no command is bound to, the exact answer of process_key_event in terms of will_process; C49_promise_partial / C49_agree_partial: outside kana input the two agree; C49_conversion_partial, C49_command_partial, C49_release_partial cover keys in conversion states, bound keys and releases. C49_exact (T_ExactPredict) settles both shipped rules (default and azik), after any calls, for every key with a character: a refused key is used exactly when kana input takes it anyway, a promised key is refused exactly when it completes no kana and is bound to Delete with nothing to delete, to ConfirmDirect outside a registration, or is unbound in a mode that takes no text."
  },
  {
   "property": "C50",
   "status": "proved",
   "theorems": [
    "C50_punctuation",
    "C50_rule"
   ],
   "note": "In the three reading modes, when the punctuation starts no conversion by itself (that is C53). C50_rule (T_RuleWords): in terms of the rows of the rule."
  },
  {
   "property": "C51",
   "status": "proved",
   "theorems": [
    "C51_untouched",
    "C51_projection",
    "C51_reachable",
    "C51_confirmed"
   ],
   "note": "Schedules interleave whole API calls of any number of contexts; interleavings of the single dictionary accesses inside a call are not modelled. C51_projection and C51_reachable carry every single-context theorem over to every context of every schedule."
  },
  {
   "property": "C52",
   "status": "proved",
   "theorems": [
    "C52_lines",
    "C52_crlf",
    "C52_load",
    "C52_ignored",
    "C52_one_more"
   ],
   "note": "Exact meaning of a file as a theorem about every list of lines, and exactly which lines a text has (C52_lines; C52_crlf: CR LF line ends make the same dictionary); what a single line means is the model of the parser (C33)."
  },
  {
   "property": "C53",
   "status": "proved",
   "theorems": [
    "C53_auto_start",
    "C53_keyword_shown",
    "C53_keyword_output",
    "C53_rule"
   ],
   "note": "For both ways of completing the keyword (kana conversion, punctuation key); display and output of the keyword included. C53_rule (T_RuleWords): in terms of the rows of the rule."
  },
  {
   "property": "C54",
   "status": "partial",
   "theorems": [
    "C54_exact",
    "C54_state_partial",
    "C54_partial",
    "C54_typing_partial",
    "C54_refuted",
    "C54_loaded_partial",
    "C54_typing_loaded_partial"
   ],
   "note": "Full claim false (C54_refuted: after a reset in okurigana mode BackSpace is answered with false although it changes the mode). C54_partial: after every history without a forced or a reset okurigana mode, for rules of the stated shape (the default rule has it), a key answered with false changes nothing at all, provided the candidate shown, if any, has a text. C54_loaded_partial / C54_typing_loaded_partial drop that proviso for dictionaries read from files. C54_state_partial is the same from any tidy state. C54_exact (T_ExactUnhandled) settles both shipped rules (default and azik) after any calls: a key answered with false changes something exactly if it is bound to a deletion and the state is an okurigana mode without okurigana and pending key, or a list whose candidate would confirm no text at all."
  },
  {
   "property": "C55",
   "status": "proved",
   "theorems": [
    "C55_observers",
    "C55_will_process_debug"
   ],
   "note": "Observers are modelled as functions of the world (they take a shared reference in the code), so that they change nothing is the type; the theorem is that they answer in every reachable state and what."
  },
  {
   "property": "C56",
   "status": "partial",
   "theorems": [
    "C56_recency_back_refuted",
    "C56_sorted_back_refuted"
   ],
   "note": "Refuted both ways: next_back of iter_lru hands out the front element, next_back of iter_sorted panics on every non-empty map. Not called in the crate."
  },
  {
   "property": "C57",
   "status": "partial",
   "theorems": [
    "C57_one_cut_partial",
    "C57_second_cut",
    "C57_refuted",
    "C57_partial"
   ],
   "note": "C57_refuted: two crashes while writing leave nothing; C57_partial: holds if no crash falls between creating and completing the file. C57_one_cut_partial (T_ExactSave): complete contents survive every history in which no two saves in a row are cut off; C57_second_cut: what a second one leaves."
  },
  {
   "property": "C58",
   "status": "proved",
   "theorems": [
    "C58_count",
    "C58_count_page",
    "C58_page",
    "C58_slots",
    "C58_pages_cover",
    "C58_cursor"
   ],
   "note": "Allocation of the C strings, and buffers larger than the machine allows, are not modelled. C58_count, C58_count_page: the count given to C, which is cut to 32 bits."
  },
  {
   "property": "C59",
   "status": "partial",
   "theorems": [
    "C59_exact",
    "C59_partial",
    "C59_refuted"
   ],
   "note": "C59_refuted: a candidate containing NUL; C59_partial: every text without NUL. C59_exact: NULL is returned exactly for a text with NUL; the text is removed in all cases."
  },
  {
   "property": "C60",
   "status": "partial",
   "theorems": [
    "C60_exact",
    "C60_partial",
    "C60_refuted"
   ],
   "note": "C60_refuted: a candidate containing NUL makes the C observer panic; C60_partial: texts without NUL, no okurigana in a completion (which the C structure drops). C60_exact: the call panics exactly when one of the texts it unwraps holds a NUL; otherwise the other texts with NUL become empty and the okurigana of a completion is never given."
  },
  {
   "property": "C61",
   "status": "proved",
   "theorems": [
    "C61_loaded",
    "C61_no_blank"
   ],
   "note": "Every loaded file (C61_loaded), every history with any interference of others that adds no blank entries (C61_no_blank)."
  },
  {
   "property": "C62",
   "status": "proved",
   "theorems": [
    "C62_shipped_rules"
   ],
   "note": "C62_shipped_rules: decided over the rule tables generated from assets, for all rows and commands; these are the hypotheses other theorems make about rules."
  },
  {
   "property": "C63",
   "status": "partial",
   "theorems": [
    "C63_safe",
    "C63_no_leak_partial",
    "C63_all_returned_partial",
    "C63_refuted"
   ],
   "note": "Full claim false (C63_refuted: CompleteDataFfi's Drop frees all fields but completed_midashi, so each freed completion detail leaks a string). C63_safe: no free of unallocated memory, no dangling or aliased pointer, for every history. C63_no_leak_partial / C63_all_returned_partial: without details fetched during a completion, exactly what is held is allocated."
  },
  {
   "property": "C64",
   "status": "proved",
   "theorems": [
    "C64_marked",
    "C64_session"
   ],
   "note": "C64_marked: full, every history without interference of others. C64_session: from reading the file to reading it again, for contents the file format can carry (what it cannot carry is C35_refuted)."
  },
  {
   "property": "C65",
   "status": "proved",
   "theorems": [
    "C65_start",
    "C65_none",
    "C65_next",
    "C65_last",
    "C65_previous",
    "C65_back",
    "C65_walk",
    "C65_shown",
    "C65_confirm"
   ],
   "note": "C65_start/none/next/last/previous/back/walk/shown/confirm: exact worlds after each key, any list length; C65_walk by induction on the number of presses."
  },
  {
   "property": "C66",
   "status": "proved",
   "theorems": [
    "C66_frames",
    "C66_never_poisoned",
    "C66_no_lost_update",
    "C66_read_only",
    "C66_calls_in_order",
    "C66_uninterrupted",
    "C66_nothing_forgotten",
    "C66_learnt",
    "C66_mutual_exclusion",
    "C66_no_waiting_forever"
   ],
   "note": "Fine-grained interleavings: a schedule chooses which thread takes its next step, steps being lock acquisition, the access under the lock, and the computation up to the next lock. Saving and reloading a dictionary from a thread is not a call of this model (see C64, C57)."
  },
  {
   "property": "C67",
   "status": "proved",
   "theorems": [
    "C67_safe",
    "C67_counted",
    "C67_all_returned",
    "C67_invisible"
   ],
   "note": "Full. careful: the client passes only handles it holds, nothing else is assumed. C67_invisible compares with a world without memory management, for any reuse of freed memory."
  },
  {
   "property": "C68",
   "status": "partial",
   "theorems": [
    "C68_shows",
    "C68_given_back_partial",
    "C68_refuted",
    "C68_failed"
   ],
   "note": "Full claim false (C68_refuted: set_len does not shrink the capacity, so freeing the list is undefined behaviour unless the number of rules is 4, 8, 16, ...; with the two shipped rules it is undefined). C68_shows and C68_failed: contents, and nothing left on failure; C68_given_back_partial: when the capacity happens to agree, everything is given back."
  },
  {
   "property": "C69",
   "status": "partial",
   "theorems": [
    "C69_fallback_partial",
    "C69_refuted",
    "C69_kana_key_refuted",
    "C69_set_rule"
   ],
   "note": "Full claim false (C69_refuted: a form file that does not parse panics, C69_kana_key_refuted: so does a rule binding a key written in kana). C69_fallback_partial: with form files that parse and rule files with ASCII keys, always a fresh context; C69_set_rule: the rule switch, same condition on rule files. TOML parsing is a parameter of the theorems."
  },
  {
   "property": "C70",
   "status": "partial",
   "theorems": [
    "C70_partial",
    "C70_exact",
    "C70_refuted"
   ],
   "note": "Full claim false (C70_refuted: an XDG variable that is set but empty is not treated as unset). C70_partial: exact agreement with the specification when the variables that are set name absolute directories. C70_exact: for any file name, agreement in every file system if and only if the list of system directories has only absolute ones, XDG_DATA_HOME is absolute if set, and, if it is not set, HOME is absolute, empty or not set."
  },
  {
   "property": "C71",
   "status": "proved",
   "theorems": [
    "C71_sentence",
    "C71_handed_out",
    "C71_reading"
   ],
   "note": "C71_sentence: from the grammar of what a user types (composes: which keys lead from which input mode, pending keys, text and dictionaries to which) to the run of the model, at every depth of registration; the grammar mentions rule rows, command bindings, the kana form table and dictionary lookups only, not the state machine. C71_handed_out: the preedit and what two polls return. C71_reading: the exact state after the reading of a word. C10_spelled is the same for kana alone. The checker compose decides the grammar and gives the example of 81 keys (C71_case)."
  },
  {
   "property": "C72",
   "status": "partial",
   "theorems": [
    "C72_waiting",
    "C72_confirmed",
    "C72_reading",
    "C72_word",
    "C72_refuted",
    "C72_okuri_refuted"
   ],
   "note": "C72_waiting, C72_confirmed, C72_reading, C72_word: the claim except its last clause, exact worlds. The last clause is false (C72_refuted, C72_okuri_refuted: deleting a capital that still waits for its vowel does not clear capital_transition, so the next capital starts neither a word nor okurigana)."
  },
  {
   "property": "C73",
   "status": "proved",
   "theorems": [
    "C73_refused",
    "C73_reading_back",
    "C73_registered"
   ],
   "note": "C73_refused, C73_reading_back and C73_registered, for every text typed in the registration as given by the grammar of C71."
  },
  {
   "property": "C74",
   "status": "proved",
   "theorems": [
    "C74_session",
    "C74_shown",
    "C74_registering",
    "C74_polled"
   ],
   "note": "C74_session: from the grammar of a session (which keys lead from which scene - input mode, phase, pending keys, text, way back, dictionaries - to which) to the run of the model, at every depth of registration. C74_shown: the preedit is the display of the scene. C74_registering: the lines shown while registering. C74_polled: polling. The checker follow decides the grammar and gives the example of 105 keys (C74_case, C74_registering_case)."
  },
  {
   "property": "C75",
   "status": "proved",
   "theorems": [
    "C75_invisible",
    "C75_startable",
    "C75_saved"
   ],
   "note": "C75_invisible: simulation between the program with files (Life.v) and the one without (undisturbed): dictionaries alike up to recency order, marks and has_change answer every call alike (P_Alike.v, sim_exec), and a dictionary without unsaved changes is alike to what its file holds. C75_startable, C75_saved: the restarts and saves the theorem speaks of are possible. C75_forgets: the care is needed (reloading before saving forgets). One context; each dictionary has its own file that nobody else writes."
  },
  {
   "property": "C76",
   "status": "partial",
   "theorems": [
    "C76_utf8_reads",
    "C76_line",
    "C76_line_ends",
    "C76_file",
    "C76_written",
    "C76_utf8",
    "C76_utf8_writes_all",
    "C76_eucjp_partial",
    "C76_kept_partial",
    "C76_unknown_refuted",
    "C76_utf16_refuted",
    "C76_yen_refuted",
    "C76_utf16_reads"
   ],
   "note": "C76_line, C76_line_ends: encode_string writes a line completely or not at all and always ends. C76_file, C76_written: the file is exactly the lines that can be written, and can always be written. C76_utf8, C76_utf8_writes_all, C76_utf16_reads (T_Utf16) and C76_utf8_reads: UTF-8 loses nothing, writes exactly the texts of Unicode characters and reads exactly what it writes; C76_eucjp_partial: EUC-JP loses nothing but the yen sign, overline and minus sign. C76_kept_partial: where the encoding is faithful to the text saved, the dictionary opened again answers as before. The full claim is false: C76_unknown_refuted (a label that names no encoding opens, but the first save panics and leaves the file empty), C76_utf16_refuted (UTF-16 files are written as UTF-8 and read back as empty), C76_yen_refuted. The tables of JIS X 0208 are a parameter; encoders with a state and byte order marks are not modelled."
  },
  {
   "property": "C77",
   "status": "partial",
   "theorems": [
    "C77_exact",
    "C77_all_opened_partial",
    "C77_null_later",
    "C77_others_used_refuted"
   ],
   "note": "The claim is false: C77_others_used_refuted (an array that begins with NULL gives a context without any dictionary; the other dictionaries are silently dropped), C77_null_later (a NULL further on is undefined behaviour, in every state). C77_exact says for every array and state what the context gets; C77_all_opened_partial: the claim when nothing is NULL."
  },
  {
   "property": "C78",
   "status": "proved",
   "theorems": [
    "C78_call",
    "C78_undefined",
    "C78_down",
    "C78_program",
    "C78_safe"
   ],
   "note": "C78_call: a call answers a and leads to w' exactly when the Rust calls it stands for (relation says) do. C78_program: the same for whole programs. C78_undefined, C78_safe: the only undefined calls are arrays of keywords with a NULL that is not the first. C78_down: exactly when a call panics - among them a text that is no key sequence. The theorems hold for every function that finds rules; C69 is about that function."
  },
  {
   "property": "C79",
   "status": "proved",
   "theorems": [
    "C79_invisible",
    "C79_kept",
    "C79_saved",
    "C79_lock",
    "C79_saving_first_is_not_enough"
   ],
   "note": "C79_invisible: a simulation between the threads with saves and reloads (FineLife.v) and the same schedule without them (Fine.v). C79_kept: composed with C66_no_lost_update. C79_saved, C79_lock: a save can be made at once or after one move of the thread that is in the dictionary, and if no system call fails leaves nothing unsaved. C79_saving_first_is_not_enough: a program that always saves before it reloads still forgets what another thread learns in between; the API offers no way to do both under one lock."
  },
  {
   "property": "C80",
   "status": "proved",
   "theorems": [
    "C80_same",
    "C80_shipped",
    "C80_two_rows",
    "C80_two_rows_seen"
   ],
   "note": "C80_same: a simulation between contexts whose rules have the same rows in different orders. C80_shipped: the shipped rules meet the condition. C80_two_rows, C80_two_rows_seen: without it the row read last counts, so the same key types different kana in different processes; such rows can be written because keys may be separated by spaces."
  },
  {
   "property": "C81",
   "status": "partial",
   "theorems": [
    "C81_dictionary_partial",
    "C81_converted",
    "C81_number_partial",
    "C81_lessons",
    "C81_first_partial",
    "C81_history_partial",
    "C81_offered",
    "C81_refuted",
    "C81_order_refuted"
   ],
   "note": "C81_dictionary_partial, C81_first_partial, C81_history_partial: true when the user dictionary is asked first and no copy of the text has a greater annotation than the user dictionary's; lessons about other headwords in between do not matter (C81_lessons: lessons are all that happens to a dictionary). C81_number_partial: words with number templates, for any numbers. C81_refuted: with an annotated copy in a later dictionary the word never comes first. C81_order_refuted: nor when a system dictionary is asked first."
  },
  {
   "property": "C82",
   "status": "partial",
   "theorems": [
    "C82_partial",
    "C82_displayed_partial",
    "C82_shipped",
    "C82_refuted",
    "C82_number_refuted",
    "C82_depth_refuted",
    "C82_unseen",
    "C82_session_partial"
   ],
   "note": "C82_partial, C82_displayed_partial: after every history of keys and calls from a new context, under every tidy rule (C82_shipped: both shipped rules are), when the user does not give up a registration that a keyword opened, does not register a text with a number sign, does not type keywords in the tenth frame, and the program enters modes by hand only where no word is open. C82_refuted, C82_number_refuted, C82_depth_refuted: each of the three conditions on the user is needed; the remains appear in the next word. C82_session_partial: from such a state a whole typing session (C74) goes on exactly as from an idle scene; C82_unseen: the two fields of a frame that may differ are not observable, through the whole API."
  },
  {
   "property": "C83",
   "status": "proved",
   "theorems": [
    "C83_call",
    "C83_gained",
    "C83_lost",
    "C83_offered",
    "C83_shipped"
   ],
   "note": "C83_call: every call of the API, in every state. C83_gained, C83_lost: whole histories, per dictionary, headword and okurigana. C83_offered: what conversion offers. C83_shipped: both shipped rules qualify; C83_why shows what other rules can do."
  },
  {
   "property": "C84",
   "status": "proved",
   "theorems": [
    "C84_period",
    "C84_comma",
    "C84_styles",
    "C84_keywords",
    "C84_now"
   ],
   "note": "C84_period, C84_comma, C84_styles, C84_keywords: simulations through the whole API, settings changed at any moment. C84_now: changing a setting itself. Examples show that the period tells styles apart and that the order of keywords matters when one ends another."
  },
  {
   "property": "C85",
   "status": "proved",
   "theorems": [
    "C85_lasts",
    "C85_gained",
    "C85_lost",
    "C85_first"
   ],
   "note": "C85_lasts: the list of every headword, exactly, with annotations and order. C85_gained, C85_lost: single texts. C85_first: the API-level promise, with C85_case meeting every hypothesis and C85_shown showing the outcome."
  },
  {
   "property": "C86",
   "status": "partial",
   "theorems": [
    "C86_while_used",
    "C86_dropped_partial",
    "C86_refuted"
   ],
   "note": "C86_while_used, C86_dropped_partial: exactly what is allocated at any time and after dropping. Missing: that nothing is left, which is false (C86_refuted): two nodes leak per map, so four per reload of a dictionary."
  },
  {
   "property": "C87",
   "status": "proved",
   "theorems": [
    "C87_kana",
    "C87_kana_only",
    "C87_keys",
    "C87_keys_only",
    "C87_line",
    "C87_line_strict",
    "C87_octals"
   ],
   "note": "C87_kana, C87_keys: a finite execution of the recursion of the code exists for every input, with at most as many rounds as characters, gives what the model computes, and is the only one (C87_kana_only, C87_keys_only). C87_line, C87_line_strict: nom's many1 as executions; the element parsers always consume. C87_octals: the matches of the octal expression. So the bounds on recursion in the model never cut anything off. (Digits: C42; encoder: C76_line_ends.) Not covered: stack depth of the recursion."
  },
  {
   "property": "C88",
   "status": "partial",
   "theorems": [
    "C88_exact",
    "C88_file_partial",
    "C88_missing",
    "C88_refuted"
   ],
   "note": "C88_exact: the loop over a reader that may give lines, errors and the end at any call is left exactly at the first end, with the dictionary of the lines read before; C88_file_partial and C88_missing: a file is opened as its text, a missing one refused. The full claim is false (C88_refuted): a directory can be opened but not read, every call of next gives an error, which is logged, and the loop goes on forever; so with a file whose reads keep failing. Assumed: BufRead::lines asks again after an error (std) and the decoding reader does too (encoding_rs_io)."
  },
  {
   "property": "C89",
   "status": "partial",
   "theorems": [
    "C89_drawing",
    "C89_determined",
    "C89_elements",
    "C89_candidate",
    "C89_poll_partial",
    "C89_empty",
    "C89_idle",
    "C89_refuted"
   ],
   "note": "C89_drawing, C89_determined: the preedit is the one drawing of its details (a small relation); C89_elements: one element per frame, with mode and waiting text; C89_empty, C89_idle: empty exactly when idle (keys that are pending have a name). The claim about polling is false for a context in which a word is being registered (C89_refuted): text confirmed before is not drawn then, so it appears on the screen only when polled; C89_poll_partial: exactly what a poll does to the preedit and the details otherwise and then. C89_candidate: while a candidate is chosen or a completion shown, the last element of the details gives the text and annotation (and whole reading) of the very candidate get_current_candidates lists at the cursor position."
  },
  {
   "property": "C90",
   "status": "proved",
   "theorems": [
    "C90_key",
    "C90_call",
    "C90_set",
    "C90_history",
    "C90_back",
    "C90_shipped"
   ],
   "note": "C90_key, C90_call, C90_set: each call; C90_history, C90_back: histories without a call that asks; C90_shipped: exactly the keys of the two shipped rules."
  },
  {
   "property": "C91",
   "status": "partial",
   "theorems": [
    "C91_leave_partial",
    "C91_reading_partial",
    "C91_okurigana_exact",
    "C91_refuted",
    "C91_shipped_leaves",
    "C91_shipped_reading"
   ],
   "note": "C91_leave_partial, C91_reading_partial: it holds for command lists that begin by forcing the pending keys in the mode's own kana; C91_shipped_leaves, C91_shipped_reading: exactly which keys of the shipped rules have such lists. False (C91_refuted) for C-q in katakana of the default rule (a pending n comes out in hiragana), for C-q in a reading (a pending n is dropped) and for a word with okurigana begun (the okurigana is dropped: C91_okurigana_exact, for every rule)."
  },
  {
   "property": "C92",
   "status": "proved",
   "theorems": [
    "C92_more_completions",
    "C92_contents",
    "C92_empty",
    "C92_more"
   ],
   "note": "C92_contents, C92_empty: by simulation, over the whole API except replacing the dictionaries; C92_more: the texts offered with some dictionaries are among those offered with more, numeric templates and the #4 lookup included. C92_more_completions (in T_Completions): the same of completions. C92_case, C92_more_case: shipped rule, user file between empty dictionaries, the second candidate learnt."
  },
  {
   "property": "C93",
   "status": "partial",
   "theorems": [
    "C93_exact",
    "C93_offered_partial",
    "C93_refuted",
    "C93_refuted_heading",
    "C93_key",
    "C93_shown"
   ],
   "note": "C93_exact: exactly which suggestions are offered and in which order - those whose next one, in the order of headings, words and annotations, is of another word; C93_offered_partial: every word found is offered and none twice under one heading; C93_key: the key that asks for completions lists exactly these. False in full: C93_refuted (a word that two headings share is offered twice when another word stands between) and C93_refuted_heading (when none does, the heading that is dropped is the shorter one, though it is found first). C93_case: what the user sees of all this. C93_shown: the two together for every history from built dictionaries: pressing Tab in a reading shows exactly the suggested words. C93_shown_case."
  },
  {
   "property": "C94",
   "status": "partial",
   "theorems": [
    "C94_unmixed",
    "C94_last",
    "C94_refused",
    "C94_whole_partial",
    "C94_refuted",
    "C94_lost_refuted",
    "C94_next_partial",
    "C94_word_refuted"
   ],
   "note": "C94_unmixed: all interleavings, failures and kills, any number of saves; the renaming keeps two saves from ever creating at once, so that File::create never empties a file another writes to. C94_last: what both files hold when all are done. C94_refused: while one save is between renaming and creating, all others are refused and change nothing. C94_next_partial: a program started next answers as the last saver did (for contents the file can carry, C35). False: C94_refuted (two overlapping saves, both killed: both files empty), C94_lost_refuted (of three saves the first is in neither file), C94_word_refuted (what one program learnt is forgotten when another, started before, saves). C94_whole_partial: one of the files is whole at every moment if no save begins while another is under way or broken off. C94_case."
  },
  {
   "property": "C95",
   "status": "partial",
   "theorems": [
    "C95_read",
    "C95_whole_partial",
    "C95_refuted",
    "C95_no_file_refuted"
   ],
   "note": "C95_read: never a mixture - all interleavings; what is read to its end is what was there or the beginning of what one save writes, also when the file is renamed while it is read. C95_whole_partial: all of it, if it was opened while no save was under way or broken off, whatever happens from then on. False in full: C95_refuted (a program started during a save that succeeds reads an empty file), C95_no_file_refuted (or finds none). C95_case."
  }
 ]
}