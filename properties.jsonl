{"id": "C01", "title": "Key release events are inert", "statement": "process_key_event on an event carrying the RELEASE modifier returns false and changes neither the context nor any dictionary.", "quantifier": "every context state, every dictionary contents, every key symbol and modifier set containing RELEASE", "why_tests_cant": "tests try one or two releases in the initial state; the claim covers every reachable and unreachable state", "anchors": ["src/lib.rs:CskkContext::process_key_event"]}
{"id": "C02", "title": "Nesting of word registration is bounded and never empty", "statement": "After any history of API calls and key events get_preedit_detail returns at least one and at most ten elements, and the internal 'State stack is empty' panics are never reached.", "quantifier": "every rule, dictionary set, initial mode and every finite sequence of API calls", "why_tests_cant": "the bound is over unboundedly long histories and arbitrary custom rules", "anchors": ["src/lib.rs:enter_register_mode", "src/lib.rs:abort_register_mode", "src/lib.rs:exit_register_mode", "src/lib.rs:REGISTER_MODE_STACK_MAX"]}
{"id": "C03", "title": "Registration frames are exactly the outer frames", "statement": "If the context is never put in Register mode by hand or by a rule and never reset, in get_preedit_detail every element but the last is Register and the last is not; the rendered preedit has as many opening as closing brackets, one pair per outer frame.", "quantifier": "every key history and rule without ChangeCompositionMode(Register)", "why_tests_cant": "needs an invariant over all histories", "anchors": ["src/lib.rs:get_preedit", "src/lib.rs:get_preedit_detail", "src/lib.rs:enter_register_mode", "src/cskkstate.rs:abort_to_previous_mode"]}
{"id": "C04", "title": "Reset contract", "statement": "skk_context_reset flushes all inputs and resets the composition mode to Direct (documented in capi.rs), leaving the input mode alone.", "quantifier": "every context state", "why_tests_cant": "tests always set the composition mode by hand after a reset, so the claim is never exercised", "anchors": ["src/lib.rs:reset_state_stack", "src/capi.rs:skk_context_reset"]}
{"id": "C05", "title": "The context never goes dead", "statement": "After any API history there is still some key event the context accepts (process_key_event returns true).", "quantifier": "every history of public API calls", "why_tests_cant": "liveness over all histories, including reset at any moment", "anchors": ["src/lib.rs:reset_state_stack", "src/lib.rs:process_key_event_inner_v2", "src/rule.rs:get_inner_ruleset"]}
{"id": "C06", "title": "Polling hands over confirmed text exactly once", "statement": "poll_output returns exactly the pending confirmed text of the outermost frame (None if empty), empties it, and changes nothing else; a second poll returns None. The text read by successive polls is the text confirmed, in order: leaving polls out of a history (one without calls that drop confirmed text, and without a Delete that finds nothing) changes no other answer and nothing else in the context, and what was polled is then found, in order, in front of the confirmed text.", "quantifier": "every state; every interleaving of polls", "why_tests_cant": "quantifies over all states and poll schedules", "anchors": ["src/lib.rs:poll_output", "src/lib.rs:retrieve_output"]}
{"id": "C07", "title": "Key processing never loses confirmed text", "statement": "Processing a key never removes text already confirmed, unless the key runs Delete: the confirmed text before is a prefix of the one after.", "quantifier": "every state, rule, key", "why_tests_cant": "needs all paths of the key processor; the Purge instruction is the interesting one", "anchors": ["src/lib.rs:process_key_event_inner_v2", "src/lib.rs:purge_current_composition_candidate", "src/cskkstate.rs:clear_all"]}
{"id": "C08", "title": "ASCII mode is transparent", "statement": "In Direct composition with input mode Ascii, typing any sequence of printable ASCII keys not bound to commands makes poll_output return exactly those characters and leaves everything else unchanged.", "quantifier": "every sequence of printable keys of any length, every context state in that mode", "why_tests_cant": "unbounded input sequences", "anchors": ["src/lib.rs:process_key_event_inner_v2"]}
{"id": "C09", "title": "Zenkaku mode maps character by character", "statement": "In Direct composition with input mode Zenkaku, typing any sequence of printable ASCII keys not bound to commands outputs the concatenation of their full-width forms (or the character itself if the form table has none).", "quantifier": "every key sequence, every form table", "why_tests_cant": "unbounded input sequences and tables", "anchors": ["src/form_changer/ascii_form_changer.rs:adjust_ascii_char", "src/lib.rs:process_key_event_inner_v2"]}
{"id": "C10", "title": "Romaji typing outputs exactly the kana of the rule", "statement": "In Direct composition and a kana input mode, typing any sequence of rule keys that are unambiguous, leave no carry-over, and whose proper prefixes are not commands, confirms exactly the concatenation of the converted kana in the form of the input mode, with no pending input left.", "quantifier": "every rule, every sequence of such syllables of any length", "why_tests_cant": "unbounded sequences and arbitrary rules", "anchors": ["src/lib.rs:process_key_event_inner_v2", "src/lib.rs:input_converted_kana", "src/kana_builder.rs"]}
{"id": "C11", "title": "Kana conversion table semantics", "statement": "For a rule whose keys are distinct, a key sequence converts at once iff it is a rule key that is not a proper prefix of another rule key, and to exactly that rule's kana and carry-over; it may continue iff it is a prefix of some rule key; the forced conversion converts exactly the rule keys.", "quantifier": "every conversion table and key sequence", "why_tests_cant": "all tables, all sequences", "anchors": ["src/kana_builder.rs:convert_non_partial", "src/kana_builder.rs:convert_greedy", "src/kana_builder.rs:can_continue"]}
{"id": "C12", "title": "Pending romaji can always still be completed", "statement": "If every carry-over of the rule is a prefix of some rule key, then after any key history (without switching the rule) the pending, not yet converted keys of every frame are a prefix of some rule key.", "quantifier": "every such rule, every key history", "why_tests_cant": "invariant over all histories", "anchors": ["src/lib.rs:input_as_continuous_kana", "src/kana_builder.rs:next_unprocessed_state", "src/cskkstate.rs:delete"]}
{"id": "C13", "title": "A pending convertible n is never dropped silently", "statement": "When a further key makes pending convertible input (a lone n) impossible to continue, the pending input is first converted and output.", "quantifier": "every kana-mode state with convertible pending keys and every non-command key that cannot continue it", "why_tests_cant": "depends on every combination of pending input and next key", "anchors": ["src/lib.rs:process_key_event_inner_v2", "src/lib.rs:output_converted_kana_if_any"]}
{"id": "C14", "title": "Shift on capital letters does not matter", "statement": "For a capital letter symbol, process_key_event gives the same result, output and new state whether or not the SHIFT flag is set.", "quantifier": "every state, rule and capital letter", "why_tests_cant": "relational property over all states", "anchors": ["src/command_handler/configurable_command_handler.rs:get_instruction", "src/keyevent.rs:is_modifierless_input"]}
{"id": "C15", "title": "Abort always leads home", "statement": "Whatever the state, pressing a key bound to Abort often enough brings the context back to a single frame in its default composition mode, after a number of presses bounded by the depth of frames and mode history.", "quantifier": "every state", "why_tests_cant": "termination from every state", "anchors": ["src/lib.rs:abort_register_mode", "src/cskkstate.rs:abort_to_previous_mode"]}
{"id": "C16", "title": "Mode history is bounded", "statement": "The mode history kept for Abort never exceeds 20 entries in any frame.", "quantifier": "every history of API calls and keys", "why_tests_cant": "unbounded histories", "anchors": ["src/cskkstate.rs:change_composition_mode", "src/cskkstate.rs:change_composition_mode_from_old_mode"]}
{"id": "C17", "title": "Candidate cursor stays inside the candidate list", "statement": "Whenever the candidate list is non-empty get_current_candidate_cursor_position is smaller than the candidate count, and it is 0 for an empty list.", "quantifier": "every API history", "why_tests_cant": "depends on arithmetic wrap-around after particular histories", "anchors": ["src/candidate_list.rs:forward_candidate", "src/candidate_list.rs:has_next"]}
{"id": "C18", "title": "Key processing never panics", "statement": "process_key_event never panics.", "quantifier": "every rule, dictionary, state reachable through keys, and key", "why_tests_cant": "a single bad dictionary entry, number or history suffices to break it", "anchors": ["src/lib.rs:process_key_event", "src/candidate_list.rs", "src/form_changer/numeric_form_changer.rs", "src/rule.rs:get_inner_ruleset"]}
{"id": "C19", "title": "Selecting implies candidates", "statement": "Whenever the composition mode is CompositionSelection the candidate list is non-empty and the preedit shows one of its candidates.", "quantifier": "every key history under the default rule", "why_tests_cant": "depends on histories mixing Purge and Abort", "anchors": ["src/lib.rs:purge_current_composition_candidate", "src/lib.rs:abort_register_mode", "src/cskkstate.rs:preedit_detail"]}
{"id": "C20", "title": "The dictionary is asked for the reading shown", "statement": "In the reading modes the key used for dictionary lookup is exactly the reading shown in the preedit.", "quantifier": "every key history", "why_tests_cant": "one deletion path desynchronises two hidden copies of the reading", "anchors": ["src/cskkstate.rs:delete", "src/cskkstate.rs:push_string_for_composition_mode", "src/cskkstate.rs:get_composite_key"]}
{"id": "C21", "title": "Candidate list has no duplicates and loses nothing", "statement": "The list of candidates offered from exact dictionary matches contains each candidate text exactly once, contains exactly the texts the dictionaries contain, and prefers an annotated copy.", "quantifier": "every multiset and order of dictionary candidates", "why_tests_cant": "all lists", "anchors": ["src/dictionary/mod.rs:dedup_candidates"]}
{"id": "C22", "title": "Deduplication keeps the order of first appearance", "statement": "The order of candidates after removing duplicates is the order of their first appearance in the dictionaries.", "quantifier": "every list of dictionary candidates", "why_tests_cant": "all lists; fails only with particular annotations", "anchors": ["src/dictionary/mod.rs:dedup_candidates"]}
{"id": "C23", "title": "Strict okurigana matches come first", "statement": "With okurigana, all strict matches of all dictionaries come before all non-strict candidates (documented order); without, candidates come in dictionary order.", "quantifier": "every set of dictionaries and key", "why_tests_cant": "needs two dictionaries with both kinds of entries", "anchors": ["src/dictionary/mod.rs:get_candidates_in_order"]}
{"id": "C24", "title": "Confirming makes a candidate first and loses none", "statement": "After confirming a candidate, the entry of its midashi in every user dictionary lists it first (also under its strict okurigana), and holds the same other candidates as before.", "quantifier": "every dictionary contents and candidate", "why_tests_cant": "all dictionary states", "anchors": ["src/dictionary/user_dictionary.rs:select_candidate", "src/dictionary/dictentry.rs:prioritize_candidate"]}
{"id": "C25", "title": "Confirming keeps the recency order of the others", "statement": "Confirming a candidate moves it to the front and keeps the relative order of the other candidates.", "quantifier": "every entry and candidate", "why_tests_cant": "fails only from the third position on", "anchors": ["src/dictionary/dictentry.rs:prioritize_candidate_for_okuri"]}
{"id": "C26", "title": "A registered word is offered next time", "statement": "After registering a word for a reading (with or without okurigana), converting the same reading again offers that word.", "quantifier": "every reading, okurigana, word and dictionary with a user dictionary", "why_tests_cant": "tests only cover readings without okurigana", "anchors": ["src/lib.rs:exit_register_mode", "src/dictionary/composite_key.rs:get_dict_key", "src/dictionary/user_dictionary.rs:select_candidate"]}
{"id": "C27", "title": "A purged candidate is gone from the user dictionaries", "statement": "After purging a candidate no user dictionary offers it for that key any more and all other candidates remain.", "quantifier": "every dictionary contents", "why_tests_cant": "fails only for dictionaries with duplicate candidates", "anchors": ["src/dictionary/dictentry.rs:remove_candidate_for_okuri", "src/dictionary/user_dictionary.rs:purge_candidate"]}
{"id": "C28", "title": "Read-only dictionaries never change", "statement": "No key event or API call other than reload changes the contents of a static or empty dictionary.", "quantifier": "every API history", "why_tests_cant": "all histories", "anchors": ["src/dictionary/mod.rs:confirm_candidate", "src/dictionary/mod.rs:purge_candidate", "src/dictionary/static_dict.rs"]}
{"id": "C29", "title": "Dictionary updates touch only their midashi", "statement": "Confirming or purging a candidate changes, in each user dictionary, only the entry of its own midashi in its own okuri-ari/okuri-nasi section; all other lookups return what they did.", "quantifier": "every dictionary contents, candidate and other key", "why_tests_cant": "all keys", "anchors": ["src/dictionary/user_dictionary.rs:select_candidate", "src/dictionary/user_dictionary.rs:purge_candidate"]}
{"id": "C30", "title": "The recency map behaves like a map with a recency list", "statement": "Any sequence of push/get/get_mut/peek/remove on the linked-list map behaves like a finite map plus a most-recently-used-first list: lookups, recency iteration and size agree, and no dangling or self link ever arises.", "quantifier": "every operation sequence, string keys and any value type", "why_tests_cant": "pointer structure; unbounded sequences", "anchors": ["src/dictionary/lru_ordered_map.rs"]}
{"id": "C31", "title": "Sorted iteration is sorted and complete", "statement": "iter_sorted yields every key exactly once in strictly increasing order, whatever the operation history.", "quantifier": "every operation history", "why_tests_cant": "unbounded histories", "anchors": ["src/dictionary/lru_ordered_map.rs:push", "src/dictionary/lru_ordered_map.rs:remove", "src/dictionary/lru_ordered_map.rs:iter_sorted"]}
{"id": "C32", "title": "Completion returns exactly the entries with the prefix", "statement": "complete returns, in increasing order, exactly the entries whose midashi starts with the given text.", "quantifier": "every dictionary contents and prefix", "why_tests_cant": "needs contiguity of prefix ranges in the sort order for all key sets", "anchors": ["src/dictionary/file_dictionary.rs:complete"]}
{"id": "C33", "title": "Dictionary line round trip", "statement": "Writing a dictionary entry as a line and parsing it back yields the same entry, for every entry whose midashi, candidates, annotations and okurigana use only characters the format can carry.", "quantifier": "every such entry", "why_tests_cant": "all strings, all entries", "anchors": ["src/dictionary/dictentry.rs:Display", "src/dictionary/dictionary_parser.rs:entry", "src/dictionary/dictentry.rs:from_skkjisyo_line"]}
{"id": "C34", "title": "Candidate text escaping round trip", "statement": "Reading back a candidate text escaped with (concat ...) yields the original text.", "quantifier": "every candidate text", "why_tests_cant": "fails for particular adjacent characters, e.g. two slashes", "anchors": ["src/dictionary/dictentry.rs:escape_dictionary_string", "src/dictionary/dictentry.rs:process_lisp_fun"]}
{"id": "C35", "title": "Saving and reloading a user dictionary loses nothing", "statement": "After save_dictionary and reload every lookup returns what it returned before.", "quantifier": "every dictionary contents a user can create through the API", "why_tests_cant": "depends on contents: brackets, slashes in midashi, emptied strict lists", "anchors": ["src/dictionary/user_dictionary.rs:save_dictionary", "src/dictionary/file_dictionary.rs:load_dictionary"]}
{"id": "C36", "title": "Recency survives save and reload", "statement": "Saving, reloading and saving again keeps entries most recently used first.", "quantifier": "every dictionary contents", "why_tests_cant": "needs two save cycles", "anchors": ["src/dictionary/user_dictionary.rs:save_dictionary", "src/dictionary/file_dictionary.rs:load_dictionary", "src/dictionary/lru_ordered_map.rs:iter_lru"]}
{"id": "C37", "title": "Crash during save leaves a complete copy", "statement": "If the process dies at any point of save_dictionary, the dictionary file or its .BAK still holds the complete previous contents, or the file the complete new contents.", "quantifier": "every crash point, every contents", "why_tests_cant": "crash points cannot be enumerated by unit tests", "anchors": ["src/dictionary/user_dictionary.rs:save_dictionary"]}
{"id": "C38", "title": "A failed save can be retried", "statement": "If a save fails with an I/O error, a later save with a working file system writes the dictionary.", "quantifier": "every failure point", "why_tests_cant": "needs fault injection at each step", "anchors": ["src/dictionary/user_dictionary.rs:save_dictionary"]}
{"id": "C39", "title": "Kanji numerals denote the number", "statement": "For every number below 10^19 the kanji form (#3) and the formal form (#5) read back, by the usual rules of Japanese numerals, to that number; larger u64 give the too-large message.", "quantifier": "all numbers below 10^19", "why_tests_cant": "10^19 cases", "anchors": ["src/form_changer/numeric_form_changer.rs:format_number_kuraidori_nashi_kanji", "src/form_changer/numeric_form_changer.rs:numeric_to_daiji_as_number"]}
{"id": "C40", "title": "Thousands separators are placed right", "statement": "For every ASCII digit string the #8 form removes to the original string when commas are deleted, has commas exactly between groups of three digits counted from the right, and none at the ends.", "quantifier": "all digit strings of any length", "why_tests_cant": "unbounded lengths", "anchors": ["src/form_changer/numeric_form_changer.rs:numeric_to_thousand_separator"]}
{"id": "C41", "title": "Digit-wise number forms", "statement": "#1 and #2 replace every digit by its full-width / kanji form and leave every other character alone.", "quantifier": "all strings", "why_tests_cant": "all strings", "anchors": ["src/form_changer/numeric_form_changer.rs:numeric_to_zenkaku", "src/form_changer/numeric_form_changer.rs:numeric_to_kanji_each"]}
{"id": "C42", "title": "Numeric readings are split right", "statement": "The numeric dictionary key of a reading is the reading with every maximal run of digits replaced by one #, and the numbers are these runs in order.", "quantifier": "every reading", "why_tests_cant": "repeated and nested numbers, all strings", "anchors": ["src/dictionary/mod.rs:to_composite_to_numeric_dict_key"]}
{"id": "C43", "title": "Numeric templates are filled in order", "statement": "Every #n template of a candidate is replaced by the corresponding number in the requested form, in order; other text is unchanged.", "quantifier": "every candidate text and list of numbers", "why_tests_cant": "all templates; sequential first-occurrence replacement can hit the wrong place", "anchors": ["src/dictionary/mod.rs:replace_numeric_string"]}
{"id": "C44", "title": "Kana form conversion is longest match first", "statement": "Katakana/half-width conversion replaces text left to right by the longest table key at each position, copies unknown characters, leaves other modes unchanged, and terminates.", "quantifier": "every table and string", "why_tests_cant": "all strings and tables", "anchors": ["src/form_changer/kana_form_changer.rs:adjust_kana_string"]}
{"id": "C45", "title": "Key event text parsing is total", "statement": "from_string_representation returns Ok or Err for every string.", "quantifier": "every string", "why_tests_cant": "multi-byte boundaries", "anchors": ["src/keyevent.rs:from_str", "src/keyevent.rs:deserialize_seq"]}
{"id": "C46", "title": "fcitx events carry only real modifiers", "statement": "An event made from fcitx carries RELEASE iff is_release was true, carries no reserved bits, and ISO_Left_Tab is Tab.", "quantifier": "all 2^32 x 2^32 inputs", "why_tests_cant": "huge domain", "anchors": ["src/keyevent.rs:from_fcitx_keyevent"]}
{"id": "C47", "title": "Rule instructions parse back", "statement": "Every instruction has a text form that parses to it, and unknown texts are rejected.", "quantifier": "every instruction and mode", "why_tests_cant": "finite but never enumerated in tests", "anchors": ["src/command_handler/instruction.rs:from_str"]}
{"id": "C48", "title": "Selecting and confirming by index", "statement": "select_candidate_at(i): no candidates -> false and nothing changes; i<0 -> back to the reading; in range -> cursor at i; beyond -> cursor on the last candidate and registration. confirm_candidate_at(i) in range outputs exactly that candidate plus okurigana; out of range nothing happens.", "quantifier": "every state and index", "why_tests_cant": "all states and indices", "anchors": ["src/lib.rs:skk_context_select_candidate_at_rs", "src/lib.rs:skk_context_confirm_candidate_at_rs"]}
{"id": "C49", "title": "will_process predicts process_key_event", "statement": "will_process returns true exactly when process_key_event would return true.", "quantifier": "every state and key", "why_tests_cant": "all states and keys", "anchors": ["src/lib.rs:will_process", "src/lib.rs:process_key_event"]}
{"id": "C50", "title": "Comma and period style", "statement": "In a kana input mode with nothing pending, the period and comma keys (when neither a command nor in the rule) always enter the configured punctuation in place.", "quantifier": "every state in the kana modes, every style", "why_tests_cant": "all states", "anchors": ["src/lib.rs:process_key_event_inner_v2", "src/kana_builder.rs:convert_periods"]}
{"id": "C51", "title": "Contexts sharing dictionaries do not disturb each other", "statement": "Operations of one context change another context sharing its dictionaries only through the dictionaries: its frames, modes, pending and confirmed text are untouched; and a word confirmed in one is first in the user dictionary seen by the other, in every interleaving.", "quantifier": "every interleaving of operations of any number of contexts", "why_tests_cant": "schedules", "anchors": ["src/lib.rs:set_dictionaries", "src/dictionary/mod.rs:CskkDictionary"]}
{"id": "C52", "title": "Loading a dictionary", "statement": "Loading a file yields for each midashi and section the last well-formed line; comments and ill-formed lines are ignored and never abort loading.", "quantifier": "every file contents", "why_tests_cant": "all files", "anchors": ["src/dictionary/file_dictionary.rs:load_dictionary"]}
{"id": "C53", "title": "Auto-start conversion", "statement": "When the reading ends with an auto-start keyword, is longer than it, and nothing is pending, conversion starts with exactly the reading before the keyword and the keyword is shown after the candidate and output with it.", "quantifier": "every reading, keyword list, dictionary", "why_tests_cant": "all strings", "anchors": ["src/lib.rs:auto_start_henkan", "src/cskkstate.rs:set_converted_to_postfix"]}
{"id": "C54", "title": "A key reported as not handled changed nothing", "statement": "If process_key_event returns false, the context and dictionaries are as before.", "quantifier": "every state, every key, rules of the shipped shape", "why_tests_cant": "all paths", "anchors": ["src/lib.rs:process_key_event", "src/lib.rs:process_instructions"]}
{"id": "C55", "title": "Observers are pure and total", "statement": "Reading preedit, preedit detail, modes, candidates or cursor never changes anything and never panics, in any state.", "quantifier": "every state", "why_tests_cant": "all states", "anchors": ["src/lib.rs:get_preedit", "src/lib.rs:get_preedit_detail", "src/lib.rs:will_process"]}
{"id": "C56", "title": "Iterating the recency map backwards", "statement": "Taking elements from the back of iter_lru or iter_sorted yields the same elements as iterating forward, in reverse order.", "quantifier": "every map contents", "why_tests_cant": "all contents; next_back is never exercised", "anchors": ["src/dictionary/lru_ordered_map.rs:LinkedListIter::next_back", "src/dictionary/lru_ordered_map.rs:SliceIter::next_back"]}
{"id": "C57", "title": "Interrupted saves never lose everything", "statement": "After any number of interrupted saves, each in a new session that read what was there, the dictionary file or its .BAK holds some complete contents.", "quantifier": "every sequence of sessions and crash points", "why_tests_cant": "sequences of crashes", "anchors": ["src/dictionary/user_dictionary.rs:save_dictionary"]}
{"id": "C58", "title": "The C API hands out candidates page by page", "statement": "skk_context_get_current_candidates fills the buffer with the outputs of the candidates offset, offset+1, ... in order, returns how many, and fails only when one of them contains NUL; consecutive pages give the whole list; the cursor is -1 exactly without candidates.", "quantifier": "every state, buffer size and offset", "why_tests_cant": "all offsets and sizes", "anchors": ["src/capi.rs:skk_context_get_current_candidates", "src/capi.rs:skk_context_get_current_candidate_cursor_position"]}
{"id": "C59", "title": "The C API never loses confirmed text", "statement": "skk_context_poll_output returns the whole confirmed text, or leaves it to be polled again.", "quantifier": "every state", "why_tests_cant": "depends on the contents of dictionaries", "anchors": ["src/capi.rs:skk_context_poll_output"]}
{"id": "C60", "title": "The C API shows the same preedit details", "statement": "skk_context_get_preedit_detail gives C exactly the details get_preedit_detail gives Rust and never panics.", "quantifier": "every state", "why_tests_cant": "depends on the contents of dictionaries", "anchors": ["src/capi.rs:skk_context_get_preedit_detail", "src/capi.rs:convert_state_info"]}
{"id": "C61", "title": "Nothing blank is offered", "statement": "With dictionaries read from files, every candidate ever offered by conversion, completion, number templates or registration has a non-empty text, whatever was confirmed, registered or purged before.", "quantifier": "every dictionary file contents, every history of calls", "why_tests_cant": "all files and histories", "anchors": ["src/dictionary/dictionary_parser.rs:parse_candidate", "src/dictionary/mod.rs:get_all_candidates", "src/lib.rs:exit_register_mode"]}
{"id": "C62", "title": "The shipped rules are well-formed", "statement": "Both shipped rules (default and AZIK): no command starts a registration by itself or clears kana, every command list keeps the documented orders, no two conversion rows have the same keys, every carried-over key can be continued, and every conversion yields text.", "quantifier": "every row and command of both shipped rule files", "why_tests_cant": "the conditions range over all rows and commands and over all ways to continue them", "anchors": ["assets/rules/default/rule.toml", "assets/rules/azik/rule.toml"]}
{"id": "C63", "title": "Memory handed out by the C API", "statement": "A C program that frees each string, detail array, candidate list and key event it was given once, with the documented function, in any order and interleaved with any calls, never frees memory that is not allocated, never holds dangling or shared pointers, and when it has freed everything nothing is left allocated.", "quantifier": "every history of C API calls and every order of freeing", "why_tests_cant": "needs all histories and orders; leaks and double frees are not visible to unit tests", "anchors": ["src/capi.rs:skk_free_string", "src/capi.rs:skk_free_preedit_detail", "src/capi.rs:skk_free_candidate_list", "src/capi.rs:CompleteDataFfi"]}
{"id": "C64", "title": "Everything learnt is saved", "statement": "After any typing, each dictionary of the context is exactly as it was or will be written by the next save; and for contents the file format can carry, a new session that reads the saved file gets exactly the answers of the old one.", "quantifier": "every history of keys and calls, every dictionary file", "why_tests_cant": "all histories", "anchors": ["src/dictionary/user_dictionary.rs:select_candidate", "src/dictionary/user_dictionary.rs:purge_candidate", "src/dictionary/user_dictionary.rs:save_dictionary"]}
{"id": "C65", "title": "Walking through the candidates", "statement": "The conversion key shows the candidates of the reading from the first on, each press the next one; after the last one (or without any) a registration is opened; the previous key goes back one by one and before the first returns to the reading; confirming outputs exactly the candidate shown with its okurigana; nothing else changes on the way.", "quantifier": "every state, dictionary, number of presses", "why_tests_cant": "all states and list lengths", "anchors": ["src/lib.rs:try_next_candidate", "src/lib.rs:confirm_current_composition_candidate", "src/candidate_list.rs:forward_candidate"]}
{"id": "C66", "title": "Contexts used from several threads", "statement": "However the operating system interleaves threads that use contexts over the same dictionaries - also between the dictionary locks of one call - the API guarantees of a single context still hold: every call does what its documentation says with the dictionary contents of the moment it looked; no update of a dictionary is lost, duplicated or torn; read-only dictionaries stay as they are; no lock is poisoned; a call that is not interrupted behaves exactly as without threads; and no two threads ever wait for each other forever.", "quantifier": "every number of threads, calls and dictionaries, every schedule of the single lock-protected dictionary accesses", "why_tests_cant": "needs all interleavings at the granularity of lock acquisitions", "anchors": ["src/dictionary/mod.rs:get_all_candidates", "src/dictionary/mod.rs:confirm_candidate", "src/dictionary/mod.rs:purge_candidate", "src/dictionary/mod.rs:CskkDictionary", "src/lib.rs:process_key_event"]}
{"id": "C67", "title": "The life of dictionaries and contexts in the C API", "statement": "A C program that passes only the dictionaries and contexts it was given and has not freed never causes a use after free or a double free; a dictionary stays alive exactly as long as a handle or a context refers to it, so it may be freed while contexts use it; when everything is freed nothing is left; and freeing never changes what any later call answers.", "quantifier": "every history of creating, sharing, replacing, using and freeing dictionaries and contexts", "why_tests_cant": "needs all histories and orders of freeing; use after free is not visible to unit tests", "anchors": ["src/capi.rs:skk_free_dictionary", "src/capi.rs:skk_free_context", "src/capi.rs:dictionaries_from_c_repr", "src/capi.rs:skk_context_set_dictionaries"]}
{"id": "C68", "title": "The list of rules handed out and freed", "statement": "skk_get_rules returns an array with identifier, name and description of every available rule, or NULL with nothing left allocated; passing the array and its length to skk_free_rules gives all of its memory back and nothing else.", "quantifier": "every list of rules, every state of the heap", "why_tests_cant": "undefined behaviour of a wrong capacity is not visible to unit tests", "anchors": ["src/capi.rs:skk_get_rules", "src/capi.rs:skk_free_rules", "src/capi.rs:CskkRulesFfi"]}
{"id": "C69", "title": "Making a context and switching the rule", "statement": "Making a context with the empty fallback always yields a fresh context over the dictionaries given, the one of the default rule or, where that reports an error, one without conversion; switching the rule either reports an error and changes nothing, or changes commands and conversion and nothing else, so that text being typed goes on.", "quantifier": "every contents of the data files, every rule name, every state of the context", "why_tests_cant": "all file contents and states", "anchors": ["src/lib.rs:new_with_empty_fallback", "src/lib.rs:set_rule", "src/rule.rs:load_rule", "src/form_changer/kana_form_changer.rs:default_kanaform_changer"]}
{"id": "C70", "title": "Where data files are looked for", "statement": "The form files are the first that exist in the user's data directory and then in the system's data directories in order, as the XDG base directory specification says.", "quantifier": "every environment and every state of the file system", "why_tests_cant": "all environments; the only unit test is ignored", "anchors": ["src/env.rs:filepath_from_xdg_data_dir"]}
{"id": "C71", "title": "A sentence comes out as typed", "statement": "From an idle context, typing any sequence of: romaji (double consonants, syllabic n, digits and punctuation included); ASCII and full-width letters; changes of input mode; deletions; words (reading started with a capital, with the key for it, or as an abbreviation; any walk through the candidates; confirmed with the confirmation key or by going on typing); words with okurigana; words not in the dictionary, registered by typing them, to any depth of registration inside registration; readings confirmed as they are in some kana or letter form; and readings given up - uses every key, yields exactly the text of these parts in order, tells the dictionaries each choice before the next word, leaves the context idle but for the keys of an unfinished syllable, shows text and pending keys in the preedit, and polling hands the whole text out once.", "quantifier": "every rule, kana form table, dictionaries, sequence of such parts, candidate numbers, nesting", "why_tests_cant": "all sequences of parts, rules and dictionaries", "anchors": ["src/lib.rs:process_key_event_inner_v2", "src/lib.rs:input_kana", "src/lib.rs:transition_composition_mode_by_capital_letter", "src/lib.rs:confirm_current_composition_candidate", "src/lib.rs:enter_register_mode", "src/lib.rs:exit_register_mode", "src/lib.rs:confirm_current_kana_to_composition"]}
{"id": "C72", "title": "Deleting takes back what was typed last", "statement": "Deleting pending romaji as often as keys were pressed restores everything, hidden state included; each further deletion takes the last character of the reading, or in Direct mode of the text not yet polled; with nothing left the key is left to the application; deleting a whole reading leaves the context idle; and after deleting everything typed, typing it again has the same effect.", "quantifier": "every rule, state, number of keys and deletions", "why_tests_cant": "all states and interleavings of typing and deleting", "anchors": ["src/cskkstate.rs:delete", "src/lib.rs:process_instructions"]}
{"id": "C73", "title": "Registering a word", "statement": "Asking for a candidate beyond the last one (or for any when there is none) opens an empty line of its own; whatever is typed there, conversions and further registrations included, leaving it without a word (the abort key, or the confirmation key on the empty line) leads back to where the registration was opened: to the last candidate with nothing else changed, or to the reading, okurigana included, shown and looked up; confirming a word there writes it (with the text before it and the okurigana) in place of the reading, returns to the mode the registration was opened in, and the word is offered when the reading is converted again.", "quantifier": "every rule, dictionaries, depth, text typed in the registration", "why_tests_cant": "all states and all texts typed in the registration", "anchors": ["src/lib.rs:enter_register_mode", "src/lib.rs:exit_register_mode", "src/lib.rs:abort_register_mode", "src/cskkstate.rs:abort_to_previous_mode"]}
{"id": "C74", "title": "A whole typing session", "statement": "From any moment of typing - idle, in a reading, in the okurigana, among candidates or completions - every sequence of: typing, deleting, changing the input mode, starting a word, starting, typing and erasing its okurigana, confirming a reading as it is, giving up, asking for candidates (with the conversion key, with okurigana - the capital may also be a later key of the syllable or the second of two equal consonants - or by completing an auto-start keyword), asking for completions, walking forward and back, cancelling, confirming with or without a further effect of the key, going on typing, purging, and registering or refusing to register a word to any depth - uses every key and leads exactly to the mode, reading, candidates, text, way back and dictionaries that the rules of these actions say; the preedit shows exactly that, while registering the line of every word being registered; and polling hands out the text and changes nothing else.", "quantifier": "every rule, kana form table, dictionaries, sequence of such actions, nesting, starting moment", "why_tests_cant": "all sequences of actions, rules and dictionaries", "anchors": ["src/lib.rs:process_key_event_inner_v2", "src/lib.rs:process_instructions", "src/lib.rs:try_next_candidate", "src/lib.rs:try_next_completion", "src/lib.rs:auto_start_henkan", "src/lib.rs:abort_register_mode", "src/lib.rs:purge_current_composition_candidate", "src/lib.rs:get_preedit", "src/cskkstate.rs:delete", "src/cskkstate.rs:abort_to_previous_mode"]}
{"id": "C75", "title": "Saving, reloading and starting again are invisible", "statement": "A program whose dictionaries were read from their files, and that types, saves (saves may fail), reloads and is started again in any order - reading files again only when nothing is unsaved, and saving only what the file format can carry - gets exactly the answers, and shows exactly the states, of one that never touched its files and kept its dictionaries in memory; such a program can always be started again; and a save in which no system call fails leaves nothing unsaved.", "quantifier": "every rule, dictionary file, encoding, and history of calls, saves (with failures at any point), reloads and restarts", "why_tests_cant": "all histories and failure points", "anchors": ["src/lib.rs:save_dictionary", "src/lib.rs:reload_dictionary", "src/dictionary/user_dictionary.rs:save_dictionary", "src/dictionary/file_dictionary.rs:reload", "src/dictionary/static_dict.rs:StaticFileDict"]}
{"id": "C76", "title": "The encoding of a dictionary file", "statement": "However long the lines and however the encoder cuts them into buffers, saving writes each entry's line completely or leaves it out, and leaves it out only when a character of it does not exist in the encoding; opening the file again under the same label gives the dictionary back; a dictionary that opened under some label can be saved under it.", "quantifier": "every label and encoding, every dictionary contents, every division into buffers", "why_tests_cant": "all texts, lengths and encodings", "anchors": ["src/dictionary/user_dictionary.rs:encode_string", "src/dictionary/user_dictionary.rs:save_dictionary", "src/dictionary/file_dictionary.rs:load_dictionary"]}
{"id": "C77", "title": "A dictionary that could not be opened", "statement": "skk_file_dict_new and skk_user_dict_new answer NULL for a dictionary that cannot be opened; a C program that passes what it was given on to skk_context_new, skk_context_new_with_empty_fallback or skk_context_set_dictionaries gets a context over the other dictionaries, in the order given.", "quantifier": "every array of handles and NULLs, every state of the library", "why_tests_cant": "all arrays and histories; undefined behaviour is not visible to unit tests", "anchors": ["src/capi.rs:dictionaries_from_c_repr", "src/capi.rs:skk_context_new", "src/capi.rs:skk_context_set_dictionaries"]}
{"id": "C78", "title": "The C calls are the Rust calls", "statement": "Every call through the C API - key events, texts of key events, candidate numbers, modes, styles, auto-start keywords and rule names as bytes - does exactly what the corresponding Rust calls do and answers accordingly; texts that are not UTF-8 are refused or left out and change nothing else; no allowed call is undefined, and a call brings the program down only if the Rust call does.", "quantifier": "every program of C calls, all bytes, every state", "why_tests_cant": "all byte strings and histories", "anchors": ["src/capi.rs:skk_context_process_key_events", "src/capi.rs:skk_context_process_key_event", "src/capi.rs:skk_context_set_auto_start_henkan_keywords", "src/capi.rs:skk_context_set_rule", "src/capi.rs:skk_context_select_candidate_at", "src/capi.rs:skk_context_confirm_candidate_at"]}
{"id": "C79", "title": "Saving and reloading while other threads type", "statement": "However the operating system interleaves threads that type, over dictionaries read from their files, with saves (which may fail) and reloads of these dictionaries - saving only what the file format can carry, reloading only a dictionary in which nothing is unsaved - every thread gets the answers, shows the states and holds the locks it would without any saving and reloading; whenever a dictionary has nothing unsaved, its file can be opened and answers as everything all threads did to it, in the order it happened, makes of it; and a save never has to wait longer than for one dictionary access.", "quantifier": "every number of threads, calls and dictionaries, every schedule of single dictionary accesses, saves (with failures at any point) and reloads", "why_tests_cant": "all interleavings and failure points", "anchors": ["src/lib.rs:save_dictionary", "src/lib.rs:reload_dictionary", "src/dictionary/user_dictionary.rs:save_dictionary", "src/dictionary/file_dictionary.rs:reload", "src/dictionary/mod.rs:CskkDictionary"]}
{"id": "C80", "title": "Every process behaves the same", "statement": "A rule is read row by row in an order that differs from process to process; when no two rows are for the same keys, two processes that make the same calls - changes of rule included - get the same answers, show the same preedit, predict the same keys, hold the same state and learn the same words. Both shipped rules are such rules.", "quantifier": "every rule without two rows for the same keys, every two orders of its rows, every history of calls", "why_tests_cant": "the order comes from a per-process random seed; a test sees one order at a time", "anchors": ["src/kana_builder.rs:converter_from_hashmap", "src/rule.rs:CskkRule", "src/rule.rs:CskkCommandRuleInner"]}
{"id": "C81", "title": "The word chosen last is offered first", "statement": "When a candidate of a reading is confirmed, the next conversion of the same reading (and okurigana) offers that text first, whatever was typed in between, unless another candidate of that headword was chosen or purged.", "quantifier": "every reading, candidate list, set of dictionaries and history in between", "why_tests_cant": "all histories and dictionary contents", "anchors": ["src/lib.rs:confirm_current_composition_candidate", "src/dictionary/mod.rs:get_all_candidates", "src/dictionary/mod.rs:dedup_candidates", "src/dictionary/user_dictionary.rs:select_candidate", "src/dictionary/dictentry.rs:prioritize_candidate"]}
{"id": "C82", "title": "A new word starts empty", "statement": "However earlier words were typed, converted, confirmed, registered, deleted or given up, when no word is open nothing of them is left: no reading, okurigana or candidate of an earlier word is shown, looked up or registered with the next one; and while a word is open, the frame keeps nothing of it that is not displayed.", "quantifier": "every tidy rule, dictionaries, configuration and history of calls", "why_tests_cant": "all histories; the remains do not show until the next word", "anchors": ["src/cskkstate.rs:abort_to_previous_mode", "src/cskkstate.rs:delete", "src/lib.rs:confirm_current_composition_candidate", "src/lib.rs:exit_register_mode", "src/lib.rs:abort_register_mode", "src/lib.rs:auto_start_henkan"]}
{"id": "C83", "title": "Only what the user asked for is learnt or forgotten", "statement": "Under the shipped rules (and every rule that binds confirming and purging only to where candidates are shown, and registering only to Direct mode, as first instructions), whatever is typed: one call teaches the dictionaries nothing or exactly one thing - the choice of the candidate on display (by a key bound to confirming, or by typing on) or of the numbered one, the text entered in a registration for its reading (by a key bound to finishing it), or the purge of the candidate on display (by a key bound to purging); a text a dictionary lists afterwards but not before was chosen or registered for that headword in some call, one it no longer lists was purged in some call; the same for what conversion offers.", "quantifier": "every history of keys and calls, every dictionary contents, every such rule", "why_tests_cant": "all histories", "anchors": ["src/lib.rs:confirm_current_composition_candidate", "src/lib.rs:purge_current_composition_candidate", "src/lib.rs:exit_register_mode", "src/lib.rs:process_key_event_inner_v2", "src/dictionary/mod.rs:confirm_candidate", "src/dictionary/mod.rs:purge_candidate", "src/dictionary/dictentry.rs:remove_matching_candidate"]}
{"id": "C84", "title": "Settings act only where they say", "statement": "While no period is typed, two contexts that differ only in the period style - set before or at any moment between - answer every call alike and show, predict and learn the same; likewise the comma style and commas; the order and repetition of auto-start keywords makes no difference when none of them ends another; changing a setting changes nothing shown.", "quantifier": "every rule, state, dictionaries and history of calls, every pair of settings", "why_tests_cant": "noninterference: compares all pairs of histories", "anchors": ["src/lib.rs:set_period_style", "src/lib.rs:set_comma_style", "src/lib.rs:set_auto_start_henkan_keywords", "src/lib.rs:auto_start_henkan", "src/kana_builder.rs:convert_periods"]}
{"id": "C85", "title": "What was taught lasts", "statement": "Under the shipped rules (and every rule as in C83), for a program started on its dictionary files, through any sequence of typing, saving, reloading and starting again (saving only contents the file can carry, reloading and starting again only when nothing is unsaved; saves may fail at any point): what a dictionary lists for a headword and in which order stays the same until some call asks to learn or purge something for that headword; texts appear and disappear only when asked for; and the candidate confirmed last is the first offered, also after restarts, on the conditions of C81.", "quantifier": "every such life of a program, every dictionary contents, encoding, rule and failure of a save", "why_tests_cant": "crossing of process lifetimes: all histories with restarts and failing saves", "anchors": ["src/lib.rs:save_dictionary", "src/lib.rs:reload_dictionary", "src/dictionary/mod.rs:confirm_candidate", "src/dictionary/mod.rs:purge_candidate", "src/dictionary/user_dictionary.rs:save_dictionary"]}
{"id": "C86", "title": "The memory of a dictionary's map", "statement": "Whatever is done with the map of a dictionary, the nodes allocated are exactly those of its entries and two list ends; dropping it (when the dictionary is dropped or reloaded) frees no node twice; afterwards nothing of it is left (false: exactly the two list ends are, for every map).", "quantifier": "every sequence of map operations, every contents", "why_tests_cant": "all histories of operations; leaks are not observable by tests", "anchors": ["src/dictionary/lru_ordered_map.rs:LruOrderedMap", "src/dictionary/lru_ordered_map.rs:remove", "src/dictionary/file_dictionary.rs:reload"]}
{"id": "C87", "title": "Loops over a text end", "statement": "Changing kana, reading a key sequence, reading the candidates of a dictionary line and undoing its octal escapes come to an end on every text, every round using up some of it, and what they give is the result of that one run.", "quantifier": "every text, table and dictionary line", "why_tests_cant": "all texts: a test that does not hang says nothing about the next one", "anchors": ["src/form_changer/kana_form_changer.rs:adjust_kana_string_inner_recur", "src/keyevent.rs:deserialize_seq_inner", "src/dictionary/dictionary_parser.rs:candidate", "src/dictionary/dictentry.rs:process_lisp_fun"]}
{"id": "C88", "title": "Opening a dictionary comes to an end", "statement": "Opening or reloading a dictionary returns, with the dictionary or with an error, whatever the path names; reading ends exactly when the reader says that there is no more, and what was opened is the lines that could be read.", "quantifier": "every file, directory and reader that may fail at any read, at every point", "why_tests_cant": "all readers, failing at every point and forever", "anchors": ["src/dictionary/file_dictionary.rs:load_dictionary", "src/dictionary/mod.rs:CskkDictionary::new_static_dict", "src/dictionary/mod.rs:CskkDictionary::new_user_dict", "src/lib.rs:skk_user_dict_new", "src/lib.rs:CskkContext::reload_dictionary"]}
{"id": "C89", "title": "The preedit and its details", "statement": "get_preedit is exactly the drawing of get_preedit_detail: one element per frame, outermost first, each giving the mode of its frame and the text waiting there (the last one get_composition_mode, the first one what poll_output would return). It is empty exactly when nothing is being typed. Polling takes from the front of the preedit exactly the text it hands over, so that the screen - text polled so far, then the preedit - does not change.", "quantifier": "every reachable state of every context", "why_tests_cant": "all states, nested registrations included, and all tables", "anchors": ["src/lib.rs:CskkContext::get_preedit", "src/lib.rs:CskkContext::get_preedit_detail", "src/lib.rs:CskkContext::poll_output", "src/cskkstate.rs:preedit_string", "src/cskkstate.rs:preedit_detail"]}
{"id": "C90", "title": "The input mode changes only when asked", "statement": "The input mode a context reports changes only by set_input_mode and by keys whose command list, in the modes the context is in, says so. Frames opened for registering a word start in Hiragana, frames around keep their mode, so that after a registration - finished, given up or reset - the user is back in the mode chosen before. For the shipped rules these keys are exactly q and C-q (AZIK: the at sign), l, L, and C-j from the ASCII modes.", "quantifier": "every reachable state, every call, every history", "why_tests_cant": "all rules, all interleavings of typing, registering and resetting", "anchors": ["src/lib.rs:CskkContext::process_key_event", "src/lib.rs:CskkContext::set_input_mode", "src/lib.rs:CskkContext::get_input_mode", "src/lib.rs:CskkContext::enter_register_mode", "assets/rules/default/rule.toml:command", "assets/rules/azik/rule.toml:command"]}
{"id": "C91", "title": "Turning what is typed into kana keeps all of it", "statement": "The keys that leave a kana mode write the keys that are still pending first, in the kana of the mode that is left; the keys that confirm the word being typed as kana (q, C-q, C-j) write the whole word in the kana asked for, pending keys and okurigana included. Afterwards nothing of the word is left.", "quantifier": "every state with a word or pending keys, every rule, every key bound to such a command", "why_tests_cant": "all readings and pending keys, all rules", "anchors": ["src/lib.rs:CskkContext::output_converted_kana_if_any", "src/lib.rs:CskkContext::process_instructions", "assets/rules/default/rule.toml:command", "assets/rules/azik/rule.toml:command"]}
{"id": "C92", "title": "What a dictionary is does not matter, what it holds does", "statement": "Two contexts that differ only in their dictionary objects answer every later call alike, in texts, preedit and details, as long as their dictionaries hold the same in the same order: the order of the entries in a file does not matter, nor do dictionaries made by skk_empty_dict_new among the others. And asking more dictionaries hides no text that was offered before.", "quantifier": "every pair of contexts and dictionaries, every sequence of calls that replaces no dictionary, every reading", "why_tests_cant": "all dictionaries, all histories", "anchors": ["src/dictionary/mod.rs:get_all_candidates_inner", "src/dictionary/empty_dictionary.rs:EmptyDictionary", "src/lib.rs:CskkContext"]}
{"id": "C93", "title": "Completion offers each word found once", "statement": "The completions of a reading are the words that the completable dictionaries list under headings starting with the reading, dictionary after dictionary and heading after heading, each word once, with the heading under which it was found first.", "quantifier": "every list of dictionaries, every reading, every state in which completion is asked for", "why_tests_cant": "all dictionaries: whether a word comes twice depends on what else is listed", "anchors": ["src/dictionary/mod.rs:get_all_complete", "src/dictionary/mod.rs:dedup_candidates", "src/dictionary/dictionary_candidate.rs:CompletionCandidate", "src/lib.rs:CskkContext::try_next_completion"]}
{"id": "C94", "title": "Several programs saving one dictionary file", "statement": "When several programs (or several user dictionaries in one) use the same file, however their saves interleave: neither the file nor its .BAK is ever a mixture, each holding what was there or the beginning of what one of them writes; one of the two is always whole; when all are done the file holds all of what the one that began last wrote and .BAK what the one before wrote; and nothing that was saved with success is lost.", "quantifier": "every number of programs, every contents, every interleaving of their renaming, creating and writing, every failure and every kill", "why_tests_cant": "interleavings of system calls of several processes", "anchors": ["src/dictionary/user_dictionary.rs:save_dictionary", "src/dictionary/user_dictionary.rs:UserDictionary::new"]}
{"id": "C95", "title": "Reading a dictionary file while it is saved", "statement": "A program that opens or reloads a dictionary file while other programs save it finds the file, and reads all of what was there or all of what one of them saves - never a part of it and never a mixture.", "quantifier": "every number of saves, every contents, every interleaving of the reads with the renaming, creating and writing, every failure and every kill", "why_tests_cant": "interleavings of system calls of several processes", "anchors": ["src/dictionary/file_dictionary.rs:load_dictionary", "src/dictionary/file_dictionary.rs:FileDictionary::reload", "src/dictionary/user_dictionary.rs:save_dictionary"]}
