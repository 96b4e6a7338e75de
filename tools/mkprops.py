#!/usr/bin/env python3
# Generates /verif/properties.jsonl. Edit the table below and re-run.
import json
P=[]
def p(title,statement,quant,why,anchors):
    P.append(dict(id="C%02d"%(len(P)+1),title=title,statement=statement,quantifier=quant,why_tests_cant=why,anchors=anchors))
L="src/lib.rs:";S="src/cskkstate.rs:";D="src/dictionary/"
p("Key release events are inert","process_key_event on an event carrying the RELEASE modifier returns false and changes neither the context nor any dictionary.","every context state, every dictionary contents, every key symbol and modifier set containing RELEASE","tests try one or two releases in the initial state; the claim covers every reachable and unreachable state",[L+"CskkContext::process_key_event"])
p("Nesting of word registration is bounded and never empty","After any history of API calls and key events get_preedit_detail returns at least one and at most ten elements, and the internal 'State stack is empty' panics are never reached.","every rule, dictionary set, initial mode and every finite sequence of API calls","the bound is over unboundedly long histories and arbitrary custom rules",[L+"enter_register_mode",L+"abort_register_mode",L+"exit_register_mode",L+"REGISTER_MODE_STACK_MAX"])
p("Registration frames are exactly the outer frames","If the context is never put in Register mode by hand or by a rule and never reset, in get_preedit_detail every element but the last is Register and the last is not; the rendered preedit has as many opening as closing brackets, one pair per outer frame.","every key history and rule without ChangeCompositionMode(Register)","needs an invariant over all histories",[L+"get_preedit",L+"get_preedit_detail",L+"enter_register_mode",S+"abort_to_previous_mode"])
p("Reset contract","skk_context_reset flushes all inputs and resets the composition mode to Direct (documented in capi.rs), leaving the input mode alone.","every context state","tests always set the composition mode by hand after a reset, so the claim is never exercised",[L+"reset_state_stack","src/capi.rs:skk_context_reset"])
p("The context never goes dead","After any API history there is still some key event the context accepts (process_key_event returns true).","every history of public API calls","liveness over all histories, including reset at any moment",[L+"reset_state_stack",L+"process_key_event_inner_v2","src/rule.rs:get_inner_ruleset"])
p("Polling hands over confirmed text exactly once","poll_output returns exactly the pending confirmed text of the outermost frame (None if empty), empties it, and changes nothing else; a second poll returns None. The text read by successive polls is the text confirmed, in order: leaving polls out of a history (one without calls that drop confirmed text, and without a Delete that finds nothing) changes no other answer and nothing else in the context, and what was polled is then found, in order, in front of the confirmed text.","every state; every interleaving of polls","quantifies over all states and poll schedules",[L+"poll_output",L+"retrieve_output"])
p("Key processing never loses confirmed text","Processing a key never removes text already confirmed, unless the key runs Delete: the confirmed text before is a prefix of the one after.","every state, rule, key","needs all paths of the key processor; the Purge instruction is the interesting one",[L+"process_key_event_inner_v2",L+"purge_current_composition_candidate",S+"clear_all"])
p("ASCII mode is transparent","In Direct composition with input mode Ascii, typing any sequence of printable ASCII keys not bound to commands makes poll_output return exactly those characters and leaves everything else unchanged.","every sequence of printable keys of any length, every context state in that mode","unbounded input sequences",[L+"process_key_event_inner_v2"])
p("Zenkaku mode maps character by character","In Direct composition with input mode Zenkaku, typing any sequence of printable ASCII keys not bound to commands outputs the concatenation of their full-width forms (or the character itself if the form table has none).","every key sequence, every form table","unbounded input sequences and tables",["src/form_changer/ascii_form_changer.rs:adjust_ascii_char",L+"process_key_event_inner_v2"])
p("Romaji typing outputs exactly the kana of the rule","In Direct composition and a kana input mode, typing any sequence of rule keys that are unambiguous, leave no carry-over, and whose proper prefixes are not commands, confirms exactly the concatenation of the converted kana in the form of the input mode, with no pending input left.","every rule, every sequence of such syllables of any length","unbounded sequences and arbitrary rules",[L+"process_key_event_inner_v2",L+"input_converted_kana","src/kana_builder.rs"])
p("Kana conversion table semantics","For a rule whose keys are distinct, a key sequence converts at once iff it is a rule key that is not a proper prefix of another rule key, and to exactly that rule's kana and carry-over; it may continue iff it is a prefix of some rule key; the forced conversion converts exactly the rule keys.","every conversion table and key sequence","all tables, all sequences",["src/kana_builder.rs:convert_non_partial","src/kana_builder.rs:convert_greedy","src/kana_builder.rs:can_continue"])
p("Pending romaji can always still be completed","If every carry-over of the rule is a prefix of some rule key, then after any key history (without switching the rule) the pending, not yet converted keys of every frame are a prefix of some rule key.","every such rule, every key history","invariant over all histories",[L+"input_as_continuous_kana","src/kana_builder.rs:next_unprocessed_state",S+"delete"])
p("A pending convertible n is never dropped silently","When a further key makes pending convertible input (a lone n) impossible to continue, the pending input is first converted and output.","every kana-mode state with convertible pending keys and every non-command key that cannot continue it","depends on every combination of pending input and next key",[L+"process_key_event_inner_v2",L+"output_converted_kana_if_any"])
p("Shift on capital letters does not matter","For a capital letter symbol, process_key_event gives the same result, output and new state whether or not the SHIFT flag is set.","every state, rule and capital letter","relational property over all states",["src/command_handler/configurable_command_handler.rs:get_instruction","src/keyevent.rs:is_modifierless_input"])
p("Abort always leads home","Whatever the state, pressing a key bound to Abort often enough brings the context back to a single frame in its default composition mode, after a number of presses bounded by the depth of frames and mode history.","every state","termination from every state",[L+"abort_register_mode",S+"abort_to_previous_mode"])
p("Mode history is bounded","The mode history kept for Abort never exceeds 20 entries in any frame.","every history of API calls and keys","unbounded histories",[S+"change_composition_mode",S+"change_composition_mode_from_old_mode"])
p("Candidate cursor stays inside the candidate list","Whenever the candidate list is non-empty get_current_candidate_cursor_position is smaller than the candidate count, and it is 0 for an empty list.","every API history","depends on arithmetic wrap-around after particular histories",["src/candidate_list.rs:forward_candidate","src/candidate_list.rs:has_next"])
p("Key processing never panics","process_key_event never panics.","every rule, dictionary, state reachable through keys, and key","a single bad dictionary entry, number or history suffices to break it",[L+"process_key_event","src/candidate_list.rs","src/form_changer/numeric_form_changer.rs","src/rule.rs:get_inner_ruleset"])
p("Selecting implies candidates","Whenever the composition mode is CompositionSelection the candidate list is non-empty and the preedit shows one of its candidates.","every key history under the default rule","depends on histories mixing Purge and Abort",[L+"purge_current_composition_candidate",L+"abort_register_mode",S+"preedit_detail"])
p("The dictionary is asked for the reading shown","In the reading modes the key used for dictionary lookup is exactly the reading shown in the preedit.","every key history","one deletion path desynchronises two hidden copies of the reading",[S+"delete",S+"push_string_for_composition_mode",S+"get_composite_key"])
p("Candidate list has no duplicates and loses nothing","The list of candidates offered from exact dictionary matches contains each candidate text exactly once, contains exactly the texts the dictionaries contain, and prefers an annotated copy.","every multiset and order of dictionary candidates","all lists",[D+"mod.rs:dedup_candidates"])
p("Deduplication keeps the order of first appearance","The order of candidates after removing duplicates is the order of their first appearance in the dictionaries.","every list of dictionary candidates","all lists; fails only with particular annotations",[D+"mod.rs:dedup_candidates"])
p("Strict okurigana matches come first","With okurigana, all strict matches of all dictionaries come before all non-strict candidates (documented order); without, candidates come in dictionary order.","every set of dictionaries and key","needs two dictionaries with both kinds of entries",[D+"mod.rs:get_candidates_in_order"])
p("Confirming makes a candidate first and loses none","After confirming a candidate, the entry of its midashi in every user dictionary lists it first (also under its strict okurigana), and holds the same other candidates as before.","every dictionary contents and candidate","all dictionary states",[D+"user_dictionary.rs:select_candidate",D+"dictentry.rs:prioritize_candidate"])
p("Confirming keeps the recency order of the others","Confirming a candidate moves it to the front and keeps the relative order of the other candidates.","every entry and candidate","fails only from the third position on",[D+"dictentry.rs:prioritize_candidate_for_okuri"])
p("A registered word is offered next time","After registering a word for a reading (with or without okurigana), converting the same reading again offers that word.","every reading, okurigana, word and dictionary with a user dictionary","tests only cover readings without okurigana",[L+"exit_register_mode",D+"composite_key.rs:get_dict_key",D+"user_dictionary.rs:select_candidate"])
p("A purged candidate is gone from the user dictionaries","After purging a candidate no user dictionary offers it for that key any more and all other candidates remain.","every dictionary contents","fails only for dictionaries with duplicate candidates",[D+"dictentry.rs:remove_candidate_for_okuri",D+"user_dictionary.rs:purge_candidate"])
p("Read-only dictionaries never change","No key event or API call other than reload changes the contents of a static or empty dictionary.","every API history","all histories",[D+"mod.rs:confirm_candidate",D+"mod.rs:purge_candidate",D+"static_dict.rs"])
p("Dictionary updates touch only their midashi","Confirming or purging a candidate changes, in each user dictionary, only the entry of its own midashi in its own okuri-ari/okuri-nasi section; all other lookups return what they did.","every dictionary contents, candidate and other key","all keys",[D+"user_dictionary.rs:select_candidate",D+"user_dictionary.rs:purge_candidate"])
p("The recency map behaves like a map with a recency list","Any sequence of push/get/get_mut/peek/remove on the linked-list map behaves like a finite map plus a most-recently-used-first list: lookups, recency iteration and size agree, and no dangling or self link ever arises.","every operation sequence, string keys and any value type","pointer structure; unbounded sequences",[D+"lru_ordered_map.rs"])
p("Sorted iteration is sorted and complete","iter_sorted yields every key exactly once in strictly increasing order, whatever the operation history.","every operation history","unbounded histories",[D+"lru_ordered_map.rs:push",D+"lru_ordered_map.rs:remove",D+"lru_ordered_map.rs:iter_sorted"])
p("Completion returns exactly the entries with the prefix","complete returns, in increasing order, exactly the entries whose midashi starts with the given text.","every dictionary contents and prefix","needs contiguity of prefix ranges in the sort order for all key sets",[D+"file_dictionary.rs:complete"])
p("Dictionary line round trip","Writing a dictionary entry as a line and parsing it back yields the same entry, for every entry whose midashi, candidates, annotations and okurigana use only characters the format can carry.","every such entry","all strings, all entries",[D+"dictentry.rs:Display",D+"dictionary_parser.rs:entry",D+"dictentry.rs:from_skkjisyo_line"])
p("Candidate text escaping round trip","Reading back a candidate text escaped with (concat ...) yields the original text.","every candidate text","fails for particular adjacent characters, e.g. two slashes",[D+"dictentry.rs:escape_dictionary_string",D+"dictentry.rs:process_lisp_fun"])
p("Saving and reloading a user dictionary loses nothing","After save_dictionary and reload every lookup returns what it returned before.","every dictionary contents a user can create through the API","depends on contents: brackets, slashes in midashi, emptied strict lists",[D+"user_dictionary.rs:save_dictionary",D+"file_dictionary.rs:load_dictionary"])
p("Recency survives save and reload","Saving, reloading and saving again keeps entries most recently used first.","every dictionary contents","needs two save cycles",[D+"user_dictionary.rs:save_dictionary",D+"file_dictionary.rs:load_dictionary",D+"lru_ordered_map.rs:iter_lru"])
p("Crash during save leaves a complete copy","If the process dies at any point of save_dictionary, the dictionary file or its .BAK still holds the complete previous contents, or the file the complete new contents.","every crash point, every contents","crash points cannot be enumerated by unit tests",[D+"user_dictionary.rs:save_dictionary"])
p("A failed save can be retried","If a save fails with an I/O error, a later save with a working file system writes the dictionary.","every failure point","needs fault injection at each step",[D+"user_dictionary.rs:save_dictionary"])
p("Kanji numerals denote the number","For every number below 10^19 the kanji form (#3) and the formal form (#5) read back, by the usual rules of Japanese numerals, to that number; larger u64 give the too-large message.","all numbers below 10^19","10^19 cases",["src/form_changer/numeric_form_changer.rs:format_number_kuraidori_nashi_kanji","src/form_changer/numeric_form_changer.rs:numeric_to_daiji_as_number"])
p("Thousands separators are placed right","For every ASCII digit string the #8 form removes to the original string when commas are deleted, has commas exactly between groups of three digits counted from the right, and none at the ends.","all digit strings of any length","unbounded lengths",["src/form_changer/numeric_form_changer.rs:numeric_to_thousand_separator"])
p("Digit-wise number forms","#1 and #2 replace every digit by its full-width / kanji form and leave every other character alone.","all strings","all strings",["src/form_changer/numeric_form_changer.rs:numeric_to_zenkaku","src/form_changer/numeric_form_changer.rs:numeric_to_kanji_each"])
p("Numeric readings are split right","The numeric dictionary key of a reading is the reading with every maximal run of digits replaced by one #, and the numbers are these runs in order.","every reading","repeated and nested numbers, all strings",[D+"mod.rs:to_composite_to_numeric_dict_key"])
p("Numeric templates are filled in order","Every #n template of a candidate is replaced by the corresponding number in the requested form, in order; other text is unchanged.","every candidate text and list of numbers","all templates; sequential first-occurrence replacement can hit the wrong place",[D+"mod.rs:replace_numeric_string"])
p("Kana form conversion is longest match first","Katakana/half-width conversion replaces text left to right by the longest table key at each position, copies unknown characters, leaves other modes unchanged, and terminates.","every table and string","all strings and tables",["src/form_changer/kana_form_changer.rs:adjust_kana_string"])
p("Key event text parsing is total","from_string_representation returns Ok or Err for every string.","every string","multi-byte boundaries",["src/keyevent.rs:from_str","src/keyevent.rs:deserialize_seq"])
p("fcitx events carry only real modifiers","An event made from fcitx carries RELEASE iff is_release was true, carries no reserved bits, and ISO_Left_Tab is Tab.","all 2^32 x 2^32 inputs","huge domain",["src/keyevent.rs:from_fcitx_keyevent"])
p("Rule instructions parse back","Every instruction has a text form that parses to it, and unknown texts are rejected.","every instruction and mode","finite but never enumerated in tests",["src/command_handler/instruction.rs:from_str"])
p("Selecting and confirming by index","select_candidate_at(i): no candidates -> false and nothing changes; i<0 -> back to the reading; in range -> cursor at i; beyond -> cursor on the last candidate and registration. confirm_candidate_at(i) in range outputs exactly that candidate plus okurigana; out of range nothing happens.","every state and index","all states and indices",[L+"skk_context_select_candidate_at_rs",L+"skk_context_confirm_candidate_at_rs"])
p("will_process predicts process_key_event","will_process returns true exactly when process_key_event would return true.","every state and key","all states and keys",[L+"will_process",L+"process_key_event"])
p("Comma and period style","In a kana input mode with nothing pending, the period and comma keys (when neither a command nor in the rule) always enter the configured punctuation in place.","every state in the kana modes, every style","all states",[L+"process_key_event_inner_v2","src/kana_builder.rs:convert_periods"])
p("Contexts sharing dictionaries do not disturb each other","Operations of one context change another context sharing its dictionaries only through the dictionaries: its frames, modes, pending and confirmed text are untouched; and a word confirmed in one is first in the user dictionary seen by the other, in every interleaving.","every interleaving of operations of any number of contexts","schedules",[L+"set_dictionaries",D+"mod.rs:CskkDictionary"])
p("Loading a dictionary","Loading a file yields for each midashi and section the last well-formed line; comments and ill-formed lines are ignored and never abort loading.","every file contents","all files",[D+"file_dictionary.rs:load_dictionary"])
p("Auto-start conversion","When the reading ends with an auto-start keyword, is longer than it, and nothing is pending, conversion starts with exactly the reading before the keyword and the keyword is shown after the candidate and output with it.","every reading, keyword list, dictionary","all strings",[L+"auto_start_henkan",S+"set_converted_to_postfix"])
p("A key reported as not handled changed nothing","If process_key_event returns false, the context and dictionaries are as before.","every state, every key, rules of the shipped shape","all paths",[L+"process_key_event",L+"process_instructions"])
p("Observers are pure and total","Reading preedit, preedit detail, modes, candidates or cursor never changes anything and never panics, in any state.","every state","all states",[L+"get_preedit",L+"get_preedit_detail",L+"will_process"])
p("Iterating the recency map backwards","Taking elements from the back of iter_lru or iter_sorted yields the same elements as iterating forward, in reverse order.","every map contents","all contents; next_back is never exercised",[D+"lru_ordered_map.rs:LinkedListIter::next_back",D+"lru_ordered_map.rs:SliceIter::next_back"])
p("Interrupted saves never lose everything","After any number of interrupted saves, each in a new session that read what was there, the dictionary file or its .BAK holds some complete contents.","every sequence of sessions and crash points","sequences of crashes",[D+"user_dictionary.rs:save_dictionary"])
p("The C API hands out candidates page by page","skk_context_get_current_candidates fills the buffer with the outputs of the candidates offset, offset+1, ... in order, returns how many, and fails only when one of them contains NUL; consecutive pages give the whole list; the cursor is -1 exactly without candidates.","every state, buffer size and offset","all offsets and sizes",["src/capi.rs:skk_context_get_current_candidates","src/capi.rs:skk_context_get_current_candidate_cursor_position"])
p("The C API never loses confirmed text","skk_context_poll_output returns the whole confirmed text, or leaves it to be polled again.","every state","depends on the contents of dictionaries",["src/capi.rs:skk_context_poll_output"])
p("The C API shows the same preedit details","skk_context_get_preedit_detail gives C exactly the details get_preedit_detail gives Rust and never panics.","every state","depends on the contents of dictionaries",["src/capi.rs:skk_context_get_preedit_detail","src/capi.rs:convert_state_info"])
p("Nothing blank is offered","With dictionaries read from files, every candidate ever offered by conversion, completion, number templates or registration has a non-empty text, whatever was confirmed, registered or purged before.","every dictionary file contents, every history of calls","all files and histories",[D+"dictionary_parser.rs:parse_candidate",D+"mod.rs:get_all_candidates",L+"exit_register_mode"])
p("The shipped rules are well-formed","Both shipped rules (default and AZIK): no command starts a registration by itself or clears kana, every command list keeps the documented orders, no two conversion rows have the same keys, every carried-over key can be continued, and every conversion yields text.","every row and command of both shipped rule files","the conditions range over all rows and commands and over all ways to continue them",["assets/rules/default/rule.toml","assets/rules/azik/rule.toml"])
p("Memory handed out by the C API","A C program that frees each string, detail array, candidate list and key event it was given once, with the documented function, in any order and interleaved with any calls, never frees memory that is not allocated, never holds dangling or shared pointers, and when it has freed everything nothing is left allocated.","every history of C API calls and every order of freeing","needs all histories and orders; leaks and double frees are not visible to unit tests",["src/capi.rs:skk_free_string","src/capi.rs:skk_free_preedit_detail","src/capi.rs:skk_free_candidate_list","src/capi.rs:CompleteDataFfi"])
p("Everything learnt is saved","After any typing, each dictionary of the context is exactly as it was or will be written by the next save; and for contents the file format can carry, a new session that reads the saved file gets exactly the answers of the old one.","every history of keys and calls, every dictionary file","all histories",[D+"user_dictionary.rs:select_candidate",D+"user_dictionary.rs:purge_candidate",D+"user_dictionary.rs:save_dictionary"])
p("Walking through the candidates","The conversion key shows the candidates of the reading from the first on, each press the next one; after the last one (or without any) a registration is opened; the previous key goes back one by one and before the first returns to the reading; confirming outputs exactly the candidate shown with its okurigana; nothing else changes on the way.","every state, dictionary, number of presses","all states and list lengths",[L+"try_next_candidate",L+"confirm_current_composition_candidate","src/candidate_list.rs:forward_candidate"])
p("Contexts used from several threads","However the operating system interleaves threads that use contexts over the same dictionaries - also between the dictionary locks of one call - the API guarantees of a single context still hold: every call does what its documentation says with the dictionary contents of the moment it looked; no update of a dictionary is lost, duplicated or torn; read-only dictionaries stay as they are; no lock is poisoned; a call that is not interrupted behaves exactly as without threads; and no two threads ever wait for each other forever.","every number of threads, calls and dictionaries, every schedule of the single lock-protected dictionary accesses","needs all interleavings at the granularity of lock acquisitions",[D+"mod.rs:get_all_candidates",D+"mod.rs:confirm_candidate",D+"mod.rs:purge_candidate",D+"mod.rs:CskkDictionary",L+"process_key_event"])
p("The life of dictionaries and contexts in the C API","A C program that passes only the dictionaries and contexts it was given and has not freed never causes a use after free or a double free; a dictionary stays alive exactly as long as a handle or a context refers to it, so it may be freed while contexts use it; when everything is freed nothing is left; and freeing never changes what any later call answers.","every history of creating, sharing, replacing, using and freeing dictionaries and contexts","needs all histories and orders of freeing; use after free is not visible to unit tests",["src/capi.rs:skk_free_dictionary","src/capi.rs:skk_free_context","src/capi.rs:dictionaries_from_c_repr","src/capi.rs:skk_context_set_dictionaries"])
p("The list of rules handed out and freed","skk_get_rules returns an array with identifier, name and description of every available rule, or NULL with nothing left allocated; passing the array and its length to skk_free_rules gives all of its memory back and nothing else.","every list of rules, every state of the heap","undefined behaviour of a wrong capacity is not visible to unit tests",["src/capi.rs:skk_get_rules","src/capi.rs:skk_free_rules","src/capi.rs:CskkRulesFfi"])
p("Making a context and switching the rule","Making a context with the empty fallback always yields a fresh context over the dictionaries given, the one of the default rule or, where that reports an error, one without conversion; switching the rule either reports an error and changes nothing, or changes commands and conversion and nothing else, so that text being typed goes on.","every contents of the data files, every rule name, every state of the context","all file contents and states",[L+"new_with_empty_fallback",L+"set_rule","src/rule.rs:load_rule","src/form_changer/kana_form_changer.rs:default_kanaform_changer"])
p("Where data files are looked for","The form files are the first that exist in the user's data directory and then in the system's data directories in order, as the XDG base directory specification says.","every environment and every state of the file system","all environments; the only unit test is ignored",["src/env.rs:filepath_from_xdg_data_dir"])
p("A sentence comes out as typed","From an idle context, typing any sequence of: romaji (double consonants, syllabic n, digits and punctuation included); ASCII and full-width letters; changes of input mode; deletions; words (reading started with a capital, with the key for it, or as an abbreviation; any walk through the candidates; confirmed with the confirmation key or by going on typing); words with okurigana; words not in the dictionary, registered by typing them, to any depth of registration inside registration; readings confirmed as they are in some kana or letter form; and readings given up - uses every key, yields exactly the text of these parts in order, tells the dictionaries each choice before the next word, leaves the context idle but for the keys of an unfinished syllable, shows text and pending keys in the preedit, and polling hands the whole text out once.","every rule, kana form table, dictionaries, sequence of such parts, candidate numbers, nesting","all sequences of parts, rules and dictionaries",[L+"process_key_event_inner_v2",L+"input_kana",L+"transition_composition_mode_by_capital_letter",L+"confirm_current_composition_candidate",L+"enter_register_mode",L+"exit_register_mode",L+"confirm_current_kana_to_composition"])
p("Deleting takes back what was typed last","Deleting pending romaji as often as keys were pressed restores everything, hidden state included; each further deletion takes the last character of the reading, or in Direct mode of the text not yet polled; with nothing left the key is left to the application; deleting a whole reading leaves the context idle; and after deleting everything typed, typing it again has the same effect.","every rule, state, number of keys and deletions","all states and interleavings of typing and deleting",[S+"delete",L+"process_instructions"])
p("Registering a word","Asking for a candidate beyond the last one (or for any when there is none) opens an empty line of its own; whatever is typed there, conversions and further registrations included, leaving it without a word (the abort key, or the confirmation key on the empty line) leads back to where the registration was opened: to the last candidate with nothing else changed, or to the reading, okurigana included, shown and looked up; confirming a word there writes it (with the text before it and the okurigana) in place of the reading, returns to the mode the registration was opened in, and the word is offered when the reading is converted again.","every rule, dictionaries, depth, text typed in the registration","all states and all texts typed in the registration",[L+"enter_register_mode",L+"exit_register_mode",L+"abort_register_mode",S+"abort_to_previous_mode"])
p("A whole typing session","From any moment of typing - idle, in a reading, in the okurigana, among candidates or completions - every sequence of: typing, deleting, changing the input mode, starting a word, starting, typing and erasing its okurigana, confirming a reading as it is, giving up, asking for candidates (with the conversion key, with okurigana - the capital may also be a later key of the syllable or the second of two equal consonants - or by completing an auto-start keyword), asking for completions, walking forward and back, cancelling, confirming with or without a further effect of the key, going on typing, purging, and registering or refusing to register a word to any depth - uses every key and leads exactly to the mode, reading, candidates, text, way back and dictionaries that the rules of these actions say; the preedit shows exactly that, while registering the line of every word being registered; and polling hands out the text and changes nothing else.","every rule, kana form table, dictionaries, sequence of such actions, nesting, starting moment","all sequences of actions, rules and dictionaries",[L+"process_key_event_inner_v2",L+"process_instructions",L+"try_next_candidate",L+"try_next_completion",L+"auto_start_henkan",L+"abort_register_mode",L+"purge_current_composition_candidate",L+"get_preedit",S+"delete",S+"abort_to_previous_mode"])
p("Saving, reloading and starting again are invisible","A program whose dictionaries were read from their files, and that types, saves (saves may fail), reloads and is started again in any order - reading files again only when nothing is unsaved, and saving only what the file format can carry - gets exactly the answers, and shows exactly the states, of one that never touched its files and kept its dictionaries in memory; such a program can always be started again; and a save in which no system call fails leaves nothing unsaved.","every rule, dictionary file, encoding, and history of calls, saves (with failures at any point), reloads and restarts","all histories and failure points",[L+"save_dictionary",L+"reload_dictionary",D+"user_dictionary.rs:save_dictionary",D+"file_dictionary.rs:reload",D+"static_dict.rs:StaticFileDict"])
p("The encoding of a dictionary file","However long the lines and however the encoder cuts them into buffers, saving writes each entry's line completely or leaves it out, and leaves it out only when a character of it does not exist in the encoding; opening the file again under the same label gives the dictionary back; a dictionary that opened under some label can be saved under it.","every label and encoding, every dictionary contents, every division into buffers","all texts, lengths and encodings",[D+"user_dictionary.rs:encode_string",D+"user_dictionary.rs:save_dictionary",D+"file_dictionary.rs:load_dictionary"])
p("A dictionary that could not be opened","skk_file_dict_new and skk_user_dict_new answer NULL for a dictionary that cannot be opened; a C program that passes what it was given on to skk_context_new, skk_context_new_with_empty_fallback or skk_context_set_dictionaries gets a context over the other dictionaries, in the order given.","every array of handles and NULLs, every state of the library","all arrays and histories; undefined behaviour is not visible to unit tests",["src/capi.rs:dictionaries_from_c_repr","src/capi.rs:skk_context_new","src/capi.rs:skk_context_set_dictionaries"])
p("The C calls are the Rust calls","Every call through the C API - key events, texts of key events, candidate numbers, modes, styles, auto-start keywords and rule names as bytes - does exactly what the corresponding Rust calls do and answers accordingly; texts that are not UTF-8 are refused or left out and change nothing else; no allowed call is undefined, and a call brings the program down only if the Rust call does.","every program of C calls, all bytes, every state","all byte strings and histories",["src/capi.rs:skk_context_process_key_events","src/capi.rs:skk_context_process_key_event","src/capi.rs:skk_context_set_auto_start_henkan_keywords","src/capi.rs:skk_context_set_rule","src/capi.rs:skk_context_select_candidate_at","src/capi.rs:skk_context_confirm_candidate_at"])
p("Saving and reloading while other threads type","However the operating system interleaves threads that type, over dictionaries read from their files, with saves (which may fail) and reloads of these dictionaries - saving only what the file format can carry, reloading only a dictionary in which nothing is unsaved - every thread gets the answers, shows the states and holds the locks it would without any saving and reloading; whenever a dictionary has nothing unsaved, its file can be opened and answers as everything all threads did to it, in the order it happened, makes of it; and a save never has to wait longer than for one dictionary access.","every number of threads, calls and dictionaries, every schedule of single dictionary accesses, saves (with failures at any point) and reloads","all interleavings and failure points",[L+"save_dictionary",L+"reload_dictionary",D+"user_dictionary.rs:save_dictionary",D+"file_dictionary.rs:reload",D+"mod.rs:CskkDictionary"])
p("Every process behaves the same","A rule is read row by row in an order that differs from process to process; when no two rows are for the same keys, two processes that make the same calls - changes of rule included - get the same answers, show the same preedit, predict the same keys, hold the same state and learn the same words. Both shipped rules are such rules.","every rule without two rows for the same keys, every two orders of its rows, every history of calls","the order comes from a per-process random seed; a test sees one order at a time",["src/kana_builder.rs:converter_from_hashmap","src/rule.rs:CskkRule","src/rule.rs:CskkCommandRuleInner"])
p("The word chosen last is offered first","When a candidate of a reading is confirmed, the next conversion of the same reading (and okurigana) offers that text first, whatever was typed in between, unless another candidate of that headword was chosen or purged.","every reading, candidate list, set of dictionaries and history in between","all histories and dictionary contents",[L+"confirm_current_composition_candidate",D+"mod.rs:get_all_candidates",D+"mod.rs:dedup_candidates",D+"user_dictionary.rs:select_candidate",D+"dictentry.rs:prioritize_candidate"])
p("A new word starts empty","However earlier words were typed, converted, confirmed, registered, deleted or given up, when no word is open nothing of them is left: no reading, okurigana or candidate of an earlier word is shown, looked up or registered with the next one; and while a word is open, the frame keeps nothing of it that is not displayed.","every tidy rule, dictionaries, configuration and history of calls","all histories; the remains do not show until the next word",[S+"abort_to_previous_mode",S+"delete",L+"confirm_current_composition_candidate",L+"exit_register_mode",L+"abort_register_mode",L+"auto_start_henkan"])
p("Only what the user asked for is learnt or forgotten","Under the shipped rules (and every rule that binds confirming and purging only to where candidates are shown, and registering only to Direct mode, as first instructions), whatever is typed: one call teaches the dictionaries nothing or exactly one thing - the choice of the candidate on display (by a key bound to confirming, or by typing on) or of the numbered one, the text entered in a registration for its reading (by a key bound to finishing it), or the purge of the candidate on display (by a key bound to purging); a text a dictionary lists afterwards but not before was chosen or registered for that headword in some call, one it no longer lists was purged in some call; the same for what conversion offers.","every history of keys and calls, every dictionary contents, every such rule","all histories",[L+"confirm_current_composition_candidate",L+"purge_current_composition_candidate",L+"exit_register_mode",L+"process_key_event_inner_v2",D+"mod.rs:confirm_candidate",D+"mod.rs:purge_candidate",D+"dictentry.rs:remove_matching_candidate"])
p("Settings act only where they say","While no period is typed, two contexts that differ only in the period style - set before or at any moment between - answer every call alike and show, predict and learn the same; likewise the comma style and commas; the order and repetition of auto-start keywords makes no difference when none of them ends another; changing a setting changes nothing shown.","every rule, state, dictionaries and history of calls, every pair of settings","noninterference: compares all pairs of histories",[L+"set_period_style",L+"set_comma_style",L+"set_auto_start_henkan_keywords",L+"auto_start_henkan","src/kana_builder.rs:convert_periods"])
p("What was taught lasts","Under the shipped rules (and every rule as in C83), for a program started on its dictionary files, through any sequence of typing, saving, reloading and starting again (saving only contents the file can carry, reloading and starting again only when nothing is unsaved; saves may fail at any point): what a dictionary lists for a headword and in which order stays the same until some call asks to learn or purge something for that headword; texts appear and disappear only when asked for; and the candidate confirmed last is the first offered, also after restarts, on the conditions of C81.","every such life of a program, every dictionary contents, encoding, rule and failure of a save","crossing of process lifetimes: all histories with restarts and failing saves",[L+"save_dictionary",L+"reload_dictionary",D+"mod.rs:confirm_candidate",D+"mod.rs:purge_candidate","src/dictionary/user_dictionary.rs:save_dictionary"])
p("The memory of a dictionary's map","Whatever is done with the map of a dictionary, the nodes allocated are exactly those of its entries and two list ends; dropping it (when the dictionary is dropped or reloaded) frees no node twice; afterwards nothing of it is left (false: exactly the two list ends are, for every map).","every sequence of map operations, every contents","all histories of operations; leaks are not observable by tests",[D+"lru_ordered_map.rs:LruOrderedMap",D+"lru_ordered_map.rs:remove",D+"file_dictionary.rs:reload"])
p("Loops over a text end", "Changing kana, reading a key sequence, reading the candidates of a dictionary line and undoing its octal escapes come to an end on every text, every round using up some of it, and what they give is the result of that one run.", "every text, table and dictionary line", "all texts: a test that does not hang says nothing about the next one", ["src/form_changer/kana_form_changer.rs:adjust_kana_string_inner_recur", "src/keyevent.rs:deserialize_seq_inner", D+"dictionary_parser.rs:candidate", D+"dictentry.rs:process_lisp_fun"])
p("Opening a dictionary comes to an end", "Opening or reloading a dictionary returns, with the dictionary or with an error, whatever the path names; reading ends exactly when the reader says that there is no more, and what was opened is the lines that could be read.", "every file, directory and reader that may fail at any read, at every point", "all readers, failing at every point and forever", [D+"file_dictionary.rs:load_dictionary", D+"mod.rs:CskkDictionary::new_static_dict", D+"mod.rs:CskkDictionary::new_user_dict", L+"skk_user_dict_new", L+"CskkContext::reload_dictionary"])
p("The preedit and its details", "get_preedit is exactly the drawing of get_preedit_detail: one element per frame, outermost first, each giving the mode of its frame and the text waiting there (the last one get_composition_mode, the first one what poll_output would return). It is empty exactly when nothing is being typed. Polling takes from the front of the preedit exactly the text it hands over, so that the screen - text polled so far, then the preedit - does not change.", "every reachable state of every context", "all states, nested registrations included, and all tables", [L+"CskkContext::get_preedit", L+"CskkContext::get_preedit_detail", L+"CskkContext::poll_output", "src/cskkstate.rs:preedit_string", "src/cskkstate.rs:preedit_detail"])
p("The input mode changes only when asked", "The input mode a context reports changes only by set_input_mode and by keys whose command list, in the modes the context is in, says so. Frames opened for registering a word start in Hiragana, frames around keep their mode, so that after a registration - finished, given up or reset - the user is back in the mode chosen before. For the shipped rules these keys are exactly q and C-q (AZIK: the at sign), l, L, and C-j from the ASCII modes.", "every reachable state, every call, every history", "all rules, all interleavings of typing, registering and resetting", [L+"CskkContext::process_key_event", L+"CskkContext::set_input_mode", L+"CskkContext::get_input_mode", L+"CskkContext::enter_register_mode", "assets/rules/default/rule.toml:command", "assets/rules/azik/rule.toml:command"])
p("Turning what is typed into kana keeps all of it", "The keys that leave a kana mode write the keys that are still pending first, in the kana of the mode that is left; the keys that confirm the word being typed as kana (q, C-q, C-j) write the whole word in the kana asked for, pending keys and okurigana included. Afterwards nothing of the word is left.", "every state with a word or pending keys, every rule, every key bound to such a command", "all readings and pending keys, all rules", ["src/lib.rs:CskkContext::output_converted_kana_if_any", "src/lib.rs:CskkContext::process_instructions", "assets/rules/default/rule.toml:command", "assets/rules/azik/rule.toml:command"])
p("What a dictionary is does not matter, what it holds does", "Two contexts that differ only in their dictionary objects answer every later call alike, in texts, preedit and details, as long as their dictionaries hold the same in the same order: the order of the entries in a file does not matter, nor do dictionaries made by skk_empty_dict_new among the others. And asking more dictionaries hides no text that was offered before.", "every pair of contexts and dictionaries, every sequence of calls that replaces no dictionary, every reading", "all dictionaries, all histories", ["src/dictionary/mod.rs:get_all_candidates_inner", "src/dictionary/empty_dictionary.rs:EmptyDictionary", "src/lib.rs:CskkContext"])
p("Completion offers each word found once", "The completions of a reading are the words that the completable dictionaries list under headings starting with the reading, dictionary after dictionary and heading after heading, each word once, with the heading under which it was found first.", "every list of dictionaries, every reading, every state in which completion is asked for", "all dictionaries: whether a word comes twice depends on what else is listed", ["src/dictionary/mod.rs:get_all_complete", "src/dictionary/mod.rs:dedup_candidates", "src/dictionary/dictionary_candidate.rs:CompletionCandidate", "src/lib.rs:CskkContext::try_next_completion"])
p("Several programs saving one dictionary file", "When several programs (or several user dictionaries in one) use the same file, however their saves interleave: neither the file nor its .BAK is ever a mixture, each holding what was there or the beginning of what one of them writes; one of the two is always whole; when all are done the file holds all of what the one that began last wrote and .BAK what the one before wrote; and nothing that was saved with success is lost.", "every number of programs, every contents, every interleaving of their renaming, creating and writing, every failure and every kill", "interleavings of system calls of several processes", ["src/dictionary/user_dictionary.rs:save_dictionary", "src/dictionary/user_dictionary.rs:UserDictionary::new"])
p("Reading a dictionary file while it is saved", "A program that opens or reloads a dictionary file while other programs save it finds the file, and reads all of what was there or all of what one of them saves - never a part of it and never a mixture.", "every number of saves, every contents, every interleaving of the reads with the renaming, creating and writing, every failure and every kill", "interleavings of system calls of several processes", ["src/dictionary/file_dictionary.rs:load_dictionary", "src/dictionary/file_dictionary.rs:FileDictionary::reload", "src/dictionary/user_dictionary.rs:save_dictionary"])
if __name__=="__main__":
    with open("/verif/properties.jsonl","w") as f:
        for x in P: f.write(json.dumps(x,ensure_ascii=False)+"\n")
    for x in P: print(x["id"],x["title"])
