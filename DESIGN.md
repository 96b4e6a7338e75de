# Formal model of naokiri/cskk in Rocq (Coq 8.16.1)

## 1. Approach

The Rust code is transcribed, function by function, into total, executable Gallina functions
(Coq standard library only).  `&mut self` methods become functions returning the new value;
`Result`/`Option` stay data; every panic path (`unwrap`, `expect`, slice index, `debug_assert!`,
usize underflow) is an explicit `Panic` result.  The model is parametrised by the build profile
(`dbg = true`: debug build, overflow and `debug_assert!` panic; `dbg = false`: release build, usize
arithmetic wraps modulo 2^64).

* Characters are code points (`N`), strings are `list N` (`str`).  Rust orders `String`s by UTF-8
  bytes, which is the code point lexicographic order used by the model.
* Dictionaries live in a store indexed by ids, contexts hold ids: this mirrors `Arc<CskkDictionary>`
  (sharing between contexts, aliasing inside one list).
* Rules (conversion map, command maps, rom2kana sections) are data; both shipped rule files are
  generated into DefaultRule.v by `tools/mkrule.py`.
* A history is a list of `op`s (Context.v), one per mutating public call.  `OOther st` is anything
  other owners of the dictionaries did between two calls, so a theorem about all histories covers
  all interleavings of whole API calls.  The library locks each dictionary only for one access and
  never two at once (no deadlock, dictionary/mod.rs:102-297), so two threads can also interleave
  inside one call, between two dictionary accesses: that granularity is Fine.v (C66), at the level of
  single dictionary accesses.
* Fidelity: ModelTests.v replays the repository's own integration tests (key strings, expected
  preedit/output/modes) against the model, by computation; ModelTests2.v replays the remaining
  integration tests and the unit tests of /repo/src (key parsing, dictionary lines, LRU map, saved
  files, numbers, kana forms, converters, context), written out by hand.  All of them pass, so the
  transcription answers as the project's own tests say the code answers.  They are tests of the
  model, not properties.

## 2. Files (rocq/theories)

Model (every definition cites the file and lines it models):

| file | models |
|---|---|
| Str.v | strings, UTF-8 literals, `res` monad, usize arithmetic |
| Keys.v | keyevent.rs |
| Modes.v | skk_modes.rs, command_handler/*, rule.rs (data), config.rs |
| KanaBuilder.v | kana_builder.rs and sequence_trie 0.3.6 |
| FormChanger.v | form_changer/* |
| DictTypes.v | candidate.rs, dictionary_candidate.rs, composite_key.rs, dictentry.rs |
| Parser.v | dictionary_parser.rs (nom combinators included) |
| Lru.v, LruPtr.v | lru_ordered_map.rs, abstractly and with its pointers |
| Dictionary.v | dictionary/mod.rs, file/static/user/empty dictionaries |
| CState.v | candidate_list.rs, cskkstate.rs |
| Context.v | lib.rs |
| SaveFs.v | save_dictionary against a file system with crashes and failures |
| Together.v | several saves to one path, step by step: user_dictionary.rs:67-113; reading it meanwhile: file_dictionary.rs:23-32, 87-142 |
| LruMem.v | dropping an LruOrderedMap |
| Life.v | a program's life: calls, CskkContext::save_dictionary and reload_dictionary over all its dictionaries, and being started again on the files left |
| Encoding.v | user_dictionary.rs encode_string and the bytes save_dictionary writes, file_dictionary.rs load_dictionary on bytes; UTF-8, UTF-16LE, EUC-JP (over a table of JIS X 0208), other character-wise encodings as a parameter |
| CApi.v | capi.rs: what C observes (strings with NUL, pages, details) |
| CMem.v | capi.rs: who owns which allocation |
| Handles.v | capi.rs: dictionary and context handles, Arc counts |
| FineLife.v | Fine.v with CskkContext::save_dictionary and reload_dictionary, dictionary by dictionary, as events between the moves of the threads |
| Reader.v | the loop that reads a dictionary, over a reader that may fail; opening a file, a directory, a file that fails |
| CText.v | capi.rs: the functions on one context, with texts as bytes and numbers from C |
| RulesMem.v | capi.rs: skk_get_rules, skk_free_rules with array capacities |
| Setup.v | env.rs, loading in rule.rs and the form changers, constructors of contexts, set_rule |
| Multi.v | several contexts over one store |
| Fine.v | several threads, interleaved between single dictionary accesses |
| DefaultRule.v | assets/rules/{default,azik}/rule.toml (generated) |

Specification vocabulary: Spec.v (what a user can reach and observe) and the first section of each
T_ file.  Demo.v, ModelTests.v and ModelTests2.v: concrete worlds and the
repository's tests.
P_*.v: proof libraries (wp calculus for the context monad, invariants).  T_*.v: the property
theorems (`Theorem Cnn_...`), each with an `Example` showing reachable, non-trivial cases.

Name suffixes: `_refuted` proves the negation of (part of) the English claim, with a history typed on
a keyboard as witness where possible; `_partial` proves the claim under the stated extra
condition; all other `Cnn_` theorems are the full claim or a part of it.

## 3. Per property: what is modelled and how it is proved

| id | model / proof |
|---|---|
| C01 | process_key_event on RELEASE, all worlds |
| C02 | invariant (1 <= frames <= 10) over every API step, induction on histories |
| C03 | invariant over histories for rules without ChangeCompositionMode(Register); the shipped rules qualify (C62) |
| C04 | refuted (reset keeps the composition mode); partial: input flushed, one frame, input mode kept |
| C05 | refuted (A i C-j l C-g: every key is refused for ever); partial for rules with an answering key; for both shipped rules exactly when (T_Exact) |
| C06 | poll flushes; for every history, the concatenation of polled texts does not depend on when one polls (simulation P_Poll) |
| C07 | refuted (Purge wipes the confirmed text); partial: prefix of confirmed text per frame; for both shipped rules what exactly every key does to the text (T_Exact) |
| C08, C09 | induction on the key sequence |
| C10 | induction on syllables through the trie semantics |
| C11 | trie characterised by the list of rules |
| C12 | invariant over histories |
| C13 | refuted (symbol key with its own conversion); partial for the other keys, and exactly what such a key does (T_Exact) |
| C14 | case analysis |
| C15 | measure on frames and histories; for both shipped rules where C-g leads exactly (T_ExactAbort) |
| C16 | invariant |
| C17 | refuted (empty list after purge/abort); partial invariant |
| C18 | refuted (number parsing, empty list in debug); partial: sufficient conditions on histories and rules, wp calculus with safe postconditions |
| C19 | refuted; partial for orderly rules |
| C20 | refuted (delete in okurigana); partial: invariant; C20_entry: the exact entry looked up |
| C21-C23 | lists; C22, C23 refuted with witness, exact actual order proved |
| C24-C29 | entry algebra and store frame lemmas; C25, C26, C27 refuted in part |
| C30, C31 | pointer level heap model refines a list; sortedness |
| C32 | prefix range on sorted keys |
| C33-C36 | parser against printer; refutations for special characters; round trip for the others |
| C37, C38, C57 | file system transition system with crash points, failures, sessions |
| C39-C43 | arithmetic, induction on digits; C43 refuted in part |
| C44 | longest match specification |
| C45-C47 | parsing against an independent grammar (T_KeyParse, T_KeySeq); C45, C47 refuted in part; C47 exactly (T_ExactInstr) |
| C48 | case analysis on index |
| C49 | refuted; partial: exact relation by kinds of keys |
| C50 | case analysis |
| C51 | store/contexts frame, interleavings by induction |
| C52 | loader fold |
| C53 | case analysis |
| C54 | refuted (C05 states); partial: case analysis over process_key_event with an invariant (P_Tidy) |
| C55 | totality of observers on reachable worlds |
| C56 | refuted at pointer level |
| C58-C60 | CApi; C59, C60 refuted with NUL in a dictionary, partial without; exact answers with NUL in T_ExactC |
| C61 | invariant over loading and histories |
| C62 | decided by computation over the generated rules, lifted to all rows and commands |
| C63 | ownership invariant (permutation of the live allocations); refuted (a leak), partial without completion details |
| C64 | invariant unchanged-or-marked over histories, composed with the round trip of C35 |
| C65 | exact successor worlds, induction on the number of presses |
| C66 | invariant over single dictionary accesses in any schedule (P_FineAlone, P_Fine, T_Fine, T_FineLearn); fairness by well-founded measure (T_FineLive); reachable cases in T_FineDemo |
| C67 | invariant: Arc count = references; simulation by a world that never frees (relational, agreement on the dictionaries a context refers to) |
| C68 | heap with capacities; refuted (capacity of a pushed Vec), exact condition for the defined case |
| C69 | totality of loading under conditions on the files; refuted for broken form files and kana keys |
| C70 | equality with an independent reading of the XDG specification; refuted for empty variables; exactly when (C70_exact) |
| C71 | an inductive grammar of typing (spells, reads, asks, walks, composes in T_Sentence.v) over rule rows, command bindings and lookups, independent of the trie and the state machine; induction over the derivation, each part by running the model on its keys; a decision procedure for the grammar gives the example |
| C72 | the effect of n deletions in closed form, induction on n; with C71 for whole readings; refuted for capitals deleted while they wait |
| C73 | the same grammar for what is typed in the registration; the opening, leaving and confirming keys are run on the model; the offer after registering from C26 |
| C74 | a grammar of scenes (idle, reading, okurigana, choosing) with one rule per user action, induction on the grammar; every rule is an exact step lemma of the model; displays computed from the scene |
| C75 | Life.v; a simulation: dictionaries that differ only in recency order, entry marks and has_change answer every call alike (P_Alike.v); invariant: a dictionary with nothing unsaved is alike to its file; induction on the life |
| C76 | Encoding.v; induction on the loop of encode_string, on the lines and on the characters; composed with the save/reload theorem of C35; refutations on computed runs |
| C77 | dictionaries_from_c_repr in Handles.v over arrays of pointers that may be NULL; case analysis for every array and state; refutation on computed runs |
| C78 | CText.v: the C calls on one context, arguments as bytes; a relation `says` from C calls to Rust calls with UTF-8 as specified in Encoding.v (both directions of the codec are proved); case analysis, induction on the program |
| C79 | FineLife.v: the threads of Fine.v with saving and reloading of single dictionaries as further events; programs of accesses are related up to the marks in the answers (P_FineAlike.v), dictionaries as in C75; induction on the history; composed with C66 |
| C80 | two contexts whose rules have the same rows in different orders (P_SameRule.v): the trees answer every question alike (from P_Kana), simulation through the whole API |
| C81 | T_Remembered.v: what the first dictionary lists first after being taught (C24), the exact order of candidates (C23), the conversion key (C65); lessons between the two conversions as a list obtained from the frame lemma of histories (T_Saved); two refutations by typing |
| C82 | P_Fresh.v: an invariant of every frame by mode (in Direct nothing, in a reading no okurigana and no list, in a list a current candidate or nothing, waiting frames separately), kept by every instruction list a checker accepts, by kana input, keywords and registration; T_Fresh.v: histories, the shipped rules pass the checker, three refutations by typing; P_Hidden.v, T_FreshSession.v: two fields of a frame are not observable (simulation through the whole API), so C74 sessions start from every such state |
| C83 | P_Learn.v: which monadic operations leave the store alone, and what confirming, purging and leaving a registration do to it; T_Learn.v: one call is one lesson or none (case analysis over the whole key handler), lists of texts under a lesson, induction over histories, then C21 for what conversion offers |
| C84 | P_SameCfg.v: the two worlds differ in the configuration only, up to the styles that may differ and up to which keyword a reading ends in; a simulation through every operation, key events under the condition on the character typed; T_Settings.v: the statements, same keywords give the same match |
| C85 | T_Lasts.v: an induction over the life of a program (Life.v) that carries C75's relation between dictionaries and files and reads each call as at most one lesson (C83); dictionaries alike up to recency and reading order list the same; then C81 for the next conversion |
| C86 | LruMem.v: dropping the map frees the boxes of the hash map; T_LruMem.v: an ownership invariant (allocated = markers + values of the hash map, all distinct) through every operation, with the refinement of C30 for the count |
| C87 | executions of the recursions as inductive relations with a round count (T_Ends.v); existence by induction on the length, uniqueness by induction on the run |
| C88 | Reader.v: the loop as an inductive relation over a reader that may fail at each call; T_Lines.v: it ends exactly at the first end; no execution for a directory |
| C89 | T_Preedit.v: an independent drawing of the details (relation), by induction over the frames; polling from C06_poll |
| C90 | T_InputMode.v: the modes of the frames before and after (relation moved), from the atomic steps of P_Monad/P_Frames with the flag for mode changes; the shipped rules decided by computation over all their bindings |
| C91 | T_Keep.v: the commands run symbolically on an arbitrary frame; the bindings of the shipped rules decided by computation |
| C92 | P_Contents.v, T_Contents.v: simulation between contexts whose dictionaries hold alike contents after the empty ones are left out; C92_more by the sets of texts |
| C93 | T_Completions.v: sorting, removing neighbours of the same word and picking in order, for any total order; then the order of completion candidates (finding 35) |
| C94 | Together.v, T_Together.v: files apart from their names, writers that keep their file and position; invariant over all schedules: the files made, in order, each by its own save (finding 36) |
| C95 | Together.v, T_ReadWhile.v: a reader added to the schedules of C94; files only grow at their end (finding 37) |

## 4. Trusted base

* Coq 8.16.1's kernel (and coqchk), and its standard library.  `Print Assumptions` says `Closed under
  the global context` for every `Cnn_` theorem: no axiom is used.  coqchk also lists seven constants
  `Coq.ssr.ssrunder.Under_rel.*`: they are parameters of a sealed module of the standard library that
  is merely loaded (with ssreflect's files) and no theorem depends on them.
* The reading of the Rust source that the comments of the model cite.
* Libraries modelled from their documented behaviour: sequence_trie 0.3.6, nom 7.1.3 combinators,
  regex `\d` (Unicode Nd), std collections (BTreeMap, HashMap, VecDeque, sort), CString.
  xkbcommon's key names are a parameter (`xkb`), universally quantified in the theorems; the examples
  use `ascii_xkb`.
* `tools/mkrule.py` (rule tables from TOML).

## 5. Not modelled

TOML parsing (a parameter of C69) and the xdg crate's search for the rule directory, character encodings
beyond Encoding.v (elsewhere only a test whether a line can be encoded): the tables themselves, encoders with
a state (ISO-2022-JP), byte order marks, what malformed input is decoded to; logging, wall-clock behaviour, real threads (only
schedules of calls and of dictionary accesses), mutex poisoning (a panic inside a locked region: in key events only
`get_dict_key`'s unwrap is inside one, and P_Safe and C66_never_poisoned show that no key event reaches it; the panicking save of finding 23 does happen under the lock, so it also poisons the dictionary), raw pointers of
the C API beyond ownership (alignment, validity of pointers made up by the client).
The capacity of the array given out by skk_context_get_preedit_detail is taken to be its length
(true for `collect` of an exact-size iterator; an in-place `collect` of newer std may keep another one,
with the same defect as C68).  `&self` observers are functions of the world.
The deprecated skk_context_get_preedit_underline (always 0, 0) and the constant skk_library_get_version are left out.

## 6. Findings about the code

Each is a theorem (`_refuted`) or an observation made while modelling.

1. C04/C05: `skk_context_reset` does not reset the composition mode.  In Register mode with one frame
   every further key is refused (debug: panic); in selection mode an empty list shows `▼エラー`.
2. C17/C18/C19: `A i space x C-g` (or purging) leads to selection mode with an empty list; space then
   panics in debug builds, and moves the cursor past the end in release builds.
3. C18: `#3`/`#5` templates panic on numbers of 20 or more digits and on non-ASCII digits.
4. C20: deleting okurigana also shortens the hidden copy of the reading: `▽か` shown, empty key looked up.
5. C07: purging a candidate discards confirmed text that has not been polled.
6. C07/C17: registering text containing `#4` for a reading with a number and no match loses it silently.
7. C22: dedup keeps a candidate with annotation instead of the first; completion dedup drops equal words
   only when adjacent in midashi order.
8. C26: a word registered with okurigana is stored under the reading without its letter and never found.
9. C33-C36: entries with brackets, or strict okuri after `]`..., do not survive save and reload; recency
   is reversed by each save/reload round.
10. C37: between rename and rewrite only the .BAK file holds the data; C38: a save that failed after the
    rename cannot be retried (rename of a missing file).
11. C45: parsing a key text panics when its second byte boundary lies inside a multibyte character, and on
    NUL; C47: garbage after a mode instruction is accepted.
12. C49: will_process is false for capitals that are processed, true for Return in Direct mode.
13. C54/C05: `A i C-j l C-g` leads to PreComposition with Ascii input, where every key answers false.
14. C56: next_back of both iterators is wrong.
15. C59/C60: NUL in a candidate makes the C API lose confirmed text (poll) or panic (detail); the okurigana
    of a completion is always NULL.
16. C63: the Drop of CompleteDataFfi does not free completed_midashi: a leak per freed completion detail.
17. C09: `'` becomes ‘ and the backquote has no full-width form.
18. C68: `set_len` does not change the capacity of a Vec, so skk_free_rules frees with a wrong layout
    unless there are 4, 8, 16, ... rules (two are shipped); with no rules the pair (NULL, 0) is not a
    valid argument either.
19. C69: the constructor with empty fallback panics when kana_form.toml or ascii_form.toml is found but
    broken, and (C45) when the default rule binds a key written in kana.
20. C70: an empty XDG_DATA_HOME or XDG_DATA_DIRS hides the default directories.
21. C72: BackSpace on a capital that waits for its vowel does not clear capital_transition: `K BackSpace BackSpace K a` writes か instead of starting a word, `K a K BackSpace K u` does not start okurigana.
22. C74: refusing a registration that was opened by an auto-start keyword leaves the keyword as a hidden postfix: the reading shown is the part before it. Purging a candidate also drops the confirmed text that was not polled yet.
23. C76: a user dictionary opened with a label that names no encoding works until the first save, which panics inside `expect` after the file was renamed away and created empty. A UTF-16 dictionary is saved as UTF-8 and read back as empty. In EUC-JP the yen sign, overline and minus sign come back as other characters.
24. C74: confirming a reading as kana while its okurigana is being typed drops the okurigana and the pending keys typed so far (rule o_confirm: `AiT C-j` writes あい).
25. C77: `dictionaries_from_c_repr` compares the first element of the array with NULL, not the array: if the first dictionary could not be opened all others are silently ignored; if a later one could not be opened the behaviour is undefined. The same test in `skk_context_set_auto_start_henkan_keywords` (C78).
26. C78: `skk_context_process_key_events` answers false for bytes that are not UTF-8 but panics for text that is no key sequence.
27. C79: saving and then reloading is not atomic: what another context learns in a shared dictionary between the two is forgotten.
28. C80: two conversion rows for the same keys (written with different spaces) are accepted, and which one counts changes from process to process (HashMap iteration order).
29. C81: a word that a later dictionary has with an annotation and the user dictionary without keeps the later place however often it is confirmed: the annotated copy wins the deduplication, and confirming moves the unannotated one.
30. C82: giving up a registration opened by an auto-start keyword leaves the keyword as okurigana that is not displayed; deleting the reading ends in Direct mode with it, and it is shown (and output) behind the next word. In the same way a registered text with a number sign that fits no number leaves the reading behind, and a keyword typed in the tenth frame stays.
31. C86: LruOrderedMap has no Drop: its two marker nodes leak whenever a map is dropped, so reloading a dictionary leaks four nodes each time.  (The same raw pointers, and Rc, make CskkDictionary neither Send nor Sync: from Rust it cannot be shared between threads at all; C66 and C79 speak of clients of the C API.)
32. C88: opening a directory as a dictionary (skk_user_dict_new, skk_file_dict_new, reload) never returns: every read fails, the failure is logged as an ill-encoded line, and the loop asks for the next. A file system that keeps failing does the same, on a reload while the dictionary is locked.
33. C89: while a word is being registered the preedit does not show text confirmed before and not yet polled (the Register case of preedit_string leaves `confirmed` out, all others draw it): it is on the screen only after the poll.
34. C91: the shipped default rule binds C-q in katakana to ForceKanaConvert(Hiragana) (rule.toml:331; all its other mode keys, and AZIK, use the mode that is left), so a pending n comes out as hiragana; C-q in a reading has no ForceKanaConvert (rule.toml, [pre_composition.*]; AZIK alike), so a pending n is dropped; and ConfirmAs takes only the reading before the okurigana, so q, C-q and C-j drop okurigana that has been begun.
35. C93: `dedup_candidates` (dictionary/mod.rs:240-278) sorts by the derived order and then removes neighbours with the same text. For the candidates of a conversion the text is the first field of the order and all copies meet; for completions the heading is the first field, so copies of a word under different headings meet only by chance: a word is offered twice, or loses the shorter of its headings, depending on what else is listed.
36. C94: nothing keeps two programs from using one user dictionary file. The last to save wins, and what the other learnt since it opened the file is gone (after a third save from .BAK too); two saves that overlap take away the .BAK of the old contents while both new files are still being written, so that a crash of both loses everything.
37. C95: between the renaming and the last write of a save the dictionary file is missing or incomplete for everybody else (it is not written under another name and then renamed): a program started or reloading then has no dictionary, or a part of it, without any error, and its own next save makes the loss permanent.

## 7. Tests of the theorems

`tools/mutate.py` applies one realistic bug to a model definition in a scratch copy, rebuilds everything
(replacing broken proofs by a marker axiom in the scratch copy only) and reports which theorems no longer
hold and which still do.  One line per attempt is in `seeded/LOG.jsonl`, with the theorems tightened
because of it.
