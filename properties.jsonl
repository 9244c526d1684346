{"id": "C01", "title": "History reading does not depend on the read buffer size", "statement": "Reading a history file through any read buffer that is large enough for its longest line yields exactly the same sequence of (line id, text, timestamp) as splitting the whole file at NUL/CR/LF in one piece: lines are never lost, duplicated, merged, cut, or given a different id because they straddle a buffer refill.", "quantifier": "every byte content of the history file (terminated last line), every buffer size larger than the longest line, every position of refill boundaries", "why_tests_cant": "The interaction of refill boundaries, rollback, CTAG detection and line breaks has unboundedly many alignments; tests try a handful of buffer sizes on one file.", "anchors": ["clink/lib/src/history_db.cpp:read_lock::line_iter::next", "clink/lib/src/history_db.cpp:read_lock::file_iter::next", "clink/lib/src/history_db.cpp:read_lock::line_iter::provision"]}
{"id": "C02", "title": "Adding to history appends exactly one entry", "statement": "After a successful add of a line containing no NUL/CR/LF and not starting with '|', reading the bank gives exactly the entries it gave before, with the same ids, texts and timestamps, followed by one entry with that text and (if time stamps are on) that time stamp; an ignored line (empty, or space-prefixed with ignore_space) changes nothing.", "quantifier": "every well-formed history file content, every line, every setting of ignore_space, time_stamp and dupe mode", "why_tests_cant": "The claim covers every prior history content and every added text; tests only check a few.", "anchors": ["clink/lib/src/history_db.cpp:history_db::add", "clink/lib/src/history_db.cpp:write_lock::add", "clink/lib/src/history_db.cpp:read_lock::line_iter::next"]}
{"id": "C03", "title": "Removing a history entry by id removes that entry only", "statement": "Removing an id returned by reading makes exactly that entry disappear from subsequent reads; every other entry keeps its id, text and time stamp, and the file keeps its length, so all ids remain valid.", "quantifier": "every well-formed bank content and every id read from it, in any sequence of removals", "why_tests_cant": "Must hold for every content and every chain of removals.", "anchors": ["clink/lib/src/history_db.cpp:write_lock::remove", "clink/lib/src/history_db.cpp:history_db::remove_internal"]}
{"id": "C04", "title": "Removing by text removes every occurrence and nothing else", "statement": "remove(line) leaves precisely the entries whose text differs from line (same order, ids and texts) and returns the number of entries it removed, although the file is modified while it is being iterated.", "quantifier": "every bank content, every line, every read buffer size large enough", "why_tests_cant": "In-place modification during chunked iteration over arbitrary files.", "anchors": ["clink/lib/src/history_db.cpp:history_db::remove", "clink/lib/src/history_db.cpp:read_lock::find", "clink/lib/src/history_db.cpp:write_lock::remove"]}
{"id": "C05", "title": "Find returns the first matching entry", "statement": "find(line) returns 0 exactly when no visible entry has that text; otherwise it returns the id of the first visible entry (master bank first, then session bank) whose text is exactly line.", "quantifier": "every content of both banks, every set of pending removals, every line", "why_tests_cant": "Universal in the content and in the line.", "anchors": ["clink/lib/src/history_db.cpp:history_db::find", "clink/lib/src/history_db.cpp:read_lock::find"]}
{"id": "C06", "title": "erase_prev keeps the history duplicate free", "statement": "With dupe_mode=erase_prev, after any sequence of adds starting from a duplicate-free history the visible history contains each text at most once, and the most recently added text is last; with dupe_mode=ignore no add ever creates a second copy of a visible text and the order of existing entries is unchanged.", "quantifier": "every sequence of added lines, every duplicate-free starting history", "why_tests_cant": "An invariant over unbounded histories.", "anchors": ["clink/lib/src/history_db.cpp:history_db::add", "clink/lib/src/history_db.cpp:history_db::remove", "clink/lib/src/history_db.cpp:history_db::find"]}
{"id": "C07", "title": "Compaction preserves the visible history", "statement": "Compacting the master bank without uniq and without exceeding the limit leaves the visible entries (texts and time stamps, in order) unchanged and leaves no deleted entries in the file; with uniq it keeps precisely the last occurrence of each text with that occurrence's time stamp, in order; with a limit N it keeps precisely the last N of these.", "quantifier": "every master bank content, every limit, uniq on or off", "why_tests_cant": "Must hold for every content; index shifting and moved-from duplicates make sampling weak.", "anchors": ["clink/lib/src/history_db.cpp:rewrite_master_bank", "clink/lib/src/history_db.cpp:history_db::compact"]}
{"id": "C08", "title": "Compaction preserves other sessions' pending removals", "statement": "After one session compacts the master bank, every other session that had deferred removals recorded under the current tag still sees exactly the same visible entries as before (its pending removals are translated to the new ids), when no limit or uniq drops entries.", "quantifier": "every master content, every number of sessions, every set of removals files", "why_tests_cant": "Multi-process history with arbitrary deferred removals; cannot be enumerated.", "anchors": ["clink/lib/src/history_db.cpp:history_db::compact", "clink/lib/src/history_db.cpp:rewrite_master_bank", "clink/lib/src/history_db.cpp:read_lock::collect_removals"]}
{"id": "C09", "title": "A stale id never deletes the wrong entry", "statement": "remove(id) through an id obtained before some other session compacted or cleared the master bank is rejected and changes nothing, as long as concurrency tags are never reused; hence for every interleaving of loads, adds, removals, compactions and clears by any number of sessions a removal only ever removes the entry that the removing session loaded under that id.", "quantifier": "every interleaving of operations of any number of sessions, all contents", "why_tests_cant": "Quantifies over schedules.", "anchors": ["clink/lib/src/history_db.cpp:history_db::remove_internal", "clink/lib/src/history_db.cpp:extract_ctag", "clink/lib/src/history_db.cpp:concurrency_tag::generate_new_tag"]}
{"id": "C10", "title": "Ending a session merges its view into the master history", "statement": "When a finished session is reaped, the resulting master history is: the master entries minus the entries that session removed, followed by the session's own entries in order; entries added to master meanwhile by other sessions are kept; the session's files are gone.", "quantifier": "every master content, session content, removals, and every sequence of additions by other sessions in between", "why_tests_cant": "Universal over contents and over what other sessions did in between.", "anchors": ["clink/lib/src/history_db.cpp:history_db::reap", "clink/lib/src/history_db.cpp:write_lock::append", "clink/lib/src/history_db.cpp:read_lock::apply_removals"]}
{"id": "C11", "title": "A crash while reaping loses no history", "statement": "If the process dies at any point while reaping a finished session, then after the next successful reap every entry of the session and every unremoved master entry is still present in the master history.", "quantifier": "every crash point (between any two file operations) of reap, all contents", "why_tests_cant": "Quantifies over crash points.", "anchors": ["clink/lib/src/history_db.cpp:history_db::reap"]}
{"id": "C12", "title": "A crash while reaping duplicates nothing", "statement": "If the process dies at any point while reaping a finished session, then after the next successful reap every entry of the session appears in master exactly as often as it was added (expected to be refuted: a crash between append and unlink re-appends the session).", "quantifier": "every crash point of reap", "why_tests_cant": "Quantifies over crash points.", "anchors": ["clink/lib/src/history_db.cpp:history_db::reap"]}
{"id": "C13", "title": "After clearing, removals still take effect", "statement": "After history is cleared in a session with a deferred-removals file, removing a visible master entry makes it disappear from that session's view (expected to be refuted: clearing truncates the removals file without rewriting its tag, so later deferred removals are never matched).", "quantifier": "every session state after clear, every later removal", "why_tests_cant": "Depends on the history of operations.", "anchors": ["clink/lib/src/history_db.cpp:history_db::clear", "clink/lib/src/history_db.cpp:write_lock::clear", "clink/lib/src/history_db.cpp:read_lock::for_each_removal"]}
{"id": "C14", "title": "A time stamp belongs to its own entry", "statement": "Reading never reports for an entry a time stamp that was written for a different entry, whatever entries have been removed (expected to be refuted for deferred removals: the time stamp of a removed line is reported for the following line that has none).", "quantifier": "every bank content and every set of removals", "why_tests_cant": "Universal over contents and removals.", "anchors": ["clink/lib/src/history_db.cpp:read_lock::line_iter::next"]}
{"id": "C15", "title": "The history limit is enforced on load", "statement": "After load_rl_history the number of visible master entries is at most the configured maximum, the entries dropped are precisely the oldest ones, and session entries are untouched.", "quantifier": "every master/session content, every limit", "why_tests_cant": "Universal in the content.", "anchors": ["clink/lib/src/history_db.cpp:history_db::load_rl_history", "clink/lib/src/history_db.cpp:history_db::compact", "clink/lib/src/history_db.cpp:get_max_history"]}
{"id": "C16", "title": "History indices address the displayed entries", "statement": "After loading, for any sequence of remove-by-index calls mirrored on the displayed list, each call removes from the banks precisely the entry displayed at that index (master entries first, then session entries), and the index map stays sorted within each bank.", "quantifier": "every loaded state and every sequence of removals by index", "why_tests_cant": "Invariant over unbounded operation sequences; binary search over mixed-bank ids.", "anchors": ["clink/lib/src/history_db.cpp:history_db::load_internal", "clink/lib/src/history_db.cpp:history_db::remove_internal", "clink/lib/src/history_db.cpp:history_db::remove(int32"]}
{"id": "C17", "title": "History locking cannot deadlock", "statement": "No interleaving of any number of sessions performing history operations (add, remove, find, load, clear, compact, reap) reaches a state in which unfinished operations exist but none can proceed, provided a process does not nest operations.", "quantifier": "every number of processes, every schedule, every operation sequence per process", "why_tests_cant": "Quantifies over schedules; deadlocks are invisible to single-process tests.", "anchors": ["clink/lib/src/history_db.cpp:bank_lock::bank_lock", "clink/lib/src/history_db.cpp:history_db::reap", "clink/lib/src/history_db.cpp:history_db::compact", "clink/lib/src/history_db.cpp:history_db::for_each_bank"]}
{"id": "C18", "title": "History ids are faithful", "statement": "Packing a file offset and bank into a line id and unpacking it gives back the same offset and bank for all offsets below the maximum; distinct entries get distinct nonzero ids, and within a bank ids grow with file position.", "quantifier": "every offset below 2^29-1 and every bank", "why_tests_cant": "2^31 ids.", "anchors": ["clink/lib/src/history_db.cpp:line_id_impl"]}
{"id": "C19", "title": "Session start does not race with compaction", "statement": "A session that starts with dupe_mode=erase_prev has its removals honoured whatever other sessions do concurrently (expected to be refuted: between reading the master tag and creating the removals file another session may compact, leaving a removals file with a stale tag that is silently ignored).", "quantifier": "every interleaving of session start with other sessions' operations", "why_tests_cant": "Quantifies over schedules.", "anchors": ["clink/lib/src/history_db.cpp:history_db::initialise", "clink/lib/src/history_db.cpp:make_removals_file"]}
{"id": "C20", "title": "UTF-8 to UTF-16 conversion round trips", "statement": "Converting any sequence of nonzero Unicode scalar values encoded as UTF-8 to UTF-16 and back yields the same bytes, and UTF-16 to UTF-8 and back yields the same code units, whenever the target buffers are large enough.", "quantifier": "every list of nonzero scalar values", "why_tests_cant": "All strings.", "anchors": ["clink/core/src/str_convert.cpp:to_utf8", "clink/core/src/str_convert.cpp:to_utf16", "clink/core/src/str_iter.cpp:str_iter_impl<char>::next", "clink/core/src/str_iter.cpp:str_iter_impl<wchar_t>::next"]}
{"id": "C21", "title": "Decoding is total, advances and stays in bounds", "statement": "For every byte string (UTF-8) and every code unit string (UTF-16), decoding terminates, never reads past the end or the NUL, never returns a surrogate from UTF-16 input, and each returned character consumes at least one unit.", "quantifier": "every byte string, every 16-bit string", "why_tests_cant": "All malformed inputs.", "anchors": ["clink/core/src/str_iter.cpp:str_iter_impl<char>::next", "clink/core/src/str_iter.cpp:str_iter_impl<wchar_t>::next"]}
{"id": "C22", "title": "Conversions never overflow the target and stay NUL terminated", "statement": "Converting into a fixed-size target writes at most the target's size including the terminator, always NUL terminates, and what is written is a prefix of the full conversion; the return value is the number of units written.", "quantifier": "every input, every target size", "why_tests_cant": "All sizes and inputs.", "anchors": ["clink/core/src/str_convert.cpp:builder", "clink/core/src/str_convert.cpp:to_utf8", "clink/core/src/str_convert.cpp:to_utf16"]}
{"id": "C23", "title": "String buffers are always NUL terminated within their capacity", "statement": "After any sequence of string operations (copy, concat, truncate, trim, clear, format-append, write through c_str with length invalidation) on a fixed or growable buffer, the contents are a NUL terminated string whose length is less than the capacity, and every concat on a fixed buffer yields the old contents followed by a prefix of the argument, complete iff it returns true.", "quantifier": "every operation sequence, every capacity, every argument", "why_tests_cant": "Unbounded histories of operations.", "anchors": ["clink/core/include/core/str.h:str_impl::concat", "clink/core/include/core/str.h:str_impl::reserve", "clink/core/include/core/str.h:str_impl::truncate", "clink/core/include/core/str.h:str_impl::trim"]}
{"id": "C24", "title": "Tokenising partitions the input", "statement": "Splitting a string with the tokeniser returns, in order, disjoint nonempty spans; every character outside the spans is an unquoted delimiter, no unquoted delimiter lies inside a span, and reported delimiter characters are the delimiter immediately before the token. The quote pairs in force are the first four given, in order; an empty or a fifth one is refused.", "quantifier": "every string, every set of delimiters, every set of quote pairs", "why_tests_cant": "All strings and delimiter sets.", "anchors": ["clink/core/src/str_tokeniser.cpp:next_impl", "clink/core/include/core/str_tokeniser.h"]}
{"id": "C25", "title": "String comparison computes the longest common prefix", "statement": "Comparing two strings returns -1 exactly when they are equal under the active mode (exact, caseless, relaxed), and otherwise the byte length of the longest prefix on which they agree character by character; equality is reflexive, symmetric and, for exact mode, transitive. With fuzzy accents an accented letter counts as an ASCII letter, and the two cases of one accented letter as the two cases of one letter.", "quantifier": "every pair of strings, each comparison mode", "why_tests_cant": "All pairs.", "anchors": ["clink/core/include/core/str_compare.h:str_compare_impl"]}
{"id": "C26", "title": "Glob matching agrees with the declarative meaning of the pattern", "statement": "A pattern of literals, '?' and '*' matches a name exactly when the name can be obtained by substituting one character for each '?' and any string for each '*' (expected to need restrictions and refutations: more than ten '*' make the match fail, '?' also matches a missing trailing character).", "quantifier": "every pattern, every name", "why_tests_cant": "All pattern/name pairs; bounded backtracking.", "anchors": ["clink/core/include/core/match_wild.h:match_wild"]}
{"id": "C27", "title": "wildmatch agrees with the gitignore-style pattern meaning", "statement": "Under every combination of flags the wildmatch engine gives an answer for every pattern and name, and accepts a name exactly when the declarative semantics of literals, escapes, '?', '*', bracket sets (with ranges, classes, negation) and a final '/**' accepts it, whatever the bytes before the pattern and behind the name; with '**/' no name that should match is missed, and '**/' at the beginning alone (without the period flag) is exact. (Exactness for all patterns is false: '**/' inside a pattern may step back over directories matched before it, '[ABC]' matches nothing when case is folded, hidden names match behind a star despite the period flag, '**' reads the byte before the pattern, a backslash at the end reads behind the name, an open bracket skips a character, 'a**b' never matches under wildstar.)", "quantifier": "every pattern and every path", "why_tests_cant": "All pattern/path pairs.", "anchors": ["wildmatch/wildmatch/wildmatch.c:wildmatch", "wildmatch/wildmatch/wildmatch.c:rangematch"]}
{"id": "C28", "title": "Path normalisation: normal form, idempotence, in-place safety", "statement": "Normalising a path keeps its drive and folds the elements after it one by one: '.' is dropped, '..' takes back the element before. The result has no '.' and no empty element, uses only the separator asked for, has no '..' under a root, is never longer than the input, and no byte is overwritten before it was read. Normalising again changes nothing for every rooted path whose drive is recognised again (always so for /... and C:/...), and for every relative path without names beginning with a dot. (Idempotence for all paths is false: a name that begins with a dot is not counted, so a/.git/../.. becomes a\\.. and then the empty path.)", "quantifier": "every path string", "why_tests_cant": "All strings.", "anchors": ["clink/core/src/path.cpp:normalise", "clink/core/src/path.cpp:normalise_separators"]}
{"id": "C29", "title": "Directory and name recompose to the path", "statement": "For every path, the directory part followed by (at most one separator and) the name part gives back the path up to repeated separators; the name contains no separator; the extension is a suffix of the name and begins with '.'; appending a relative element to a directory and then taking the name gives back that element.", "quantifier": "every path string", "why_tests_cant": "All strings.", "anchors": ["clink/core/src/path.cpp:get_directory", "clink/core/src/path.cpp:get_name", "clink/core/src/path.cpp:get_extension", "clink/core/src/path.cpp:append"]}
{"id": "C30", "title": "Repeatedly going to the parent terminates at the root", "statement": "to_parent never lengthens a path, strictly shortens it or reports no change, never removes the root (drive, UNC server/share), and the removed child is the last element.", "quantifier": "every path string", "why_tests_cant": "All strings; termination of loops over to_parent.", "anchors": ["clink/core/src/path.cpp:to_parent"]}
{"id": "C31", "title": "The linear allocator hands out disjoint in-bounds blocks and frees each page once", "statement": "For any sequence of allocations, stores, clears, moves and destructions the live blocks are pairwise disjoint, lie inside memory obtained from malloc and not yet freed, do not overlap page headers, and every malloc'd page is freed exactly once.", "quantifier": "every operation sequence, every page size, every malloc failure pattern", "why_tests_cant": "Unbounded sequences, failure injection.", "anchors": ["clink/core/src/linear_allocator.cpp", "clink/core/include/core/linear_allocator.h"]}
{"id": "C32", "title": "Setting values survive save and load", "statement": "The text a bool, integer, enum, string or color value is saved as parses to that value; after loading any settings file and any setting, clearing, declaring, removing and saving, the settings can be saved, and loading that file in another session that declares the same settings gives every setting its value and saved-or-not state; setting one setting in the file from within a session leaves the session's own non-color values and entries of undeclared settings as they are and changes only that setting in the file. (Refuted: strings starting with a blank or with line breaks; enum options that are numbers; a color set only in the session is lost when another setting is changed in the file.)", "quantifier": "every registry of settings, every settings file and custom defaults file, every sequence of operations; enum comparison an arbitrary function for which options are distinguishable", "why_tests_cant": "All values, all combinations of settings, all histories of operations.", "anchors": ["clink/core/src/settings.cpp:save_internal", "clink/core/src/settings.cpp:load_internal", "clink/core/src/settings.cpp:sandboxed_set_setting", "clink/core/include/core/settings.h:setting_impl"]}
{"id": "C33", "title": "Color names and escape codes convert consistently", "statement": "Exactly the texts of known words (bold, bright, underline, default, normal, on, the color names by their first three letters, #rgb, #rrggbb) in an order that makes sense are accepted as words, and what each says is unique; a color given in words is turned into a code that makes a terminal show exactly what the words say; the descriptive text made from the code of any color given in words (in the compatible or the RGB form) is read back as the very same code; the text made from any numeric code without omitted numbers (below 2^31) is read back as a code that shows the same; and the text names the attributes and colors of the code. (Refuted: a code with an omitted number, e.g. 0;4;;31, is changed into one that shows something else; 'bright' alone is the default foreground but 'bright on red' has foreground 37.)", "quantifier": "every color text, every code, both forms", "why_tests_cant": "All color texts and codes.", "anchors": ["clink/core/src/settings.cpp:parse_color", "clink/core/src/settings.cpp:format_color"]}
{"id": "C34", "title": "Unrelated settings in the file are preserved", "statement": "An assignment in the settings file to a setting that is not declared in the session (e.g. by a script not loaded), together with the comment lines before it, is in the file saved after loading, provided it is the first of its name; for a declared setting the last assignment that parses wins. (Refuted: for undeclared settings the first assignment is kept although the last would be used; changing an undeclared setting that is in the file reports success but leaves the file as it was; the entry of a setting that was declared, saved and removed is dropped at the next save; an entry whose name differs in letter case from a setting declared later overrides the value saved.)", "quantifier": "every settings file, every registry of settings", "why_tests_cant": "All files.", "anchors": ["clink/core/src/settings.cpp:set_setting", "clink/core/src/settings.cpp:load_internal", "clink/core/src/settings.cpp:save_internal"]}
{"id": "C35", "title": "Key bindings resolve to what was bound", "statement": "After any sequence of group creations and bind calls (chords without numeric parameters, of at most 15 keys, none of them NUL), successful or not, the keys typed in a group are resolved as soon as no bound chord goes on and not before, and the bindings found are exactly those of the chords the keys begin with - the longest chord first, several bindings of one chord in the order bound - with the module and id given at bind time; binding a chord changes nothing for keys that do not begin with it, and no uninitialised slot is ever read. (Refuted: a chord of 16 keys can be bound but is never found; binding the empty chord twice in a group reads before the chord; a group looked up by name can be another group with the same hash; chords over 63 keys are silently cut.)", "quantifier": "every sequence of group creations and bind calls, every group, every sequence of keys typed", "why_tests_cant": "Trie packed in a bounded array with bit-field links; all binding sequences.", "anchors": ["clink/lib/src/binder.cpp:bind", "clink/lib/src/binder.cpp:find_child", "clink/lib/src/binder.cpp:add_child", "clink/lib/src/bind_resolver.cpp"]}
{"id": "C36", "title": "Key resolution consumes keys exactly once and in order", "statement": "Whatever the modules answer when a binding is offered to them (pass or claim, with or without switching the group), what is offered next is what the bindings say for the keys not yet claimed: passing goes on to the next candidate, claiming consumes exactly the chord's keys and resolves the rest as if freshly typed; the chords claimed are consecutive pieces of what was typed, from the first key on, and when nothing is found the resolver is as new. Holds for chords without numeric parameters and up to 15 typed keys. (Refuted beyond that: when a seventeenth key is needed all keys are dropped, though single keys were bound; after a parameter of two or more digits a failed match hides shorter bound chords, makes a catch-all binding take several keys, and reads past the keys typed.)", "quantifier": "every set of bindings, every sequence of keys, every sequence of answers", "why_tests_cant": "Unbounded input streams.", "anchors": ["clink/lib/src/bind_resolver.cpp:step_impl", "clink/lib/src/bind_resolver.cpp:next", "clink/lib/src/bind_resolver.cpp:claim", "clink/lib/src/line_editor_impl.cpp:update_input"]}
{"id": "C37", "title": "Key parameters are stored faithfully", "statement": "Numeric parameters collected while matching a key sequence are returned in the order given, at most four are kept and later ones are refused, asking beyond them reports absence, and the reported length is the number of digits of the kept parameters less one placeholder key each (that it covers all parameters when there are more than four is refuted).", "quantifier": "every sequence of parameters", "why_tests_cant": "All sequences.", "anchors": ["clink/lib/src/input_params.cpp"]}
{"id": "C38", "title": "Doskey alias expansion substitutes arguments exactly", "statement": "Expanding a macro replaces $1..$9 by the corresponding argument (empty if absent), $* by everything from the first argument to the command's end, $B/$L/$G/$T/$$ by | < > line break and $, and copies every other character. With doskey.enhanced each command of the line (ended by | or & outside quotes, not after ^, and not >&) is dealt with on its own, opening parentheses before a macro name are kept, everything that calls no macro is unchanged, and a macro whose text has an argument tag in quotes takes the rest of the line; without it only the whole line can be a macro call. Every line has exactly one such reading, for macro names without | & ^ > \" and not beginning with (. Expansion always ends. (Refuted: that parentheses stay balanced - those closed after the arguments are dropped unless $* keeps them.)", "quantifier": "every macro table, macro text and command line", "why_tests_cant": "All macro texts and command lines; separators, quotes, escapes, parentheses and several macros interact.", "anchors": ["clink/lib/src/doskey.cpp:doskey::resolve_impl", "clink/lib/src/doskey.cpp:doskey::resolve", "clink/lib/src/doskey.cpp:get_alias", "clink/lib/src/doskey.cpp:find_command_end", "clink/lib/src/cmd_tokenisers.cpp:skip_leading_parens", "clink/lib/src/cmd_tokenisers.cpp:trim_trailing_parens"]}
{"id": "C39", "title": "Command and word tokenising covers the line and splits at the right places", "statement": "Splitting a command line into commands always ends and yields spans that are within the line, ordered, non-overlapping, with only blanks, @, parentheses and separators outside of them. For ASCII macro names: between commands there is exactly one of & && | ||, outside double quotes and not after ^, and not the & of a numbered redirection such as 2>&1; conversely a separator outside quotes and not after ^ is inside a command only if no command text precedes it, it is such an &, or the command is rem; parentheses around a command are left out, closing ones only as far as they were opened. rem as the first word takes the whole rest of the line. Splitting into words always ends; words are ordered and disjoint, between them are only delimiters and redirections, a word has no blank outside quotes, never ends inside quotes or right after ^, and a word marked as a redirection's argument follows a redirection sign. A command word of letters ends at a slash behind it, also when a redirection precedes it, while an argument does not. Refuted: the same for macro names that are not ASCII, that only rem is taken for rem (r^xem is), and that an & after a redirection's argument ends the command whatever the argument's length.", "quantifier": "every command line, every macro table", "why_tests_cant": "All strings; quotes, escapes, redirections, parentheses, rem and macro names interact.", "anchors": ["clink/lib/src/cmd_tokenisers.cpp:cmd_command_tokeniser::next", "clink/lib/src/cmd_tokenisers.cpp:cmd_word_tokeniser::next", "clink/lib/src/cmd_tokenisers.cpp:cmd_state::test"]}
{"id": "C40", "title": "Queued input lines come out in order and complete", "statement": "For any interleaving of enqueue-front, enqueue-back, dequeue-line and dequeue-char, what is dequeued is what a plain list of texts would give: no character is lost, duplicated or reordered (line ends at the end of a line become one CR LF), and alias expansions are delivered before later queued lines. That the parts of an alias expansion stay separate commands, and that a non-empty queue always yields a character, are refuted.", "quantifier": "every interleaving of queue operations, all contents", "why_tests_cant": "Unbounded histories.", "anchors": ["clink/lib/src/line_queue.cpp"]}
{"id": "C41", "title": "Terminal output is taken apart by the ECMA-48 grammar", "statement": "Iterating over well formed terminal output (text runs, C0 and C1 controls, ESC Fs, CSI sequences, DCS/OSC/PM/APC strings with OSC nested to any depth, SOS strings) yields exactly one code per text run and control function, of the right type and value, with exactly its bytes, and leaves the state ready for more. On any byte string at all iteration ends, and the codes are in-order disjoint pieces of the input; the only bytes not reported are pieces that begin with a control introducer (ESC or C1) and are not completed, and what follows a NUL. Text without introducers and NULs is reported whole. Not guaranteed (refuted): that no byte is lost, that a code's type depends only on its own text (ESC ( B at the end takes the previous code's type), that text of 65536 bytes or more is reported.", "quantifier": "every well formed token sequence; every byte string below 64 KiB (termination: every byte string)", "why_tests_cant": "All byte strings; unbounded nesting and lengths.", "anchors": ["clink/terminal/src/ecma48_iter.cpp:ecma48_iter::next", "clink/terminal/src/ecma48_iter.cpp:ecma48_iter::next_cmd_str"]}
{"id": "C42", "title": "Terminal output parsing does not depend on how output is chunked", "statement": "Writing well formed output without nested control strings in any number of pieces cut between characters, with one persistent state and a new iterator per write, yields the same codes as writing it at once, up to text runs being split. Not guaranteed (refuted): nested OSC strings cut inside (nesting depth is not kept between writes), and cuts inside a UTF-8 character.", "quantifier": "every well formed token sequence, every way to cut it", "why_tests_cant": "All split points of all strings, any number of pieces.", "anchors": ["clink/terminal/src/ecma48_iter.cpp:ecma48_iter::next", "clink/terminal/src/ecma48_iter.cpp:ecma48_state", "clink/terminal/src/ecma48_terminal_out.cpp:write"]}
{"id": "C43", "title": "Attribute diff and merge are consistent", "statement": "In a merge of two attribute sets, an attribute set in the second wins and the others keep the first one's value; merging is associative and the empty set is its identity. The difference holds exactly the attributes whose new value differs, whatever the uninitialised bits are; merging it onto the first gives the second when both define every attribute. Two sets are equal exactly when no attribute set in both differs. An explicit color never reads as the default color. A 24 bit color keeps the top five bits of each part and reading it back stands for the same color.", "quantifier": "every pair/triple of attribute values", "why_tests_cant": "Very large product domain.", "anchors": ["clink/terminal/src/attributes.cpp:merge", "clink/terminal/src/attributes.cpp:diff"]}
{"id": "C44", "title": "Ellipsified text fits", "statement": "Truncating any text to a number of cells, in any mode and with any ellipsis, returns a width within the limit, and returns the text unchanged exactly when it fits. For well formed text and the standard ellipsis (one cell), the result is the longest beginning that leaves room for it (or, truncating from the left, all escape codes of the dropped part, the ellipsis, and the longest end; for paths the drive followed by that), cut between display characters, and its measured width is the width returned.", "quantifier": "every text, every limit (at least one cell), every width function", "why_tests_cant": "All texts with escape codes, wide characters and emoji sequences, at all limits.", "anchors": ["clink/lib/src/ellipsify.cpp:ellipsify", "clink/lib/src/ellipsify.cpp:ellipsify_ex", "clink/terminal/src/ecma48_iter.cpp:cell_count"]}
{"id": "C45", "title": "Match columns fit the terminal width", "statement": "For matches and screens well below 65536 cells a layout is always found; every match has exactly the place at which it is shown, and its column is wide enough for it and its description. With several columns, all columns and the blanks between them leave at least one cell of the screen free, and so does every printed row (unless some description holds three blanks: then the row is padded past the screen). When as many columns as possible are asked for, no layout with more columns (up to 50) needs less than the screen, and each of several columns is exactly as wide as needed. A row with one column stays within the screen unless it is a single match that is too wide.", "quantifier": "every list of match and description widths, every screen width, both directions", "why_tests_cant": "All lists of widths.", "anchors": ["clink/lib/src/column_widths.cpp:calculate_columns", "clink/lib/src/column_widths.cpp:init_column_info", "clink/lib/src/display_matches.cpp:display_match_list_internal"]}
{"id": "C46", "title": "Word coloring is applied to the classified positions only", "statement": "Whatever was colored before, each character of a finished line looks as the last overwriting color applied to it says, or else the first applied color; else likewise for word classes; else it is plain; nothing outside the line is touched. A color keeps its face until colors are dropped, and two colors share a face exactly if they differ at most in letter case. Only a 101st color is ignored. Lines that compare equal look the same. (A negative length colors to the end of the line; after an empty color code the next color may read freed memory.)", "quantifier": "every line length, every history of earlier lines, every sequence of classifications and colors", "why_tests_cant": "Unbounded sequences.", "anchors": ["clink/lib/src/word_classifications.cpp", "clink/lua/src/lua_word_classifications.cpp:apply_color", "clink/lua/src/lua_word_classifications.cpp:classify_word"]}
{"id": "C47", "title": "The scroll car stays inside the scroll bar", "statement": "For every visible window position the car lies entirely within the bar, its size is at least one cell, it is at the top for the first position and at the bottom for the last, and moves monotonically; each cell is drawn full, half or empty exactly as its halves belong to the car; the row clicked on maps monotonically from the first item to the last.", "quantifier": "every bar size, total and position", "why_tests_cant": "All integer triples.", "anchors": ["clink/lib/src/scroll_car.cpp"]}
{"id": "C48", "title": "Wakeup filtering only removes the selected control characters", "statement": "Stripping wakeup characters removes from the line precisely the control characters selected by the mask up to the first NUL, keeping all other characters in order.", "quantifier": "every line and mask", "why_tests_cant": "All strings and masks.", "anchors": ["clink/lib/src/wakeup_chars.cpp"]}
{"id": "C49", "title": "Packed matches unpack to what was packed", "statement": "Packing a match with its type, display, description, append char and flags writes exactly the calculated size, and unpacking gives back the same match and the same fields (with CR/LF/TAB shown as spaces in each text), if match and display together have less than 64 KB. After any sequence of creating and destroying lookaside tables and of setting and clearing the one-off match, looking up a match gives what was packed exactly if a table for it still exists, and nothing else. (A match of 65531 bytes is displayed as itself; the one-off match is described by its own text; line breaks and tabs in the inserted match become spaces too.)", "quantifier": "every match record, every sequence of table operations", "why_tests_cant": "All strings; offsets stored in 16 bits.", "anchors": ["clink/lib/src/matches_lookaside.cpp:pack_match", "clink/lib/src/matches_lookaside.cpp:match_details"]}
{"id": "C50", "title": "The background recognizer never deadlocks, never loses the newest request and never returns a result for another word", "statement": "For every interleaving of the editor thread and the worker thread: a result found for a word is that of a search made after that word was enqueued; the newest enqueued word gets its result within a bounded number of worker steps; when the worker waits nothing is queued or pending; wait_while_busy and shutdown end, and after enqueue and wait_while_busy the word has its result; a new result is announced to the editor. Results found after clear() come from searches made since, if the worker was idle at clear(). (A search running at clear() is later taken for fresh; a word dropped for a newer one is not announced.)", "quantifier": "every schedule of the two threads, every sequence of operations, every outcome of searches", "why_tests_cant": "Quantifies over thread interleavings.", "anchors": ["clink/lib/src/recognizer.cpp:recognizer::enqueue", "clink/lib/src/recognizer.cpp:recognizer::proc", "clink/lib/src/recognizer.cpp:recognizer::find", "clink/lib/src/recognizer.cpp:recognizer::clear", "clink/lib/src/recognizer.cpp:recognizer::shutdown", "clink/lib/src/recognizer.cpp:recognizer::wait_while_busy"]}
{"id": "C51", "title": "Wrapped text fits the wrap width and loses no words", "statement": "Wrapping plain text (no control functions) to a width that every display character fits ends, and yields the display characters in order in lines each at most that wide. Only spaces are left out, between lines; a line is broken where the next word would not fit, and within a word only when the line holds nothing but that word. (A character wider than the width makes the loop run for ever; with control functions in the text, some get lost, cut or repeated.)", "quantifier": "every plain text, width, width function, with and without color emoji", "why_tests_cant": "All texts and widths; the state of the line breaker depends on everything since the last break.", "anchors": ["clink/terminal/src/ecma48_wrapper.cpp:ecma48_wrapper::ecma48_wrapper", "clink/terminal/src/ecma48_wrapper.cpp:ecma48_wrapper::next"]}
{"id": "C52", "title": "Display character iteration partitions the text", "statement": "Iterating display characters over any bytes ends and yields adjacent nonempty spans covering the text up to the first place where no character can be read. On Unicode text the characters are the ones a small grammar determines (control characters alone, flags, emoji with variation selectors and joiners, zero width continuations), starting over at any character yields the rest, unnext yields the same character again, more() is true exactly when there is another one, and the width of a text is the sum of the widths of its parts, cut after any character. (Cut inside an emoji sequence it is not.)", "quantifier": "every text, every width function, with and without color emoji", "why_tests_cant": "All texts; the iterator keeps a decoded character in hand, so errors depend on where it was reset.", "anchors": ["clink/terminal/src/wcwidth_iter.cpp:wcwidth_iter::next", "clink/terminal/src/wcwidth_iter.cpp:consume_emoji_sequence", "clink/terminal/src/wcwidth_iter.cpp:clink_wcswidth"]}
{"id": "C53", "title": "cd shortcuts are recognised exactly", "statement": "For any line, mode, environment, file system and current directory: the line asks for the previous directory exactly when it is '-', 'cd -', 'chdir -' or these with '/d' (blanks and letter case aside; a bare '-' not in the cd-only mode, and there only if the command has no alias); otherwise it changes directory exactly when it is one token without redirection, plain special characters or a leading command name, which after removing quotes and carets and expanding environment variables is two or more dots, or is an existing directory written with a separator at its end (or '~', or '..\\..'). The command then changes the drive if it differs from the current one and names the directory in quotes with backslashes. Every other line is refused. An answer always exists for texts below 2 GB, and a command holds no further quote. Refuted: an escaped caret is kept.", "quantifier": "every input line, environment, set of directories and mode", "why_tests_cant": "All lines: quotes, carets, blanks and percent signs interact anywhere in the line, and the answer depends on environment and file system.", "anchors": ["clink/lib/src/intercept.cpp:parse_line_token", "clink/lib/src/intercept.cpp:is_cd_dash", "clink/lib/src/intercept.cpp:intercept_directory", "clink/lib/src/intercept.cpp:make_cd_command", "clink/core/src/os.cpp:expand_env"]}
{"id": "C54", "title": "History expansion is suppressed inside the selected quotes only", "statement": "For each expand_mode, history expansion at a position is inhibited exactly when that position is inside a quoted region of the selected kind, provided no quoted region before it holds a quote of the other kind. In general it is inhibited exactly when the quotes before the position end with an odd number of quotes of a selected kind (so an apostrophe within double quotes ends them).", "quantifier": "every line, every position, every mode", "why_tests_cant": "All lines and positions; quote state depends on all of the text before the position.", "anchors": ["clink/lib/src/history_db.cpp:history_expand_control"]}
{"id": "C55", "title": "Alias cache is transparent", "statement": "Looking up an alias through the cache (with an empty result string, as all callers do) returns what an uncached lookup of that name returned when first asked since the last clear; with a non-empty result string this is refuted.", "quantifier": "every sequence of lookups and clears", "why_tests_cant": "Unbounded histories.", "anchors": ["clink/lib/src/alias_cache.cpp"]}
{"id": "C56", "title": "A new session starts without pending removals", "statement": "A session that has just been started sees every entry of the master history, and reaping it without further activity removes nothing from the master (expected to be refuted when the process id of a crashed session is reused: its removals file gets a new tag line but keeps its old offsets).", "quantifier": "every reachable state of any number of sessions", "why_tests_cant": "Needs process id reuse and an unreaped crash.", "anchors": ["clink/lib/src/history_db.cpp:make_removals_file", "clink/lib/src/history_db.cpp:history_db::initialise"]}
{"id": "C57", "title": "Character counts are right", "statement": "char_count of a NUL terminated text that is the standard UTF-8 (or UTF-16) encoding of n nonzero Unicode scalar values is n.", "quantifier": "every text", "why_tests_cant": "Unbounded texts over all code points.", "anchors": ["clink/core/src/str.cpp:char_count"]}
{"id": "C58", "title": "Every string buffer is owned once and freed once", "statement": "Across any program of string constructions, operations, moves between strings, detach, attach and destructions, every allocated heap block belongs to exactly one live string or one caller that detached it; no operation frees a block twice or reads or writes outside a buffer; when everything is destroyed nothing stays allocated; moving a string transfers its contents and leaves the source empty.", "quantifier": "every number of strings, every capacity, every sequence of operations", "why_tests_cant": "Ownership errors appear only for particular sequences of growth, move and detach, and show up as undefined behaviour rather than as a failing assertion.", "anchors": ["clink/core/include/core/str.h:str_impl::attach", "clink/core/include/core/str.h:str_impl::free_data", "clink/core/include/core/str.h:str::operator=", "clink/core/src/str.cpp:str_moveable::operator=", "clink/core/src/str.cpp:str_moveable::detach"]}
{"id": "C59", "title": "SGR and CSI parameters mean what the standard says", "statement": "Any SGR parameter list is processed without reading a parameter that is not there. A list of well formed commands (reset, bold, faint, underline, reverse, 16 color, 256 color, 24 bit color, default color, unknown numbers) leaves exactly the attributes those commands ask for. Decoding a CSI code yields its private marker, each decimal parameter (0 when omitted), its intermediate and its final character, up to the capacity, for numbers below 2^31.", "quantifier": "every parameter list; every CSI text of the grammar", "why_tests_cant": "All parameter lists of all lengths and truncated forms.", "anchors": ["clink/terminal/src/ecma48_terminal_out.cpp:set_attributes", "clink/terminal/src/ecma48_iter.cpp:ecma48_code::decode_csi"]}
{"id": "C60", "title": "Text is printed with the attributes asked for", "statement": "Over any sequence of attribute changes and prints through a printer, every piece of text reaches the terminal while the terminal shows the foreground, background, bold and underline asked for, when colors are default or of the 16 color palette and bold or underline are not asked for together with two default colors.", "quantifier": "every sequence of operations", "why_tests_cant": "The output depends on the whole history of attribute changes (only differences are written).", "anchors": ["clink/terminal/src/printer.cpp:printer::print", "clink/terminal/src/printer.cpp:printer::flush_attributes"]}
{"id": "C61", "title": "Character widths follow the tables", "statement": "The width of a character is found by table searches that never read outside a table and answer membership exactly; the width is negative for control characters, 2 for emoji (when enabled) and East Asian wide characters, 1 otherwise, and the configured width for combining marks.", "quantifier": "every 32 bit character, every table", "why_tests_cant": "A binary search is wrong only for particular positions; all characters must be covered.", "anchors": ["clink/terminal/src/wcwidth.cpp:bisearch", "clink/terminal/src/wcwidth.cpp:mk_wcwidth", "clink/terminal/src/wcwidth.cpp:is_emoji"]}
{"id": "C62", "title": "'cd -' goes back to the last different directory", "statement": "With directories.dupe_mode 'add' the directory history is the last 100 arrivals (prompts in a directory other than that of the prompt before); with 'erase_prev' it is the last 100 distinct directories in order of their last prompt. Whatever the setting at each prompt, as long as no entry was deleted by hand, '-' changes to the most recent directory that differs from the current one (letter case aside), does nothing if there is none, and used repeatedly goes to and fro. Deleting an entry deletes exactly that one. With deletions: at most 100 entries, all of them seen; that '-' leaves the current directory is refuted.", "quantifier": "every sequence of prompts, settings and deletions", "why_tests_cant": "The history depends on all prompts so far; errors need long sequences with repeats and changes of settings.", "anchors": ["clink/app/src/host/host.cpp:update_dir_history", "clink/app/src/host/host.cpp:prev_dir_history", "clink/app/src/host/host.cpp:host_remove_dir_history"]}
{"id": "C63", "title": "The match list holds the first match of each sort", "statement": "Whatever matches the generators offer, the list holds, in the order offered, the first of each sort: two are of one sort if they have the same text and the same type, or the same text and one is from the history. Empty ones are dropped; a match of no type that ends with a separator becomes a directory; directories get a separator at their end (except a bare drive); only directories, files and file names from the history have their separators translated, all of them and to the configured one; everything else stays as offered. When building ends, matches of no type get the type the file system gives them, new duplicates go and nothing else does. Refuted: the count follows when a duplicate goes (a read beyond the end follows); directories found this way always get a separator; the result does not depend on the order of offers.", "quantifier": "every sequence of fewer than 65536 matches, every type, setting and file system", "why_tests_cant": "Duplicates arise through translation, retyping and history in combination; tests fix a few.", "anchors": ["clink/lib/src/matches_impl.cpp:matches_impl::add_match", "clink/lib/src/matches_impl.cpp:matches_impl::done_building", "clink/lib/src/slash_translation.cpp:do_slash_translation"]}
{"id": "C64", "title": "Selecting shows exactly the matches asked for", "statement": "However select, restrict and sort follow each other: after selecting exactly those matches are shown that the needle asks for (by prefix or pattern, hidden and system files as configured), or, if there are none and it is enabled and possible, those of the substring pattern; no match is lost, so a later selection sees all of them; after restricting only those kept remain. Every index below the count can be read and gives a match shown. Refuted: the same for 65536 matches (none is shown).", "quantifier": "every sequence of operations on every list of fewer than 65536 matches, every comparison and pattern matcher", "why_tests_cant": "The list is rearranged in place by swapping; that nothing is lost or shown twice over any sequence cannot be sampled.", "anchors": ["clink/lib/src/match_pipeline.cpp:match_pipeline::select", "clink/lib/src/match_pipeline.cpp:match_pipeline::restrict", "clink/lib/src/matches_impl.cpp:matches_impl::coalesce", "clink/lib/src/matches_impl.cpp:can_try_substring_pattern"]}
{"id": "C65", "title": "Sorted matches come in the configured order", "statement": "After sorting, directories come first, last or mixed as configured, within that fewer leading minus signs come first, then the order is that of the locale's comparison ignoring case, then regarding case, then by type. The comparison handed to std::sort is a strict weak order (so sorting is defined) whenever the locale's is. With sorting turned off by a generator the matches come in the order offered, whatever was selected or restricted before. Refuted: the order of types is the one the comment gives.", "quantifier": "every list, every setting, every locale comparison that is a preorder", "why_tests_cant": "std::sort with an inconsistent comparison is undefined behaviour that shows only on particular lists.", "anchors": ["clink/lib/src/match_pipeline.cpp:sort_worker", "clink/lib/src/match_pipeline.cpp:match_pipeline::sort", "clink/lib/src/match_pipeline.cpp:is_dir_match"]}
{"id": "C66", "title": "Every word of the line is collected, in its command, and the last one is the one being typed", "statement": "Collecting words for any line and cursor never runs off the line. The commands found come in order, separated from each other by an operator; the words come in order, each lies in its command, the first of a command (and no other) is its command word, and it is marked as a macro exactly when it is one where macros count. Everything of the line that is in no word is blank, an operator, a redirection sign, a delimiter or a quote taken away. A quote before a word is taken away, the one at its end exactly when it closes. Up to the cursor the last word ends at the cursor or at the quote that closes it there. The command offset is that of the last command that begins at or before the cursor. Refuted: words never overlap (a plus sign at the beginning of an argument).", "quantifier": "every line, cursor position, collecting mode, macro table, set of deprecated argument matchers", "why_tests_cant": "Lines, cursors, modes and macro tables combine without bound; a test fixes the words of a few lines, none shows that nothing of a line is lost or read beyond it.", "anchors": ["clink/lib/src/word_collector.cpp:word_collector::collect_words", "clink/lib/src/word_collector.cpp:word_collector::find_command_bounds", "clink/lib/src/word_collector.cpp:word_collector::is_alias_allowed"]}
{"id": "C67", "title": "Every word is handed on in the state of its command", "statement": "The line states made from the words of a line together hold every word, in order and unchanged; each state belongs to one of the commands found, the states' commands come in order without touching, and a state's words lie in its command except for an empty word at the cursor. The first word of a state, and no other, is its command word, at the command offset or behind one space there. At most one word of a state is marked as built in: the first that is not a redirection's, and exactly when it is neither quoted nor a macro and names a command of the shell. Breaking the last word loses nothing before it and splits its text; for hints the last word ends at the cursor and the earlier ones are as they were. Refuted: there is a command for every state; for the line () the search for it runs past the last command.", "quantifier": "every line, cursor, mode, macro table; for the first claim: no closing parenthesis, or a last word that does not begin an empty command; every break position; every list of words", "why_tests_cant": "The loop walks two lists at different speeds; whether the second can run out depends on the whole line.", "anchors": ["clink/lib/src/word_collector.cpp:command_line_states::set", "clink/lib/src/word_collector.cpp:command_line_states::break_end_word", "clink/lib/src/word_collector.cpp:command_line_states::split_for_hinter"]}
{"id": "C68", "title": "Settings accept exactly the documented texts and fall back to their defaults", "statement": "A boolean setting accepts true, on, yes, false, off, no in any letter case with blanks around, and texts starting with digits (true unless all leading digits are 0), and nothing else; an enum setting accepts exactly the names and the numbers of its options, the first that fits; an integer setting accepts what starts with a digit or a minus sign, the digits that follow counting, within int range. Setting a declared setting to a text it accepts gives it that value, to be saved, and touches nothing else; to one it does not accept changes nothing and is reported. Clearing a setting, or loading without a settings file, gives it the custom default if there is one it accepts and else the declared default, and it is then to be saved just when it differs from the declared default. The file written has exactly the settings that are to be saved, each with a text that is read as its value.", "quantifier": "every text, every option list and comparison, every registry, custom defaults file and sequence of operations", "why_tests_cant": "All texts; all histories of operations.", "anchors": ["clink/core/src/settings.cpp:setting_impl<bool>::parse", "clink/core/src/settings.cpp:setting_enum::parse", "clink/core/include/core/settings.h:setting_impl::set", "clink/core/src/settings.cpp:clear_setting", "clink/core/src/settings.cpp:save_internal"]}
{"id": "C69", "title": "Installing autorun keeps other programs' commands", "statement": "clink autorun install puts clink's command, with the arguments given, behind the commands cmd.exe's AutoRun value already has; an entry of clink's that is there is replaced and comes last. clink autorun uninstall removes the entry (its program in quotes) together with the & or && before it and keeps every other command; a value that does not start clink is left alone, and uninstalling what was just installed gives back the value there was. The uninstaller for all users only removes entries for the program directory given. Arguments given to install are what the command passes on. (Refuted: an entry whose program is not in quotes takes all commands before it with it, up to the one before the last quote; a value ending with & loses it; arguments with & are not removed; arguments beyond about 2000 bytes are cut off; empty arguments and those with tabs do not survive.)", "quantifier": "every value, every entry, every path and argument list; path and arguments together at most 2000 bytes", "why_tests_cant": "All values; the search runs backwards through whatever another program put there.", "anchors": ["clink/app/src/loader/autorun.cpp:find_clink_entry", "clink/app/src/loader/autorun.cpp:uninstall_autorun_from_key", "clink/app/src/loader/autorun.cpp:install_autorun", "clink/app/src/loader/autorun.cpp:safe_append_quoted"]}
{"id": "C70", "title": "What is shown as suggestion is what accepting it gives", "statement": "While typing at the end of the line a suggestion is shown exactly when what has been typed of it compares equal to its beginning, and then what is shown is the typed line followed by the rest of the suggestion. Accepting the suggestion makes the line the one shown; with the setting suggestion.original_case it makes the last word (or, when the suggestion is for the whole line, the line) the suggestion's own spelling; accepting the next full word adds the blanks and the word that come next, quoted words in one piece, and accepting word after word ends with the whole; accepting the next word adds the text up to where forward-word goes. After the whole has been accepted nothing more is suggested for that line. If the suggestion no longer fits the line, or the cursor is not at the end, or suggestions are off, accepting does nothing to the line. (Refuted: with runs of slashes the text inserted is not the one shown; typed text after the last word's start that does not fit is replaced when accepting a word; accents before the last word make a word come out too long, or make accepting the next word loop forever; after accepting a word the line remembered is not the line.)", "quantifier": "every line and suggestion of Unicode scalar values, every comparison mode, every forward-word and lower case function", "why_tests_cant": "All pairs of lines and suggestions; all numbers of words accepted.", "anchors": ["clink/lib/src/suggestions.cpp:suggestion_manager::get_visible", "clink/lib/src/suggestions.cpp:suggestion_manager::insert", "clink/lib/src/suggestions.cpp:suggestion_manager::resync_suggestion_iterator", "clink/lib/src/rl/rl_buffer.cpp:rl_buffer::insert"]}
{"id": "C71", "title": "The suggestion list sees the current suggestions and requests are not repeated", "statement": "A result that arrives is offered exactly if what has been typed is a beginning of it. Whatever happened before - results arriving, accepting, clearing, suppressing, switching suggestions on and off - fetching the suggestions for the list gives those the manager has, less the history entries the list has deleted since it last got them. Once a result for the line has arrived no other is asked for while the line stays the same, and one is asked for when it changes. After the suggestion was accepted none is asked for while the line stays or is only deleted from; typing anything else asks again. Deleting a history entry removes the suggestions from it and moves the index of those from later entries down by one. (Refuted: suggestions that are not from the history keep their index -1; the comparison is unsigned and they are decremented, too.)", "quantifier": "every sequence of fewer than 10^9 operations, every result and line", "why_tests_cant": "All interleavings of results, edits and fetches; the generation counter decides whether the list is refreshed.", "anchors": ["clink/lib/src/suggestions.cpp:suggestion_manager::get", "clink/lib/src/suggestions.cpp:suggestion_manager::set", "clink/lib/src/suggestions.cpp:suggestion_manager::can_suggest", "clink/lib/src/suggestions.cpp:suggestions::remove_if_history_index"]}
{"id": "C72", "title": "The selected match exists, is shown, and is what was clicked", "statement": "In clink-select-complete's list, whatever keys are pressed, wherever the mouse clicks or drags, however the window is resized and the text is edited, the selection is one of the matches, it is one of the matches shown, what is shown fits in the rows there are, and no match is shown twice. While the window keeps its size and the line does not get shorter, keys never scroll the list past its end: each line shown is a line of the list, the preview shows the first lines, and if there is room for all the matches all are shown. A click on a match selects that match, a click past the last one the last. (False: with more columns than matches in a horizontal list, Down and Up select matches that do not exist; after the window gets taller the list can hide its first matches though there is room; a click on the scroll bar of the preview scrolls past the end, F1 hides the preview's first lines; once the scroll bar was clicked a later click in a list without one selects another match; Page Down after typing can select a match before the first.)", "quantifier": "every number of matches, every layout and window size, every setting of wraparound, orientation, scroll offset, preview and scroll bars, every sequence of input", "why_tests_cant": "All sequences of keys, mouse positions and resizes for all layouts; a test tries a few window sizes.", "anchors": ["clink/lib/src/selectcomplete_impl.cpp:selectcomplete_impl::on_input", "clink/lib/src/selectcomplete_impl.cpp:selectcomplete_impl::update_top", "clink/lib/src/selectcomplete_impl.cpp:selectcomplete_impl::update_layout", "clink/lib/src/selectcomplete_impl.cpp:selectcomplete_impl::update_display"]}
{"id": "C73", "title": "Arrow and page keys reach every match", "statement": "In clink-select-complete's list the arrow key across the lines (Right in a vertical list, Down in a horizontal one) goes to the next match in the order line by line, skipping cells with no match, and the opposite arrow to the previous one; with wraparound each undoes the other and pressing the one key again and again reaches every match; without it the key stops once it has gone to the last match. Page Down pressed again and again gets to the last match, Page Up to the first, in no more presses than the list has rows. The keys for the next and the previous match (Tab, Shift+Tab, and the arrows along the lines) go through the matches in the order listed, past an end only with wraparound; Ctrl+Home and Ctrl+End go to the first and the last match.", "quantifier": "every number of matches, every layout, every state reachable by any input", "why_tests_cant": "All layouts with incomplete last columns or rows, from all states.", "anchors": ["clink/lib/src/selectcomplete_impl.cpp:move_selection_lower", "clink/lib/src/selectcomplete_impl.cpp:move_selection_higher", "clink/lib/src/selectcomplete_impl.cpp:selectcomplete_impl::on_input"]}
{"id": "C74", "title": "The selection in a popup list is one of its rows, and the keys and the mouse reach what they should", "statement": "In the popup lists (history, directories, completions, Lua's clink.popuplist) the selection is always one of the rows listed and it is within the window, whatever is typed, filtered, deleted, scrolled or clicked, and no row that does not exist is read. Up, Down, Home and End go to the neighbour, the first and the last row, and past an end only with menu-complete-wraparound. A click on a row selects the row that is shown there and scrolls nothing. Page Up pressed often enough selects the first row, Page Down the last. (False for some keys: Page Up in a list with fewer entries than clink.scroll_offset selects an entry past the end, which Ctrl+C then reads; Page Down in a list of two to five entries with clink.scroll_offset 3 goes back and forth and never to the last; deleting the only entry that passes the filter, or clearing the filter after a deletion, or turning the wheel when nothing passes the filter, leaves a selection that does not exist.)", "quantifier": "every list of entries, every height of the window, every setting, every sequence of keys and mouse input other than the ones said to do harm", "why_tests_cant": "All sequences of keys with filtering and deleting in between; the numbers of entries and rows for which the window arithmetic goes wrong are not those a test happens to use.", "anchors": ["clink/lib/src/textlist_impl.cpp:textlist_impl::on_input", "clink/lib/src/textlist_impl.cpp:textlist_impl::update_top", "clink/lib/src/textlist_impl.cpp:textlist_impl::filter_items", "clink/lib/src/textlist_impl.cpp:textlist_impl::clear_filter", "clink/lib/src/textlist_impl.cpp:textlist_impl::activate"]}
{"id": "C75", "title": "A popup list returns and deletes the entry that is selected", "statement": "Enter and Insert return the entry shown in the selected row, also when the list is filtered and after deletions. Delete removes exactly that entry from the list and from the history (or from where the list comes from): the entry the row's number stands for is the one shown, and after deletions the numbers of the remaining rows still are those of their entries. The row after it is selected then (or the one before it, by clink.popup_delete_direction), and the list closes when the last entry is deleted. No other key changes the entries. Without a filter Ctrl+C copies the selected entry. (False: with a filter Ctrl+C copies another entry.)", "quantifier": "every list of entries with their numbers, every sequence of keys, filters and deletions, every selected row", "why_tests_cant": "All interleavings of filtering, deleting and choosing; the renumbering of entries, of numbers and of the filter's positions has to agree after each.", "anchors": ["clink/lib/src/textlist_impl.cpp:textlist_impl::on_input", "clink/lib/src/textlist_impl.cpp:textlist_impl::get_original_index", "clink/lib/src/textlist_impl.cpp:textlist_impl::cancel"]}
{"id": "C76", "title": "Filtering and searching in a popup list find exactly the rows that contain what was typed", "statement": "While the filter is on (F4), after each piece of text the rows shown are exactly those that contain the whole string typed so far, in their text or one of their columns, in their order, although the filter is made by narrowing the previous one. Without the filter, what is typed selects the first row that contains it, beginning with the selected one and going round at the end; F3 and Shift+F3 go to the next and the previous such row; if there is none the selection stays. In the list of F7 digits select the first entry whose number begins with them. (False: after a search that found nothing neither F4 nor typing filters.)", "quantifier": "every list, every string typed in any pieces that do not split a character, every case mapping and comparison mode, forwards and in reversed lists", "why_tests_cant": "Narrowing step by step has to agree with filtering from the start for all strings and lists; going round has to visit every row once.", "anchors": ["clink/lib/src/textlist_impl.cpp:textlist_impl::filter_items", "clink/lib/src/textlist_impl.cpp:textlist_impl::do_find", "clink/lib/src/textlist_impl.cpp:strstr_compare", "clink/lib/src/textlist_impl.cpp:textlist_impl::on_input"]}
{"id": "C77", "title": "Redrawing a row of the input line shows the new text and nothing else", "statement": "After the input line changed, what update_line sends for a row - cursor movement, inserting and deleting cells, the text between the first and the last difference, clearing - leaves the row showing the prompt, the new text and blanks, whatever text was there before, also with wide characters, emoji sequences, coloured parts, marked history expansions and a prompt that got shorter or longer, and with the workaround for terminals that garble wide characters. A prompt at the right end of the row stays. This holds if the new text is not shorter than the old one on the screen, or has no two plain blanks side by side and none at its beginning. (False without: the loop that checks whether everything after the last difference is blank runs backwards, so deleting the word between two blanks can remove the rest of the line from the screen.)", "quantifier": "every old and new row of valid Unicode text that fit the width, every colouring by characters, every screen width, every content of memory before the text, every prompt", "why_tests_cant": "All pairs of old and new text; a few pairs tested do not show what is left of wide characters or that the tail is kept in the others.", "anchors": ["clink/lib/src/display_readline.cpp:display_manager::update_line", "clink/lib/src/display_readline.cpp:display_manager::shift_cols"]}
{"id": "C78", "title": "The input line is laid out in rows with every character once, and the cursor is on its character", "statement": "The rows the display makes of the input line, beginning after the prompt, show every character of the line exactly once and in order, control characters as ^X, a newline beginning the next row; no row is wider than the screen, a row is left early only for a newline or for a character that does not fit, each row's first and last byte positions are those of what it shows, and after a full last row there is an empty one for the cursor. The cursor's row and column are those of the character at the cursor position, or the end of the last row. Unless the cursor is on a newline it is within the screen. Redrawing any of these rows after any edit shows the new row (with C77). (False: on a newline after a full row the column is the width of the screen; with one of the control characters U+0080 to U+009F in the line the cursor is put in the wrong place.)", "quantifier": "every line of Unicode scalar values, every cursor position in it, every screen width of two or more, every prompt width", "why_tests_cant": "All lines, widths and cursor positions; wrapping depends on where wide characters and control characters fall.", "anchors": ["clink/lib/src/display_readline.cpp:display_lines::parse", "clink/lib/src/display_readline.cpp:display_lines::append"]}
{"id": "C79", "title": "The row with the cursor is one of the rows shown", "statement": "When the input line has more rows than may be shown, the rows shown after each redraw contain the row of the cursor, are rows of the line and no more than the maximum, and the cursor is not on the character that is covered by the mark < for the rows above; if the cursor stays within the rows shown and off the marks they do not change. The mark < replaces the first character of the first row and nothing else; the mark > is in the last column but one of the last row, after the characters that fit before it. (False: if the last line of the prompt takes more than one row the cursor's row may not be among those shown; the cursor can be on the mark >; if the first character of the row is two columns wide the rest of the row moves left by one column.)", "quantifier": "every line, cursor position, screen size, maximum number of rows and rows shown before", "why_tests_cant": "All sizes and positions; off-by-one errors appear in particular combinations of the row count, the height and the cursor's column.", "anchors": ["clink/lib/src/display_readline.cpp:display_manager::display", "clink/lib/src/display_readline.cpp:display_lines::apply_scroll_markers"]}
{"id": "C80", "title": "A click puts the cursor on the character clicked", "statement": "For a line without control characters, a click on any cell of a character, wide ones included, gives the byte position of that character, whatever row it wrapped to; a click to the right of the text of a row gives the end of that row. (False with newlines in the line: a click in a row after a newline gives a position after the character.)", "quantifier": "every line of Unicode scalar values other than control characters, every screen width, every prompt width, every row and column", "why_tests_cant": "The click is computed by walking through the line again, separately from the layout; the two have to agree for all lines and widths.", "anchors": ["clink/lib/src/display_readline.cpp:translate_xy_to_readline"]}
{"id": "C81", "title": "Session streams behave as files", "statement": "A script that opens session streams by name, with any of the documented modes, and writes, reads (lines, characters, all), seeks, truncates and closes them, gets what it would get from files: handles share the content, appending goes to the end, text mode turns newlines into CR LF when writing and back when reading, a write reports failure exactly if the limit of 4 MB cut it off. What is written comes back whole and line by line. (False: reading 0 characters says the opposite of what it should about the end; writing past the end exposes what memory held; seeking to before the beginning goes to the largest position instead of failing; a text line of 510 characters comes back with a CR; a line with a NUL loses what follows and is joined with the next; truncating with a handle for reading says it succeeded.)", "quantifier": "every sequence of operations on any number of streams and handles with any content", "why_tests_cant": "Content goes through growing, chunks of two buffer sizes, translation and several handles with positions of their own; errors need particular lengths and orders of operations.", "anchors": ["clink/lua/src/sessionstream.cpp:session_stream::write", "clink/lua/src/sessionstream.cpp:session_stream::read", "clink/lua/src/sessionstream.cpp:session_stream::gets", "clink/lua/src/sessionstream.cpp:luaL_SessionStream", "clink/lua/src/clink_api.cpp:open_session_stream"]}
{"id": "C82", "title": "Session streams never touch memory that is not theirs", "statement": "No sequence of operations on session streams writes outside the memory allocated for a stream; a stream never holds more than the limit, and scanning for a number always stops inside the memory. A number is read from what the stream holds, unless the stream was truncated (then digits that are no longer there are read).", "quantifier": "every sequence of operations on any number of streams and handles with any content", "why_tests_cant": "Memory errors depend on how capacity, size and positions of several handles combine; tests see only a few of these.", "anchors": ["clink/lua/src/sessionstream.cpp:session_stream::write", "clink/lua/src/sessionstream.cpp:session_stream::scan_number", "clink/lua/src/sessionstream.cpp:session_stream::truncate"]}
{"id": "C83", "title": "Coloring rules mean what is documented", "statement": "For every list of coloring rules written as documented (spaces, types, patterns, not, any, quotes, escapes, octal, hexadecimal and control characters), the color of a match is that of the first rule with a pattern or several conditions that applies to it; if there is none, the color set for its type by the last rule for that type alone. A malformed rule leaves the rules before it in force. (False: a quoted \"not\" is the operator, an escaped space at the end of the conditions makes the rule an error, an escaped character outside the basic plane becomes another one, a pair of \\u escapes becomes two replacement characters.)", "quantifier": "every list of rules, every way to write it, every match and every glob function", "why_tests_cant": "Rules combine types, patterns, negation and quoting in unbounded ways, and are read by two tokenizers in succession.", "anchors": ["clink/lib/src/match_colors.cpp:get_token", "clink/lib/src/match_colors.cpp:parse_rule", "clink/lib/src/match_colors.cpp:parse_match_colors", "clink/lib/src/match_colors.cpp:get_match_color"]}
{"id": "C84", "title": "The first coloring rule that applies decides", "statement": "If a rule with a pattern or several conditions applies to a match and no such rule before it does, its color is used whatever rules follow. (False for types alone: mi, or and so have no effect though documented; no together with a pattern never applies; a hidden directory has no color if di has one and hi has none.)", "quantifier": "every list of rules, every position of the rule in it and every match", "why_tests_cant": "Which rule applies depends on all rules before it and on what the color of ln makes of links.", "anchors": ["clink/lib/src/match_colors.cpp:get_match_color", "clink/lib/src/match_colors.cpp:parse_match_colors"]}
{"id": "C85", "title": "No key sends the start of what another key sends", "statement": "What a key or a click sends is never a proper beginning of what another key or click sends, so that from the bytes of keys pressed one after the other it can be told where each begins and ends. This holds unless terminal.raw_esc is on. (False: Alt and O with Caps Lock on sends the start of F1; Alt and [ where [ needs Shift sends the start of Up.)", "quantifier": "all settings without terminal.raw_esc, all pairs of keys and clicks, all sequences of them", "why_tests_cant": "There are tens of thousands of combinations of key, character and modifiers, and it is pairs and sequences of them that matter.", "anchors": ["clink/terminal/src/win_terminal_in.cpp:win_terminal_in::process_input", "clink/terminal/src/win_terminal_in.cpp:win_terminal_in::push", "clink/terminal/src/win_terminal_in.cpp:keymod_index"]}
{"id": "C86", "title": "Keys are told apart and shown with their names", "statement": "Two different keys of cursor, editing, function keys, Tab, Space, Enter and Backspace, with any of Shift, Ctrl and Alt, never send the same. With terminal.differentiate_keys this includes Ctrl and a letter. What they send is found again under its name (such as A-C-S-F1), whatever follows. Without terminal.use_altgr_substitute, Ctrl and the left Alt with a key send the same whether or not the keyboard layout has a character for it. (False: Alt-[ is shown as A-C-S-A-[; terminal.differentiate_keys does not tell Ctrl-[ from Esc if terminal.raw_esc is on.)", "quantifier": "all settings without AltGr substitution, all these keys with all modifiers, all that follows, every hash function", "why_tests_cant": "The tables of sequences and names are written separately, and depend on several settings at once.", "anchors": ["clink/terminal/src/win_terminal_in.cpp:win_terminal_in::process_input", "clink/terminal/src/win_terminal_in.cpp:find_key_name", "clink/terminal/src/win_terminal_in.cpp:ensure_keyseqs_to_names", "clink/terminal/src/win_terminal_in.cpp:translate_ctrl_bracket"]}
{"id": "C87", "title": "Looking ahead loses no input", "statement": "However often available, peek, select and read are called in between, what is read in the end is the same, in the same order, as if nothing had looked ahead; and what peek shows is what read gives next. With the mouse this holds for select and read. (False: a click that available looked at is lost; peek gives what is in an unset variable if the window was resized.)", "quantifier": "all sequences of calls, all sequences of keys (with characters of two halves, and keys going up), all states of the ring buffer", "why_tests_cant": "Looking ahead processes a record and then takes it back, in a ring buffer shared with a lead surrogate and a queue; mistakes show only for certain interleavings.", "anchors": ["clink/terminal/src/win_terminal_in.cpp:win_terminal_in::available", "clink/terminal/src/win_terminal_in.cpp:win_terminal_in::peek_record", "clink/terminal/src/win_terminal_in.cpp:win_terminal_in::peek", "clink/terminal/src/win_terminal_in.cpp:win_terminal_in::read", "clink/terminal/src/win_terminal_in.cpp:win_terminal_in::read_console"]}
{"id": "C88", "title": "Typed text is read as its UTF-8", "statement": "Text that is typed (also with AltGr, and characters outside the basic plane that come in two halves) is read as its UTF-8, whatever keys go up in between. All keys and clicks are read as what they send, one after the other, and nothing is cut short by the buffer of 16 bytes.", "quantifier": "all texts, all keys that type them, all positions of the ring buffer, all sequences of keys and clicks", "why_tests_cant": "Needs every character and every position in the ring buffer.", "anchors": ["clink/terminal/src/win_terminal_in.cpp:win_terminal_in::push", "clink/terminal/src/win_terminal_in.cpp:win_terminal_in::pop", "clink/terminal/src/win_terminal_in.cpp:win_terminal_in::process_input", "clink/terminal/src/win_terminal_in.cpp:win_terminal_in::read"]}
{"id": "C89", "title": "An abbreviated path expands to the one path it can mean", "statement": "If every directory of a path as typed is either the whole name of a directory that is there or the beginning of exactly one, os.expandabbreviatedpath gives the names of those directories, the rest of the path unchanged, and true, or nil if that is what was typed; this path is the only one the text can mean. If some directory is not there, it gives nil; and every path is one of clear, lost or ambiguous. (False: names in quotes, where the rest is wrong; \".\" as a directory; file systems that do not list names in order; two separators in a row.)", "quantifier": "all file systems that list names in order, all paths on local drives with any number of directories, all files beside the directories", "why_tests_cant": "Needs all file systems; the loop looks at a pattern, an order of enumeration and two comparisons at once.", "anchors": ["clink/core/src/os.cpp:disambiguate_abbreviated_path", "clink/lua/src/os_api.cpp:expand_abbreviated_path"]}
{"id": "C90", "title": "An ambiguous path expands to what the candidates have in common", "statement": "If a directory of a path as typed is the beginning of several, os.expandabbreviatedpath gives the path up to there with what is common to all of them, the rest of the path unchanged, and false. Nothing that was typed is cut off. (False: only the first two candidates are compared, so the documented example d:\\bo\\file gives d:\\bookkeep although box is there; short names and case can cut off what was typed; a file can shorten it.)", "quantifier": "all file systems that list names in order, all paths on local drives", "why_tests_cant": "The documented example itself is wrong in the code; which candidates count depends on the whole directory.", "anchors": ["clink/core/src/os.cpp:disambiguate_abbreviated_path", "clink/lua/src/os_api.cpp:expand_abbreviated_path"]}
{"id": "C91", "title": "Environment variables expand to their values and nothing else changes", "statement": "os.expandenv and the commands that expand variables replace each name between two % by the value of that variable; names that are not set, a % right before another and a last % stay as they are, with everything else. Every text has exactly one such meaning, and the answer whether something was expanded is right.", "quantifier": "all texts, all environments", "why_tests_cant": "Needs all texts with % in all places: a scanner with two inner loops and a jump between branches.", "anchors": ["clink/core/src/os.cpp:expand_env", "clink/lua/src/os_api.cpp:expand_env"]}
{"id": "C92", "title": "Expanding variables in the line keeps the cursor where it was in the text", "statement": "After clink-expand-line the cursor is at the same place of the text that did not change, or at the end of the value if it was in the name. (False with two variables: the cursor is compared in coordinates of the new line with places in the old one, and may end up anywhere, even after the end.)", "quantifier": "all lines, all environments, all places of the cursor", "why_tests_cant": "Which place is wrong depends on all lengths of names and values before it.", "anchors": ["clink/core/src/os.cpp:expand_env", "clink/lib/src/rl/rl_commands.cpp:do_expand_line"]}
{"id": "C93", "title": "Codes in the prompt show what is documented", "statement": "What is shown for PROMPT, CLINK_RPROMPT and CLINK_TRANSIENT_PROMPT is what their codes stand for, in upper or lower case, with $H taking away the character before it; the prompt on the right is the first line of it. Any text can be shown by writing it with codes. (False: a right prompt that ends with $M$_ keeps the space that $M adds.)", "quantifier": "all prompts, all dates, directories, versions, networks and depths", "why_tests_cant": "Needs all sequences of codes, with $H after any of them.", "anchors": ["clink/lua/src/prompt.cpp:prompt_utils::expand_prompt_codes", "clink/lua/src/prompt.cpp:prompt_utils::get_rprompt", "clink/lua/src/prompt.cpp:prompt_utils::get_transient_prompt"]}
{"id": "C94", "title": "The number of pushed directories is found in the prompt", "statement": "If PROMPT has $+ once and no $H after it, the depth found in what CMD writes is the depth of its stack of directories, also if there are other + next to it; if it has $+ more than once, the depth is unknown; and what is found is always a run of + without which the text is the prompt. (False: $$+ is taken for $+, and with $H after it one is missing.)", "quantifier": "all prompts, all depths, all texts written", "why_tests_cant": "Needs all prompts, in particular with + before or after $+.", "anchors": ["clink/app/src/host/host_cmd.cpp:update_pushd_depth", "clink/lua/src/prompt.cpp:prompt_utils::expand_prompt_codes"]}
{"id": "C95", "title": "Asynchronous tasks are cleaned up, in every interleaving", "statement": "Whatever the order in which the threads of tasks and the main thread run: the callback of a task is called at most once, only when its work is complete, and never when its Lua reference was released, which is at most once; a finished task does not stay in the map when no event is pending; when all is quiet, no task and no reference is left; the end of a line takes away all tasks that need not run until complete, and their callbacks are not called afterwards; there is at most one task for a key.", "quantifier": "all interleavings of any number of tasks with requests, idle processing, ends of lines and shutdowns", "why_tests_cant": "Tests see few of the interleavings, and a lost wakeup or a reference released twice depends on them.", "anchors": ["clink/lua/src/async_lua_task.cpp:task_manager::on_idle", "clink/lua/src/async_lua_task.cpp:task_manager::end_line", "clink/lua/src/async_lua_task.cpp:async_lua_task::proc", "clink/lua/src/internal_api.cpp:async_path_type"]}
{"id": "C96", "title": "The callback of a task that completes late is called", "statement": "If the type of a path is not known in time, the callback is called once it is known, so the line is colored again. (False: the thread of the task takes the callback back by its own detach before it signals completion. A callback can only be called by a wakeup for another task between these two steps, and with one task it is never called, in no interleaving.)", "quantifier": "all interleavings", "why_tests_cant": "Tests of idle processing with a fast disk get the answer in time and never need the callback.", "anchors": ["clink/lua/src/async_lua_task.cpp:async_lua_task::cancel", "clink/lua/src/async_lua_task.cpp:async_lua_task::detach", "clink/lua/src/async_lua_task.cpp:async_lua_task::proc"]}
{"id": "C97", "title": "A thread is detached once", "statement": "The thread object of a task is detached once, and never used when it is gone. (False: the thread itself and the main thread, at the end of a line, may both find it and detach it, which ends the program by an exception.)", "quantifier": "all interleavings", "why_tests_cant": "The race is in a few instructions.", "anchors": ["clink/lua/src/async_lua_task.cpp:async_lua_task::detach", "clink/lua/src/async_lua_task.cpp:task_manager::end_line"]}
{"id": "C98", "title": "Pasting several lines", "statement": "With clink.paste_crlf set to delete, space or ampersand, a text pasted goes into the line at the cursor with every maximal run of CR and LF characters dropped, or replaced by one space or one ampersand, and nothing else about it changed; nothing is accepted. Set to crlf, the first line goes into the line edited, which is accepted exactly if a LF follows; each further line is then run in order at the prompts that follow, exactly as it was pasted (its end being CR LF), and only a last line that had no end is left to be edited. Not so: a CR by itself is not kept as is but dropped, which joins two lines; characters that wake the console input are kept out of the line but not out of the lines queued.", "quantifier": "all clipboard texts, all lines and cursor positions, all queues", "why_tests_cant": "The text has any number of lines, empty lines, runs of any mix of CR and LF; tests paste a few.", "anchors": ["clink/lib/src/rl/rl_commands.cpp:strip_crlf", "clink/lib/src/rl/rl_commands.cpp:clink_paste", "clink/lib/src/line_editor_integration.cpp:line_queue"]}
{"id": "C99", "title": "Editing with a selection", "statement": "If the text between the anchor and the cursor, in either direction, is s, standing between a and c, then copying puts s in the clipboard; cutting does too and leaves a and c with the cursor between; typing, deleting and pasting replace s by what is typed or pasted or nothing, and cutting then pasting gives the line back. A place is shown as selected exactly if it is in s. Moving with Shift any number of times selects from where the first movement began. Select all selects the whole line. Without a selection copy copies the whole line and cut deletes nothing. Cursor and anchor remain in the line whatever commands are used.", "quantifier": "all lines, selections in both directions and sequences of commands", "why_tests_cant": "Anchor and cursor meet in any order and the commands in any sequence.", "anchors": ["clink/lib/src/rl/rl_commands.cpp:cua_delete", "clink/lib/src/rl/rl_commands.cpp:cua_copy", "clink/lib/src/rl/rl_commands.cpp:cua_cut", "clink/lib/src/rl/rl_commands.cpp:cua_handle_insert", "clink/lib/src/rl/rl_commands.cpp:cua_point_in_selection"]}
{"id": "C100", "title": "Toggling slashes", "statement": "Toggling slashes in a word changes every slash and backslash of it to the other kind if they are all of one kind, and to the kind of the first if they are mixed, changes nothing else in the line, and leaves the cursor after the word; toggling twice a word with slashes of one kind gives it back; a word without slashes is left alone.", "quantifier": "all lines and words", "why_tests_cant": "Words of any length and any mix of slashes.", "anchors": ["clink/lib/src/rl/rl_commands.cpp:toggle_slashes_in_rl_buffer", "clink/core/src/path.cpp:normalise_separators"]}
{"id": "C101", "title": "Copying from the previous command", "statement": "Within the line F1 moves the cursor without changing the text. At its end F1 with a count n appends the next n characters of the previous command from the same place on (fewer if there are fewer), and with a count beyond its end it goes there and appends the others, F3 all of them, and a line at least as long as the previous command is left alone; so from an empty line F1 and F3 in any sequence give exactly the beginning of the previous command, as long as asked for together. F2 overwrites what follows the cursor with what stands in the previous command from the same place up to the next occurrence of the character typed, or up to the end if there is none; F4 deletes from the cursor up to that character, or up to the end. Not so: the same place is counted in bytes rather than characters, so that after a character beyond ASCII the wrong characters are copied.", "quantifier": "all lines, previous commands, counts and characters in UTF-8", "why_tests_cant": "Any two lines, with characters of one to four bytes each, and any sequence of keys.", "anchors": ["clink/lib/src/rl/rl_commands.cpp:win_f1", "clink/lib/src/rl/rl_commands.cpp:finish_win_f2", "clink/lib/src/rl/rl_commands.cpp:win_f3", "clink/lib/src/rl/rl_commands.cpp:finish_win_f4", "clink/lib/src/rl/rl_commands.cpp:adjust_point_point"]}
{"id": "C102", "title": "Background processes of a category run one at a time", "statement": "At no time do two processes that io.popenyield or os.execute spawned for coroutines of the same category (prompt filters, or one script's) both still produce output, whatever coroutines are created, canceled or removed, whatever lines begin, in whatever order coroutines are resumed and whenever processes finish. This holds as long as no coroutine calls pclose. With pclose it is false: pclose takes the category over from the coroutine whose process runs, and when it is done the category counts as free although that process still runs.", "quantifier": "all sequences of events and all orders of resuming coroutines", "why_tests_cant": "Depends on when processes end and on the arbitrary order in which a Lua table is traversed.", "anchors": ["clink/lua/scripts/coroutines.lua:io.popenyield", "clink/lua/scripts/coroutines.lua:set_coroutine_yieldguard", "clink/lua/scripts/coroutines.lua:release_coroutine_yieldguard", "clink/lua/src/io_api.cpp:popen_buffering"]}
{"id": "C103", "title": "A coroutine that waits goes on", "statement": "When coroutines are resumed and a category is free, a coroutine queued for it (not canceled, of the current line) gets its process started. When no timer is due and no process has exited since coroutines were last resumed, every coroutine waits for a process that has not exited, or is queued. Not so: a queued coroutine goes on once its category is free. If it was visited just before the coroutine that held the category, it is left queued with the category free and no process running, and nothing but a new coroutine, a new line or other processes will resume it, since release_coroutine_yieldguard compares a field that entries do not have.", "quantifier": "all sequences of events and all orders of resuming coroutines", "why_tests_cant": "The order of traversal decides; a test sees one order.", "anchors": ["clink/lua/scripts/coroutines.lua:release_coroutine_yieldguard", "clink/lua/scripts/coroutines.lua:_resume_coroutines", "clink/lua/scripts/coroutines.lua:_wait_duration", "clink/lua/src/lua_input_idle.cpp:get_timeout"]}
{"id": "C104", "title": "A category is freed", "statement": "Before each wait for input, a category is taken only if a coroutine that still exists waits for a process that is not done, whatever was created, canceled or begun before, with and without pclose, unless clink.removecoroutine was called. With it it is false: once a coroutine was removed while it held its category, the category stays taken forever and no process of that category is ever started again, although none runs.", "quantifier": "all sequences of events and all orders of resuming coroutines", "why_tests_cant": "That something is never freed or never started again is about all continuations.", "anchors": ["clink/lua/scripts/coroutines.lua:clink.removecoroutine", "clink/lua/scripts/coroutines.lua:release_coroutine_yieldguard", "clink/lua/scripts/coroutines.lua:clear_coroutines", "clink/app/scripts/prompt.lua:clink.promptcoroutine"]}
{"id": "C105", "title": "The argument slot a word completes", "statement": "With an argmatcher none of whose words on the line leads to another one, the word at the cursor is offered the slot given by the number of words before it that are no flags: the first, the second and so on, and past the last one again those from the loop position on, as often as needed; otherwise files, or nothing with nofiles or in an argmatcher without slots and flags. A flag is a word of at least two characters that begins with a flag prefix, before the end-of-flags word and, if flagsanywhere is false, before the first argument; the word at the cursor is offered flags if it begins with a prefix there. So a flag may be left out without changing what is offered. Likewise the target of a redirection (refuted: it is counted as an argument).", "quantifier": "all argmatchers without links for these words (slots, flags, prefixes, loop position, nofiles, flagsanywhere, end of flags) and all lines", "why_tests_cant": "The position depends on every word before; loops and flags mix in any number.", "anchors": ["clink/lua/scripts/arguments.lua:_argreader:update", "clink/lua/scripts/arguments.lua:_argreader:next_word", "clink/lua/scripts/arguments.lua:_argmatcher:_generate", "clink/lua/scripts/arguments.lua:_argmatcher:_is_flag"]}
{"id": "C106", "title": "Linked argmatchers hand back", "statement": "After a word that leads to another argmatcher its slots are offered, one word each; when it has all its words (including those of the argmatchers that its own words lead to, at any depth) the next slot of the first argmatcher is offered. An argmatcher with nofiles whose slots are used up offers nothing for all words to come that do not look like flags (refuted for the words after an argmatcher its last slot leads to: there an earlier slot of it is offered again). Flags of an argmatcher may come anywhere after the word that leads to it (refuted after an argmatcher its last slot leads to). A flag that leads nowhere may be left out without changing what is offered, however the argmatchers are linked (refuted if they have different flag prefixes; proved if all that have flags have the same ones and none has nofiles).", "quantifier": "all trees of argmatchers without flags, all lines, any depth of links; for nofiles all argmatchers and all ways to reach them", "why_tests_cant": "Links nest to any depth and the reader's stack is popped several levels at once.", "anchors": ["clink/lua/scripts/arguments.lua:_argreader:_push", "clink/lua/scripts/arguments.lua:_argreader:_pop", "clink/lua/scripts/arguments.lua:_argreader:update", "clink/lua/scripts/arguments.lua:_argreader:lookup_link"]}
{"id": "C107", "title": "Building argument slots", "statement": "Each call of addarg after clink.argmatcher adds its choices to the next slot, counted from the first after every call of clink.argmatcher for the command, and makes the slot if there is none. So does addargunsorted (refuted: it fails for every new slot).", "quantifier": "all sequences of calls", "why_tests_cant": "Calls from several scripts add to one argmatcher in any number.", "anchors": ["clink/lua/scripts/arguments.lua:_argmatcher:addarg", "clink/lua/scripts/arguments.lua:_argmatcher:addargunsorted", "clink/lua/scripts/arguments.lua:clink.argmatcher"]}
{"id": "C108", "title": "Moving in the suggestion list", "statement": "In the suggestion list nothing or an existing suggestion is selected at any time, and the selected one is among the rows shown (refuted for turning the wheel up with nothing selected). With nothing selected, n times Down selects the n-th suggestion and n times Up then selects nothing; at the ends Down and Up wrap around to and from nothing if menu-complete-wraparound is on and stay otherwise. Page Up moves up and Page Down moves down (Page Down refuted with the default scroll offset), to the last suggestion shown if one above it is selected. Dragging to below the list selects the suggestion after those shown, and to above it one before them. When the line is edited or there are new suggestions nothing is selected. A click on a suggestion selects it (refuted below a tooltip, and after a drag beside the list). The line is at any time what was typed with the selected suggestion put in at its place, and what was typed if nothing is selected.", "quantifier": "all sequences of keys, mouse events, edits, new lists and removals, all sizes of the list and all scroll offsets", "why_tests_cant": "The first row shown depends on all moves before, and the number of rows changes as the line gets longer.", "anchors": ["clink/lib/src/suggestionlist_impl.cpp:suggestionlist_impl::on_input", "clink/lib/src/suggestionlist_impl.cpp:suggestionlist_impl::update_top", "clink/lib/src/suggestionlist_impl.cpp:suggestionlist_impl::apply_suggestion", "clink/lib/src/suggestionlist_impl.cpp:suggestionlist_impl::remove_history_index"]}
{"id": "C109", "title": "Drawing the suggestion list", "statement": "Although only those rows of the suggestion list are drawn that are thought to have changed, the screen always shows the whole list: the suggestions from the first visible one on, the selected one and only it marked and followed by its tooltip, and nothing below the last.", "quantifier": "all sequences of drawings with any selection, first row and tooltips, a changed number of rows being drawn with clearing", "why_tests_cant": "A wrongly skipped row shows only for certain pairs of states before and after, with tooltips shifting the rows.", "anchors": ["clink/lib/src/suggestionlist_impl.cpp:suggestionlist_impl::update_display", "clink/lib/src/suggestionlist_impl.cpp:suggestionlist_impl::set_top"]}
{"id": "C110", "title": "Reading the exit code", "statement": "With cmd.get_errorlevel the exit code that Clink knows is the one that echo wrote to the temporary file, for every 32-bit exit code, whether cmd writes in the ANSI code page or in UTF-16 and whatever blanks and text follow the number.", "quantifier": "all exit codes, both encodings, any blanks after the number, either line end, anything after it", "why_tests_cant": "The encoding is guessed from the second byte, and the reader treats its first character specially.", "anchors": ["clink/lib/src/errfile_reader.cpp:errfile_reader::next", "clink/app/src/host/host.cpp:host::edit_line"]}
{"id": "C111", "title": "Replaying commands with sticky search", "statement": "With history.sticky_search, Up k times and Enter, then Down and Enter again and again, runs the last k commands of the history in order and does not change the history; Up and Enter runs the same command again. A line that was taken from the history by Up and Down is not added to it (refuted after Down past the last command). A command that is not in the history is added to it and the kept position is given up (refuted if after editing the oldest command Up is pressed).", "quantifier": "all histories, all numbers of Ups and Downs, all sequences of prompts of the given form; for new commands any moves followed by any edits", "why_tests_cant": "The kept position, the flag that Up starts at it, the edited copies of entries and the saved line act together over several prompts.", "anchors": ["clink/lib/src/sticky_search.cpp:save_sticky_search_position", "clink/lib/src/sticky_search.cpp:restore_sticky_search_position", "clink/lib/src/sticky_search.cpp:can_sticky_search_add_history", "clink/lib/src/rl/rl_module.cpp:buffer_changing", "readline/readline/misc.c:_rl_previous_history_internal", "clink/app/src/host/host.cpp:host::edit_line"]}
{"id": "C112", "title": "Paging through key bindings", "statement": "When key bindings are listed page by page, the entries are shown in order and none is skipped; the rest is left out only after the user said so, and then at once; the pager asks only if there is more to show. At first all rows but two are used, then each answer shows as many more rows as it asks for, and other keys change nothing. Nothing scrolls off the screen unseen (refuted for entries of three rows, terminals of two rows, and if the terminal is resized while the pager asks).", "quantifier": "all listings and warnings, all terminal heights, all sequences of keys typed at the questions", "why_tests_cant": "The row budget is taken before an entry is printed and the entry held back by a question is not counted, so what fits depends on the heights of neighbouring entries and on each answer.", "anchors": ["clink/lib/src/pager_impl.cpp:pager_impl::on_print_lines", "clink/lib/src/pager_impl.cpp:pager_impl::set_limit", "clink/lib/src/pager_impl.cpp:pager_impl::on_input", "clink/lib/src/line_editor_impl.cpp:line_editor_impl::dispatch", "clink/lib/src/rl/rl_help.cpp:print_warnings", "clink/lib/src/rl/rl_help.cpp:show_key_bindings"]}
{"id": "C113", "title": "Scrolling by dragging", "statement": "When the mouse is dragged past the edge of a list, two scrolls are more than 15 ms apart; while it keeps moving, every input later than that scrolls, by one row within the first second, by three rows in the next and then by ten, or by what is left; after a pause of more than 250 ms the list moves by one row again. This holds across the restart of the 32-bit tick counter. (Refuted for popup lists, which move by one row with every input, never faster and without a pause.)", "quantifier": "all sequences of inputs at any times within one period of the counter after the list is shown, any number of rows left", "why_tests_cant": "Depends on the timing of inputs and on a counter that starts over every 49.7 days.", "anchors": ["clink/lib/src/scroll_helper.cpp:scroll_helper::on_input", "clink/lib/src/scroll_helper.cpp:scroll_helper::on_scroll", "clink/lib/src/selectcomplete_impl.cpp:selectcomplete_impl::on_input", "clink/lib/src/suggestionlist_impl.cpp:suggestionlist_impl::on_input", "clink/lib/src/textlist_impl.cpp:textlist_impl::on_input"]}
{"id": "C114", "title": "Raw key names", "statement": "The raw name that Clink lists for a key sequence, put into .inputrc before a colon, binds exactly that key sequence, and different key sequences have different raw names (refuted for Ctrl-Backslash, whose line has no closing quote or binds another key, and for Alt with a byte from 128 on).", "quantifier": "all key sequences of any length without Ctrl-Backslash, other than Alt with a byte from 128 on; anything after the colon", "why_tests_cant": "A round trip through two programs: the names Clink writes are read back by Readline's parser with its own escapes, prefixes and quotes; sequences are unbounded.", "anchors": ["clink/lib/src/rl/rl_help.cpp:translate_keyseq", "readline/readline/bind.c:rl_translate_keyseq", "readline/readline/bind.c:_rl_skip_to_delim", "readline/readline/bind.c:rl_parse_and_bind"]}
{"id": "C115", "title": "Dumping macros", "statement": "The line that clink-dump-macros with a numeric argument writes for a macro, put into .inputrc, binds the same key sequence to the same macro, with or without the comment at its end, for macros of ASCII characters. (Refuted for every macro with a byte from 128 on: each such byte comes back as ESC and the byte without its highest bit.)", "quantifier": "all key sequences as for C114, all macros, any padding and comment", "why_tests_cant": "A round trip between the untranslation of macros, the dumper and Readline's parser, over unbounded texts with quotes, backslashes and control characters.", "anchors": ["readline/readline/bind.c:_rl_untranslate_macro_value", "clink/lib/src/rl/rl_help.cpp:funcmac_dumper_internal", "readline/readline/bind.c:rl_parse_and_bind", "readline/readline/bind.c:rl_macro_bind", "readline/readline/bind.c:rl_translate_keyseq"]}
{"id": "C116", "title": "Listing key bindings", "statement": "After any bindings of key sequences, the listing of key bindings has each bound key sequence once, with what was bound to it last. Binding a sequence changes nothing listed for other sequences, even if one is the beginning of another.", "quantifier": "all lists of bindings of any key sequences, in any order; for a single binding, all keymaps", "why_tests_cant": "Binding a longer sequence turns a binding into a keymap and moves the old binding aside, so the outcome depends on the order of unboundedly many bindings and on the tree of keymaps.", "anchors": ["readline/readline/bind.c:rl_generic_bind", "clink/lib/src/rl/rl_help.cpp:collect_keymap", "clink/lib/src/rl/rl_help.cpp:maybe_exclude_function"]}
{"id": "C117", "title": "Unbinding keys", "statement": "Unbinding a key sequence, as a line of .inputrc that names no known function does, takes it from the listing of key bindings and changes nothing listed for other sequences, shorter or longer. After any bindings and unbindings the listing has each bound sequence once, with what was bound to it last, and no other.", "quantifier": "all lists of bindings and unbindings of any key sequences, in any order; for a single unbinding, all keymaps", "why_tests_cant": "Unbinding may put a stand-in at a keymap, or drop an emptied keymap and bring back the binding that it shadowed; the outcome depends on the order of unboundedly many changes.", "anchors": ["readline/readline/bind.c:rl_generic_bind", "readline/readline/keymaps.c:rl_empty_keymap", "readline/readline/bind.c:rl_parse_and_bind", "clink/lib/src/rl/rl_help.cpp:collect_keymap"]}
