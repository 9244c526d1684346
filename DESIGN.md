# Formal model of clink in Rocq (Coq 8.16.1)

## Layout

* `properties.jsonl` - the properties, in terms of the API and observable effects.
* `rocq/theories/*Model.v` - executable model, function by function; every definition
  cites the file and lines in /repo it models and says where it simplifies.
* `rocq/theories/*Spec.v` - small declarative specifications, independent of the model's helpers
  (where the specification is two or three lines it sits at the top of the proof file).
* `rocq/theories/*Proofs.v` - lemmas.
* `rocq/theories/*Properties.v` (and `HistAnyProperties`, `TokQuotes`, `CmpAccent`, `CmdTokSlash`, `ColorWords`,
  `SettingsMore`, `SugSync`) - the theorems listed in MANIFEST.json, non-vacuity `Example`s and `Print Assumptions`.
* `MANIFEST.json` - property -> theorem names and status.
* `seeded/LOG.jsonl` - wrong-program experiments (model mutated in a scratch copy).

Naming: `cNN_*` proves property CNN; `*_refuted` proves that the property as stated is false of the
code, with a witness; `*_partial` proves a part and says what is missing.

## Conventions

* Bytes and UTF-16 units are `nat`/`N` values with explicit ranges; strings are lists; a C string is
  the list before its NUL, the NUL being implicit unless the code can look behind it.
* A mutated object is returned as a new value; loops are structural recursion or explicit fuel with a
  distinct out-of-fuel outcome that the theorems exclude.
* Undefined behaviour (out of bounds access, null dereference, double free) is a distinct outcome.
* Win32 files are byte lists with a position where the position matters; a lock scope is atomic.
* OS services (case folding tables, `wcwidth`, clock, file system listing order, alias table) are
  Section variables, i.e. the theorems hold for every such oracle.

## Per property: what is modelled and how it is proved

| id | model | proof |
|----|-------|-------|
| C01 | `file_iter`, `line_iter` on a byte list with arbitrary buffer size | refinement to whole-file splitting, induction on remaining bytes |
| C02-C05 | `write_lock::add/remove/find`, `history_db::add/remove/find` on byte files | lemmas on the whole-file parser: append, overwrite by `\|` |
| C06 | `history_db::add` folds | invariant by induction over the list of adds |
| C07 | `rewrite_master_bank` with vector, `seen` map, limit loop | refinement to "last occurrences", "last N" |
| C08 | `compact` over a list of sessions' removals files | remap correctness: new id of an old id is the same entry |
| C09 | transition system of sessions, master file, fresh tags | invariant over every interleaving |
| C10-C12 | `reap` as list of atomic file operations | parse-of-append lemmas; crash = prefix of the operations, then complete reap |
| C13, C14, C19 | same model | witnesses |
| C15, C16 | `load_internal`, `compact` prune loop, index map with lower_bound | invariant: map sorted, corresponds to file |
| C17 | lock acquisition programs of all operations, shared/exclusive locks with an order | progress theorem for every reachable state |
| C18 | bit-field packing | arithmetic |
| C20-C22 | UTF-8/UTF-16 decoders, builder, converters | round trip by induction; bounds |
| C23 | `str_impl` operations on (capacity, bytes) | invariant over op lists |
| C24 | `str_tokeniser::next_impl` | partition theorem by induction |
| C25 | `str_compare_impl` with a folding oracle | characterisation of longest common prefix |
| C26 | `match_wild` with its explicit backtracking stack of 10 | equivalence with a declarative glob relation within the limits; witnesses |
| C27 | `wildmatch`, `rangematch` | soundness/completeness vs relation |
| C28-C30 | path functions | structural lemmas |
| C31 | allocator with explicit heap of pages | invariant over ops |
| C32-C34 | typed settings, file format, color parser/printer | round trips, witnesses |
| C35-C37 | node array trie with links, resolver | refinement to a finite map from chords |
| C38 | alias expansion | refinement to substitution function |
| C39 | tokeniser state machines | span invariants |
| C40 | line queue | refinement to abstract character queue |
| C41-C42 | ecma48 state machine | partition and chunk-independence by simulation |
| C43 | attribute flags | case analysis/algebra |
| C44, C51, C52 | ellipsify, wrapper, wcwidth iteration with width oracle | width invariants |
| C45 | column computation | arithmetic invariant |
| C46 | face arrays | invariants |
| C47 | scroll car arithmetic (floating point replaced by exact rationals with the same rounding) | arithmetic |
| C48 | strip_wakeup_chars | filter equality |
| C49 | pack/unpack | round trip |
| C50 | two-thread transition system | invariant over all interleavings |
| C53 | intercept | characterisation |
| C54 | history_expand_control | witness |
| C55 | alias cache | invariant over op lists |
| C56 | session files named by process id | reachable state of C09's system, witness |
| C57-C58 | char_count, converters into strings | refinement to the code point list |
| C59-C60 | SGR parser, printer | simulation of a terminal that obeys SGR |
| C61 | `wcwidth` tables | sortedness by computation, binary search by induction |
| C62 | directory history | invariants over op lists |
| C63-C65 | `matches_impl`, pipeline, sorters | refinement to filters/maps of the list of added matches |
| C66-C67 | word collector, line states | partition of the line by the commands and words of C39 |
| C68 | parsing of booleans, enums, integers; defaults; saving | exact sets of accepted texts |
| C69 | AutoRun value editing | characterisation on values written as lists of commands; round trip |
| C70-C71 | `suggestion_manager` | comparison lemma of C25 lifted to accepting; invariant over op lists |
| C72 | selection_valid, selection_shown, shown_distinct, never_past_end, click_selects (+ seven `_refuted`) | Sel\*: invariant over all keys, mouse input and resizes; horizontal lists with no more columns than matches |
| C73 | arrow_ahead, ahead_stops, arrow_back, back_undoes_ahead, ahead_visits, page_down_last, page_up_first, next_match, previous_match, first_last_match | Sel\*: the order of the arrow keys is specified by remainder and quotient |
| C74 | popup_selection_valid, popup_no_bad_read, popup_arrows, popup_click, popup_page_up, popup_page_down (+ six `_refuted`) | Tl\*: invariant over all keys except those listed in `careful`; reads of rows that do not exist are a distinct outcome |
| C75 | popup_choose, popup_delete, popup_only_delete, popup_copy, popup_copy_filtered_refuted | Tl\*: the list as rows (entry, text, number) in the list it comes from |
| C76 | popup_filter, popup_type_find, popup_find_next, popup_number, has_more, popup_filter_any_refuted | Tl\*: the narrowing filter refines filtering from the start; search over the real comparison (TlMatch.v) |
| C77 | redraw_row, redraw_keeps_right_prompt, redraw_row_any_refuted | Disp\*: the operations update_line sends are run on a model of a terminal row; the row is compared with the cells of the new text |
| C78 | input_layout, cursor_in_row, edit_redraws, cursor_in_row_any_refuted, cursor_at_end_any_refuted | DispRows (layout and cursor as relations), Disp\* |
| C79 | cursor_row_shown, no_needless_scroll, top_marker, bottom_marker, cursor_row_shown_any_refuted, top_marker_any_refuted, cursor_off_marker_refuted | DispModel (scroll_top), DispMarks |
| C80 | click_on_char, click_newline_any_refuted | DispModel (click) against the layout of C78 |
| C81 | session_streams_are_files, session_modes, session_text_round_trip, session_lines_round_trip (+ six `_refuted`) | Ss\*: simulation of a file system (SsSpec.v) by the streams in memory, for all sequences of operations |
| C82 | session_streams_in_bounds, session_number_own, session_number_truncated_refuted | Ss\*: accesses outside the memory are a distinct outcome; invariant on capacity, size and the NUL at the end |
| C83 | color_rules_mean, color_rules_before_error, quoted_word_refuted, escaped_space_refuted, escaped_char_refuted, surrogates_refuted | Cl\*: rules are written from an abstract form in every allowed way, parsed by the model and evaluated; compared with the documented meaning (ClSpec.v) |
| C84 | first_rule_wins, missing_color_refuted, orphan_color_refuted, prefix_color_refuted, single_type_refuted, normal_type_refuted | Cl\*, from C83 |
| C85 | no_key_begins_another, keys_recovered, caps_lock_refuted, shifted_bracket_refuted | Kb\*: every sequence sent is shown to be a whole one by a grammar (KbKeys.v) that no word of which begins another |
| C86 | special_keys_told_apart, ctrl_letters_told_apart, special_keys_named, ctrl_letters_named, ctrl_alt_not_text, alt_bracket_name_refuted, raw_escape_refuted | Kb\*: finite tables of keys, modifiers and settings, computed by the kernel and shown complete; the text that follows and the hash are arbitrary |
| C87 | input_kept_in_order, mouse_kept_in_order, peek_then_read, looked_at_click_refuted, peek_resize_refuted | Kb\*: what is still to be read is a function of the state that every call keeps |
| C88 | typed_text_read, keys_read_in_order | Kb\*, with UtfSpec for UTF-8 and UTF-16 |
| C89 | expands_unique, expands_as_meant, expands_nothing, expands_cases, quoted_rest_refuted, dot_directory_refuted, unsorted_refuted, two_separators_refuted, documented_exact_refuted | Ab\*: the path against relations sure, lost, several over the file system |
| C90 (partial) | expands_common_partial, expands_common_refuted, short_name_refuted, case_cut_refuted, file_shortens_refuted | Ab\*: what the first two candidates have in common |
| C91 | env_pieces_exist, env_expanded, env_one_meaning, env_expansion_ends | Ev\*: the scanner against pieces of text |
| C92 (partial) | env_cursor_partial, env_cursor_refuted, env_cursor_outside_refuted | Ev\*: the cursor against the pieces it is in |
| C93 | prompt_tokens_exist, prompt_shown, right_prompt_shown, prompt_quote_round_trip, right_prompt_trim_refuted | Pc\*: the codes against the documented table, $H read from the end |
| C94 | pushd_depth_found, pushd_depth_sound, pushd_depth_unknown, pushd_escaped_refuted, pushd_erased_refuted | Pc\* |
| C95 | callback_used_properly, finished_task_noticed, quiet_is_clean, end_of_line_cancels, no_late_callback, one_task_per_key | Tk\*: an invariant kept by every step of every thread |
| C96 (partial) | callback_window, lone_callback_never_called, callback_called_refuted | Tk\*: false, for every interleaving with one task |
| C97 (partial) | thread_detached_once_refuted | Tk\*: an interleaving |
| C98 (partial) | paste_joined, paste_lines, paste_lines_exist, pasted_lines_run, paste_cr_refuted, paste_wake_refuted | Ed\*: pieces and runs, lines, draining of the queue |
| C99 | selection_exists, selection_replaced, cut_then_paste, selection_shown, nothing_selected, all_selected, selection_grows, cursor_in_line | Ed\*: line = a s c; invariant over commands |
| C100 | slashes_toggled, slashes_toggled_twice | Ed\*: the word character by character |
| C101 (partial) | up_to_exists, f1_moves, f1_copies, f1_moves_then_copies, f1_nothing_more, f1_rebuilds, f3_copies_rest, f2_copies, f4_deletes, f1_place_refuted | Fk\*: texts as characters with byte positions |
| C102 (partial) | popen_one_at_a_time_partial, popen_one_at_a_time_refuted | CoProofs: every running process is registered and a category has one registration |
| C103 (partial) | queued_goes_on_partial, only_the_queued_sleep_partial, queued_goes_on_refuted | CoWait: processes only grow, others do not change a coroutine; what is waited for has not exited |
| C104 (partial) | category_freed_partial, removed_blocks_category, category_freed_refuted | CoLink: every registration is the yieldguard of a coroutine that exists |
| C105 (partial) | argument_slots, flag_changes_nothing, redirection_refuted | ArProperties: the reader stays at the first argmatcher, its index is given by the number of arguments (arithmetic modulo the loop) |
| C106 (partial) | linked_then_next, linked_slots, nofiles_dead_end_partial, nofiles_dead_end_refuted, flags_anywhere_refuted, flag_left_out_partial, flag_left_out_refuted | ArProperties: an inductive relation of the words an argmatcher takes, refined by the stack of the reader; ArFlags: readers that differ in frames that are never gone back to behave alike |
| C107 (partial) | addarg_slots, addargunsorted_refuted | ArProperties: merging of slot lists |
| C108 (partial) | selection_shown_partial, down_and_up, at_the_ends, page_up_moves, page_down_moves_partial, page_down_to_last_partial, drag_beyond, selection_given_up, click_selects_partial, click_selects_refuted, wheel_up_refuted, page_down_refuted, drag_beside_refuted, line_of_selection | SlProperties: invariant of the drawn list over all events; the screen as a list of rows for clicks; witnesses by computation |
| C109 | shows_whole_list | SlDraw: the incremental drawing loop refines drawing everything, by induction on the rows with an invariant on what m_any_displayed knows of the screen; the last row is drawn whenever the rest of the screen is erased |
| C110 | exit_code_read | ErProperties: decimal printing followed by guessing the encoding, collecting the line and atoi is the identity |
| C111 (partial) | up_from_end, from_kept, replay, reused_not_added_partial, reused_not_added_refuted, new_command_added_partial, new_command_added_refuted | SkProperties: invariant of the history position, flag and line before any edit; induction on the prompts |
| C112 (partial) | shown_in_order, asks_only_for_more, screens_as_asked, nothing_scrolls_away_partial, nothing_scrolls_away_refuted | PgProperties: induction on the entries with the remaining row budget; the screens refine a plain cutting of the listing |
| C113 (partial) | scrolls_apart, slow_after_pause, speeds_up, popup_scrolls_refuted | ShProperties: the 32-bit ticks refine unbounded times; induction on the inputs with the times of the last scroll and of the start |
| C114 (partial) | raw_name_binds_partial, raw_names_differ_partial, raw_name_binds_refuted | KnProperties: each byte's name is read back alone, with quotes closed, whatever follows; induction on the sequence; facts on single bytes by computation over all of them |
| C115 (partial) | dumped_macro_means, dumped_macro_read_back_partial, dumped_macro_read_back_refuted | KmProperties: as for C114, byte by byte, then the parts of the line; non-ASCII macros come back longer |
| C116 | binding_changes_one, last_binding_listed | KtProperties: what is found at a sequence after a binding, by induction on it; what the walk lists is what is found, by induction on the tree; then induction on the bindings |
| C117 | unbinding_removes_one, last_change_listed | KuProperties: what is found at a sequence after unbinding, by induction on it, dropping an emptied keymap included; then induction on the changes |

Nothing so far is "not expressible"; properties whose truth depends on the OS are stated relative to
the oracle.

## Trusted base

* Coq 8.16.1 kernel (including the VM used by `vm_compute`).  No native_compute, no plugins, no axioms.
* `Print Assumptions` prints "Closed under the global context" for every theorem listed in MANIFEST.json
  (each properties file ends with the `Print Assumptions` commands; no theorem uses an axiom, not even one of the standard library).
* The transcription of the C++ into Gallina, cited definition by definition.  The list below says which code that is and what is
  left out.
* The reading of the specifications (`*Spec.v`) and theorem statements.

### What is modelled, what is not

Common: strings are byte or unit lists; memory suffices and allocation succeeds unless said otherwise; drawing, logging, debug-only
code and assertions are left out.

| files | code | simplified or not modelled |
|-------|------|-----------------------------|
| Hist\* | lib/src/history_db.cpp: read_lock, file_iter, line_iter, write_lock, history_db, compact, reap | reads and writes succeed in full; files below 4 GB; a lock scope is one step; history.save on; the read buffer's old contents are arbitrary; torn single writes not modelled |
| HistLocks\* | order of LockFileEx/UnlockFileEx in history_db.cpp | only acquisitions and releases |
| Utf\* | core str_iter, str_convert.cpp, char_count | reads outside of the memory are an explicit outcome |
| Str\* | core str.h, str.cpp | sources never alias the target |
| Tok\* | core str_tokeniser | as in the code |
| Cmp\* | core str_compare | CharLowerW is an arbitrary function |
| Wild\* | core match_wild.h | on decoded characters; CharLowerW arbitrary |
| Wm\* | wildmatch.c, path.fnmatch's flags | C-locale ctype, classes of bytes from 128 on arbitrary; byte before the pattern and behind the text explicit |
| Path\*, Norm\* | core path.cpp: normalise, directory, name, extension, append, to_parent, roots | iswalpha arbitrary; paths below 2^31 |
| Alloc\* | core linear_allocator | alignment not claimed; malloc may fail |
| Settings\* | core settings.cpp/.h: load, save, set, clear, sandbox | C-locale isspace/stricmp; atoi saturates; enum comparison arbitrary; migration of old files, file errors, double fclose, constructors' virtual calls, Lua settings.clear(nullptr) not modelled |
| Color\* | core settings.cpp 820-1250 | signed overflow is an explicit outcome |
| Bind\* | lib binder.cpp, bind_resolver.cpp | unused slots read as an explicit undefined outcome; get_group only in refutations |
| Small\* | lib wakeup_chars, input_params, scroll_car, alias_cache | doubles as exact division with any order preserving rounding within 2^-50 |
| Doskey\* | lib doskey.cpp, parts of cmd_tokenisers.cpp | byte-wise on well formed UTF-8; cursor not modelled; macro table arbitrary |
| CmdTok\* | lib cmd_tokenisers.cpp | well formed UTF-8 without NUL; quote pair is \"\"; delimiter returned with a word not modelled; macro table arbitrary |
| Collect\*, States\* | lib word_collector.cpp, line states | as CmdTok; lines below 64 KiB; breaking with discard only for a break within the word |
| Queue\* | lib line_queue.cpp | doskey result arbitrary |
| Esc\* | terminal ecma48_iter.cpp 275-541 | decode_csi/osc values only as in Attr\* |
| Attr\*, Sgr\*, Printer\* | terminal attributes, SGR in ecma48_terminal_out.cpp 291-423, printer.cpp | screen buffer is the attribute calls it gets |
| Width\*, Wc\* | terminal wcwidth.cpp, wcwidth_iter.cpp, emoji-test.i | tables transcribed by a script; combining mark width 1 |
| Ell\*, Wrap\* | lib ellipsify.cpp, terminal ecma48_wrapper.cpp | int32 cell counts unbounded; USE_ASCII_ELLIPSIS off |
| Expand\* | lib history_db.cpp 103-135 | - |
| Rec\* | lib recognizer.cpp threads | critical sections are steps; end_line's timed wait, allocation and CreateEvent failures not modelled |
| Look\* | lib matches_lookaside.cpp | 16 bit offsets explicit; magic bytes a variable |
| Face\* | lib word_classifications.cpp, its Lua entry points | infos recorded for tests not modelled; dangling keys explicit |
| Cols\* | lib column_widths.cpp | widths as given at line 302 (printable_len, condensing not modelled) |
| Cd\* | lib intercept.cpp, os::expand_env, tilde_expand, get_drive | C-locale stricmp; environment, alias, is_dir, remote, cwd arbitrary |
| Dir\* | app host.cpp 222-314 | cwd at each prompt arbitrary; C-locale stricmp |
| Ml\* | lib matches_impl.cpp, match_pipeline.cpp | builder settings fixed before building; display/description/append one value; str_compare, match_wild, CompareStringW variables; tilde expansion of the needle not modelled; std::sort any ordered permutation |
| Autorun\* | app autorun.cpp | registry and conversions succeed; values below 62 KiB; path comparison arbitrary |
| Sug\* | lib suggestions.cpp, rl_buffer.cpp 119-165, readline text.c 98-186 | rl_forward_word and CharLowerW arbitrary; lock fingerprints, hint, undo groups not modelled; offsets below 2^31 |
| Sel\* | selectcomplete_impl.cpp: on_input's navigation, mouse and wheel, move_selection_lower/higher, update_layout, update_top, which match is in which cell in update_display, on_terminal_resize, activate | insertion into the line, descriptions, printing, colors, macros, the prompt of activate |
| Tl\* | textlist_impl.cpp: on_input, update_top, do_find, filter_items, clear_filter, get_original_index, update_display's reads, activate's start, strstr_compare | printing, column widths, the horizontal offset, F1's help, the binding groups, init_colors, how the entries are made of history or directories |
| Disp\* | display_readline.cpp: display_lines::parse, update_line, shift_cols, the scrolling decision in display, apply_scroll_markers, translate_xy_to_readline; the terminal's row is a specification (DispSpec.v: print, insert, delete, clear) | horizontal scrolling, the comment row, right prompts' placing, the cursor's movement between rows |
| Ss\* | sessionstream.cpp: session_stream (write, read, gets, truncate, clear), luaL_SessionStream (write, read, seek, close), modes and open in clink_api.cpp | reading numbers, realloc failure, setvbuf, flush, lines(), collection by Lua |
| Cl\* | match_colors.cpp: get_token, get_token_and_value, parse_rule, parse_match_colors, get_match_color (is_target, the choice of the type) | get_ls_color and LS_COLORS, make_color, the stat hook, taking the file name out of a path, wildmatch (parameter), colors of commands and aliases |
| Kb\* | win_terminal_in.cpp: process_input (keys and mouse), push, pop, filter_unbound_input, process_record, peek_record, read_console, available, peek, select, read, translate_ctrl_bracket, ensure_keyseqs_to_names, find_key_name | send_terminal_request, interrupts, verbose input, waits and timeouts, console modes, scrolling and context menu when the mouse is not accepted, rebuilding the map of names when settings change, the hash of that map (parameter) |
| Ab\* | os.cpp: disambiguate_abbreviated_path; os_api.cpp: expand_abbreviated_path | UTF-8 and UTF-16 (text is characters); is_unc, past_ssqs, the type of a drive and the file system are parameters; wildcards in names; several separators are passed on as one |
| Ev\* | os.cpp: expand_env | UTF-8 decoding, overflow of 32 bits; os::get_env is a parameter; aliases and history in do_expand_line |
| Pc\* | prompt.cpp: expand_prompt_codes; host_cmd.cpp: update_pushd_depth | UTF-8; date, time, directory, version, network are parameters; prompt filters; the tag of the prompt |
| Tk\* | async_lua_task.cpp: task_manager, async_lua_task; internal_api.cpp: use in async_path_type; lua_input_idle.cpp: on_wait_event | coroutines (async_yield_lua), the work itself, memory that is not sequentially consistent, exceptions in callbacks, time |
| Ed\* | rl_commands.cpp: strip_crlf, clink_paste, cua_\*, toggle_slashes_in_rl_buffer; rl_buffer.cpp: set_cursor, insert, remove | undo groups, redisplay, the clipboard of Windows, which word is toggled, 32-bit positions |
| Fk\* | rl_commands.cpp: adjust_point_\*, win_f1, win_f2, win_f3, win_f4 | reading the key, suggestions, which history line is the previous one, invalid UTF-8 |
| Co\* | coroutines.lua: clear_coroutines, release/set_coroutine_yieldguard, check_generation, _wait_duration, _resume_coroutines, clink.removecoroutine, io.popenyield, coroutine.create; the threads of io_api.cpp and yield.cpp; the idle event of lua_input_idle.cpp | intervals and throttling, asyncyield, failures to spawn, what coroutines compute, prompt coroutines with prompt.async off |
| Ar\* | arguments.lua: start_command, next_word, update, \_push, \_pop, lookup_link (plain links), \_is_flag, \_generate up to the choice of what is offered, addarg, addargunsorted, reset of \_nextargindex | callbacks (onadvance, onalias, onarg, onlink, delayinit), functions as arguments, loopchars, chaincommand, aliases, words joined over : and =, the matches themselves, colouring of input |
| Sl\* | suggestionlist_impl.cpp: on_input (keys, click, drag, wheel), update_top, set_top, get_scroll_offset, update_display (which rows are drawn, the tooltip, erasing), apply_suggestion, clear_index, remove_history_index | the header, the text of the rows, the scroll bar, hiding and turning off the list, key bindings, locking against new suggestions, layout from screen sizes (the number of rows is an input) |
| Er\* | errfile_reader.cpp: next (first call); host.cpp 805-827 | when the echo command is queued and run; what cmd writes; UTF-16 units from 128 on |
| Sk\* | sticky_search.cpp; misc.c: rl_get_previous_history, rl_get_next_history, _rl_maybe_replace_line, saving and restoring of the line; readline_common_teardown; buffer_changing; the decision in host.cpp to add a line | history searches, undo commands, operate-and-get-next, dupe_mode and exclusions (adding is any function), other sessions |
| Pg\* | pager_impl.cpp; the wait for an answer in line_editor_impl.cpp dispatch and update_input; print_warnings and the printing loop of show_key_bindings | what entries look like and how many rows they really take; resolving keys; the pager of completion lists |
| Sh\* | scroll_helper.cpp and how the three lists use it while dragging | which item gets selected (in SelModel, SlModel, TlModel); drags on the scroll bar |
| Kn\* | rl_help.cpp translate_keyseq (raw names); bind.c rl_translate_keyseq, \_rl_skip_to_delim, the finding of the key in rl_parse_and_bind | friendly names, sort order, convert-meta, lines that do not begin with a quote, what is bound to the key |
| Km\* | bind.c \_rl_untranslate_macro_value, the rest of rl_parse_and_bind for macros, rl_macro_bind; the line of funcmac_dumper_internal | macros in single quotes, functions, the listing in words, sorting |
| Kt\* | bind.c rl_generic_bind as a recursion on a tree; rl_help.cpp the walk of collect_keymap | unbinding (see Ku\*), convert-meta, failing allocation, sorting and naming of the entries |
| Ku\* | bind.c rl_generic_bind with a null function; keymaps.c rl_empty_keymap | the read before the array for a single key from 128 on (bind.c:419, 502), freeing of keymaps |

Not modelled at all: the Lua scripts and most of the Lua bindings, Readline itself, display_readline.cpp, process injection and hooks,
the terminal input driver, the screen buffer, the installer and updater.
