{
 "claims": [
  {
   "property": "C01",
   "status": "proved",
   "theorems": [
    "c01_read_buffer_independent",
    "c01_any_file",
    "c01_unterminated_refuted"
   ],
   "note": "Exact contents for any buffer contents and size strictly larger than the longest line and terminated files; for arbitrary files termination, order, and that entries are pieces of the file. An unterminated last line is usually not read (refuted)."
  },
  {
   "property": "C02",
   "status": "proved",
   "theorems": [
    "c02_add_appends_one",
    "c02_add_texts",
    "c02_ignored_changes_nothing"
   ],
   "note": "All duplicate modes and time stamp settings; any buffer larger than the longest line."
  },
  {
   "property": "C03",
   "status": "proved",
   "theorems": [
    "c03_remove_master_entry",
    "c03_remove_session_entry",
    "c03_unconditional_refuted"
   ],
   "note": "Direct and deferred removal. For direct removal the text must not be of the form '?<TAB>time=...': without this the statement is refuted. With deferred removal ids and texts are exact; the time stamp of the entry after the removed one can change (see C14)."
  },
  {
   "property": "C04",
   "status": "proved",
   "theorems": [
    "c04_remove_by_text"
   ],
   "note": "Both banks, deferred and direct."
  },
  {
   "property": "C05",
   "status": "proved",
   "theorems": [
    "c05_find_first"
   ],
   "note": ""
  },
  {
   "property": "C06",
   "status": "proved",
   "theorems": [
    "c06_no_duplicates",
    "c06_last_is_latest"
   ],
   "note": "Any sequence of adds."
  },
  {
   "property": "C07",
   "status": "partial",
   "theorems": [
    "c07_compact_contents",
    "c07_compact_invisible",
    "c07_uniq_limit_erases_all",
    "c07_compact_contents_unrestricted_refuted"
   ],
   "note": "Proved for every limit and uniq setting except: uniq with #unique < limit < #entries. There the code erases the whole master history (proved: c07_uniq_limit_erases_all; witness: ..._refuted)."
  },
  {
   "property": "C08",
   "status": "proved",
   "theorems": [
    "c08_compact_keeps_removals",
    "c08_compact_view_unchanged",
    "c08_uniq_view_refuted"
   ],
   "note": "Texts and order of every session's view; with uniq a pending-removed later copy hides the earlier one (refuted witness)."
  },
  {
   "property": "C09",
   "status": "proved",
   "theorems": [
    "c09_removes_only_what_was_loaded",
    "c09_stale_id_rejected",
    "c09_reachable_well_formed",
    "c09_own_compaction_refuted"
   ],
   "note": "Every reachable state of any number of sessions (adds, removals, loads, compactions, clears, ends, reaps; lock scopes are atomic). The session's own compaction needs the reload that load_rl_history does (refuted without it)."
  },
  {
   "property": "C10",
   "status": "proved",
   "theorems": [
    "c10_reap_merges",
    "c10_reap_in_any_state"
   ],
   "note": "Any master, session file, removals file."
  },
  {
   "property": "C100",
   "status": "proved",
   "theorems": [
    "slashes_toggled",
    "slashes_toggled_twice"
   ],
   "note": "Which word is toggled is not modelled here."
  },
  {
   "property": "C101",
   "status": "partial",
   "theorems": [
    "up_to_exists",
    "f1_moves",
    "f1_copies",
    "f1_moves_then_copies",
    "f1_nothing_more",
    "f1_rebuilds",
    "f3_copies_rest",
    "f2_copies",
    "f4_deletes",
    "f1_place_refuted"
   ],
   "note": "Proved if what stands before the place takes the same number of bytes in both lines (always so when the line was copied, or both are ASCII); without that the claim is false, with a witness. Suggestions are off; a character stands for one with the characters of width zero after it."
  },
  {
   "property": "C102",
   "status": "partial",
   "theorems": [
    "popen_one_at_a_time_partial",
    "popen_one_at_a_time_refuted"
   ],
   "note": "Proved for runs without pclose; with pclose it is false, with a witness. Intervals are 0, throttling off; asyncyield and failures to spawn are not modelled."
  },
  {
   "property": "C103",
   "status": "partial",
   "theorems": [
    "queued_goes_on_partial",
    "only_the_queued_sleep_partial",
    "queued_goes_on_refuted"
   ],
   "note": "That queued coroutines always go on is false, with a witness; proved: they do when resumed while the category is free, and only queued ones can be left behind."
  },
  {
   "property": "C104",
   "status": "partial",
   "theorems": [
    "category_freed_partial",
    "removed_blocks_category",
    "category_freed_refuted"
   ],
   "note": "Proved for runs without clink.removecoroutine; with it false, with a witness, and the category is proved to be blocked for good (without pclose)."
  },
  {
   "property": "C105",
   "status": "partial",
   "theorems": [
    "argument_slots",
    "flag_changes_nothing",
    "redirection_refuted"
   ],
   "note": "All but the clause on redirections, which is false, with a witness. No callbacks, loopchars, chaincommand or aliases; words with : = or word break characters are not modelled."
  },
  {
   "property": "C106",
   "status": "partial",
   "theorems": [
    "linked_then_next",
    "linked_slots",
    "nofiles_dead_end_partial",
    "nofiles_dead_end_refuted",
    "flags_anywhere_refuted",
    "flag_left_out_partial",
    "flag_left_out_refuted"
   ],
   "note": "Links proved for argmatchers without flags and nofiles; the claims on nofiles and on flags are false after an argmatcher linked from a last slot, with witnesses, and the one on nofiles is proved where none is. That flags may be left out is proved for equal prefixes without nofiles and false for different prefixes."
  },
  {
   "property": "C107",
   "status": "partial",
   "theorems": [
    "addarg_slots",
    "addargunsorted_refuted"
   ],
   "note": "addarg proved; the clause on addargunsorted is false in every new argmatcher."
  },
  {
   "property": "C108",
   "status": "partial",
   "theorems": [
    "selection_shown_partial",
    "down_and_up",
    "at_the_ends",
    "page_up_moves",
    "page_down_moves_partial",
    "page_down_to_last_partial",
    "drag_beyond",
    "selection_given_up",
    "click_selects_partial",
    "click_selects_refuted",
    "wheel_up_refuted",
    "page_down_refuted",
    "drag_beside_refuted",
    "line_of_selection"
   ],
   "note": "Proved but for four cases that are false, each with a witness: the wheel turned up with nothing selected, Page Down with a scroll offset, clicks below a tooltip, clicks after a drag beside the list. The scroll bar is not modelled."
  },
  {
   "property": "C109",
   "status": "proved",
   "theorems": [
    "shows_whole_list"
   ],
   "note": "Rows are abstract (which suggestion, marked or not, or whose tooltip); the header, the text and the scroll bar are not modelled. The number of rows changes only together with m_clear_display."
  },
  {
   "property": "C11",
   "status": "proved",
   "theorems": [
    "c11_crash_loses_nothing"
   ],
   "note": "Crash points are between file operations (every buffer appended, every line marked, both unlinks); any number of crashed reaps. A torn single write is not modelled."
  },
  {
   "property": "C110",
   "status": "proved",
   "theorems": [
    "exit_code_read"
   ],
   "note": "Only the first line is read, as the pushd stack is not captured in this build. That the conversion from the ANSI code page leaves ASCII alone is a hypothesis. atoi as in SettingsModel."
  },
  {
   "property": "C111",
   "status": "partial",
   "theorems": [
    "up_from_end",
    "from_kept",
    "replay",
    "reused_not_added_partial",
    "reused_not_added_refuted",
    "new_command_added_partial",
    "new_command_added_refuted"
   ],
   "note": "Replaying proved in full. The clauses on adding are false in one case each, with witnesses, and proved otherwise: for moves that do not end past the last command, and for edits after the last move. What adding does to the history is any function. History searches, undo commands, operate-and-get-next and history changed by other sessions are not modelled."
  },
  {
   "property": "C112",
   "status": "partial",
   "theorems": [
    "shown_in_order",
    "asks_only_for_more",
    "screens_as_asked",
    "nothing_scrolls_away_partial",
    "nothing_scrolls_away_refuted"
   ],
   "note": "Order, answers and questions proved in full (screens_as_asked for entries of one row). That nothing scrolls away is false in three cases, with witnesses, and proved for entries of at most two rows on terminals of three rows or more that keep their size. The number of rows of an entry is what show_key_bindings tells the pager."
  },
  {
   "property": "C113",
   "status": "partial",
   "theorems": [
    "scrolls_apart",
    "slow_after_pause",
    "speeds_up",
    "popup_scrolls_refuted"
   ],
   "note": "Proved for the completion list and the suggestion list. False for popup lists, which never call on_scroll: popup_scrolls_refuted says what they do for all inputs and gives a witness. The rows left beyond the edge are an input; the lists themselves are in SelModel, SlModel and TlModel."
  },
  {
   "property": "C114",
   "status": "partial",
   "theorems": [
    "raw_name_binds_partial",
    "raw_names_differ_partial",
    "raw_name_binds_refuted"
   ],
   "note": "Proved for all sequences without byte 28 other than ESC followed by a byte from 128 on; false for these, with witnesses. convert-meta is off, as Clink sets it. Friendly names are not modelled."
  },
  {
   "property": "C115",
   "status": "partial",
   "theorems": [
    "dumped_macro_means",
    "dumped_macro_read_back_partial",
    "dumped_macro_read_back_refuted"
   ],
   "note": "dumped_macro_means says for every macro what its line is read back as; that is the macro itself exactly if it is ASCII. Keys as for C114. The numbers of spaces in the line are arbitrary."
  },
  {
   "property": "C116",
   "status": "proved",
   "theorems": [
    "binding_changes_one",
    "last_binding_listed"
   ],
   "note": "For bindings to functions and macros that the listing does not leave out (self-insert, do-lowercase-version and the start of a bracketed paste are left out). Unbinding is in C117; the names of the sequences are in C114."
  },
  {
   "property": "C117",
   "status": "proved",
   "theorems": [
    "unbinding_removes_one",
    "last_change_listed"
   ],
   "note": "As C116, from a bare keymap, with the stand-in for a null function not listed because it has no name. With a single key from 128 on the code reads before the keymap where char is signed; the model takes that read to find no keymap."
  },
  {
   "property": "C12",
   "status": "partial",
   "theorems": [
    "c12_crash_repeats_whole_session_partial",
    "c12_crash_duplicates_refuted",
    "c12_crash_invents_entry_refuted"
   ],
   "note": "The property as stated is false (both _refuted theorems). What holds: whole-session repetition at most once per crash, for session files of at most one buffer."
  },
  {
   "property": "C13",
   "status": "partial",
   "theorems": [
    "c13_clear_disables_removals",
    "c13_removal_after_clear_refuted"
   ],
   "note": "The property as stated is false: after clear with a removals file every later removal is ignored, for all states."
  },
  {
   "property": "C14",
   "status": "partial",
   "theorems": [
    "c14_own_stamp_partial",
    "c14_own_stamp_refuted"
   ],
   "note": "Holds without deferred removals of lines; refuted with them."
  },
  {
   "property": "C15",
   "status": "proved",
   "theorems": [
    "c15_prune"
   ],
   "note": ""
  },
  {
   "property": "C16",
   "status": "proved",
   "theorems": [
    "c16_load",
    "c16_remove_index",
    "c16_remove_sequence"
   ],
   "note": ""
  },
  {
   "property": "C17",
   "status": "proved",
   "theorems": [
    "c17_no_deadlock",
    "c17_steps_bounded",
    "c17_can_finish",
    "c17_exclusive"
   ],
   "note": "Any number of processes and operations, any schedule. Operations do not nest (as in the code: iterators are closed before other operations)."
  },
  {
   "property": "C18",
   "status": "proved",
   "theorems": [
    "c18_ids_faithful",
    "c18_ids_monotone",
    "c18_too_big_refused"
   ],
   "note": ""
  },
  {
   "property": "C19",
   "status": "partial",
   "theorems": [
    "c19_stale_removals_ignored",
    "c19_removal_after_start_refuted"
   ],
   "note": "The property is false: the race is exhibited by a reachable state; in any such state all removals by text are ignored."
  },
  {
   "property": "C20",
   "status": "proved",
   "theorems": [
    "c20_utf8_to_utf16",
    "c20_utf16_to_utf8",
    "c20_round_trips"
   ],
   "note": "For all lists of nonzero scalar values, any memory layout and any sufficient target."
  },
  {
   "property": "C21",
   "status": "proved",
   "theorems": [
    "c21_utf8_total",
    "c21_utf16_total",
    "c21_utf8_zero_only_at_end_refuted",
    "c21_utf8_never_surrogate_refuted"
   ],
   "note": "Also shows that UTF-8 decoding (unlike UTF-16) returns 0 before the end for overlong NULs, and returns surrogates."
  },
  {
   "property": "C22",
   "status": "proved",
   "theorems": [
    "c22_to_utf16_bounded",
    "c22_to_utf8_bounded",
    "c22_target_meaning",
    "c22_truncation_at_character_refuted"
   ],
   "note": "Exact contents of the target for every input and size; truncation can split a character (refuted)."
  },
  {
   "property": "C23",
   "status": "proved",
   "theorems": [
    "c23_terminated",
    "c23_concat",
    "c23_concat_no_truncate",
    "c23_copy",
    "c23_truncate_trim_clear",
    "c23_format",
    "c23_format_wide",
    "c23_converted",
    "c23_strip_quotes_spaces",
    "c23_format_wide_result_refuted"
   ],
   "note": "For every reachable state of any program of string operations. The result of the wide formatted append on a buffer that cannot grow is wrong (refuted)."
  },
  {
   "property": "C24",
   "status": "proved",
   "theorems": [
    "c24_tokens_utf8",
    "c24_tokens_utf16",
    "c24_any_bytes",
    "c24_peek_delims",
    "c24_quote_pairs",
    "c24_given_pairs",
    "c24_malformed_refuted"
   ],
   "note": "For every well formed UTF-8 or UTF-16 text, delimiters below 255 and ASCII quote pairs. For malformed UTF-8 only safety, order and bounds hold: bytes from an incomplete character or an overlong NUL on are dropped (c24_malformed_refuted)."
  },
  {
   "property": "C25",
   "status": "proved",
   "theorems": [
    "c25_compare",
    "c25_equivalence",
    "c25_exact",
    "c25_accents",
    "c25_accent_case",
    "c25_malformed_refuted",
    "c25_exact_slash_refuted"
   ],
   "note": "For well formed texts, any CharLowerW. Equality is an equivalence in every mode. A malformed text is not equal to itself (c25_malformed_refuted); with exact_slash a backslash after a slash is still skipped (c25_exact_slash_refuted)."
  },
  {
   "property": "C26",
   "status": "proved",
   "theorems": [
    "c26_match",
    "c26_any_pattern",
    "c26_stars_only",
    "c26_instances_match",
    "c26_many_stars_refuted",
    "c26_missing_char_refuted",
    "c26_separators_after_star"
   ],
   "note": "Full declarative meaning (separators, dot prefixes, star modes) for patterns with at most ten stars; termination and soundness for all patterns; textbook glob meaning for patterns without ?; refutations for eleven stars and for ? matching a missing character."
  },
  {
   "property": "C27",
   "status": "proved",
   "theorems": [
    "wildmatch_defined",
    "wildmatch_exact",
    "wildmatch_directories",
    "wildmatch_leading_directories",
    "wildmatch_surroundings",
    "wildmatch_readable",
    "fnmatch_flags",
    "wildmatch_capital_set_refuted",
    "wildmatch_back_refuted",
    "wildmatch_period_refuted",
    "wildmatch_before_refuted",
    "wildmatch_behind_refuted",
    "wildmatch_open_bracket_refuted",
    "wildmatch_inner_stars_refuted"
   ],
   "note": "Exact (both answers) for every pattern with literals, escapes, ?, *, bracket sets with ranges and classes and a final /**; for **/ inside a pattern only that no match is missed (the converse is false, see wildmatch_back_refuted), exact for a leading **/ without the period flag. Malformed patterns only get totality. Character classes are those of the C locale, those of bytes from 128 on arbitrary; the bytes before the pattern and behind the name are variables."
  },
  {
   "property": "C28",
   "status": "proved",
   "theorems": [
    "c28_meaning",
    "c28_shape",
    "c28_short",
    "c28_byte_before",
    "c28_idempotent_rooted",
    "c28_idempotent_plain",
    "c28_idempotent_relative",
    "c28_idempotent_refuted",
    "c28_drive_appears_refuted",
    "c28_share_refuted",
    "c28_device_refuted",
    "c28_reads_before_refuted"
   ],
   "note": "Refinement of normalise to a fold over elements, for every path shorter than 2^31. The refuted theorems show: no idempotence with names beginning with a dot; a relative path can turn into one with a drive; doubled separators inside a UNC share corrupt it; device paths lose a leading separator; the byte before the buffer is read."
  },
  {
   "property": "C29",
   "status": "proved",
   "theorems": [
    "c29_recompose",
    "c29_extension",
    "c29_extension_of_name",
    "c29_append_name",
    "c29_share_extension_refuted"
   ],
   "note": "Directory and name recompose the path, the extension is the last dot suffix of the name, and appending a name makes it the name. The refuted variant: the extension of a bare UNC share is found inside the share name."
  },
  {
   "property": "C30",
   "status": "proved",
   "theorems": [
    "c30_parent",
    "c30_terminates",
    "c30_root_refuted",
    "c30_strip"
   ],
   "note": "to_parent shortens the path to a prefix and stops at a root within as many steps as the path has bytes. The refuted variant: the parent of a rooted path need not be rooted (the parent of /one is empty)."
  },
  {
   "property": "C31",
   "status": "proved",
   "theorems": [
    "c31_safe",
    "c31_no_leak",
    "c31_succeeds",
    "c31_huge_page_refuted"
   ],
   "note": "Invariant over any sequence of operations on any number of allocators with any malloc failures, page sizes up to 2 GB. The refuted variant shows that page sizes near 4 GB break (32-bit overflow in fits). Alignment is not claimed."
  },
  {
   "property": "C32",
   "status": "proved",
   "theorems": [
    "values_survive",
    "settings_survive",
    "sandbox_keeps_values",
    "sandbox_keeps_entries",
    "sandbox_changes_file",
    "sandbox_color_refuted",
    "blank_string_refuted",
    "numeric_option_refuted"
   ],
   "note": "settings.cpp load, save, set, clear, sandboxed set, with C-locale isspace and caseless names; atoi saturates; the enum comparison is an arbitrary function; files of the old format, file errors, the double fclose of load_custom_defaults and virtual calls from constructors are not modelled."
  },
  {
   "property": "C33",
   "status": "proved",
   "theorems": [
    "words_exact",
    "means_unique",
    "colors_survive",
    "codes_survive",
    "words_read",
    "codes_described",
    "empty_field_refuted",
    "background_only_refuted"
   ],
   "note": "parse_color and format_color function by function; signed overflow in int_from_str_iter is an explicit undefined outcome, excluded by numbers below 2^31. Words are split by the tokeniser of C24."
  },
  {
   "property": "C34",
   "status": "proved",
   "theorems": [
    "entries_kept",
    "last_wins",
    "settings_survive",
    "undeclared_last_refuted",
    "undeclared_change_refuted",
    "removed_setting_refuted",
    "letter_case_refuted"
   ],
   "note": "Same model as C32."
  },
  {
   "property": "C35",
   "status": "proved",
   "theorems": [
    "c35_resolve",
    "c35_more",
    "c35_defined",
    "c35_others",
    "c35_resolve_refuted_long",
    "c35_empty_twice_refuted",
    "c35_group_refuted",
    "c35_cut_refuted"
   ],
   "note": "The trie of binder.cpp is modelled slot by slot. The exclusions in the statement are shown necessary by the _refuted theorems."
  },
  {
   "property": "C36",
   "status": "proved",
   "theorems": [
    "c36_session",
    "c36_in_order",
    "c36_done",
    "c36_kept_refuted",
    "c36_params_refuted",
    "c36_inside_refuted"
   ],
   "note": "bind_resolver.cpp with the dispatch loop of line_editor_impl.cpp. The exclusions in the statement are shown necessary by the _refuted theorems."
  },
  {
   "property": "C37",
   "status": "proved",
   "theorems": [
    "c37_params",
    "c37_length_of_all_refuted"
   ],
   "note": "input_params add/get/clear. With more than four parameters the length omits the later ones."
  },
  {
   "property": "C38",
   "status": "proved",
   "theorems": [
    "resolve_reads_the_line",
    "resolve_plain_line",
    "resolve_ends",
    "alias_lines_spec",
    "parens_kept_refuted",
    "redirect_hides_macro_refuted"
   ],
   "note": "Byte-wise model (well formed UTF-8); cursor position not modelled; macro table an arbitrary function. Refinement to a declarative reading of the line, which is shown to exist and to be unique."
  },
  {
   "property": "C39",
   "status": "proved",
   "theorems": [
    "commands_cover",
    "commands_split",
    "commands_whole",
    "rem_takes_all",
    "words_cover",
    "slash_ends_command",
    "slash_ends_redirected_command",
    "slash_inside_argument",
    "non_ascii_names_refuted",
    "caret_is_rem_refuted",
    "redirected_name_refuted"
   ],
   "note": "cmd_tokenisers.cpp as a whole on well formed UTF-8 without NUL; quote pair fixed to double quotes; the byte beyond the end and the macro table are arbitrary. The delimiter reported with each token is not modelled."
  },
  {
   "property": "C40",
   "status": "proved",
   "theorems": [
    "c40_refines",
    "c40_stream",
    "c40_alias_separate_refuted",
    "c40_chars_always_refuted",
    "c40_blank_lines_kept_refuted"
   ],
   "note": "Refinement to a list of texts for every sequence of operations on well formed UTF-8. The refuted variants need queued lines with no flags, which the application does not create today; doskey resolution is an arbitrary function."
  },
  {
   "property": "C41",
   "status": "proved",
   "theorems": [
    "c41_tokens",
    "c41_splits",
    "c41_terminates",
    "c41_plain",
    "c41_lossless_refuted",
    "c41_typed_refuted",
    "c41_any_length_refuted"
   ],
   "note": "Token grammar stated in EscSpec independently of the state machine; splits on arbitrary bytes; three stronger readings refuted by witnesses."
  },
  {
   "property": "C42",
   "status": "proved",
   "theorems": [
    "c42_chunks",
    "c42_all_refuted",
    "c42_bytes_refuted"
   ],
   "note": "Any number of pieces; refuted for nested OSC and for cuts inside characters."
  },
  {
   "property": "C43",
   "status": "proved",
   "theorems": [
    "c43_merge",
    "c43_assoc",
    "c43_right_identity",
    "c43_left_identity",
    "c43_diff",
    "c43_diff_merge",
    "c43_diff_merge_any_refuted",
    "c43_equal",
    "c43_equal_transitive_refuted",
    "c43_default",
    "c43_rgb"
   ],
   "note": "On the bits of the 64 bit state. diff then merge loses attributes when the first set does not define them and the raw values agree; operator== is not transitive."
  },
  {
   "property": "C44",
   "status": "proved",
   "theorems": [
    "c44_bound",
    "c44_unchanged",
    "c44_ellipsify",
    "c44_right",
    "c44_left",
    "c44_path",
    "c44_limit0_refuted",
    "c44_ambiguous_refuted",
    "c44_malformed_refuted",
    "c44_path_expand_refuted",
    "c44_left_any_refuted"
   ],
   "note": "All modes on any bytes for the bound; exact results on well formed text. Refuted: limit 0 in ellipsify, consoles where the ellipsis takes two cells, text ending within an escape code, PATH with expand_ctrl, and LEFT when the kept part starts with a variation selector."
  },
  {
   "property": "C45",
   "status": "proved",
   "theorems": [
    "columns_fit",
    "matches_fit",
    "columns_most",
    "rows_fit",
    "rows_fit_refuted",
    "columns_fit_refuted",
    "aligned_descriptions_refuted"
   ],
   "note": "16-bit widths are explicit; theorems assume widths below 60000. Match widths are those the code computes at line 302 (printable_len and condensing are not modelled). Refuted: rows with three-blank descriptions and several columns; a match of 65534 cells; descriptions aligned in columns of one width."
  },
  {
   "property": "C46",
   "status": "proved",
   "theorems": [
    "line_colored",
    "colors_keep_faces",
    "color_ignored",
    "equal_lines",
    "letter_case_refuted",
    "negative_length_refuted",
    "empty_code_refuted"
   ],
   "note": "word_classifications.cpp with the Lua entry points; color keys pointing into moved elements are an explicit undefined outcome (only with empty codes). Malloc is assumed to succeed; the class infos recorded for tests are not modelled."
  },
  {
   "property": "C47",
   "status": "proved",
   "theorems": [
    "c47_size",
    "c47_size_none",
    "c47_size_huge_refuted",
    "c47_offset",
    "c47_cells",
    "c47_hittest"
   ],
   "note": "Double division modelled as exact division followed by any order preserving rounding with relative error at most 2^-50. int32 overflow is an explicit outcome and happens for bars of 40000 rows."
  },
  {
   "property": "C48",
   "status": "proved",
   "theorems": [
    "c48_strip"
   ],
   "note": "strip_wakeup_chars_worker on a buffer; reads and writes outside the buffer would be None."
  },
  {
   "property": "C49",
   "status": "proved",
   "theorems": [
    "packed_size",
    "packed_unless_empty",
    "unpack_packed",
    "lookup_finds",
    "lookup_oneoff",
    "match_changed_refuted",
    "long_match_refuted",
    "oneoff_description_refuted"
   ],
   "note": "matches_lookaside.cpp with the 16-bit offsets explicit, in debug and release builds (the magic bytes are a variable); blocks behind pointers are an arbitrary memory holding packed matches; allocation failures are not modelled."
  },
  {
   "property": "C50",
   "status": "proved",
   "theorems": [
    "c50_sound",
    "c50_newest",
    "c50_idle",
    "c50_wait",
    "c50_shutdown",
    "c50_immediate",
    "c50_fresh",
    "c50_told",
    "c50_fresh_any_refuted",
    "c50_told_dropped_refuted"
   ],
   "note": "Critical sections are atomic steps. Refuted: freshness when a search is in flight at clear(), and announcing of dropped words. Failing allocations and CreateEvent and the timed wait of end_line are not modelled."
  },
  {
   "property": "C51",
   "status": "proved",
   "theorems": [
    "c51_wraps",
    "c51_ends_refuted",
    "c51_codes_kept_refuted"
   ],
   "note": "Plain text under 65536 bytes with a positive width. Refuted: ending when a character is wider than the width, and keeping control functions."
  },
  {
   "property": "C52",
   "status": "proved",
   "theorems": [
    "c52_partition",
    "c52_clusters",
    "c52_reset",
    "c52_cut",
    "c52_sum",
    "c52_unnext",
    "c52_more",
    "c52_sum_any_refuted",
    "c52_more_any_refuted",
    "c52_combining_refuted"
   ],
   "note": "Grammar of display characters in WcSpec. Additivity holds at character boundaries and is refuted inside emoji sequences; more() is wrong for a truncated character at the end; combining marks are characters of their own, on purpose (console cells)."
  },
  {
   "property": "C53",
   "status": "proved",
   "theorems": [
    "shortcut_exact",
    "shortcut_defined",
    "shortcut_quoted",
    "escaped_caret_refuted"
   ],
   "note": "intercept.cpp, os::expand_env, path::tilde_expand and path::get_drive. Environment, aliases, directory test, remote test, current directory and the byte before a buffer are arbitrary; expand_env steps bytewise (same for well formed UTF-8); letter case is that of the C locale."
  },
  {
   "property": "C54",
   "status": "proved",
   "theorems": [
    "c54_tame",
    "c54_runs",
    "c54_any_refuted"
   ],
   "note": "Refuted for lines with a quote of the other kind inside a quoted region."
  },
  {
   "property": "C55",
   "status": "proved",
   "theorems": [
    "c55_transparent",
    "c55_dirty_string_refuted"
   ],
   "note": "stricmp is an arbitrary key function; definitions may change between lookups."
  },
  {
   "property": "C56",
   "status": "partial",
   "theorems": [
    "c56_new_session_sees_all_partial",
    "c56_new_session_sees_all_refuted"
   ],
   "note": "Holds for sessions with files of their own; refuted when the process id of a crashed session is reused."
  },
  {
   "property": "C57",
   "status": "proved",
   "theorems": [
    "c57_char_count_utf8",
    "c57_char_count_utf16"
   ],
   "note": ""
  },
  {
   "property": "C58",
   "status": "proved",
   "theorems": [
    "c58_ownership",
    "c58_no_leak",
    "c58_move",
    "c58_move_moveable"
   ],
   "note": "Sources never alias the target; malloc always succeeds."
  },
  {
   "property": "C59",
   "status": "proved",
   "theorems": [
    "c59_safe",
    "c59_sgr",
    "c59_reset",
    "c59_csi",
    "c59_any_number_refuted",
    "c59_colon_refuted",
    "c59_all_params_refuted"
   ],
   "note": "Numbers of 2^31 or more overflow an int32; colon separated sub-parameters run together; parameters over 32 are dropped."
  },
  {
   "property": "C60",
   "status": "proved",
   "theorems": [
    "c60_shown",
    "c60_any_refuted",
    "c60_rgb_refuted",
    "c60_reverse_refuted",
    "c60_raw_refuted"
   ],
   "note": "The terminal is one that obeys SGR as modelled in C59. Refuted without the restrictions: bold or underline with default colors, 24 bit colors, reverse, and print with SGR text."
  },
  {
   "property": "C61",
   "status": "proved",
   "theorems": [
    "c61_search",
    "c61_search_any",
    "c61_width",
    "c61_range",
    "c61_control"
   ],
   "note": "Tables generated from wcwidth.cpp and emoji-test.i and part of the model; each is shown sorted by computation, the search is proved for every sorted table."
  },
  {
   "property": "C62",
   "status": "proved",
   "theorems": [
    "history_add",
    "history_erase",
    "dash_goes_back",
    "dash_goes_nowhere",
    "dash_toggles",
    "remove_exact",
    "history_bounded",
    "removed_refuted"
   ],
   "note": "update_dir_history, prev_dir_history and host_remove_dir_history; letter case is that of the C locale; the current directory at each prompt is arbitrary; memory suffices."
  },
  {
   "property": "C63",
   "status": "proved",
   "theorems": [
    "built_list",
    "kept_meaning",
    "done_list",
    "duplicate_count_refuted",
    "automatic_separator_refuted",
    "history_order_refuted"
   ],
   "note": "matches_impl::add_match and done_building. Settings of the builder (no sorting, file names desired, deprecated mode) are fixed before building; memory suffices; texts have no NUL; both slashes separate; display, description and append settings are carried as one value."
  },
  {
   "property": "C64",
   "status": "proved",
   "theorems": [
    "run_refines",
    "refines_meaning",
    "does_unique",
    "reads_shown",
    "many_matches_refuted"
   ],
   "note": "coalesce, select_matches, match_pipeline select and restrict. str_compare (C25) and match_wild (C26) are arbitrary functions here; tilde expansion of the needle is not modelled."
  },
  {
   "property": "C65",
   "status": "proved",
   "theorems": [
    "sort_order",
    "order_strict_weak",
    "sort_possible",
    "nosort_keeps_order",
    "type_order_refuted"
   ],
   "note": "sort_worker and the sorters; CompareStringW is an arbitrary preorder, std::sort gives any arrangement in order."
  },
  {
   "property": "C66",
   "status": "proved",
   "theorems": [
    "words_by_command",
    "words_cover_line",
    "words_unquoted",
    "last_word_at_cursor",
    "offset_of_command",
    "command_tokens",
    "words_disjoint_refuted"
   ],
   "note": "word_collector with the command and word tokenisers of C39. Lines shorter than 64 KiB, well formed UTF-8 without NUL, the quote pair is the double quote, the delimiter of each word is not modelled; the macro table, doskey lookups and the deprecated matchers are arbitrary functions."
  },
  {
   "property": "C67",
   "status": "proved",
   "theorems": [
    "states_part_words",
    "states_command_word",
    "hinter_words",
    "broken_word",
    "states_parenthesis_refuted"
   ],
   "note": "command_line_states over the words of C66. Breaking with discard is only stated for a break within the word. The delimiter of each word is not modelled."
  },
  {
   "property": "C68",
   "status": "proved",
   "theorems": [
    "booleans_exact",
    "options_exact",
    "integers_exact",
    "setting_set",
    "cleared",
    "defaults_loaded",
    "saved_exact"
   ],
   "note": "Same model as C32; atoi saturates."
  },
  {
   "property": "C69",
   "status": "proved",
   "theorems": [
    "uninstall_removes",
    "uninstall_nothing",
    "only_this_program",
    "install_appends",
    "install_replaces",
    "install_uninstall",
    "args_survive",
    "unquoted_loses",
    "unquoted_refuted",
    "last_amp_refuted",
    "amp_args_refuted",
    "long_args_refuted",
    "odd_args_refuted"
   ],
   "note": "autorun.cpp's text handling function by function; registry operations, conversions and malloc succeed; path comparison for the uninstaller is an arbitrary function; values below 62 KiB; commands are what is between & (quotes around & are not regarded, as in the code). The rules by which a program's arguments are read are written out in AutorunSpec.v."
  },
  {
   "property": "C70",
   "status": "proved",
   "theorems": [
    "shown_iff",
    "shown_plain",
    "accept_shown",
    "accept_whole",
    "accept_original",
    "accept_word",
    "accept_words",
    "accept_next",
    "reject_early",
    "reject_whole",
    "reject_never",
    "accept_next_hangs_refuted",
    "shown_inserted_refuted",
    "typed_kept_refuted",
    "one_word_refuted",
    "word_keeps_line_refuted"
   ],
   "note": "suggestion_manager function by function over the comparison of C25 and the decoder of C20. The acceptance theorems are for texts without runs of separators (plain), where each code point is compared by itself; shown_iff and the whole-line ones are for all texts. Locks by fingerprint, the hint, drawing and undo groups are not modelled; texts have no NUL and are well formed UTF-8; rl_forward_word and CharLowerW are arbitrary functions."
  },
  {
   "property": "C71",
   "status": "proved",
   "theorems": [
    "set_offers",
    "get_current",
    "asked_once",
    "asked_when_changed",
    "suppressed_quiet",
    "typing_resumes",
    "history_removed",
    "others_untouched_refuted"
   ],
   "note": "Same model as C70. The generation counter's wrap at 2^32 is modelled; the bound on the number of operations keeps it from wrapping."
  },
  {
   "property": "C72",
   "status": "proved",
   "theorems": [
    "selection_valid",
    "selection_shown",
    "shown_distinct",
    "never_past_end",
    "click_selects",
    "selection_valid_refuted",
    "selection_negative_refuted",
    "resize_past_end_refuted",
    "preview_scrollbar_refuted",
    "preview_f1_refuted",
    "page_down_negative_refuted",
    "stale_scrollbar_refuted"
   ],
   "note": "on_input's navigation, update_layout, update_top and the placing of matches by update_display, function by function; the columns are given (C45), what is inserted and printed is not modelled. Assumes a horizontal list with no more columns than matches and that inserting after typing does not change the line's height; both refuted without."
  },
  {
   "property": "C73",
   "status": "proved",
   "theorems": [
    "arrow_ahead",
    "ahead_stops",
    "arrow_back",
    "back_undoes_ahead",
    "ahead_visits",
    "page_down_last",
    "page_up_first",
    "next_match",
    "previous_match",
    "first_last_match"
   ],
   "note": "Same model as C72."
  },
  {
   "property": "C74",
   "status": "proved",
   "theorems": [
    "popup_selection_valid",
    "popup_no_bad_read",
    "popup_arrows",
    "popup_click",
    "popup_page_up",
    "popup_page_down",
    "popup_valid_any_key_refuted",
    "popup_no_bad_read_any_key_refuted",
    "popup_page_down_any_refuted",
    "popup_delete_filtered_refuted",
    "popup_clear_filter_refuted",
    "popup_wheel_refuted"
   ],
   "note": "textlist_impl.cpp's on_input, update_top, do_find, filter_items, clear_filter and what update_display reads, function by function. Keys that do harm are excluded (careful, TlSpec.v) and refuted. The window keeps its size (a resize cancels the list). Printing, columns' widths and the horizontal offset are not modelled. Entries times rows stay below 2^31."
  },
  {
   "property": "C75",
   "status": "proved",
   "theorems": [
    "popup_choose",
    "popup_delete",
    "popup_only_delete",
    "popup_copy",
    "popup_copy_filtered_refuted"
   ],
   "note": "Same model as C74; the history, directory list or callback the list comes from is a list of entries from which the one with the given number is removed."
  },
  {
   "property": "C76",
   "status": "proved",
   "theorems": [
    "popup_filter",
    "popup_type_find",
    "popup_find_next",
    "popup_number",
    "has_more",
    "popup_filter_any_refuted"
   ],
   "note": "Same model as C74, over strstr_compare on the comparison of C25. popup_filter is for input that is not interrupted by more input; the interrupted case keeps the previous filter (modelled)."
  },
  {
   "property": "C77",
   "status": "proved",
   "theorems": [
    "redraw_row",
    "redraw_keeps_right_prompt",
    "redraw_row_any_refuted"
   ],
   "note": "update_line function by function, run on a terminal row (DispSpec.v) in which a character that loses a cell is gone. Each character of the text (wcwidth_iter, C52 and C61) is in one face; code points rather than bytes; cursor styles, hyperlinks and the pending wrap at the right edge are not modelled."
  },
  {
   "property": "C78",
   "status": "proved",
   "theorems": [
    "input_layout",
    "cursor_in_row",
    "edit_redraws",
    "cursor_in_row_any_refuted",
    "cursor_at_end_any_refuted"
   ],
   "note": "display_lines::parse function by function over the characters of wcwidth_iter (C52, C61); the layout and the cursor are specified in DispRows.v without it. Lines have no control characters of two bytes (refuted otherwise). Horizontal scrolling (horz_parse) is not modelled."
  },
  {
   "property": "C79",
   "status": "proved",
   "theorems": [
    "cursor_row_shown",
    "no_needless_scroll",
    "top_marker",
    "bottom_marker",
    "cursor_row_shown_any_refuted",
    "top_marker_any_refuted",
    "cursor_off_marker_refuted"
   ],
   "note": "The scrolling decision in display_manager::display and apply_scroll_markers. cursor_row_shown is for a prompt whose last line takes one row (refuted otherwise). bottom_marker is for rows of characters of one code point each."
  },
  {
   "property": "C80",
   "status": "proved",
   "theorems": [
    "click_on_char",
    "click_newline_any_refuted"
   ],
   "note": "translate_xy_to_readline against the layout of C78; text without control characters (refuted with a newline)."
  },
  {
   "property": "C81",
   "status": "proved",
   "theorems": [
    "session_streams_are_files",
    "session_modes",
    "session_text_round_trip",
    "session_lines_round_trip",
    "session_read_zero_refuted",
    "session_gap_refuted",
    "session_seek_negative_refuted",
    "session_long_line_refuted",
    "session_nul_line_refuted",
    "session_truncate_refuted"
   ],
   "note": "sessionstream.cpp function by function, simulated by a file system specified in SsSpec.v (fstep); the conditions (fine) exclude the refuted cases. Reading numbers (*n), realloc failure, setvbuf, flush and collection by Lua are not modelled."
  },
  {
   "property": "C82",
   "status": "proved",
   "theorems": [
    "session_streams_in_bounds",
    "session_number_own",
    "session_number_truncated_refuted"
   ],
   "note": "An access outside the memory is a distinct outcome of the model (None), shown never to occur. Numbers: the text sscanf can see, from the position to the first NUL; sscanf itself is not modelled."
  },
  {
   "property": "C83",
   "status": "proved",
   "theorems": [
    "color_rules_mean",
    "color_rules_before_error",
    "quoted_word_refuted",
    "escaped_space_refuted",
    "escaped_char_refuted",
    "surrogates_refuted"
   ],
   "note": "match_colors.cpp function by function; the written form and the meaning of rules are specified in ClSpec.v. good_rule excludes the refuted cases. The glob function is a parameter (wildmatch is C27); LS_COLORS, file status and wrapping colors in escape sequences are not modelled."
  },
  {
   "property": "C84",
   "status": "proved",
   "theorems": [
    "first_rule_wins",
    "missing_color_refuted",
    "orphan_color_refuted",
    "prefix_color_refuted",
    "single_type_refuted",
    "normal_type_refuted"
   ],
   "note": "From color_rules_mean; single types are refuted by running the model."
  },
  {
   "property": "C85",
   "status": "proved",
   "theorems": [
    "no_key_begins_another",
    "keys_recovered",
    "caps_lock_refuted",
    "shifted_bracket_refuted"
   ],
   "note": "For terminal.raw_esc off; item excludes the two refuted keys, halves of surrogate pairs (C88) and an ESC character that comes from no key. Every other combination of key, character, scan code and modifiers is included, also those Windows does not report."
  },
  {
   "property": "C86",
   "status": "proved",
   "theorems": [
    "special_keys_told_apart",
    "ctrl_letters_told_apart",
    "special_keys_named",
    "ctrl_letters_named",
    "ctrl_alt_not_text",
    "alt_bracket_name_refuted",
    "raw_escape_refuted"
   ],
   "note": "For terminal.use_altgr_substitute off (with it, Ctrl-Alt is AltGr). has_name lists the keys with no name: Alt-Tab, Alt-Space, Alt-F4 if it ends the session, Enter and Alt-Backspace unless different from Ctrl-M and Alt-Ctrl-H. The hash of the map of names is a parameter; ctrl_letters_named assumes that it has no collisions, special_keys_named does not."
  },
  {
   "property": "C87",
   "status": "proved",
   "theorems": [
    "input_kept_in_order",
    "mouse_kept_in_order",
    "peek_then_read",
    "looked_at_click_refuted",
    "peek_resize_refuted"
   ],
   "note": "input_kept_in_order: for keys, with the two halves of a character one after the other (paired); any chord translation and filter. peek_then_read: without a filter."
  },
  {
   "property": "C88",
   "status": "proved",
   "theorems": [
    "typed_text_read",
    "keys_read_in_order"
   ],
   "note": "Without chord translation and filter of unbound keys (harmless). typed_text_read: printable characters; the keys that type them are not cursor, function or editing keys."
  },
  {
   "property": "C89",
   "status": "proved",
   "theorems": [
    "expands_unique",
    "expands_as_meant",
    "expands_nothing",
    "expands_cases",
    "quoted_rest_refuted",
    "dot_directory_refuted",
    "unsorted_refuted",
    "two_separators_refuted",
    "documented_exact_refuted"
   ],
   "note": "For paths without quotes, wildcards or a directory '.', one separator between names, file systems without short names that list a name before those it starts (good_fs)."
  },
  {
   "property": "C90",
   "status": "partial",
   "theorems": [
    "expands_common_partial",
    "expands_common_refuted",
    "short_name_refuted",
    "case_cut_refuted",
    "file_shortens_refuted"
   ],
   "note": "Proved: the result begins with what was typed, is common to the first two candidates, and is the longest such text if no file begins with what was typed and no other candidate is there. Missing, as it is false: common to all candidates."
  },
  {
   "property": "C91",
   "status": "proved",
   "theorems": [
    "env_pieces_exist",
    "env_expanded",
    "env_one_meaning",
    "env_expansion_ends"
   ],
   "note": "For texts that are valid UTF-8 without NUL."
  },
  {
   "property": "C92",
   "status": "partial",
   "theorems": [
    "env_cursor_partial",
    "env_cursor_refuted",
    "env_cursor_outside_refuted"
   ],
   "note": "Proved with at most one variable, or with the cursor not after the beginning of the first. Missing, as it is false: two or more variables."
  },
  {
   "property": "C93",
   "status": "proved",
   "theorems": [
    "prompt_tokens_exist",
    "prompt_shown",
    "right_prompt_shown",
    "prompt_quote_round_trip",
    "right_prompt_trim_refuted"
   ],
   "note": "Date, time, directory, version and network are parameters."
  },
  {
   "property": "C94",
   "status": "proved",
   "theorems": [
    "pushd_depth_found",
    "pushd_depth_sound",
    "pushd_depth_unknown",
    "pushd_escaped_refuted",
    "pushd_erased_refuted"
   ],
   "note": "Under the assumption that CMD shows what expand_prompt_codes shows, at the same time."
  },
  {
   "property": "C95",
   "status": "proved",
   "theorems": [
    "callback_used_properly",
    "finished_task_noticed",
    "quiet_is_clean",
    "end_of_line_cancels",
    "no_late_callback",
    "one_task_per_key"
   ],
   "note": "Each step reads or writes one member; memory is sequentially consistent; callbacks add no tasks (the only one in use, clink.reclassifyline, does not). References dropped by a shutdown are not released, as the code says."
  },
  {
   "property": "C96",
   "status": "partial",
   "theorems": [
    "callback_window",
    "lone_callback_never_called",
    "callback_called_refuted"
   ],
   "note": "The claim is false; proved is when a callback can be called at all (callback_window), and that with one task it never is, in all interleavings."
  },
  {
   "property": "C97",
   "status": "partial",
   "theorems": [
    "thread_detached_once_refuted"
   ],
   "note": "The claim is false, shown by an interleaving. Missing: nothing is proved for the interleavings without the race."
  },
  {
   "property": "C98",
   "status": "partial",
   "theorems": [
    "paste_joined",
    "paste_lines",
    "paste_lines_exist",
    "pasted_lines_run",
    "paste_cr_refuted",
    "paste_wake_refuted"
   ],
   "note": "Proved as stated; partial as two things a user would expect of pasting as is are false, with witnesses. The line queue is that of QueueModel; that the host strips wakeup characters from lines it dequeues is not modelled."
  },
  {
   "property": "C99",
   "status": "proved",
   "theorems": [
    "selection_exists",
    "selection_replaced",
    "cut_then_paste",
    "selection_shown",
    "nothing_selected",
    "all_selected",
    "selection_grows",
    "cursor_in_line"
   ],
   "note": "Undo, redisplay and what Readline does without a selection are not modelled; the text has no NUL."
  }
 ]
}