{
 "claims": [
  {
   "property": "C01",
   "status": "proved",
   "theorems": [
    "C01_history_refines_finite_map"
   ],
   "note": ""
  },
  {
   "property": "C02",
   "status": "proved",
   "theorems": [
    "C02_sequences_strictly_sorted"
   ],
   "note": ""
  },
  {
   "property": "C03",
   "status": "proved",
   "theorems": [
    "C03_find_classification"
   ],
   "note": ""
  },
  {
   "property": "C04",
   "status": "proved",
   "theorems": [
    "C04_first_and_last_duplicate"
   ],
   "note": ""
  },
  {
   "property": "C05",
   "status": "proved",
   "theorems": [
    "C05_entry_api",
    "C05_insert_replaces_key"
   ],
   "note": ""
  },
  {
   "property": "C06",
   "status": "proved",
   "theorems": [
    "C06_contains_is_membership",
    "C06_queries_are_extensional"
   ],
   "note": ""
  },
  {
   "property": "C07",
   "status": "proved",
   "theorems": [
    "C07_debug_lists_members",
    "C07_extend_and_collect"
   ],
   "note": ""
  },
  {
   "property": "C08",
   "status": "proved",
   "theorems": [
    "C08_ctrl_unctrl"
   ],
   "note": ""
  },
  {
   "property": "C09",
   "status": "proved",
   "theorems": [
    "C09_prefixes_enumerate",
    "C09_prefixes_exact",
    "C09_prefixes_increasing"
   ],
   "note": ""
  },
  {
   "property": "C10",
   "status": "proved",
   "theorems": [
    "C10_key_classification",
    "C10_key_injective"
   ],
   "note": ""
  },
  {
   "property": "C11",
   "status": "proved",
   "theorems": [
    "C11_next_previous_inverse",
    "C11_row_major_walk",
    "C11_walk_order",
    "C11_out_of_bounds",
    "C11_index_bijection"
   ],
   "note": ""
  },
  {
   "property": "C12",
   "status": "proved",
   "theorems": [
    "C12_area_overflow"
   ],
   "note": ""
  },
  {
   "property": "C13",
   "status": "proved",
   "theorems": [
    "C13_history_never_panics"
   ],
   "note": ""
  },
  {
   "property": "C14",
   "status": "partial",
   "theorems": [
    "C14_one_column_wide_refuted",
    "C14_resize_to_zero_columns_refuted",
    "C14_mark_on_zero_columns_refuted",
    "C14_narrow_any_width_partial",
    "C14_panics_exactly"
   ],
   "note": "False as stated: double-width text on one column, resizing to zero columns and a mark on zero columns panic (three refutations). C14_panics_exactly says for every size and every sequence of operations whether the session panics, from the sizes and the walk of the cursor alone. C13 covers two columns and more."
  },
  {
   "property": "C15",
   "status": "proved",
   "theorems": [
    "C15_text_layout",
    "C15_states_reachable"
   ],
   "note": ""
  },
  {
   "property": "C16",
   "status": "proved",
   "theorems": [
    "C16_cells_hold_no_control",
    "C16_other_characters_ignored"
   ],
   "note": ""
  },
  {
   "property": "C17",
   "status": "proved",
   "theorems": [
    "C17_cr_lf",
    "C17_tab"
   ],
   "note": ""
  },
  {
   "property": "C18",
   "status": "partial",
   "theorems": [
    "C18_mark_attaches_to_previous_cell_partial",
    "C18_narrow_character_with_marks_partial",
    "C18_mark_at_origin_ignored",
    "C18_mark_after_wide_refuted"
   ],
   "note": "False after a double-width character (the mark is lost in its filler cell). Proved for marks after single-width characters and for the cell actually addressed."
  },
  {
   "property": "C19",
   "status": "partial",
   "theorems": [
    "C19_wide_that_fits",
    "C19_wide_in_last_column_refuted"
   ],
   "note": "False: the character is also written into the last column. Refuted for every size."
  },
  {
   "property": "C20",
   "status": "proved",
   "theorems": [
    "C20_resize"
   ],
   "note": ""
  },
  {
   "property": "C21",
   "status": "proved",
   "theorems": [
    "C21_out_of_bounds_text",
    "C21_out_of_bounds_position"
   ],
   "note": ""
  },
  {
   "property": "C22",
   "status": "partial",
   "theorems": [
    "C22_write_styled_resets_partial",
    "C22_fitting_text_resets_partial",
    "C22_overflow_keeps_attributes_refuted",
    "C22_attributes_left_exactly"
   ],
   "note": "False when the text runs off the screen (attributes stay set). Proved for text that fits. C22_attributes_left_exactly decides it for any text after any session: no attribute left when all the text went on the screen, its own when it met the end."
  },
  {
   "property": "C23",
   "status": "proved",
   "theorems": [
    "C23_refresh_shows_the_buffer",
    "C23_refresh_shows_exactly"
   ],
   "note": ""
  },
  {
   "property": "C24",
   "status": "partial",
   "theorems": [
    "C24_wide_refresh_partial",
    "C24_wide_refresh_refuted"
   ],
   "note": "False in general: a position that showed the right half of a double-width character and gets back exactly the cell drawn there before the character stays off the terminal (refuted). Proved for all other histories in which double-width characters fit their line; they may be covered and torn apart."
  },
  {
   "property": "C25",
   "status": "partial",
   "theorems": [
    "C25_refresh_places_the_cursor",
    "C25_wide_refresh_places_the_cursor_partial",
    "C25_cursor_on_a_right_half_refuted"
   ],
   "note": "Proved for single-width text and, with double-width text, unless the cursor is on the right half of a character; refuted there."
  },
  {
   "property": "C26",
   "status": "proved",
   "theorems": [
    "C26_second_refresh_is_silent",
    "C26_drop_after_refresh_is_silent",
    "C26_only_changed_cells_are_sent",
    "C26_only_changed_cells_are_sent_in_histories"
   ],
   "note": ""
  },
  {
   "property": "C27",
   "status": "partial",
   "theorems": [
    "C27_failed_flush_is_repaired_partial",
    "C27_failed_refresh_is_repaired_refuted",
    "C27_all_but_lost_partial"
   ],
   "note": "False when the failure strikes while drawing (refuted with the real buffer size). Proved for failures of the final flush, and exactly what other failures of the OS cost: C27_all_but_lost_partial (at most one position for each refresh that failed while drawing since the last change of size, and only while the canvas has the same there). Missing there: double-width text and terminals that lack capabilities. C83_shown_after_a_size_report_partial: everything is shown again once the program has been told the window size."
  },
  {
   "property": "C28",
   "status": "proved",
   "theorems": [
    "C28_contract_is_met",
    "C28_attributes_track",
    "C28_attributes_track_limited_terminal",
    "C28_missing_exit_italics_refuted"
   ],
   "note": "Holds for every terminal with all attribute capabilities, and for the supported part on terminals where what can be switched on can be switched off; refuted without that condition."
  },
  {
   "property": "C29",
   "status": "proved",
   "theorems": [
    "C29_no_redundant_output"
   ],
   "note": ""
  },
  {
   "property": "C30",
   "status": "partial",
   "theorems": [
    "C30_flush_exactly_partial",
    "C30_short_writes_refuted",
    "C30_in_order_partial",
    "C30_no_panic_partial",
    "C30_text_stream_partial"
   ],
   "note": "False under short writes: write_data passes the whole buffer again after each partial write. Proved when each write takes everything, is interrupted or fails; and, for every sequence of answers of the OS, exactly what flush sends, keeps and returns (C30_flush_exactly_partial)."
  },
  {
   "property": "C31",
   "status": "partial",
   "theorems": [
    "C31_flush_never_returns_refuted",
    "C31_flush_panics_refuted",
    "C31_returns_partial"
   ],
   "note": "False: flush loops forever, or panics, under short writes. Proved with whole writes. When exactly it returns, for all answers: C30_flush_exactly_partial."
  },
  {
   "property": "C32",
   "status": "partial",
   "theorems": [
    "C32_one_write_takes_partial",
    "C32_short_writes_then_error_refuted",
    "C32_errors_lose_nothing_partial"
   ],
   "note": "False with several short writes before the error. Proved with whole writes, and whenever the OS took bytes with at most one of its answers (C32_one_write_takes_partial)."
  },
  {
   "property": "C33",
   "status": "partial",
   "theorems": [
    "C33_error_swallowed_refuted",
    "C33_success_means_delivered_partial"
   ],
   "note": "False: the guard's drop swallows the flush error. Proved for a device that does not fail."
  },
  {
   "property": "C34",
   "status": "proved",
   "theorems": [
    "C34_relative_movement",
    "C34_no_movement_no_output",
    "C34_missing_capability",
    "C34_absolute_movement"
   ],
   "note": ""
  },
  {
   "property": "C35",
   "status": "proved",
   "theorems": [
    "C35_event_bounds",
    "C35_accounts"
   ],
   "note": "The operating system is a timeline of arrivals, signals, interruptions, failures and window changes; C35_accounts covers every history of reader calls."
  },
  {
   "property": "C36",
   "status": "proved",
   "theorems": [
    "C36_plain_character",
    "C36_read_character"
   ],
   "note": ""
  },
  {
   "property": "C37",
   "status": "proved",
   "theorems": [
    "C37_longest_sequence",
    "C37_read_key"
   ],
   "note": ""
  },
  {
   "property": "C38",
   "status": "partial",
   "theorems": [
    "C38_mouse_report",
    "C38_every_code",
    "C38_further_buttons_refuted",
    "C38_read_mouse"
   ],
   "note": "Proved for buttons 1-3, wheel and motion and exactly characterised for every code; false for buttons 6-11, which are told as motion."
  },
  {
   "property": "C39",
   "status": "partial",
   "theorems": [
    "C39_panics_refuted",
    "C39_read_panics_partial",
    "C39_wait_panics_partial"
   ],
   "note": "Refuted by a mouse report with a zero coordinate (overflow checks on); the theorems say exactly which inputs panic and that only those and overflowing timeouts make read_event or wait_event panic."
  },
  {
   "property": "C40",
   "status": "proved",
   "theorems": [
    "C40_split_character"
   ],
   "note": ""
  },
  {
   "property": "C41",
   "status": "partial",
   "theorems": [
    "C41_stuck_refuted",
    "C41_read_raw_partial"
   ],
   "note": "Refuted: invalid input at the front is reported for ever; read_raw gets past it."
  },
  {
   "property": "C42",
   "status": "proved",
   "theorems": [
    "C42_from_utf8_exact",
    "C42_decode_encode"
   ],
   "note": "from_utf8 in unix/terminal.rs with std's from_utf8 modelled as an RFC 3629 validator"
  },
  {
   "property": "C43",
   "status": "proved",
   "theorems": [
    "C43_signal_event"
   ],
   "note": ""
  },
  {
   "property": "C44",
   "status": "partial",
   "theorems": [
    "C44_newest_is_kept_partial",
    "C44_overtaken_refuted"
   ],
   "note": "Refuted: one slot for all signals; a signal overtaken by another before the reader looks leaves no trace. Proved: the newest signal is never lost, it waits for the next call or is told as it deserves (C44_newest_is_kept_partial). A lone signal: C43_signal_event."
  },
  {
   "property": "C45",
   "status": "partial",
   "theorems": [
    "C45_before_partial",
    "C45_during_partial",
    "C45_between_refuted",
    "C45_timeout_refuted"
   ],
   "note": "Refuted for a signal arriving between the check and select; proved for signals before the check and during the sleep."
  },
  {
   "property": "C46",
   "status": "proved",
   "theorems": [
    "C46_no_wait",
    "C46_handlers"
   ],
   "note": ""
  },
  {
   "property": "C47",
   "status": "partial",
   "theorems": [
    "C47_exact_partial",
    "C47_overflow_refuted",
    "C47_sum_refuted"
   ],
   "note": "Exact for durations below 9223372036854 seconds; for all others computing the timeout panics, exactly characterised (TimeVal::milliseconds of nix 0.26, whose bounds are part of the trusted base); the sum of i64 in the code itself overflows for the longest ones, also exactly characterised."
  },
  {
   "property": "C48",
   "status": "proved",
   "theorems": [
    "C48_nested_restore"
   ],
   "note": ""
  },
  {
   "property": "C49",
   "status": "partial",
   "theorems": [
    "C49_resets_partial",
    "C49_mouse_refuted",
    "C49_report_refuted"
   ],
   "note": "Refuted for nested prepare: mouse reports and the report set are not those of the outer prepare; the outermost restore turns off exactly what prepare turned on."
  },
  {
   "property": "C50",
   "status": "proved",
   "theorems": [
    "C50_prepare_exact"
   ],
   "note": ""
  },
  {
   "property": "C51",
   "status": "partial",
   "theorems": [
    "C51_early_failure_partial",
    "C51_late_failure_refuted"
   ],
   "note": "Refuted: a failure after the settings were changed leaves them changed; proved for failures before that."
  },
  {
   "property": "C52",
   "status": "partial",
   "theorems": [
    "C52_no_deadlock_partial",
    "C52_reading_while_writing_refuted",
    "C52_reader_stays_stuck_refuted"
   ],
   "note": "Proved for programs following the documented rules that additionally do not call read_event/read_raw of a read guard while holding the write guard; the refuted theorems show that without this rule a resize makes the thread wait for itself (size() locks the writer)."
  },
  {
   "property": "C53",
   "status": "proved",
   "theorems": [
    "C53_sessions_do_not_interleave"
   ],
   "note": ""
  },
  {
   "property": "C54",
   "status": "proved",
   "theorems": [
    "C54_both",
    "C54_both_tries",
    "C54_methods"
   ],
   "note": ""
  },
  {
   "property": "C55",
   "status": "proved",
   "theorems": [
    "C55_accepts",
    "C55_terminal_guard",
    "C55_terminal",
    "C55_writeln",
    "C55_screen_guard",
    "C55_screen"
   ],
   "note": ""
  },
  {
   "property": "C56",
   "status": "partial",
   "theorems": [
    "C56_word",
    "C56_swapping_twice",
    "C56_console_follows",
    "C56_after_failure_refuted"
   ],
   "note": "Holds for every attribute word and for all histories of successful operations; refuted across failures: the terminal records attributes as set although the console refused them, and repeating the request does nothing."
  },
  {
   "property": "C57",
   "status": "partial",
   "theorems": [
    "C57_mouse_partial",
    "C57_two_changes_refuted",
    "C57_horizontal_wheel_refuted",
    "C57_new_terminal_partial"
   ],
   "note": "Holds for records changing at most one button; refuted for two buttons changing in one record (the second is lost) and for the horizontal wheel (reported as presses of buttons that do not exist)."
  },
  {
   "property": "C58",
   "status": "proved",
   "theorems": [
    "C58_write_str"
   ],
   "note": ""
  },
  {
   "property": "C59",
   "status": "partial",
   "theorems": [
    "C59_exact_partial",
    "C59_too_short_refuted",
    "C59_overflow_refuted"
   ],
   "note": "Exact below 4294967.295 s; refuted beyond: truncated modulo 2^32, equal to INFINITE, or a panic (overflow checks on)."
  },
  {
   "property": "C60",
   "status": "partial",
   "theorems": [
    "C60_keys_partial",
    "C60_ctrl_refuted"
   ],
   "note": "Refuted for Ctrl with a character that is not a control character: Ctrl+1 is reported as Ctrl+Q."
  },
  {
   "property": "C61",
   "status": "partial",
   "theorems": [
    "C61_moves_partial",
    "C61_left_up_refuted"
   ],
   "note": "Right and down are clamped; left and up past the edge fail instead of being clamped (SetConsoleCursorPosition gets a negative coordinate)."
  },
  {
   "property": "C62",
   "status": "partial",
   "theorems": [
    "C62_prepare_sets",
    "C62_nesting_partial",
    "C62_signals_refuted",
    "C62_failed_prepare_refuted"
   ],
   "note": "Mode and handler registrations are restored for every nesting; refuted for the set of signals caught and the mouse tracking setting (those of the inner prepare stay), and for a prepare that fails while registering the handler."
  },
  {
   "property": "C63",
   "status": "proved",
   "theorems": [
    "C63_write_styled"
   ],
   "note": ""
  },
  {
   "property": "C64",
   "status": "proved",
   "theorems": [
    "C64_erasing",
    "C64_missing_capability"
   ],
   "note": "on any terminal satisfying the contract `implements` (S_Tty.v), which the ANSI terminal of S_Emu.v is proved to satisfy"
  },
  {
   "property": "C65",
   "status": "proved",
   "theorems": [
    "C65_cursor_visibility"
   ],
   "note": ""
  },
  {
   "property": "C66",
   "status": "proved",
   "theorems": [
    "C66_enter_screen",
    "C66_exit_screen"
   ],
   "note": ""
  },
  {
   "property": "C67",
   "status": "proved",
   "theorems": [
    "C67_refresh_never_panics",
    "C67_empty_screen_panics"
   ],
   "note": "'panics' includes arithmetic overflow as in debug builds"
  },
  {
   "property": "C68",
   "status": "partial",
   "theorems": [
    "C68_split_report_refuted",
    "C68_split_key_refuted",
    "C68_read_by_portions_partial",
    "C68_whole_events_partial",
    "C68_report_becomes_keys_refuted"
   ],
   "note": "False: an incomplete report or key sequence is decoded as its first character; a mouse report cut anywhere is told as one key for every byte (C68_report_becomes_keys_refuted, at session level). Proved: what is read is decided, call by call, by what stands at the front of the input read so far (C68_read_by_portions_partial), so portions of whole events are read one by one. See also C98 for characters cut by portions."
  },
  {
   "property": "C69",
   "status": "proved",
   "theorems": [
    "C69_key_map",
    "C69_keys_of_the_entry"
   ],
   "note": ""
  },
  {
   "property": "C70",
   "status": "proved",
   "theorems": [
    "C70_erase_to_end"
   ],
   "note": ""
  },
  {
   "property": "C71",
   "status": "partial",
   "theorems": [
    "C71_clear_screen_partial",
    "C71_text_below_refuted",
    "C71_small_buffer_refuted",
    "C71_moves_up_exactly",
    "C71_whole_buffer_exactly"
   ],
   "note": "Holds when the window is the whole buffer, or the buffer has twice the window's lines and nothing is below the cursor; refuted otherwise: text below the cursor, and the middle of a small buffer, stay visible. C71_moves_up_exactly and C71_whole_buffer_exactly say what clearing does to every cell and to the window in each case."
  },
  {
   "property": "C73",
   "status": "partial",
   "theorems": [
    "C73_signals_partial",
    "C73_replaced_refuted"
   ],
   "note": "The exact account holds for all histories; what is refuted is that every event is reported: a later event replaces an earlier one not yet reported."
  },
  {
   "property": "C74",
   "status": "proved",
   "theorems": [
    "C74_records"
   ],
   "note": ""
  },
  {
   "property": "C75",
   "status": "partial",
   "theorems": [
    "C75_read_raw_refuted",
    "C75_returns_for_characters_partial"
   ],
   "note": "Refuted: a record without character lets the wait succeed and then ReadConsoleW blocks. Proved: it returns whenever a record with a character is waiting or comes (C75_returns_for_characters_partial)."
  },
  {
   "property": "C76",
   "status": "partial",
   "theorems": [
    "C76_basic_plane_partial",
    "C76_other_planes_refuted"
   ],
   "note": "Holds for the basic plane without Alt and Ctrl; refuted for characters beyond the basic plane, and (C60_keys_partial, alt_held) for AltGr."
  },
  {
   "property": "C77",
   "status": "proved",
   "theorems": [
    "C77_waiting",
    "C77_woken"
   ],
   "note": ""
  },
  {
   "property": "C72",
   "status": "partial",
   "theorems": [
    "C72_round_trip",
    "C72_terminal_mode",
    "C72_failed_early_partial",
    "C72_failed_late_refuted",
    "C72_drop_refuted"
   ],
   "note": "Round trip proved for every history. Opening that fails before the new buffer is displayed is undone; if it fails later, or if restoring the input fails on drop, the console keeps displaying the screen's buffer (refuted)."
  },
  {
   "property": "C78",
   "status": "partial",
   "theorems": [
    "C78_size_followed_partial",
    "C78_read_raw_refuted"
   ],
   "note": "Holds for every history without read_raw; read_raw drops size records (refuted)."
  },
  {
   "property": "C79",
   "status": "partial",
   "theorems": [
    "C79_refresh_shows_partial",
    "C79_window_refuted",
    "C79_attributes_refuted",
    "C79_failure_refuted"
   ],
   "note": "Proved for cells whose text takes one position, on every console that places such text at the cursor (record places), and with the window starting at the buffer's origin and as high as the buffer when everything is redrawn while the cursor was left at the origin. Refuted: with a smaller window the first cell is drawn where the window starts and the first position keeps old text; a screen made while attributes are in force never shows its blank cells without them (the new console buffer inherits the attributes, the screen assumes none); after a refresh that failed, the cell it failed at is taken to be drawn. C126 has double-width characters. Missing: combining marks, characters beyond U+FFFF, unless the console is known to place them in one position."
  },
  {
   "property": "C80",
   "status": "partial",
   "theorems": [
    "C80_gives_back",
    "C80_failed_creation",
    "C80_creation_refuted",
    "C80_settings_refuted",
    "C80_output_refuted"
   ],
   "note": "Proved: dropping after any history, if no call fails then; a creation that fails although all calls succeed (size not available, terminal without the capabilities). Refuted: a creation that fails while preparing leaves the raw settings; if the first write or the change of the settings fails on dropping, the remaining steps (handlers, alternate screen) are skipped."
  },
  {
   "property": "C81",
   "status": "partial",
   "theorems": [
    "C81_size_followed",
    "C81_report_is_window",
    "C81_no_report_without_signal",
    "C81_reported_partial",
    "C81_overtaken_refuted"
   ],
   "note": "Proved: the size is the last reported one, reports are right and need SIGWINCH. Refuted: if another handled signal arrives after SIGWINCH before the program looks, the change is never reported."
  },
  {
   "property": "C82",
   "status": "proved",
   "theorems": [
    "C82_drawing_shows"
   ],
   "note": "Programs without double-width characters (C24 covers those for refreshing alone). The operating system takes whole buffers or nothing while the terminal is in step."
  },
  {
   "property": "C83",
   "status": "partial",
   "theorems": [
    "C83_continue_refuted",
    "C83_shown_after_a_size_report_partial"
   ],
   "note": "Refuted for every screen: after a refresh, neither reading SIGCONT nor the next refresh sends anything that is shown; only a change of the size makes it redraw. Proved: after any history, failed refreshes included, once the size of the window is reported the next drawing shows the buffer whatever the terminal showed."
  },
  {
   "property": "C84",
   "status": "partial",
   "theorems": [
    "C84_given_back_partial",
    "C84_guard_panic_refuted",
    "C84_aborts_refuted"
   ],
   "note": "Proved for programs that do not panic while they have a guard. Refuted for every program that does: the terminal stays prepared, since restoring locks a poisoned mutex; after a panic with a write guard dropping the screen aborts the process. Panics of the program between the library's methods are modelled, not panics inside the methods."
  },
  {
   "property": "C85",
   "status": "partial",
   "theorems": [
    "C85_forced_partial",
    "C85_told_partial",
    "C85_output_partial",
    "C85_reading_partial",
    "C85_output_refuted",
    "C85_resize_refuted",
    "C85_continue_refuted",
    "C85_input_refuted"
   ],
   "note": "Proved: a call that does not panic does what it does without panics; output calls go on after panics without a write guard, reads go on as long as no change of size and no continuation comes, and guards taken out of the PoisonError draw as before. Refuted: after a panic with a write guard all other output calls panic, and reading panics when the window's size changes or the process is continued; after a panic with a read guard all reads panic."
  },
  {
   "property": "C86",
   "status": "partial",
   "theorems": [
    "C86_wait_false",
    "C86_read_none_partial",
    "C86_raw_none_partial",
    "C86_signal_refuted",
    "C86_incomplete_refuted"
   ],
   "note": "Holds for wait_event. For read_event (and read_raw) the exact list of the other reasons for Ok(None) is proved; refuted: a signal that is not reported, a part of a character, and the end of input end a read that has no timeout with Ok(None)."
  },
  {
   "property": "C87",
   "status": "partial",
   "theorems": [
    "C87_nested_partial",
    "C87_crossed_refuted",
    "C87_one_reader_refuted"
   ],
   "note": "Holds for properly nested preparing and restoring across terminals, also on one device. Refuted: restoring in the order of preparing leaves the library's handlers installed for good (and takes them from the terminal still prepared), and leaves a shared device in raw mode; a signal is seen by the first terminal that reads only."
  },
  {
   "property": "C88",
   "status": "partial",
   "theorems": [
    "C88_not_others",
    "C88_standard_streams",
    "C88_no_leak_partial",
    "C88_poisoned_refuted",
    "C88_high_refuted"
   ],
   "note": "Never closes others' descriptors (proved for all histories); no leak unless a terminal is dropped after a panic with its write guard (refuted there); waiting panics exactly for descriptors from FD_SETSIZE on (trusted: nix's assertion)."
  },
  {
   "property": "C89",
   "status": "partial",
   "theorems": [
    "C89_terminals",
    "C89_no_deadlock_partial",
    "C89_screen_refuted",
    "C89_reader_stays_stuck_refuted"
   ],
   "note": "Proved for terminals under the documented rules (C89_terminals). For screens one rule must be added, not reading through the read guard while the write guard is held (C89_no_deadlock_partial); without it a resize makes the thread wait for itself (C89_screen_refuted, C89_reader_stays_stuck_refuted)."
  },
  {
   "property": "C90",
   "status": "proved",
   "theorems": [
    "C90_sessions_do_not_interleave"
   ],
   "note": "For every meaning of the accesses."
  },
  {
   "property": "C91",
   "status": "partial",
   "theorems": [
    "C91_portable_partial",
    "C91_prepare_stuck_on_unix",
    "C91_prepare_stuck_on_windows",
    "C91_reading_refuted"
   ],
   "note": "Proved for prepare/restore (stuck on both systems) and for careful programs (finish on both); refuted for read_event with the write guard held, which can always be completed on Windows and waits for itself on Unix at a resize."
  },
  {
   "property": "C92",
   "status": "proved",
   "theorems": [
    "C92_one_piece_per_session",
    "C92_one_piece_per_macro",
    "C92_messages_whole"
   ],
   "note": "For devices that take what they are given whole or fail; short writes (C30) break this as they break single-threaded output. For text on a device that takes everything, the exact contents of the device (C92_messages_whole)."
  },
  {
   "property": "C93",
   "status": "proved",
   "theorems": [
    "C93_reading_holds_no_output",
    "C93_output_while_others_wait",
    "C93_waits_for_holders_only",
    "C93_windows_output_while_others_wait"
   ],
   "note": "A thread that waits with the write guard held does keep others from writing; that is excluded by 'without holding a guard for output'."
  },
  {
   "property": "C94",
   "status": "proved",
   "theorems": [
    "C94_attributes_stay_with_text",
    "C94_attributes_are_inherited"
   ],
   "note": "Assumes that no call failed: an error in the middle of a message skips its clear_attributes."
  },
  {
   "property": "C95",
   "status": "proved",
   "theorems": [
    "C95_methods_do_what_they_say",
    "C95_terminal_methods_arrive"
   ],
   "note": "Assumes all attribute and cursor visibility capabilities (C28 has the general case) and that the OS takes whole buffers; what a terminal does at the right margin, with tabs and with line feeds is left open."
  },
  {
   "property": "C96",
   "status": "proved",
   "theorems": [
    "C96_methods_draw_the_canvas",
    "C96_refresh_displays_the_canvas"
   ],
   "note": "Double-width characters are C19 and C24. write_styled leaves the attributes set when the text did not fit, as C22 found; the canvas says so."
  },
  {
   "property": "C97",
   "status": "proved",
   "theorems": [
    "C97_prepare_turns_on",
    "C97_resume_turns_on",
    "C97_restore_turns_off",
    "C97_output_keeps_the_modes",
    "C97_session",
    "C97_xterm_obeys"
   ],
   "note": "Text is taken to be free of control characters other than tab, newline and carriage return. A prepare that fails is C51."
  },
  {
   "property": "C98",
   "status": "proved",
   "theorems": [
    "C98_typed_is_read",
    "C98_unambiguous_is_legible",
    "C98_escape_at_the_end",
    "C98_text_in_any_portions",
    "C98_text_whatever_happens"
   ],
   "note": "A special key's sequence cut by the end of a portion is C68. Portions are at most 128 bytes in the general theorem (the size of one read); for text they may have any size. Raw reads are excluded from the last theorem."
  },
  {
   "property": "C99",
   "status": "proved",
   "theorems": [
    "C99_methods_do_what_they_say",
    "C99_methods_succeed"
   ],
   "note": "What drawing text does to the buffer is a parameter that only has to accept text in pieces and keep the buffer's size. clear_screen is as found in C71: it always leaves the cursor at the top left of the window, and a blank window under the conditions proved there."
  },
  {
   "property": "C100",
   "status": "proved",
   "theorems": [
    "C100_refresh_displays_the_canvas"
   ],
   "note": "How the console places text is a parameter (`places`), as in C79. C126 has double-width characters."
  },
  {
   "property": "C101",
   "status": "partial",
   "theorems": [
    "C101_methods_draw_the_canvas_partial",
    "C101_refresh_displays_the_canvas_partial",
    "C101_hard_character_refuted",
    "C101_torn_refuted",
    "C101_cut_refuted",
    "C101_threads_draw_the_canvas_partial"
   ],
   "note": "Refuted as stated, and proved for all the rest. C101_hard_character_refuted: in every state of every screen of two columns or more, a double-width character at the last column or a mark behind a double-width character leaves the screen not holding the drawing (with C101_methods_draw_the_canvas_partial these are exactly the characters that go wrong). C101_torn_refuted: a refresh at which a position that showed a right half gets back the very text and attributes that were shown there before. C101_cut_refuted: a resize whose right edge cuts a double-width character hides text of the next line. The cursor on a right half is C25's refutation. All other text is covered, overwriting either half and tearing characters apart between refreshes included. C101_threads_draw_the_canvas_partial is the same for threads that share the screen."
  },
  {
   "property": "C102",
   "status": "partial",
   "theorems": [
    "C102_never_panics",
    "C102_in_order_partial",
    "C102_values",
    "C102_duplicates_refuted"
   ],
   "note": "Proved for keys that are sorted and different (C102_in_order_partial). Sorted alone, which is what the documentation asks for, is not enough: with equal keys find can answer Undecided although no longer sequence is stored (refuted for the binary search of Rust 1.52 to 1.81; the standard library leaves open which of several equal elements is found)."
  },
  {
   "property": "C103",
   "status": "partial",
   "theorems": [
    "C103_given_back_partial",
    "C103_read_guard_refuted",
    "C103_write_guard_refuted"
   ],
   "note": "True of programs that do not panic while they have a guard (C103_given_back_partial). After a panic with a read guard, dropping the screen panics and the screen's buffer stays displayed; after a panic with a write guard, dropping the screen aborts the process (refuted, with the exact outcome). What the system does with the console's buffers after the process ends is not modelled."
  },
  {
   "property": "C104",
   "status": "partial",
   "theorems": [
    "C104_output_partial",
    "C104_forced_partial",
    "C104_reading_partial",
    "C104_told_partial",
    "C104_input_refuted",
    "C104_output_refuted",
    "C104_resize_refuted"
   ],
   "note": "Drawing is unaffected by panics without a write guard; a guard taken out of the PoisonError works as before; reading is unaffected unless a read guard was held or the answer tells of a new size (partial). Otherwise calls panic for ever: all output calls after a panic with a write guard, and then also reading from the first size record on (refuted)."
  },
  {
   "property": "C105",
   "status": "proved",
   "theorems": [
    "C105_one_picture"
   ],
   "note": "Proved for schedules in which no access to the terminal failed and nobody reads a change of size meanwhile (C96 has resizes, C53 failures). Double-width text: C101 gives the single-thread case."
  },
  {
   "property": "C106",
   "status": "proved",
   "theorems": [
    "C106_own_areas",
    "C106_styled_text_stays"
   ],
   "note": "As C105. Staying in an area is a condition on the canvas (any pen, any attributes); C106_styled_text_stays shows it for write_styled_at with text that fits. Methods that use the shared cursor or attributes (write_str, write_at) do not meet it, and C105_example shows why."
  },
  {
   "property": "C107",
   "status": "proved",
   "theorems": [
    "C107_causes",
    "C107_otherwise",
    "C107_creation",
    "C107_drawing",
    "C107_never"
   ],
   "note": "For devices that take whole buffers (short writes make flush panic: C30). Drawing: exact; the other causes are necessary, and the examples show that they suffice in some state. Allocation failure, stack overflow poisoned locks (C84) and a standard error that cannot be written (C110) are outside."
  },
  {
   "property": "C108",
   "status": "proved",
   "theorems": [
    "C108_terminal",
    "C108_input",
    "C108_preparing",
    "C108_causes",
    "C108_creation",
    "C108_never"
   ],
   "note": "Assumes that drawing keeps the console's cursor and window within its buffer (keeps_order), and that the console does not go on for ever taking no character (the answers of the model are a finite list). Drawing: exact; the other causes are necessary, and the examples show that they suffice in some state. Poisoned locks are in C103 and C104."
  },
  {
   "property": "C109",
   "status": "partial",
   "theorems": [
    "C109_opens",
    "C109_unopened",
    "C109_input_refuted",
    "C109_creation_refuted"
   ],
   "note": "The condition for opening a terminal and the unchanged console are proved in full. Refuted: the error of a failed CreateConsoleScreenBuffer is lost (the program is told that a handle was invalid), and an invalid or redirected input is not noticed by opening."
  },
  {
   "property": "C110",
   "status": "partial",
   "theorems": [
    "C110_printed",
    "C110_silent",
    "C110_gone_method",
    "C110_method_refuted",
    "C110_guard_refuted",
    "C110_screen_refuted",
    "C110_windows_printed",
    "C110_windows_guard_refuted",
    "C110_windows_refresh_refuted",
    "C110_windows_drop_refuted"
   ],
   "note": "Proved: nothing changes while standard error can be written, and nothing is printed while the terminal takes output. Refuted: on a terminal that is gone together with standard error, a method of Terminal panics exactly if output is left (C110_gone_method), and dropping a Screen or a ScreenWriteGuard with pending output aborts the process. On Windows (C110_windows_*): a dropped guard panics exactly if anything is asked of the console, that poisons the mutexes, and dropping the screen then aborts; refresh may panic instead of replying its error; dropping a Terminal panics."
  },
  {
   "property": "C111",
   "status": "proved",
   "theorems": [
    "C111_one_picture",
    "C111_own_areas"
   ],
   "note": "Proved for text of one position per character (C100's). Resizes come before the threads start; reading threads are not among them."
  },
  {
   "property": "C112",
   "status": "proved",
   "theorems": [
    "C112_one_after_the_other"
   ],
   "note": "Proved for all methods of terminal and guard; a call that fails (C61, C99_methods_succeed) is excluded by the hypothesis that no access failed."
  },
  {
   "property": "C113",
   "status": "proved",
   "theorems": [
    "C113_draw_and_read"
   ],
   "note": "Proved for single-width text (C101 has wide text without reading). Stopping and continuing the program meanwhile is excluded (C83 has it for one thread), as are failed accesses and window sizes a screen cannot have (no lines or no columns)."
  },
  {
   "property": "C114",
   "status": "proved",
   "theorems": [
    "C114_windows_errors",
    "C114_windows_prompt",
    "C114_unix_errors",
    "C114_unix_prompt"
   ],
   "note": "On Unix for histories in which the program is not continued and the window not resized: what handling those does accesses the output as well (C43, C83). An error that comes before the previous one was met takes its place, as in the operating system's model."
  },
  {
   "property": "C115",
   "status": "proved",
   "theorems": [
    "C115_cursor_visibility",
    "C115_wide_text",
    "C115_windows"
   ],
   "note": "On Unix for terminals whose description has both capabilities (others ignore or cannot undo the request) and, as in C23 and C24, single-width text or double-width text whose halves stay whole."
  },
  {
   "property": "C116",
   "status": "proved",
   "theorems": [
    "C116_share_screen"
   ],
   "note": "Single-width text; the program is not stopped and continued meanwhile (C83); no access fails. Generalises C92, C113 and the visibility part of C115 to arbitrary programs."
  },
  {
   "property": "C117",
   "status": "proved",
   "theorems": [
    "C117_share_screen"
   ],
   "note": "Text that takes one position per character; no access fails. Changes of the window's size are excluded: the console changes its own geometry outside the locks the model knows (C78 and C100 treat them for one thread). Generalises C111 and C115's Windows part to arbitrary programs."
  },
  {
   "property": "C118",
   "status": "proved",
   "theorems": [
    "C118_share_terminal",
    "C118_share_console"
   ],
   "note": "Generalises C112 from straight lists of calls to any programs. The rules for the guards are those of C52; on Windows the documented rules suffice. Restoring mouse reports is restricted on Unix to terminals that can report the mouse (disable_mouse writes the sequences unconditionally, and only for those terminals is their meaning specified)."
  },
  {
   "property": "C119",
   "status": "partial",
   "theorems": [
    "C119_same_as_one_thread",
    "C119_typed_once",
    "C119_records_once",
    "C119_only_input_is_waited_for",
    "C119_only_input_is_waited_for_windows",
    "C119_timeout_refuted",
    "C119_timeout_windows_refuted"
   ],
   "note": "A call's work under the lock is one step. The timeout theorems (`_refuted`) show that while one thread waits in a call that does not return, every other call, with whatever timeout, waits too. Programs whose raw reads are mixed in are covered by C119_same_as_one_thread, not by C119_typed_once."
  },
  {
   "property": "C120",
   "status": "partial",
   "theorems": [
    "C120_methods_may",
    "C120_pure_expressions_may_partial",
    "C120_terminal_refuted",
    "C120_screen_refuted",
    "C120_windows_terminal_refuted",
    "C120_windows_screen_refuted"
   ],
   "note": "The refutations are for a call by the first expression; later ones behave the same if the elements before them succeed. SBuf stands for all methods of Screen that lock the buffer, size() and cursor() among them (the model's buffer operations do not list these two, which only read)."
  },
  {
   "property": "C121",
   "status": "proved",
   "theorems": [
    "C121_as_one_thread",
    "C121_share_screen"
   ],
   "note": "The exceptions are those of C101 (see C18, C19, C24); C121_as_one_thread has none."
  },
  {
   "property": "C122",
   "status": "proved",
   "theorems": [
    "C122_as_one_thread_at_any_time"
   ],
   "note": "Calls that do not return (a panic, or a write that waits for ever) are excluded by the hypothesis that the shared data are there; see C31 and C107 for these."
  },
  {
   "property": "C123",
   "status": "proved",
   "theorems": [
    "C123_as_one_thread_at_any_time"
   ],
   "note": "Calls that do not return (a panic, or a console that never takes a character) are excluded by the hypothesis that the shared data are there; see C108 for these. The window's own changes of size are outside the locks and not part of the schedule, as in C117; reading about them is."
  },
  {
   "property": "C124",
   "status": "proved",
   "theorems": [
    "C124_terminal_as_one_thread",
    "C124_console_as_one_thread"
   ],
   "note": "Calls that do not return (a panic, or waiting for ever in write) are excluded by the hypothesis that the shared writer is there; see C108 for these. On Windows, preparing and restoring change only the input mode, which is not behind the lock, and never fail in the model of the sharing (the failures are modelled in C62 and C109)."
  },
  {
   "property": "C125",
   "status": "proved",
   "theorems": [
    "C125_second_refresh_is_silent",
    "C125_only_changed_cells_are_written",
    "C125_failure_writes_a_prefix"
   ],
   "note": "Histories are those of C79, with any text and with refreshes at any time. The claim about the text asks that double-width characters do not overlap or cross the end of a line at the refresh (as C26; see C19 for when they do)."
  },
  {
   "property": "C126",
   "status": "partial",
   "theorems": [
    "C126_refresh_shows_the_buffer_partial",
    "C126_refresh_displays_the_canvas_partial",
    "C126_torn_refuted"
   ],
   "note": "Double-width characters may be torn: narrow text, or another double-width character one column on, over one that the last refresh showed. Missing, and excluded by hypotheses along the history: a position that showed a right half getting back the very text and attributes that refreshes last showed there (C126_torn_refuted), double-width characters for which one column is left (C19), marks after them (C18), resizes that cut one, the cursor on a right half. How the console places text is a parameter (`wide_places`), which lets a right half that lost its left half become anything else, and says nothing of text that starts on a right half."
  },
  {
   "property": "C127",
   "status": "partial",
   "theorems": [
    "C127_share_screen_partial"
   ],
   "note": "Missing, and excluded by hypotheses on the order: what C126 excludes (C126_torn_refuted, C19, C18), failed accesses to the console (C123 says what is then as in a single thread), calls that read a new size."
  },
  {
   "property": "C128",
   "status": "partial",
   "theorems": [
    "C128_all_but_lost_partial",
    "C128_lost_refuted",
    "C128_after_resize_refuted"
   ],
   "note": "Refuted as stated: the cell in hand is marked as drawn before the console takes it (C128_lost_refuted), and after a resize the recorded cursor is wrong between the clearing and the first move (C128_after_resize_refuted). Proved: each failed refresh since the last change of size costs at most one position, and only while the canvas has the same there. Missing: failing to set attributes (C56), text of several UTF-16 units, failures after the clearing in the first refresh at a new size."
  },
  {
   "property": "C129",
   "status": "partial",
   "theorems": [
    "C129_unix_events",
    "C129_windows_events_partial",
    "C129_windows_capital_refuted"
   ],
   "note": "Proved on Unix, and on Windows but for one case: Ctrl with a capital letter beyond ASCII is told as Key::Ctrl of that capital letter (C129_windows_capital_refuted)."
  },
  {
   "property": "C130",
   "status": "proved",
   "theorems": [
    "C130_drawing",
    "C130_drawing_panics_exactly",
    "C130_drawing_returns",
    "C130_wraps_to_the_top",
    "C130_unix_program",
    "C130_unix_creation",
    "C130_unix_modest",
    "C130_unix_refresh",
    "C130_unix_reading",
    "C130_unix_timeouts",
    "C130_zero_mouse",
    "C130_windows_writing",
    "C130_windows_program",
    "C130_windows_reading",
    "C130_windows_timeouts"
   ],
   "note": "Proved, for the functions of the library; the overflow checks of the libraries it uses are assumed to be as in the crates' code (nix checks timeouts in every build)."
  },
  {
   "property": "C131",
   "status": "partial",
   "theorems": [
    "C131_as_configured",
    "C131_text",
    "C131_signals",
    "C131_still_received_refuted",
    "C131_nested_refuted",
    "C131_continued",
    "C131_mouse_refuted",
    "C131_windows_as_configured",
    "C131_windows_ctrl_c_key",
    "C131_windows_ctrl_c_signal",
    "C131_windows_break_refuted"
   ],
   "note": "Proved after prepare and after a continuation, for terminals on which no input is stripped, dropped or changed by flags the library leaves alone (ISTRIP, IGNCR, IUCLC). Refuted: signals that do not come from keys, and Ctrl-Break on Windows, are told with block_signals too; a mouse report received before is told without enable_mouse; after an inner prepare without the signal and its restore, Ctrl-C is caught and told to nobody."
  },
  {
   "property": "C132",
   "status": "partial",
   "theorems": [
    "C132_input",
    "C132_pending",
    "C132_guards",
    "C132_refreshes",
    "C132_text",
    "C132_failing_refuted"
   ],
   "note": "Proved for input, and for output on devices that take it. Refuted on a device that takes nothing: the commands of methods that succeed all the same (C33) pile up in the buffer without bound. Text alone never makes it grow."
  },
  {
   "property": "C133",
   "status": "proved",
   "theorems": [
    "C133_locked_out",
    "C133_try",
    "C133_read_guard_kept",
    "C133_write_guard_kept_stops_reading",
    "C133_drop_waits",
    "C133_drop_returns",
    "C133_windows_locked_out",
    "C133_windows_try",
    "C133_windows_read_guard_kept",
    "C133_windows_drop_waits",
    "C133_windows_drop_returns"
   ],
   "note": "The clause on reading says what goes wrong; C133_write_guard_kept_stops_reading gives the schedule."
  },
  {
   "property": "C134",
   "status": "partial",
   "theorems": [
    "C134_windows_typed_is_read",
    "C134_same_events",
    "C134_shared_characters_refuted"
   ],
   "note": "C134_shared_characters_refuted refutes it for Ctrl with I, J and M; C134_same_events proves it for all other keys named. Alt and characters beyond U+FFFF are in C74-C76."
  },
  {
   "property": "C135",
   "status": "proved",
   "theorems": [
    "C135_same_picture"
   ],
   "note": "Double-width text: C101 (Unix) and C126 (Windows), under other conditions."
  },
  {
   "property": "C136",
   "status": "proved",
   "theorems": [
    "C136_same_calls",
    "C136_same_calls_succeed"
   ],
   "note": "What differs on purpose or by error: C61 (upper and left edge), C71 (clear_screen with a smaller window)."
  },
  {
   "property": "C137",
   "status": "proved",
   "theorems": [
    "C137_unix_shows_answers",
    "C137_windows_shows_answers",
    "C137_same_on_both",
    "C137_unix_always_shows",
    "C137_windows_always_shows"
   ],
   "note": "A round in which a called method panics (C107, C108 say when) ends the run (`Panicked`), and so does one in which drawing fails (`Unshown`); the latter does not happen if the OS takes the output (C137_unix_always_shows, C137_windows_always_shows). The window does not change and there are no signals. Keys that differ between the platforms: C134."
  },
  {
   "property": "C138",
   "status": "proved",
   "theorems": [
    "C138_unix_refresh_succeeds",
    "C138_windows_refresh_succeeds"
   ],
   "note": "The number of answers the OS has left is finite in the model, so that enough of them are assumed. On Windows the history is C79's (texts of one position each)."
  },
  {
   "property": "C139",
   "status": "proved",
   "theorems": [
    "C139_wait_ends",
    "C139_read_ends",
    "C139_raw_ends",
    "C139_wait_prompt",
    "C139_read_prompt",
    "C139_zero"
   ],
   "note": "Reading may still be kept up when it handles a signal and the terminal does not take its output; the theorems say so. That select tells the rest of the timeout when it is interrupted is what Linux does and is assumed (a model of a system that does not, such as macOS, would wait for the whole timeout again). Durations of 9223372036854 seconds and more panic (C47)."
  },
  {
   "property": "C140",
   "status": "proved",
   "theorems": [
    "C140_screen_threads",
    "C140_threads",
    "C140_screen_threads_console",
    "C140_threads_console"
   ],
   "note": "The random numbers and the sleeps are left out: what a thread writes is any list of texts. The text takes one column per character and fits on the screen; no access fails; for the terminal's picture the size does not change."
  },
  {
   "property": "C141",
   "status": "proved",
   "theorems": [
    "C141_a_line_of_styled_text",
    "C141_examples",
    "C141_style_example",
    "C141_style_example_console",
    "C141_a_line_of_styled_text_console",
    "C141_examples_console"
   ],
   "note": "On a Unix terminal the characters take one or two columns each and on a Windows console one position each; the text fits on the cursor's line. The line feeds at the ends of the example programs are left out."
  },
  {
   "property": "C142",
   "status": "proved",
   "theorems": [
    "C142_terminal",
    "C142_screen",
    "C142_terminal_console",
    "C142_screen_console"
   ],
   "note": "The text on a terminal fits on the cursor's line; on a screen there are no double-width characters, and the OS takes what is written. A panic (a formatting error, or an impossible position) is left out here."
  },
  {
   "property": "C143",
   "status": "proved",
   "theorems": [
    "C143_gives_back",
    "C143_gives_back_console",
    "C143_screen_example",
    "C143_screen_example_console"
   ],
   "note": "What it shows: the window does not change and the OS takes what is written. The Debug text of an event is a parameter. The end: whatever happened, if no call fails from then on (C80 and C72 have failing calls)."
  },
  {
   "property": "C144",
   "status": "partial",
   "theorems": [
    "C144_input_example",
    "C144_input_ends",
    "C144_raw_example",
    "C144_raw_ends",
    "C144_input_error_refuted",
    "C144_raw_error_refuted",
    "C144_signals_ends",
    "C144_signals_ends_console",
    "C144_signals_example_console",
    "C144_signals_error_refuted",
    "C144_signals_error_console_refuted",
    "C144_signals_example",
    "C144_input_example_console",
    "C144_input_ends_console",
    "C144_input_error_console_refuted",
    "C144_raw_example_console",
    "C144_raw_ends_console",
    "C144_raw_error_console_refuted"
   ],
   "note": "Proved for every end without an error, on Unix and on Windows. Refuted for ends with an error: when reading fails, the programs return past restore, and dropping the terminal leaves it in raw mode. On Windows restoring leaves ENABLE_EXTENDED_FLAGS set in the console mode, and dropping the terminal is left out."
  }
 ]
}