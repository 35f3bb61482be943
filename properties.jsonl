{"id": "C01", "title": "SequenceMap behaves as a finite map", "statement": "After any history of insert, remove, entry and get_mut operations on a SequenceMap built by new, From<Vec> or FromIterator, get(k) returns exactly the value most recently stored for k (None if none or removed since); insert returns the value it displaced; remove returns the stored pair; no operation changes the value of another key.", "quantifier": "all key types with AsRef<str>, all value types, all operation histories, all query strings", "why_tests_cant": "Tests try a few keys; the binary search + Vec insert/remove must agree with a map for every history and every key order.", "anchors": ["src/sequence.rs: SequenceMap::{new,entry,get,get_mut,insert,remove,search}"]}
{"id": "C02", "title": "sequences() is strictly sorted and duplicate free", "statement": "In every state reachable through the API (without sequences_mut reordering keys), sequences() lists each stored key exactly once, in strictly increasing byte order, and contains exactly the pairs that get can see.", "quantifier": "all operation histories", "why_tests_cant": "An invariant over unbounded histories.", "anchors": ["src/sequence.rs: SequenceMap::{sequences,insert,remove}", "src/sequence.rs: VacantEntry::insert"]}
{"id": "C03", "title": "find classifies every query exactly as documented", "statement": "find(q) is Found(v) iff q is stored with v and no other stored key extends q; Undecided(v) iff q is stored with v and some other stored key starts with q; Incomplete iff q is not stored and some stored key starts with q; NotFound iff no stored key starts with q.", "quantifier": "all reachable maps and all query strings, including the empty string", "why_tests_cant": "find looks only at one neighbouring element; that this suffices for every set of keys is a fact about byte-lexicographic order.", "anchors": ["src/sequence.rs: SequenceMap::find", "src/sequence.rs: FindResult"]}
{"id": "C04", "title": "Construction from Vec keeps the first duplicate, from an iterator the last", "statement": "SequenceMap::from(vec) holds for each key the value of its first occurrence in vec; collect()/from_iter holds for each key the value of its last occurrence; both contain no other keys and are sorted.", "quantifier": "all input vectors/iterators of any length and duplication pattern", "why_tests_cant": "Depends on stability of the sort and dedup direction for every permutation of duplicates.", "anchors": ["src/sequence.rs: From<Vec<(K, V)>>::from", "src/sequence.rs: FromIterator::from_iter"]}
{"id": "C05", "title": "Entry API agrees with get/insert/remove", "statement": "entry(k).or_insert(v) leaves an existing value untouched and otherwise stores v; and_modify(f) applies f to the value of k only, iff present; OccupiedEntry::insert replaces the value but keeps the stored key, while SequenceMap::insert replaces the stored key object too; OccupiedEntry::remove removes only k; a dropped Entry changes nothing.", "quantifier": "all reachable maps, keys, values and closures", "why_tests_cant": "Must hold for every map shape, index computed by search must stay valid.", "anchors": ["src/sequence.rs: Entry", "src/sequence.rs: OccupiedEntry", "src/sequence.rs: VacantEntry"]}
{"id": "C06", "title": "SignalSet operators are set algebra", "statement": "union, intersection, difference, symmetric_difference, inverse, insert, remove, set, contains, contains_all, intersects, is_empty, the operator forms and | and ! on Signal agree with the corresponding operations on sets of the six signals, and two SignalSets are == iff they contain the same signals.", "quantifier": "all histories of SignalSet operations and all signals", "why_tests_cant": "Tests check a handful of sets; equality depends on the representation never holding stray bits.", "anchors": ["src/signal.rs: SignalSet", "src/signal.rs: Signal::as_bit"]}
{"id": "C07", "title": "SignalSet construction and Debug are faithful", "statement": "collect/extend yields exactly the signals supplied (plus the previous ones for extend) whatever their order or multiplicity, and {:?} prints exactly the contained signals, each once, in declaration order, separated by ' | '.", "quantifier": "all signal lists and all sets", "why_tests_cant": "Ranges over unbounded iterators.", "anchors": ["src/signal.rs: FromIterator for SignalSet", "src/signal.rs: Extend", "src/signal.rs: fmt::Debug for SignalSet"]}
{"id": "C08", "title": "ctrl/unctrl round-trip and is_ctrl is exactly the C0 range", "statement": "is_ctrl(c) iff c <= U+001F; ctrl(c) is always a control character; for every control character c, ctrl(unctrl_upper(c)) = ctrl(unctrl_lower(c)) = c; unctrl_lower never returns an upper-case ASCII letter; ctrl ignores ASCII case for letters.", "quantifier": "all Unicode scalar values", "why_tests_cant": "The unit test stops at U+00FE; the truncating casts make large code points interesting.", "anchors": ["src/util.rs: ctrl", "src/util.rs: is_ctrl", "src/util.rs: unctrl_upper", "src/util.rs: unctrl_lower"]}
{"id": "C09", "title": "prefixes enumerates exactly the non-empty char-boundary prefixes", "statement": "prefixes(s) yields, in strictly increasing length, every non-empty prefix of s that ends on a character boundary, nothing else, and never slices inside a character (no panic).", "quantifier": "all UTF-8 strings", "why_tests_cant": "Unbounded strings with any mix of 1-4 byte characters.", "anchors": ["src/util.rs: prefixes", "src/util.rs: Prefixes::next"]}
{"id": "C10", "title": "Key::from(char) is total, canonical and loses only CR/LF", "statement": "Every char maps to exactly one key: ESC, DEL, CR/LF and TAB to Escape, Backspace, Enter, Tab; any other control character c to Ctrl(l) with l not upper case and ctrl(l) = c; everything else to Char(c). Two different chars map to the same key only if both are CR or LF.", "quantifier": "all pairs of Unicode scalar values", "why_tests_cant": "Injectivity is a statement about all pairs.", "anchors": ["src/terminal.rs: impl From<char> for Key"]}
{"id": "C11", "title": "Cursor::next/previous walk the screen in row-major order", "statement": "On any valid size, next and previous are mutually inverse on in-bounds cursors, next is None exactly at last(size) and previous exactly at first(), and repeatedly applying next from first() visits every cell exactly once.", "quantifier": "all sizes and cursors", "why_tests_cant": "Unbounded sizes.", "anchors": ["src/terminal.rs: Cursor::{next,previous,first,last,is_out_of_bounds,as_index}"]}
{"id": "C12", "title": "Size::area / checked_area report overflow and nothing else", "statement": "checked_area is Some(lines*columns) iff the product fits in usize; area panics iff it does not.", "quantifier": "all sizes on every pointer width", "why_tests_cant": "Overflow boundary over all factor pairs.", "anchors": ["src/terminal.rs: Size::{area,checked_area}"]}
{"id": "C13", "title": "Screen buffer operations never panic and keep the buffer well formed", "statement": "On any valid screen size (at least two columns), no sequence of cursor, attribute, write, clear and resize-to-valid-size operations panics or indexes outside the buffer as long as line numbers do not overflow usize; the buffer always holds exactly lines*columns cells, each with non-empty text.", "quantifier": "all valid sizes, all operation histories, all texts", "why_tests_cant": "Wrap-around, tabs, wide characters and out-of-range cursors interact; only an invariant covers all histories.", "anchors": ["src/buffer.rs: ScreenBuffer::{write_char,write_str,write_at,resize,next_cell,set_cell,cell_mut}"]}
{"id": "C14", "title": "No panic on any size the API can be given", "statement": "The same as C13 for one-column screens and for sizes with zero lines or columns (which terminals do report).", "quantifier": "all sizes", "why_tests_cant": "Boundary sizes are rarely tested.", "anchors": ["src/buffer.rs: ScreenBuffer::write_char", "src/buffer.rs: resize_buffer", "src/unix/screen.rs: ScreenWriteGuard::refresh", "src/unix/terminal.rs: get_winsize"]}
{"id": "C15", "title": "Writing single-width text fills consecutive cells and touches nothing else", "statement": "Writing a string of printable single-width characters at an in-bounds cursor puts the i-th character, with the current attributes, into the i-th cell after the cursor in row-major order, advances the cursor past the last one, stops silently at the end of the screen, and leaves every other cell unchanged (except that a wide character whose right half is overwritten at the start is blanked).", "quantifier": "all sizes, cursors, attributes, texts and buffer contents", "why_tests_cant": "Wrapping at every column/line boundary for every text length.", "anchors": ["src/buffer.rs: ScreenBuffer::write_char", "src/buffer.rs: ScreenBuffer::write_str"]}
{"id": "C16", "title": "Control characters never enter the screen buffer", "statement": "After any history, every cell's text is one printable (non-zero width, non tab/CR/LF, non-combining) character followed only by combining marks; writing any other character changes at most the cursor.", "quantifier": "all histories and all characters", "why_tests_cant": "This is the 'escape sequences are ignored' guarantee; must hold for every input string.", "anchors": ["src/buffer.rs: ScreenBuffer::write_char", "src/priv_util.rs: is_visible"]}
{"id": "C17", "title": "Tab, carriage return and newline semantics", "statement": "CR sets the column to 0; LF moves to column 0 of the next line; TAB writes spaces with the current attributes up to the next multiple of 8 or the end of the line, whichever is first, and leaves the cursor there (column 0 of the next line at the end of the line); no other cells change.", "quantifier": "all sizes, cursors and contents", "why_tests_cant": "Every column and width combination.", "anchors": ["src/buffer.rs: ScreenBuffer::write_char", "src/buffer.rs: TAB_STOP"]}
{"id": "C18", "title": "Combining marks attach to the preceding character", "statement": "A combining mark is appended to the text of the character displayed immediately before the cursor and is therefore shown by the next refresh; nothing else changes.", "quantifier": "all buffers and cursors, including after wide characters", "why_tests_cant": "Interaction with wide characters' filler cells.", "anchors": ["src/buffer.rs: ScreenBuffer::write_char"]}
{"id": "C19", "title": "A wide character that does not fit moves whole to the next line", "statement": "Writing a double-width character in the last column fills that column with a space (as the source comment says) and puts the character at the start of the next line, exactly once.", "quantifier": "all sizes with at least two columns and all wide characters", "why_tests_cant": "Boundary case for every screen size.", "anchors": ["src/buffer.rs: ScreenBuffer::write_char (lines 191-204)"]}
{"id": "C20", "title": "resize keeps the overlap and blanks the rest", "statement": "After resize to a valid size every cell (l,c) inside both the old and the new size is unchanged, every other cell is blank, the cursor and attributes are unchanged, and the next refresh redraws every cell.", "quantifier": "all pairs of sizes and all contents", "why_tests_cant": "All grow/shrink combinations in both dimensions.", "anchors": ["src/buffer.rs: ScreenBuffer::resize", "src/buffer.rs: resize_buffer", "src/buffer.rs: new_buffer"]}
{"id": "C21", "title": "Out-of-bounds writes are harmless", "statement": "Printable text written while the cursor is outside the screen, or write_at/write_styled_at with a position outside it, changes no cell, no attribute and not the cursor.", "quantifier": "all buffers, positions and texts", "why_tests_cant": "All out-of-range positions.", "anchors": ["src/buffer.rs: ScreenBuffer::{try_cursor_at,write_at,write_styled_at}"]}
{"id": "C22", "title": "write_styled leaves no attributes behind", "statement": "After write_styled / write_styled_at on a Screen, subsequently written text carries no attributes, whatever text was written and wherever the cursor was.", "quantifier": "all buffers, cursors, texts", "why_tests_cant": "Early returns on overflow happen only for particular lengths/cursors.", "anchors": ["src/buffer.rs: ScreenBuffer::{write_styled,write_styled_at,clear_attributes}"]}
{"id": "C23", "title": "refresh makes the terminal show the buffer", "statement": "For any history of buffer operations with single-width text and combining marks, resizes and refreshes on a terminal that implements its terminfo entry, whenever refresh succeeds the terminal shows in every cell exactly the text, colours and style last written there.", "quantifier": "all histories, all sizes, all terminals implementing the capability contract, all output buffer capacities", "why_tests_cant": "Differential redraw against a back buffer with a tracked cursor and tracked attributes: correctness is an invariant over the whole history.", "anchors": ["src/unix/screen.rs: ScreenWriteGuard::{refresh,move_cursor,apply_attrs}", "src/buffer.rs: ScreenBuffer::next_cell", "src/unix/terminal.rs: TerminalWriteGuard::{set_attrs,move_cursor,write_str,flush}"]}
{"id": "C24", "title": "refresh shows the buffer also with double-width characters", "statement": "The statement of C23 for histories that also contain double-width characters.", "quantifier": "all histories with wide characters", "why_tests_cant": "Requires particular overwrite/refresh interleavings to fail.", "anchors": ["src/buffer.rs: ScreenBuffer::next_cell", "src/buffer.rs: ScreenBuffer::write_char", "src/unix/screen.rs: ScreenWriteGuard::refresh"]}
{"id": "C25", "title": "refresh leaves the cursor where the program put it", "statement": "After a successful refresh the terminal cursor is at the buffer cursor, or at the last cell if that is out of bounds.", "quantifier": "all histories", "why_tests_cant": "Depends on the tracked real cursor being right in every state.", "anchors": ["src/unix/screen.rs: ScreenWriteGuard::{refresh,move_cursor}", "src/terminal.rs: Cursor::last"]}
{"id": "C26", "title": "refresh is idempotent and minimal", "statement": "A refresh immediately following a successful refresh writes no bytes; a refresh writes text only for cells whose content differs from what was last drawn there.", "quantifier": "all histories", "why_tests_cant": "Ranges over all states; also justifies the double refresh done when the guard is dropped.", "anchors": ["src/unix/screen.rs: ScreenWriteGuard::refresh", "src/buffer.rs: ScreenBuffer::next_cell"]}
{"id": "C27", "title": "A failed refresh is repaired by the next successful one", "statement": "If refresh returns an error part-way and a later refresh succeeds, the terminal shows the buffer.", "quantifier": "all failure points", "why_tests_cant": "Failure can strike at any write.", "anchors": ["src/unix/screen.rs: ScreenWriteGuard::refresh", "src/buffer.rs: ScreenBuffer::next_cell"]}
{"id": "C28", "title": "Terminal attributes track the requested attributes", "statement": "After any sequence of set_fg, set_bg, add_style, remove_style, set_style, set_theme, clear_attributes and write_styled calls that succeed, the attributes in force at the terminal are exactly the ones requested (last set colours; style after all additions/removals), for every terminal that provides the attribute capabilities.", "quantifier": "all call sequences from any state, all terminfo databases providing the capabilities", "why_tests_cant": "terminfo cannot switch bold/reverse off individually, so the code resets and replays; every combination and history must replay correctly.", "anchors": ["src/unix/terminal.rs: TerminalWriteGuard::{set_fg,set_bg,add_style,remove_style,set_style,set_attrs,clear_fg,clear_bg,clear_attributes}"]}
{"id": "C29", "title": "Setting attributes already in force writes nothing", "statement": "set_fg/set_bg/add_style/remove_style/set_style/set_theme/clear_attributes with values that are already in force append no bytes to the output.", "quantifier": "all writer states and terminfo databases", "why_tests_cant": "Ranges over all states.", "anchors": ["src/unix/terminal.rs: TerminalWriteGuard::{set_fg,set_bg,add_style,remove_style,set_style,set_attrs,clear_attributes}"]}
{"id": "C30", "title": "Terminal output is delivered once and in order", "statement": "The bytes received by the device, followed by the bytes still buffered, are exactly the concatenation of everything successfully written, in order, for every output size relative to the buffer capacity and every pattern of partial writes and interrupts.", "quantifier": "all call sequences, buffer capacities, and OS write results (complete, short, EINTR, error)", "why_tests_cant": "Short writes are nearly impossible to provoke in a unit test.", "anchors": ["src/unix/terminal.rs: TerminalWriteGuard::{write_bytes,flush,write_data,expand}"]}
{"id": "C31", "title": "write loop always terminates", "statement": "flush and write_* return once the OS has accepted all bytes, whatever the sizes of the partial writes.", "quantifier": "all OS write results", "why_tests_cant": "Needs short writes.", "anchors": ["src/unix/terminal.rs: TerminalWriteGuard::write_data"]}
{"id": "C32", "title": "Output errors lose nothing", "statement": "When the device reports an error, the unsent bytes stay buffered in order and are sent by the next flush that succeeds.", "quantifier": "all error points under complete-or-failed writes", "why_tests_cant": "Every failure point.", "anchors": ["src/unix/terminal.rs: TerminalWriteGuard::{flush,write_bytes}", "src/unix/terminal.rs: Drop for TerminalWriteGuard"]}
{"id": "C33", "title": "A successful Terminal write means the text reached the device", "statement": "When Terminal::write_str (or another Terminal convenience method) returns Ok, its output has been written to the device.", "quantifier": "all OS behaviours", "why_tests_cant": "Requires a failing device at guard drop.", "anchors": ["src/unix/terminal.rs: Terminal::write_str", "src/unix/terminal.rs: Drop for TerminalWriteGuard"]}
{"id": "C34", "title": "Cursor movement emits exactly the requested movement", "statement": "move_up/down/left/right(n) append nothing for n = 0 and otherwise one movement by min(n, u32::MAX) in the right direction; move_cursor(pos) addresses exactly that position; if the capability is missing an error is returned and nothing is appended.", "quantifier": "all n, positions and terminfo databases", "why_tests_cant": "All numeric arguments and capability subsets.", "anchors": ["src/unix/terminal.rs: TerminalWriteGuard::{move_up,move_down,move_left,move_right,move_cursor,move_to_first_column}", "src/unix/terminal.rs: to_u32"]}
{"id": "C35", "title": "Input events consume the input exactly", "statement": "Every event returned by read_event accounts for a non-empty prefix of the pending input; consumed bytes, buffered bytes and bytes not yet read are always the original input in order; nothing is skipped or read twice, also when read_event and read_raw are mixed.", "quantifier": "all input byte streams, all chunkings by the OS, all read_event/read_raw interleavings, all key maps", "why_tests_cant": "All byte streams and all chunk boundaries.", "anchors": ["src/unix/terminal.rs: peek_event", "src/unix/terminal.rs: TerminalReadGuard::{try_read,read_event,read_raw,read_into_buffer,read_input}"]}
{"id": "C36", "title": "Plain characters are reported as their key", "statement": "If the pending input starts with the UTF-8 encoding of char c and no registered key sequence matches a prefix of it, read_event reports Key::from(c) and consumes exactly its encoding.", "quantifier": "all characters, all following input, all key maps", "why_tests_cant": "Over a million characters times arbitrary continuations.", "anchors": ["src/unix/terminal.rs: peek_event", "src/unix/terminal.rs: utf8_prefix"]}
{"id": "C37", "title": "The longest registered key sequence wins", "statement": "If some registered key sequences are prefixes of the (valid UTF-8) pending input, the event is the key of the longest one and exactly its bytes are consumed.", "quantifier": "all key maps and inputs", "why_tests_cant": "Prefix-overlapping sequence sets are terminal specific.", "anchors": ["src/unix/terminal.rs: peek_event", "src/unix/terminal.rs: sequences"]}
{"id": "C38", "title": "SGR mouse reports decode to the event that was sent", "statement": "ESC [ < b ; x ; y M/m with 1 <= x,y decodes to a mouse event at line y-1, column x-1 with exactly the modifiers, button, wheel or motion encoded in b and pressed/released according to the final letter, consuming exactly the report.", "quantifier": "all b, x, y below 2^32, both finals, arbitrary following input", "why_tests_cant": "Unbounded numeric fields.", "anchors": ["src/unix/terminal.rs: parse_mouse_data", "src/unix/terminal.rs: parse_integer", "src/unix/terminal.rs: mouse_button_event"]}
{"id": "C39", "title": "No input byte stream makes the reader panic", "statement": "read_event and wait_event never panic on any pending input.", "quantifier": "all byte streams and key maps", "why_tests_cant": "Arithmetic on numbers chosen by the terminal.", "anchors": ["src/unix/terminal.rs: parse_mouse_data", "src/unix/terminal.rs: peek_event"]}
{"id": "C40", "title": "Characters split across reads are reassembled", "statement": "If the OS delivers a character's UTF-8 encoding in several reads, read_event keeps the incomplete part, reports no event or error for it, and reports the character once it is complete.", "quantifier": "all characters, all split points", "why_tests_cant": "All split points of all multi-byte characters.", "anchors": ["src/unix/terminal.rs: utf8_prefix", "src/unix/terminal.rs: TerminalReadGuard::read_into_buffer"]}
{"id": "C41", "title": "Reading makes progress past invalid input", "statement": "After input that is not valid UTF-8, repeated read_event calls eventually report the valid input that follows.", "quantifier": "all inputs", "why_tests_cant": "A liveness property over unbounded calls.", "anchors": ["src/unix/terminal.rs: TerminalReadGuard::try_read", "src/unix/terminal.rs: utf8_prefix"]}
{"id": "C42", "title": "from_utf8-based decoding accepts exactly UTF-8", "statement": "The pending-input decoder accepts exactly the byte strings that are concatenations of UTF-8 encodings of Unicode scalar values (no surrogates, no overlong forms, nothing above U+10FFFF), and for other input stops at the longest such prefix.", "quantifier": "all byte strings", "why_tests_cant": "All byte strings.", "anchors": ["src/unix/terminal.rs: utf8_prefix"]}
{"id": "C43", "title": "Signals become the right events", "statement": "A pending SIGWINCH is reported as Resize with the current size whatever the configuration; another pending signal is reported as Signal(s) iff it is in the report set of the last prepare and otherwise yields no event; SIGCONT re-applies the last prepare configuration.", "quantifier": "all reader states, configurations and pending signals", "why_tests_cant": "All configuration/signal combinations and arrival points.", "anchors": ["src/unix/terminal.rs: TerminalReadGuard::{handle_signal,resume,read_event,read_input}", "src/unix/terminal.rs: take_signal"]}
{"id": "C44", "title": "No signal is lost", "statement": "Every configured signal that arrives is eventually reported by read_event.", "quantifier": "all arrival patterns", "why_tests_cant": "Needs precise timing of two signals.", "anchors": ["src/unix/terminal.rs: LAST_SIGNAL", "src/unix/terminal.rs: handle_signal", "src/unix/terminal.rs: take_signal"]}
{"id": "C45", "title": "A signal wakes a waiting reader", "statement": "If a signal arrives before or during wait_event/read_event, the call returns without waiting for further input or the timeout.", "quantifier": "all arrival points", "why_tests_cant": "Race window between the flag test and select.", "anchors": ["src/unix/terminal.rs: TerminalReadGuard::wait_event"]}
{"id": "C46", "title": "wait_event(true) on buffered input means read_event will not block", "statement": "If wait_event returns Ok(true) without waiting, an immediately following read_event returns without calling into the OS to wait.", "quantifier": "all reader states", "why_tests_cant": "All buffer contents and key maps.", "anchors": ["src/unix/terminal.rs: TerminalReadGuard::{wait_event,read_event}"]}
{"id": "C47", "title": "Timeout conversion is exact and safe", "statement": "For every Duration, the select timeout is the duration truncated to milliseconds, saturated for huge values, and computing it never overflows.", "quantifier": "all Durations", "why_tests_cant": "The overflow boundary near i64::MAX milliseconds.", "anchors": ["src/unix/terminal.rs: to_timeval"]}
{"id": "C48", "title": "Nested prepare/restore restores terminal settings and signal handlers", "statement": "Any properly nested sequence of prepare/restore calls, with any configurations and any number of SIGCONT resumptions in between, ends with the termios settings and the signal dispositions it started with, provided nobody else changes them.", "quantifier": "all nestings, configurations, resume points and initial settings", "why_tests_cant": "Unbounded nesting and interleaving with resume.", "anchors": ["src/unix/terminal.rs: TerminalReadGuard::{prepare_with_lock,restore_with_lock,resume}", "src/unix/terminal.rs: PrepareState"]}
{"id": "C49", "title": "restore returns the whole input configuration to its previous state", "statement": "After restore, mouse reporting, keypad mode and the set of reported signals are again those in force before the matching prepare.", "quantifier": "all nestings", "why_tests_cant": "Only visible with nested prepares.", "anchors": ["src/unix/terminal.rs: TerminalReadGuard::restore_with_lock"]}
{"id": "C50", "title": "prepare changes exactly the configured terminal settings", "statement": "After prepare, canonical mode, echo, INLCR and ICRNL are off, ISIG is on iff block_signals is false, IXON is on iff enable_control_flow, VMIN = VTIME = 0 and every other termios bit is unchanged; handlers are installed for SIGCONT, SIGWINCH and exactly the requested ones of SIGINT, SIGTSTP, SIGQUIT.", "quantifier": "all configurations and prior settings", "why_tests_cant": "All 2^n prior flag states.", "anchors": ["src/unix/terminal.rs: TerminalReadGuard::prepare_with_lock"]}
{"id": "C51", "title": "A failing prepare changes nothing", "statement": "If prepare returns an error, the terminal settings and signal handlers are as before.", "quantifier": "all failure points", "why_tests_cant": "Needs OS failures mid-way.", "anchors": ["src/unix/terminal.rs: TerminalReadGuard::prepare_with_lock"]}
{"id": "C52", "title": "Documented lock order prevents deadlock", "statement": "Any number of threads calling Terminal and Screen methods, and holding guards acquired read-before-write, never deadlock.", "quantifier": "all thread counts, programs and schedules", "why_tests_cant": "Schedules are unbounded.", "anchors": ["src/unix/terminal.rs: Terminal::{lock_read,lock_write}", "src/unix/screen.rs: Screen::{lock_read,lock_write}", "src/unix/terminal.rs: TerminalReadGuard::{prepare,handle_signal}"]}
{"id": "C53", "title": "Output of one guard session is not interleaved", "statement": "Output produced by different threads' write-guard sessions reaches the device session by session: every schedule has the effect of running the sessions one after another.", "quantifier": "all thread counts, sessions and schedules", "why_tests_cant": "Schedules are unbounded.", "anchors": ["src/unix/terminal.rs: Terminal::lock_write", "src/macros.rs: term_write!"]}
{"id": "C54", "title": "Lock results combine without losing poison or would-block", "statement": "The combined (try_)lock result of a Screen is Ok iff both locks are Ok, WouldBlock iff either would block, Poisoned otherwise, and always carries both guards when it carries any.", "quantifier": "all pairs of lock results", "why_tests_cant": "Nine cases, every guard type.", "anchors": ["src/priv_util.rs: map_lock_result", "src/priv_util.rs: map_try_lock_result", "src/priv_util.rs: map2_lock_result", "src/priv_util.rs: map2_try_lock_result"]}
{"id": "C55", "title": "term_write! runs its elements in order and stops at the first error", "statement": "term_write!(t, e1 ... en) performs the listed elements left to right on one guard; on a Terminal it stops at and returns the first error, on a Screen it performs all of them; term_writeln! is the same followed by a newline.", "quantifier": "all element lists and all failure points", "why_tests_cant": "Unbounded element lists.", "anchors": ["src/macros.rs: term_write!", "src/macros.rs: term_writeln!", "src/macros.rs: Chain"]}
{"id": "C56", "title": "Windows attribute word encodes exactly the requested attributes", "statement": "update_attrs produces the default attributes with exactly the requested foreground/background colour bits replaced, intensity for bold, and colours swapped for reverse; swapping twice is the identity; unrelated bits are preserved.", "quantifier": "all default attribute words, colours and styles", "why_tests_cant": "All 2^16 default words.", "anchors": ["src/windows/terminal.rs: TerminalWriteGuard::update_attrs", "src/windows/terminal.rs: {fg_code,bg_code,style_code,swap_colors}"]}
{"id": "C57", "title": "Windows mouse records report every button change", "statement": "Over any sequence of mouse records, a press/release event is reported for each button whose state changed, with the right button, and plain motion otherwise according to always_track_motion.", "quantifier": "all record sequences", "why_tests_cant": "All 2^32 button masks and histories.", "anchors": ["src/windows/terminal.rs: TerminalReadGuard::mouse_event", "src/windows/terminal.rs: {button_changed,bit_to_button}"]}
{"id": "C58", "title": "Windows write_str delivers the UTF-16 encoding once, in order", "statement": "Whatever partial counts WriteConsoleW reports, the console receives exactly the UTF-16 encoding of the string.", "quantifier": "all strings and partial write patterns", "why_tests_cant": "Partial writes.", "anchors": ["src/windows/terminal.rs: TerminalWriteGuard::write_str"]}
{"id": "C59", "title": "Windows timeout conversion is exact", "statement": "For every timeout the wait is the requested number of milliseconds (saturating below INFINITE), and computing it never overflows.", "quantifier": "all Durations", "why_tests_cant": "Truncation boundaries at 2^32 ms.", "anchors": ["src/windows/terminal.rs: as_millis"]}
{"id": "C60", "title": "Windows key records map to the documented keys", "statement": "A key-down record with a listed virtual key gives that key; otherwise, without Alt, a record with a character gives Ctrl(l) with ctrl(l) = c when Ctrl is held and Key::from(c) otherwise; key-up records and records without a character give no key.", "quantifier": "all records", "why_tests_cant": "All code/character/modifier combinations.", "anchors": ["src/windows/terminal.rs: key_press_event"]}
{"id": "C61", "title": "Windows relative cursor movement stays on the buffer", "statement": "move_up/down/left/right(n) request the position moved by n clamped to the screen buffer.", "quantifier": "all cursor positions, buffer sizes and n", "why_tests_cant": "Saturation boundaries.", "anchors": ["src/windows/terminal.rs: TerminalWriteGuard::move_rel", "src/windows/terminal.rs: {to_short,to_short_neg}"]}
{"id": "C62", "title": "Windows prepare/restore restores the console input mode", "statement": "Properly nested prepare/restore calls restore the console input mode (up to ENABLE_EXTENDED_FLAGS) and the set of caught control signals.", "quantifier": "all nestings and configurations", "why_tests_cant": "Unbounded nesting.", "anchors": ["src/windows/terminal.rs: TerminalReadGuard::{prepare_with_lock,restore_with_lock}", "src/windows/terminal.rs: catch_signals"]}
{"id": "C63", "title": "Terminal::write_styled removes all attributes afterwards", "statement": "After a successful Terminal::write_styled no attributes are in force at the terminal, the text was written with exactly the given attributes, and the text bytes appear unmodified in the output.", "quantifier": "all writer states, attributes and texts", "why_tests_cant": "All prior attribute states.", "anchors": ["src/unix/terminal.rs: TerminalWriteGuard::write_styled"]}
{"id": "C64", "title": "Erasing blanks exactly the documented cells", "statement": "clear_screen, clear_to_line_end and clear_to_screen_end blank exactly the whole screen, the cells from the cursor to the end of the line, or to the end of the screen; other cells, the attributes and the cursor are unchanged, except that clear_screen moves the cursor to the first cell; a missing capability is an error and produces no output.", "quantifier": "all writer states, terminals implementing their terminfo entry, and screens", "why_tests_cant": "ranges over all screens, cursor positions and terminals", "anchors": ["src/unix/terminal.rs: clear_screen, clear_to_line_end, clear_to_screen_end"]}
{"id": "C65", "title": "set_cursor_mode controls visibility only", "statement": "After set_cursor_mode(Invisible) the cursor is invisible and after any other mode it is visible; nothing else about the terminal changes.", "quantifier": "all modes, writer states and terminals implementing their terminfo entry that can hide the cursor", "why_tests_cant": "ranges over all terminals and states", "anchors": ["src/unix/terminal.rs: set_cursor_mode"]}
{"id": "C66", "title": "A new Screen starts blank and leaving it sends everything", "statement": "After entering full-screen mode the screen is blank without attributes, the cursor is at its first cell and no attributes are in force, whatever was there and in force before; leaving it delivers all buffered output.", "quantifier": "all sizes, previous screens, previous attributes and terminals", "why_tests_cant": "ranges over all previous terminal states", "anchors": ["src/unix/terminal.rs: enter_screen, exit_screen", "src/unix/screen.rs: Screen::new"]}
{"id": "C67", "title": "refresh never panics on a screen that has a cell", "statement": "Refreshing a screen of at least one line and one column never panics, whatever its buffer, cursor and terminal; on a screen without cells it panics.", "quantifier": "all reachable buffers and cursors (also out of bounds), all terminals", "why_tests_cant": "The drawing loop indexes two buffers and does unchecked cursor arithmetic for every buffer content and cursor position.", "anchors": ["src/unix/screen.rs: ScreenWriteGuard::{refresh,move_cursor}", "src/terminal.rs: Cursor::last", "src/buffer.rs: ScreenBuffer::next_cell"]}
{"id": "C68", "title": "Key sequences and mouse reports split across reads are reassembled", "statement": "If the OS delivers a registered key sequence or a mouse report in several reads, read_event keeps the incomplete part and reports the key or mouse event once it is complete.", "quantifier": "all key maps, all reports and sequences, all places to split them", "why_tests_cant": "The OS may split its delivery anywhere; a test feeds whole sequences.", "anchors": ["src/unix/terminal.rs: peek_event, parse_mouse_data, TerminalReadGuard::read_event"]}
{"id": "C69", "title": "The terminal's key map is exactly the terminfo entry's", "statement": "Terminal::new registers exactly the ASCII key capabilities of the terminfo entry (the last of several with the same string), plus the mouse introducer on an xterm, and never panics. When the bytes that the entry gives for a key (kcuu1, kend, kf10, ...) arrive, read_event reports that key.", "quantifier": "all terminfo entries and terminal names", "why_tests_cant": "It ranges over all terminfo databases; tests use the one installed.", "anchors": ["src/unix/terminal.rs: sequences, is_xterm, ascii_str"]}
{"id": "C70", "title": "Windows erasing to the end of the line or screen", "statement": "On Windows clear_to_line_end and clear_to_screen_end make exactly the cells from the cursor to the end of its line, or to the end of the screen buffer, blank with the default attributes; the cursor, the window and every other cell stay as they are.", "quantifier": "all buffer and window geometries, contents and cursor positions", "why_tests_cant": "The number of cells to fill is computed from the geometry; there are unboundedly many geometries and contents.", "anchors": ["src/windows/terminal.rs: TerminalWriteGuard::{clear_to_line_end,clear_to_screen_end,clear_area}"]}
{"id": "C71", "title": "Windows clear_screen shows a blank window with the cursor at its top left", "statement": "After clear_screen on Windows every visible cell is blank and the cursor is at the top left corner of the window.", "quantifier": "all buffer and window geometries, contents and cursor positions", "why_tests_cant": "Whether scrolling or moving the window is enough depends on the relation of buffer size, window and cursor and on what is below the cursor.", "anchors": ["src/windows/terminal.rs: TerminalWriteGuard::clear_screen"]}
{"id": "C73", "title": "Windows control signals are reported once each", "statement": "A Ctrl-C or Ctrl-Break event that prepare was asked to report is returned as a signal by a later read, once, and does not end the program; an event it was not asked to report is left to the system.", "quantifier": "all interleavings of control events, input and reads", "why_tests_cant": "Events arrive at any moment, also during a read.", "anchors": ["src/windows/terminal.rs: {ctrl_handler,catch_signals,get_signal,take_signal}", "src/windows/terminal.rs: TerminalReadGuard::{wait_event,read_event,read_raw_event}"]}
{"id": "C74", "title": "Windows input records are handed out once, in order", "statement": "Over any history of wait_event, read_event and read_raw_event every input record is handed out exactly once and in order, and read_event returns the event its record stands for.", "quantifier": "all histories of operations and arrivals", "why_tests_cant": "Unboundedly many interleavings.", "anchors": ["src/windows/terminal.rs: TerminalReadGuard::{read_event,read_raw_event}"]}
{"id": "C75", "title": "Windows read_raw respects its timeout", "statement": "read_raw with a timeout returns when the timeout has passed.", "quantifier": "all records and timeouts", "why_tests_cant": "It depends on which records happen to be in the input buffer.", "anchors": ["src/windows/terminal.rs: TerminalReadGuard::read_raw"]}
{"id": "C76", "title": "Windows: every character typed is reported", "statement": "Every character the user types is reported by read_event as a key with that character.", "quantifier": "all characters and modifier states", "why_tests_cant": "All of Unicode and all modifier combinations.", "anchors": ["src/windows/terminal.rs: key_press_event"]}
{"id": "C77", "title": "Windows waiting ends when it should", "statement": "wait_event answers yes only if a record or signal is there and no only after its timeout with no record there; with a timeout, waiting and reading events end once it has passed; any record ends every wait.", "quantifier": "all timeouts and arrival schedules", "why_tests_cant": "All interleavings of arrivals and time.", "anchors": ["src/windows/terminal.rs: TerminalReadGuard::{wait_event,read_event,read_raw_event}"]}
{"id": "C72", "title": "A Windows screen gives the console back", "statement": "After a screen is opened, used in any way and dropped, the console displays the original buffer with its contents, attributes, output mode and visible cursor; the screen's own buffer is closed and the input mode and control handler are as before. A screen that cannot be opened leaves the console as it was.", "quantifier": "all configurations, all sequences of buffer, refresh, cursor-mode, wait and read calls, all points at which a console call fails", "why_tests_cant": "Needs every history of calls and every failure point of the console API.", "anchors": ["src/windows/screen.rs: Screen::new, Drop for Screen", "src/windows/terminal.rs: Terminal::new, enter_screen, exit_screen, setup_screen, Drop for Terminal"]}
{"id": "C78", "title": "A Windows screen has the size last reported", "statement": "Whatever mixture of calls a program makes, the size of its screen is the size in the last window-size record that was taken from the console's input queue.", "quantifier": "all sequences of calls, all input records and arrival schedules", "why_tests_cant": "Sizes may arrive anywhere among other records and in batches of any length.", "anchors": ["src/windows/screen.rs: ScreenReadGuard::{read_event,read_raw,read_raw_event}, Writer::update_size"]}
{"id": "C79", "title": "Refreshing a Windows screen makes the console show its buffer", "statement": "On Windows, after a successful Screen::refresh every position of the console screen buffer shows the text of the corresponding cell with an attribute word that shows its attributes, and the console's cursor is at the screen's cursor (at the last position if that is out of bounds); only cells that differ are written, whatever was drawn before, and after the size has changed everything is drawn again.", "quantifier": "all histories of a screen: made on a terminal, any buffer operations, cursor modes, refreshes and resizes to any size with any console contents, and all consoles that place one-position text at the cursor", "why_tests_cant": "which cells are skipped depends on the whole history of refreshes and resizes; a test sees one history on one console", "anchors": ["src/windows/screen.rs: ScreenWriteGuard::refresh, apply_attrs, move_cursor, Writer::update_size", "src/buffer.rs: ScreenBuffer::next_cell, resize", "src/windows/terminal.rs: TerminalWriteGuard::clear_screen, write_str, enter_screen"]}
{"id": "C80", "title": "A Unix screen gives the terminal back", "statement": "Dropping a Screen, whatever the program did with it, and likewise a Screen::new that fails, leaves the terminal's settings, the signal handlers and the resumption state as they were before the screen was made; the terminal has been sent everything written before, then what turns off the mouse and the keypad if they had been turned on, leaves the alternate screen and makes the cursor visible. A failure of one of these steps does not keep the others from being carried out.", "quantifier": "all terminal descriptions, configurations, histories of screen operations (drawing, guards, reading, signals, stops and continues, errors in between) and failure points of creating and dropping", "why_tests_cant": "needs all histories with signals and OS failures at any call; a test leaves one screen after one history", "anchors": ["src/unix/screen.rs: Screen::new, Drop for Screen", "src/unix/terminal.rs: prepare_with_lock, restore_with_lock, exit_screen, Drop for Terminal"]}
{"id": "C81", "title": "A Unix screen has the window's size as last reported, and changes are reported", "statement": "A screen's size is the window's when it was made until a Resize event is returned by read_event or read_raw, then the size in the last such event; an event's size is the window's at that time and makes the next refresh redraw everything; no Resize is returned unless SIGWINCH arrived; after the window has changed and SIGWINCH has arrived, a Resize event with the new size is returned by a following read.", "quantifier": "all histories of screen operations and all schedules of signals, input and window changes", "why_tests_cant": "signals and changes of the window arrive at any point of any history", "anchors": ["src/unix/screen.rs: ScreenReadGuard::read_event, read_raw, Writer::update_size", "src/unix/terminal.rs: handle_signal, take_signal, LAST_SIGNAL"]}
{"id": "C82", "title": "Whatever a program did with a Unix screen, drawing makes the terminal show the buffer", "statement": "For programs whose text has no double-width characters: after any history of creating a screen, changing the buffer, setting the cursor mode, refreshing, using and dropping write guards, waiting, reading keys, signals (including SIGCONT, which prepares the terminal again) and raw input, and being told of new window sizes (before which anything may have happened, including failed drawing), a refresh or the drop of a write guard leaves the terminal showing exactly the buffer's cells at the buffer's size with the cursor at the buffer's; after a successful refresh nothing is left in the output buffer.", "quantifier": "all such programs, all terminals that implement their terminfo entry, all schedules of signals, input and window changes", "why_tests_cant": "the output of reading (preparing again) is interleaved with drawing at any point of any history", "anchors": ["src/unix/screen.rs: Screen, ScreenReadGuard, ScreenWriteGuard", "src/unix/terminal.rs: prepare, resume, handle_signal, read_event"]}
{"id": "C83", "title": "A Unix screen is shown again when the program is continued", "statement": "When a program was stopped and is continued (SIGCONT), and its terminal has been prepared again by a read, the next refresh makes the terminal show the screen's buffer, whatever other programs wrote to the terminal meanwhile.", "quantifier": "all screens, all reads, all contents of the terminal", "why_tests_cant": "a process can be stopped at any point; what the terminal then shows is up to other programs", "anchors": ["src/unix/terminal.rs: resume, handle_signal", "src/unix/screen.rs: ScreenReadGuard::read_event, ScreenWriteGuard::refresh"]}
{"id": "C84", "title": "A panic of the program does not keep a Unix screen from giving the terminal back", "statement": "If a program that uses a screen panics and the screen is dropped by unwinding (or the panic is caught and the screen dropped later), the terminal gets back its settings and signal handlers, its input modes are turned off, the alternate screen is left and the cursor made visible, as without the panic.", "quantifier": "all programs (any sequence of calls, with and without guards), panics at any point between calls, all schedules of input and signals", "why_tests_cant": "the panic can be at any point of any history, and what it poisons only shows when the screen is dropped", "anchors": ["src/unix/screen.rs: Drop for Screen, Screen::lock_read, Screen::lock_write", "src/unix/terminal.rs: Terminal::restore, lock_reader, lock_writer, Drop for Terminal"]}
{"id": "C85", "title": "After one thread panicked, other threads can go on using a Unix screen", "statement": "If a thread panics while it has a guard of a screen (and the panic ends that thread or is caught), other threads can still change the buffer, draw, set the cursor mode, and read events, including changes of the window's size.", "quantifier": "all histories before and after the panic, all later calls", "why_tests_cant": "which calls are affected depends on which locks were held when the panic happened, and on later signals", "anchors": ["src/unix/screen.rs: lock_write_data, lock_reader, Screen::lock_write, ScreenReadGuard::read_event", "src/unix/terminal.rs: lock_writer, handle_signal, resume"]}
{"id": "C86", "title": "Without an event, waiting and reading end only when the timeout has elapsed", "statement": "wait_event returns Ok(false), and read_event (read_raw) returns Ok(None), only if a timeout was given and has elapsed without an event; without a timeout they never do (documented: 'Returns Ok(None) if timeout elapses without an event occurring. If timeout is None, this method will wait indefinitely').", "quantifier": "all timeouts, all buffered input, all schedules of input, signals, interruptions and failures", "why_tests_cant": "when the call ends depends on the order in which input, signals and timers arrive", "anchors": ["src/terminal.rs: Terminal::wait_event, Terminal::read_event", "src/unix/terminal.rs: wait_event, read_event, read_raw, read_into_buffer, read_input, try_read, handle_signal"]}
{"id": "C87", "title": "Terminals of one program do not disturb each other", "statement": "When a program uses several terminals (on different devices or on one, as stdout and stderr), preparing, reading and restoring one of them leaves the others' signals (and settings, on other devices) alone; when all have been restored, each device has its settings back and the process its signal handlers, in whatever order they were restored; a signal is noticed by every terminal that asked for it.", "quantifier": "all programs with any number of terminals, all orders of preparing and restoring, all schedules of signals and input", "why_tests_cant": "handlers and the last signal are shared by the process; what happens depends on the order of calls on different terminals", "anchors": ["src/unix/terminal.rs: LAST_SIGNAL, handle_signal, take_signal, prepare_with_lock, restore_with_lock"]}
{"id": "C88", "title": "A terminal closes exactly the descriptor it opened", "statement": "Opening and dropping terminals closes no descriptor of the rest of the program, a living terminal keeps referring to what it opened, no descriptor stays open when the terminal that opened it is gone (or could not be created), standard input and output are never closed, and waiting works whatever descriptor the terminal was given.", "quantifier": "all histories of opening, failing to open, waiting on and dropping terminals, interleaved with other code opening and closing files, and panics", "why_tests_cant": "descriptors are reused, so a wrong close hits whatever has the number then", "anchors": ["src/unix/terminal.rs: Terminal::open, Terminal::stdout, Terminal::stderr, Terminal::new, Drop for Terminal, close_fd, open_rw, wait_event"]}
{"id": "C89", "title": "Programs that follow the locking rules do not deadlock on Windows", "statement": "Threads sharing a terminal or a screen on Windows that follow the documented locking rules all finish, whatever their calls answer, and leave every lock free.", "quantifier": "all numbers of threads, all programs of calls that depend on answers, all schedules, all answers of the console", "why_tests_cant": "a deadlock needs a particular interleaving, or a resize at the wrong moment", "anchors": ["src/windows/terminal.rs: Terminal, TerminalReadGuard, TerminalWriteGuard, Drop for Terminal", "src/windows/screen.rs: Screen, ScreenReadGuard, ScreenWriteGuard"]}
{"id": "C90", "title": "What is done under one write guard is not interleaved with others, on Windows", "statement": "Whatever threads do, the console and the screen are as if the sessions (from acquiring the output to releasing it) had been done one after the other, each thread's in its order, with the same answers.", "quantifier": "all numbers of threads, all rule-following programs, all schedules, all effects of the calls on the console and the buffer", "why_tests_cant": "atomicity is about all interleavings", "anchors": ["src/windows/terminal.rs: Terminal, TerminalWriteGuard", "src/windows/screen.rs: Screen, ScreenWriteGuard, Drop for ScreenWriteGuard"]}
{"id": "C91", "title": "A program that cannot deadlock on Windows cannot deadlock on Unix", "statement": "The code takes the write lock on Windows where it is not needed, so that a user will not write and test Windows code that then causes a deadlock on Unix: a program whose every schedule can be completed on Windows can be completed on Unix too.", "quantifier": "all numbers of threads, all programs, all schedules on both systems", "why_tests_cant": "no test on Windows shows what happens on Unix when the window is resized", "anchors": ["src/windows/terminal.rs: TerminalReadGuard::prepare, TerminalReadGuard::restore, TerminalReadGuard::read_event", "src/unix/terminal.rs: TerminalReadGuard::prepare, TerminalReadGuard::restore, TerminalReadGuard::read_event, handle_signal"]}
{"id": "C92", "title": "What is written under one guard comes out in one piece", "statement": "When several threads write to one terminal, what a thread writes between lock_write() and dropping the guard, or with one term_write!, reaches the device as one contiguous piece; pieces of one thread come in the order it wrote them, and no piece is lost, repeated or mixed with another thread's.", "quantifier": "all numbers of threads, all programs that follow the lock rules, all schedules, all device responses without short writes", "why_tests_cant": "the number of interleavings of threads is unbounded and a test sees one of them", "anchors": ["src/unix/terminal.rs: Terminal::lock_write, TerminalWriteGuard, Writer::write_bytes, Writer::flush", "src/macros.rs: term_write", "src/terminal.rs: Terminal::borrow_term_write_guard"]}
{"id": "C93", "title": "A thread waiting for input does not keep others from writing", "statement": "While threads wait in read_event, read_raw or wait_event without holding a guard for output, any other thread can complete a write, refresh, size query or acquisition of the write guard, although no input, signal or timeout arrives for those waiting; it waits at most for threads that hold the output.", "quantifier": "all numbers of threads, all programs that follow the lock rules and do not read while holding the write guard, all schedules up to that moment", "why_tests_cant": "it is about what can still happen after every one of unboundedly many interleavings", "anchors": ["src/unix/terminal.rs: Terminal, TerminalReadGuard::read_event, TerminalReadGuard::wait_event, lock_writer", "src/unix/screen.rs: Screen, ScreenReadGuard", "src/windows/terminal.rs: Terminal", "src/windows/screen.rs: Screen"]}
{"id": "C94", "title": "Attributes that one thread sets do not appear on another thread's text", "statement": "Threads that write messages to one terminal, each message under one write guard (or one term_write!), setting attributes and writing text as they like, and clearing attributes before the guard is released: the terminal shows the messages one after the other, each thread's in its order, and every piece of text with exactly the attributes its own message had asked for at that point, as far as the terminal has them. Attributes that a message does not clear, in contrast, are inherited by the next message, whoever writes it.", "quantifier": "all numbers of threads, all messages, all schedules, all terminals implementing their terminfo entry", "why_tests_cant": "needs all interleavings of unboundedly many messages and all terminals", "anchors": ["src/unix/terminal.rs: TerminalWriteGuard, set_fg, add_style, set_attrs, clear_attributes, write_styled", "src/macros.rs: term_write!", "examples/threads.rs: run_task"]}
{"id": "C95", "title": "Every output method of Terminal and TerminalWriteGuard does what its documentation says", "statement": "On a terminal that implements its terminfo entry, any sequence of successful calls of the public output methods (clear_screen, clear_to_line_end, clear_to_screen_end, move_up/down/left/right, move_to_first_column, set_cursor_mode, add_style, remove_style, set_style, set_theme, set_fg, set_bg, clear_attributes, bold, italic, underline, reverse, write_styled, write_char, write_str, write!, flush), on a guard or on the Terminal itself, takes what the terminal shows to what the documented effects of the calls, one after the other, make of it: bold adds exactly bold, set_style(None) removes all styles and no colour, write_styled prints with the given attributes and leaves none, move_up(n) moves the cursor n lines and changes nothing else, and so on. When a method of Terminal returns, its effect has already reached a working device.", "quantifier": "all sequences of calls with all arguments, all terminals implementing their terminfo entry, all buffer states", "why_tests_cant": "the space of call sequences, argument values, prior attributes and terminals is unbounded", "anchors": ["src/terminal.rs: Terminal::clear_screen..write_fmt, TerminalWriteGuard::flush..write_fmt", "src/unix/terminal.rs: TerminalWriteGuard"]}
{"id": "C96", "title": "What a program draws on a Screen is what it holds, and what a refresh shows", "statement": "For single-width text, a Screen behaves as a canvas: each public drawing method (set_cursor, next_line, clear_screen, the attribute methods, write_at, write_styled, write_styled_at, write_char, write_str, write!) has exactly its documented effect on a grid of texts with attributes, a pen and the current attributes - a character is painted at the pen with the current attributes and the pen moves on, wrapping at the end of the line; a tab paints spaces to the next multiple of 8; a combining mark joins the character before; \\r and \\n move the pen; text that does not fit is dropped; set_bg changes the background and nothing else. Screen::size and Screen::cursor tell the canvas's, a resize keeps the common part, and a successful refresh makes the terminal show every position of the canvas, with the cursor at the pen.", "quantifier": "all sequences of drawing methods, refreshes (also ones whose flush failed), cursor modes and resizes, all screen sizes, all terminals implementing their terminfo entry", "why_tests_cant": "the space of drawing programs, sizes and terminals is unbounded", "anchors": ["src/screen.rs: Screen, ScreenWriteGuard", "src/buffer.rs: ScreenBuffer, forward_screen_buffer_methods!", "src/unix/screen.rs: refresh"]}
{"id": "C97", "title": "Mouse and keypad modes are on exactly as configured between prepare and restore", "statement": "On an xterm-like terminal, prepare with enable_mouse turns on button tracking and SGR reports (private modes 1002 and 1006), and reporting of all motion (1003) just when always_track_motion asks for it; with enable_keypad it turns on the application keypad if the terminal has one. All of it has reached the terminal when prepare returns. What the configuration does not ask for stays as it was. No output method changes these modes. Resuming after a stop turns them on again whatever the shell did meanwhile, and restore turns off exactly what prepare turned on.", "quantifier": "all configurations, all terminals whose capabilities and mode sequences do what they are for, all earlier modes, all output in between, all pending output", "why_tests_cant": "configurations, terminals, earlier modes and output in between combine without bound", "anchors": ["src/unix/terminal.rs: prepare_with_lock, restore_with_lock, resume, enable_mouse, disable_mouse, enable_keypad, disable_keypad", "src/terminal.rs: PrepareConfig"]}
{"id": "C98", "title": "What is typed is what is read", "statement": "A program that calls read_event again and again is told exactly what the user did, in order: each character typed as its key, each special key as the key its sequence is registered for, each mouse action as its event; and no input is left over. The input may arrive in portions that cut a UTF-8 character anywhere (a portion that ends in the middle of one makes one read return None), with interrupted waits and idle time in between. It must be legible: what one action sends is not, with what follows it in the portion, the beginning of a longer sequence; this holds if no registered sequence begins another and no typed character begins one, with Escape allowed at the end of a portion. Text of characters that begin no sequence is read as typed whatever else happens: timeouts, signals, failed waits, preparing and restoring between the reads; no such read ever reports invalid UTF-8.", "quantifier": "all key maps, all sequences of characters, keys and mouse actions, all ways of cutting them into portions, all interleaved waits, signals, failures and mode changes", "why_tests_cant": "sequences of input and the ways in which it can be cut and interrupted are unbounded", "anchors": ["src/unix/terminal.rs: TerminalReadGuard::read_event, wait_event, read_into_buffer, try_read, peek_event, parse_mouse_data", "src/sequence.rs: FindResult, find"]}
{"id": "C99", "title": "Every output method does on a Windows console what its documentation says", "statement": "On a Windows console, any sequence of successful calls of the public output methods, on a guard or on the Terminal itself, takes what the console shows (buffer, cursor, window, attributes for text to come, shape and visibility of the cursor) to what the documented effects of the calls make of it, one after the other; text is drawn once and in order, in UTF-16, with the attributes requested, however little the console takes at a time. As long as the console itself does not fail, every call succeeds and none panics or hangs, except that moving over the upper or left edge fails and changes nothing.", "quantifier": "all sequences of calls, all contents and sizes of the buffer, all positions of cursor and window, all ways in which the console takes text, all ways of drawing text", "why_tests_cant": "sequences of calls, buffers and partial writes combine without bound", "anchors": ["src/terminal.rs: Terminal, TerminalWriteGuard", "src/windows/terminal.rs: Terminal, TerminalWriteGuard"]}
{"id": "C100", "title": "A refresh on Windows shows the drawing", "statement": "On Windows, whatever a program draws with the methods of Screen, in whatever order with refreshes, cursor modes and changes of the console's size, Screen::size and Screen::cursor tell what the drawing says, and a successful refresh leaves the console showing the drawing: the same size, at every position the text last written there with its attributes, and the cursor at the drawing's cursor (or the last position if that is off the screen). Text takes one position per character, and after a change of the size the window covers the buffer's lines (C79 shows that this is needed).", "quantifier": "all histories of drawing methods with any arguments and any text that takes one position per character, refreshes, cursor modes and resizes; all sizes; all contents of the console after a resize", "why_tests_cant": "histories, sizes and texts combine without bound", "anchors": ["src/screen.rs: Screen", "src/windows/screen.rs: Screen, ScreenWriteGuard::refresh", "src/buffer.rs: ScreenBuffer"]}
{"id": "C101", "title": "What a program draws with double-width characters", "statement": "Whatever a program draws on a screen with text that may contain double-width characters, in whatever order with refreshes and resizes: the screen's cells, cursor and size are those of the drawing, in which a double-width character takes two positions and loses its other half to a space when one half is overwritten, a double-width character for which one column is left goes to the next line, and a mark joins the character before it; and a refresh makes the terminal show the drawing, the cursor at the drawing's cursor.", "quantifier": "all histories of drawing methods with any arguments and text, refreshes, failed flushes, cursor modes and resizes; all sizes; all terminals that implement the capabilities; all schedules of any number of threads that share the screen", "why_tests_cant": "histories, sizes and texts combine without bound, and every overlap of double-width characters is a case of its own", "anchors": ["src/buffer.rs: ScreenBuffer::write_char, set_cell, resize, next_cell", "src/screen.rs: Screen", "src/unix/screen.rs: ScreenWriteGuard::refresh", "src/unix/screen.rs: Screen::lock_write, lock_data"]}
{"id": "C102", "title": "A SequenceMap changed through sequences_mut keeps working", "statement": "Whatever a program puts in the places of the slice that sequences_mut returns, mixed with any other calls, no call of the map panics. If the keys are sorted afterwards, as the documentation asks, the map works from then on as a finite map of what is in the slice, and find answers as documented; assigning a value changes the value of that key only.", "quantifier": "all key and value types, all constructors, all histories of calls and assignments to places of the slice", "why_tests_cant": "the slice can be changed in any way between any calls", "anchors": ["src/sequence.rs: SequenceMap::sequences_mut, search, find"]}
{"id": "C103", "title": "A panic of the program does not keep a Windows screen from giving the console back", "statement": "Whatever a program does with a Screen on Windows, and wherever it panics, dropping the screen displays the buffer that was displayed before, as it was, puts the modes of the console back, makes the cursor visible and removes the control handler.", "quantifier": "all programs: sequences of calls, guards and panics with or without a guard, all console answers and input", "why_tests_cant": "a panic can happen at any point of any program, with any guard held", "anchors": ["src/windows/screen.rs: Drop for Screen, ScreenReadGuard, ScreenWriteGuard", "src/windows/terminal.rs: restore, exit_screen, Drop for Terminal"]}
{"id": "C104", "title": "A panic in one thread does not keep others from using a Windows screen", "statement": "After a thread panicked, whatever it was doing, the other threads can go on drawing on the screen and reading from it, with the results there would be without the panic.", "quantifier": "all programs: sequences of calls, guards and panics; all console answers and input", "why_tests_cant": "a panic can happen at any point of any program, with any guard held", "anchors": ["src/windows/screen.rs: lock_reader, lock_writer, lock_write_data, ScreenReadGuard::read_event, read_raw, read_raw_event"]}
{"id": "C105", "title": "Threads that share a Screen draw one picture", "statement": "Any number of threads share a Screen and draw on it, through its methods and through write guards, and refresh it. However they are scheduled, there is one order of everything they did, in which each thread's doings come in its order and nothing comes between what is done with one guard, such that the screen holds the picture drawn in that order, and the terminal shows the picture of the last refresh or dropped guard.", "quantifier": "all numbers of threads, all programs of drawing methods, guards and refreshes with single-width text, all schedules, terminals and earlier histories of the screen", "why_tests_cant": "every interleaving of threads and lock acquisitions must be covered", "anchors": ["src/unix/screen.rs: Screen, ScreenWriteGuard, refresh, Drop for ScreenWriteGuard", "src/buffer.rs: forward_screen_buffer_methods", "src/screen.rs: Screen, ScreenWriteGuard"]}
{"id": "C106", "title": "Threads that draw in areas of their own do not disturb each other", "statement": "If each thread draws only in positions of its own (for example with write_styled_at) and ends with a refresh or by dropping a guard, then for every schedule the terminal finally shows, in each thread's positions, what the thread would have drawn alone, and elsewhere what was there before.", "quantifier": "all numbers of threads, all disjoint areas, all programs staying in them, all schedules", "why_tests_cant": "every interleaving must give the same picture", "anchors": ["src/unix/screen.rs: Screen, ScreenWriteGuard", "src/screen.rs: write_styled_at"]}
{"id": "C107", "title": "Which calls of a Screen can panic", "statement": "Whatever a program did with a Screen before, whatever the terminal and the window did meanwhile, and even if writes fail: a drawing call panics exactly when the size and the cursor say so (double width on one column, a mark on no columns, the last line of usize), a refresh only if the screen has no cell, waiting and reading only for a timeout that overflows, a mouse report with a zero coordinate or a window size the buffer cannot take; changing the cursor's visibility and dropping the screen never panic; creating one panics only on a window without lines or with more cells than usize. On a window that always has a line and two columns, without mouse reports, ordinary programs never panic.", "quantifier": "all programs of the public methods of Screen and its guards, all terminals, inputs, signals, window sizes, failures of the operating system, all points of the program", "why_tests_cant": "a panic needs one history out of infinitely many; absence of panics is a statement about all of them", "anchors": ["src/unix/screen.rs: Screen, ScreenReadGuard, ScreenWriteGuard", "src/unix/terminal.rs: prepare, restore, enter_screen, read_event, read_raw, wait_event, flush", "src/buffer.rs: ScreenBuffer"]}
{"id": "C108", "title": "Which calls can panic on Windows", "statement": "On Windows every writing method of a terminal returns (with success or an error) for all arguments and whatever the console answers, preparing and restoring return, and waiting and reading panic only for a timeout that overflows. Whatever a program did with a Screen and the console meanwhile: a drawing call panics exactly when the size and the cursor say so, a refresh only if the screen has no cell, reading only for a timeout that overflows or a size record the buffer cannot take; only waiting and reading can take for ever; dropping the screen returns; creating one returns unless the console's buffer has more cells than usize. With two columns or more ordinary programs never panic.", "quantifier": "all programs of the public methods, all console buffers (any size up to SHORT::MAX, window and cursor anywhere in it, changing at any time), all answers of the console, all input records, all points of the program", "why_tests_cant": "the arithmetic is of 16 bits and the console's buffer, its window and cursor can be anything at each call; absence of panics is a statement about all of them", "anchors": ["src/windows/terminal.rs: TerminalWriteGuard, TerminalReadGuard, clear_screen, move_rel, as_millis, bit_to_button", "src/windows/screen.rs: Screen, ScreenReadGuard, ScreenWriteGuard", "src/buffer.rs: ScreenBuffer"]}
{"id": "C109", "title": "What a Windows program is told when opening fails", "statement": "Terminal::stdout and Terminal::stderr succeed exactly if the process has a standard input, the standard output or error is a console, and the console can be read and set up; if they fail, the console is as before. A failure to create the buffer of a Screen is reported with the console's reason, and an input that is no console is reported.", "quantifier": "all standard handles (missing, invalid, files, consoles), all states of the console, all points at which a call fails", "why_tests_cant": "the answers of GetStdHandle and of each console call can be anything; the tests run on one console", "anchors": ["src/windows/terminal.rs: Terminal::new, result_handle, prepare_output, enter_screen, setup_screen"]}
{"id": "C110", "title": "Errors that can only be printed", "statement": "Dropping a write guard, a Terminal or a Screen reports an error on standard error and nothing more; in particular no method of a Terminal panics and no drop aborts the process because the terminal went away.", "quantifier": "all methods, all states of terminal and screen, all outcomes of each write to the terminal and to standard error, all replies of the other system calls", "why_tests_cant": "the tests have a working standard error; the failure takes a terminal that goes away together with standard error, at any point of a program", "anchors": ["src/unix/terminal.rs: Drop for TerminalWriteGuard, Drop for Terminal, lock_writer", "src/unix/screen.rs: Drop for ScreenWriteGuard, Drop for Screen, refresh", "src/windows/screen.rs: Drop for ScreenWriteGuard, Drop for Screen, refresh", "src/windows/terminal.rs: Drop for Terminal"]}
{"id": "C111", "title": "Threads that share a Screen on Windows draw one picture", "statement": "Any number of threads share a Screen on Windows and draw on it, through its methods and through write guards, and refresh it. However they are scheduled, there is one order of everything they did, in which each thread's doings come in its order and nothing comes between what is done with one guard, such that the screen holds the picture drawn in that order and the console shows the picture of the last refresh or dropped guard, with the cursor at its place. Threads with areas of their own do not disturb each other.", "quantifier": "all numbers of threads, all programs of drawing methods, guards and refreshes with text of one position per character, all schedules, consoles and earlier histories of the screen", "why_tests_cant": "every interleaving of threads and lock acquisitions must be covered, on a platform whose locking differs from Unix", "anchors": ["src/windows/screen.rs: Screen, ScreenWriteGuard, refresh, Drop for ScreenWriteGuard", "src/buffer.rs: forward_screen_buffer_methods"]}
{"id": "C112", "title": "Threads that share a Terminal on Windows write one after the other", "statement": "Any number of threads share a Terminal on Windows, through write guards and through its methods. However they are scheduled, there is one order of everything they did, in which each thread's doings come in its order and nothing comes between the calls made on one guard, such that the console is as the documented effects of the calls, one after the other, make it.", "quantifier": "all numbers of threads, all programs of guards and methods, all schedules, all consoles and their answers without failures", "why_tests_cant": "every interleaving must be covered; there is no console in the tests", "anchors": ["src/windows/terminal.rs: Terminal, TerminalWriteGuard, lock_write"]}
{"id": "C113", "title": "Threads can draw while another reads events and learns that the window has a new size", "statement": "Any number of threads share a Screen. Each draws, refreshes, draws through write guards, waits for events and reads events, and what it does next may depend on what it read; some of the events say that the window has a new size. However they are scheduled and whatever is read, there is one order of all drawing and all changes of the size, in which each thread's come in an order its program allows and nothing comes between what is done with one guard, such that the screen holds the picture drawn and refitted in that order. Everything after the last change of the size is drawn for the new size: a terminal of that size, whatever it showed, then shows the picture of the last refresh or dropped guard.", "quantifier": "all numbers of threads, all programs of drawing methods, guards, refreshes, waits and reads that may depend on the events, all events, all schedules and earlier histories of the screen, with text of one column per character and usable sizes", "why_tests_cant": "every interleaving of drawing with reading, and every event at every point, must be covered", "anchors": ["src/unix/screen.rs: ScreenReadGuard::read_event, read_raw, Writer::update_size, refresh, Drop for ScreenWriteGuard", "src/unix/terminal.rs: TerminalReadGuard::read_event, handle_signal"]}
{"id": "C114", "title": "Errors met while waiting for input or reading it are reported", "statement": "Whatever sequence of wait_event, read_event, read_raw (and, on Windows, read_raw event) calls a program makes, every error the operating system gives while they wait for the input or read it is returned by the call that met it, once, and no call returns an error that did not happen; on Unix an access that was interrupted (EINTR) is repeated instead. An error that is already there is returned by the next call that has to look at the input.", "quantifier": "all sequences of calls, all timeouts, all timelines of input, failures, signals and time on both platforms", "why_tests_cant": "each failure may come at any point between the accesses of any of the calls", "anchors": ["src/unix/terminal.rs: wait_event, read_event, read_raw, read_input, read_into_buffer", "src/windows/terminal.rs: wait_event, read_event, read_raw, read_raw_event, read_input"]}
{"id": "C115", "title": "A screen's cursor stays visible or hidden as set_cursor_mode last said", "statement": "Whatever a program draws on a Screen and however often it refreshes it (also when a refresh fails while flushing, or the terminal is resized in between), the terminal's cursor is visible exactly if the last set_cursor_mode asked for a visible one; before the first call it is as it was when the screen was opened. On Windows the console's cursor has the size and visibility of the mode that was set last without an error, whatever other calls were made and failed.", "quantifier": "all histories of drawing, refreshing, resizing and setting the cursor mode, all terminals that implement their capabilities; on Windows all sequences of calls and all answers of the console", "why_tests_cant": "a refresh sends text that depends on everything drawn before; that no part of it touches the cursor's visibility is a statement about all of them", "anchors": ["src/screen.rs: Screen::set_cursor_mode, refresh", "src/unix/screen.rs: refresh", "src/unix/terminal.rs: set_cursor_mode, move_cursor, set_attributes, clear_screen", "src/windows/screen.rs: refresh, set_cursor_mode", "src/windows/terminal.rs: set_cursor_mode"]}
{"id": "C116", "title": "Any programs that share a screen and keep the rules for its guards draw what they say", "statement": "Any number of threads share a Screen, each running any program that calls its methods, takes (or tries to take) read and write guards, draws, refreshes, sets the cursor mode, waits for and reads events, and decides what to do next from the answers, provided it keeps the rules for the guards. Once all have finished without an error, there is one order of everything drawn, shown, asked of the cursor and read about the window's size, in which what was done through one guard is not mixed with anything else and each thread's part is what its program says, such that the screen holds the resulting picture, and a terminal of the last size shows the picture of the last refresh or dropped guard, with the cursor visible or hidden as last asked.", "quantifier": "all client programs made of Screen methods and guards, all schedules, all answers of the input", "why_tests_cant": "what a thread sees and does depends on every possible interleaving and on all answers; no test enumerates programs", "anchors": ["src/screen.rs: Screen, ScreenReadGuard, ScreenWriteGuard", "src/unix/screen.rs: lock_read, lock_write, try_lock_read, try_lock_write, refresh, set_cursor_mode, read_event, Drop for ScreenWriter", "src/buffer.rs: forward_screen_buffer_methods, forward_screen_buffer_mut_methods", "examples/screen_threads.rs"]}
{"id": "C117", "title": "On Windows too, any programs that share a screen and keep the rules for its guards draw what they say", "statement": "Any number of threads share a Screen on a Windows console, each running any program that calls its methods, takes (or tries to take) read and write guards, draws, refreshes, sets the cursor mode, waits for and reads events, and decides what to do next from the answers, provided it keeps the rules for the guards. Once all have finished without an error and without the window changing its size, there is one order of everything drawn, shown and asked of the cursor, in which what was done through one guard is not mixed with anything else and each thread's part is what its program says, such that the screen holds the resulting picture, the console shows the picture of the last refresh or dropped guard, and its cursor has the form and visibility asked for last.", "quantifier": "all client programs made of Screen methods and guards, all schedules, all answers of the input, all consoles", "why_tests_cant": "what a thread sees and does depends on every possible interleaving and on all answers; no test enumerates programs", "anchors": ["src/screen.rs: Screen, ScreenReadGuard, ScreenWriteGuard", "src/windows/screen.rs: lock_read, lock_write, try_lock_read, try_lock_write, refresh, set_cursor_mode, read_event, Drop for ScreenWriteGuard", "src/buffer.rs: forward_screen_buffer_methods, forward_screen_buffer_mut_methods", "examples/screen_threads.rs"]}
{"id": "C118", "title": "Any programs that share a terminal write one after the other", "statement": "Any number of threads share a terminal, each running any program of calls of the methods of Terminal and its read and write guards (locking, trying to lock, writing, moving, styles, prepare and restore, waiting for and reading events, the size), obeying the rules for the guards; what a program does next may depend on every answer. However they are scheduled, once all have finished and no access to the terminal has failed, there is an order of all that was written, in which everything a thread wrote through one guard is one uninterrupted piece and each thread's pieces are those its program writes, such that the terminal (the console on Windows) shows what the documented effects of the calls make of it in that order; on Unix all of it has reached a device that takes what it is given.", "quantifier": "all programs (any branching on answers), any number of threads, all schedules, all terminals that implement the terminfo entry with attributes and cursor visibility, all writer states in step with the terminal; all consoles", "why_tests_cant": "Tests run a few interleavings of particular programs; the claim is about every program a client can write and every schedule.", "anchors": ["src/terminal.rs: Terminal, TerminalReadGuard, TerminalWriteGuard", "src/unix/terminal.rs: lock_read, lock_write, try_lock_read, try_lock_write, prepare, restore, Drop for TerminalWriteGuard", "src/windows/terminal.rs: lock_write, try_lock_write, TerminalWriteGuard", "examples/threads.rs"]}
{"id": "C119", "title": "Threads that share a terminal's input get each event once", "statement": "Any number of threads wait for and read events, read raw input, prepare and restore one terminal, through its methods or through read guards (lock_read, try_lock_read), each running any program whose next call may depend on all earlier answers. When all are done, the calls can be put in one order, in which the calls made with one guard are uninterrupted and each thread's calls are those of its program, such that one thread alone making them gets the same answers and leaves the terminal in the same state. So each character typed is given to exactly one thread, in order, and what no thread has read is still to be read; on Windows each input record is handed out exactly once. Threads never block one another for ever: if none can go on, the one that has the reader waits for input that does not come. (Refuted: that a timeout bounds a call while another thread waits without one.)", "quantifier": "all programs (any branching on answers), any number of threads, all schedules, all key maps, typed texts and arrivals of input, signals and failures; all Windows consoles and records", "why_tests_cant": "Who gets which event depends on the schedule and on when input arrives, in combinations no test enumerates.", "anchors": ["src/terminal.rs: Terminal::lock_read, Terminal::try_lock_read, TerminalReadGuard", "src/unix/terminal.rs: wait_event, read_event, read_raw, prepare, restore, lock_read, try_lock_read, lock_reader", "src/windows/terminal.rs: wait_event, read_event, read_raw_event, lock_read, try_lock_read, lock_reader", "src/unix/screen.rs: read_event, lock_reader", "src/windows/screen.rs: read_event, lock_reader"]}
{"id": "C120", "title": "Expressions in term_write! may use the terminal they are written to", "statement": "The documentation gives a method call as the equivalent of each element of term_write!. A program that makes these calls may compute their arguments with methods of the same terminal or screen (size, writing, refreshing, reading), in any number of threads, and always finishes. So should term_write!. Refuted, on Unix and Windows: the macro evaluates the expressions with the write guard held, so if its first expression calls size or anything that writes (draws, refreshes), the thread waits for itself for ever, whatever the other threads do, and the locks it has are never free again. True for expressions that do not use the terminal.", "quantifier": "all elements and expressions, all calls made by the expressions, any number of other threads with any programs, all schedules, Unix and Windows", "why_tests_cant": "A test of a deadlock shows one schedule of one program; the claims are about every program of this form and every schedule.", "anchors": ["src/macros.rs: term_write!, Chain", "src/terminal.rs: Terminal::borrow_term_write_guard", "src/screen.rs: Screen::borrow_term_write_guard", "src/unix/terminal.rs: size, lock_write", "src/windows/terminal.rs: size, lock_write"]}
{"id": "C121", "title": "Any programs that share a screen act as one thread, whatever text they write", "statement": "Any number of threads share a screen, each running any program of calls of the methods of Screen and its guards that follows the rules for the guards, writing any text. However they are scheduled, once all have finished and if no access to the terminal has failed, the screen and everything sent to the terminal are as if a single thread had done it all in some order, in which the pieces of each thread (a call, or all that is done through one write guard) are not mixed and are what its program does. Unless something happens in that order that mortal does not draw properly (a mark after a double-width character, such a character with one column left, a refresh at which the position of its right half gets back what was shown there before, a size that cuts one), the terminal shows the canvas of the last refresh or dropped guard, double-width characters included, with the cursor visible or not as asked last.", "quantifier": "all programs (which may depend on all answers), any number of threads, all schedules, all texts, sizes and terminals that implement the capabilities", "why_tests_cant": "Tests run some schedules of some programs; the claim is about every schedule of every program and every text.", "anchors": ["src/screen.rs: Screen, ScreenReadGuard, ScreenWriteGuard", "src/unix/screen.rs: Screen, ScreenReadGuard, ScreenWriteGuard", "src/buffer.rs: ScreenBuffer", "src/priv_util.rs: map2_lock_result"]}
{"id": "C122", "title": "Programs sharing a screen act as one thread at any time, also when output fails and after a stop", "statement": "Any number of threads share a screen, each running any program of calls of the methods of Screen and its guards that follows the rules for the guards, and that may decide what to do next from the answers it gets. However they are scheduled, whichever accesses to the terminal fail, and also when the process is stopped and continued: whenever no thread holds a write guard or is inside a method that changes something (some threads may never finish, such as one that waits for input), there is an order of all that was done, in pieces that are not mixed (a call, or all that is done through one write guard), such that a single thread doing it in that order gets the same answer for each access, the same errors included, and ends with the same screen and the same output. The pieces of each thread are the first of those its program performs when it gets these answers, and all of them if it has finished.", "quantifier": "all programs (which may depend on all answers), any number of threads, all schedules (finite or cut at any moment without a lock held), all texts, all failures of writes, stops at any read", "why_tests_cant": "Tests run some schedules with some failures; the claim is about every schedule, every moment and every failing write.", "anchors": ["src/screen.rs: Screen, ScreenReadGuard, ScreenWriteGuard", "src/unix/screen.rs: Screen, ScreenReadGuard, ScreenWriteGuard, ScreenWriteGuard::drop", "src/unix/terminal.rs: TerminalReadGuard::read_event, handle_signal, resume", "src/priv_util.rs: map2_lock_result"]}
{"id": "C123", "title": "Programs sharing a Windows screen act as one thread at any time, also when the console refuses", "statement": "Any number of threads share a screen on Windows, each running any program of calls of the methods of Screen and its guards that follows the rules for the guards, and that may decide what to do next from the answers it gets. However they are scheduled and whichever accesses to the console fail: whenever no thread holds a write guard or is inside a method that changes something (some threads may never finish), there is an order of all that was done, in pieces that are not mixed (a call, or all that is done through one write guard), such that a single thread doing it in that order gets the same answer for each access, the same errors included, and ends with the same screen and the same console. The pieces of each thread are the first of those its program performs when it gets these answers, and all of them if it has finished.", "quantifier": "all programs (which may depend on all answers), any number of threads, all schedules (finite or cut at any moment without a lock held), all texts, all consoles (any way of drawing text) and all failures of console calls", "why_tests_cant": "Tests run some schedules with some failures; the claim is about every schedule, every moment and every failing call.", "anchors": ["src/screen.rs: Screen, ScreenReadGuard, ScreenWriteGuard", "src/windows/screen.rs: Screen, ScreenReadGuard, ScreenWriteGuard, ScreenWriteGuard::drop", "src/windows/terminal.rs: TerminalWriteGuard", "src/priv_util.rs: map2_lock_result"]}
{"id": "C124", "title": "Programs sharing a terminal act as one thread at any time, failures included", "statement": "Any number of threads share a terminal, each running any program of calls of the methods of Terminal and its guards that follows the rules for the guards, and that may decide what to do next from the answers it gets. However they are scheduled and whichever accesses to the terminal fail: whenever no thread holds the write guard or is inside a method that needs it (some threads may never finish), there is an order of all that was written, prepared and restored, in pieces that are not mixed (a call, or all that is done through one write guard), such that a single thread doing it in that order gets the same answer for each access, the same errors included, and ends with the same output, tracked attributes and buffered text. The pieces of each thread are the first of those its program performs when it gets these answers, and all of them if it has finished. The same holds for a Windows console.", "quantifier": "all programs (which may depend on all answers), any number of threads, all schedules (finite or cut at any moment without the write lock held), all arguments, all terminal descriptions, all failures, interruptions and partial writes, stops and continues at any moment; on Windows all consoles", "why_tests_cant": "Tests run some schedules with some failures; the claim is about every schedule, every moment and every failing call.", "anchors": ["src/terminal.rs: Terminal, TerminalReadGuard, TerminalWriteGuard", "src/unix/terminal.rs: Terminal, TerminalReadGuard, TerminalWriteGuard, TerminalWriteGuard::drop", "src/windows/terminal.rs: Terminal, TerminalReadGuard, TerminalWriteGuard"]}
{"id": "C125", "title": "Refreshing a Windows screen writes the changed cells only", "statement": "On Windows, a refresh right after a successful refresh makes no call to the console at all. In any history of drawing, cursor modes, refreshes and resizes, and whatever the console makes of text, a refresh sends to the console the characters of the cells that have changed since the last refresh (after a resize: of all cells), each once, from the first cell to the last and with the attributes of its cell, and no other text; if the refresh fails, an initial part of that.", "quantifier": "all histories of a screen on Windows, all texts, attributes and sizes, all consoles (what they do with text, partial writes, failing calls)", "why_tests_cant": "Tests compare some screens; the claim is about every history and every console.", "anchors": ["src/windows/screen.rs: ScreenWriteGuard::refresh, ScreenWriteGuard::apply_attrs, Writer::update_size", "src/buffer.rs: ScreenBuffer::next_cell, ScreenBuffer::indices", "src/windows/terminal.rs: TerminalWriteGuard::set_attributes, write_str, write_console"]}
{"id": "C126", "title": "Refreshing a Windows screen shows double-width characters", "statement": "On Windows, whatever single- and double-width characters are drawn, and in any order with cursor modes, refreshes and resizes, a successful refresh makes the console show the drawing: at each position its text and attributes, and at the second position of a double-width character its right half, with the cursor at its position. This is refuted when a double-width character on the console is overwritten with narrow text that was there before: the console drops the other half of the character, and the refresh does not draw the narrow text again.", "quantifier": "all histories of a screen on Windows, all texts, attributes and sizes, all consoles that place text at the cursor in one position or two", "why_tests_cant": "Tests draw a few pictures; the claim is about every history of drawing, refreshing and resizing, and the failure depends on the last two pictures.", "anchors": ["src/windows/screen.rs: ScreenWriteGuard::refresh, Writer::update_size", "src/buffer.rs: ScreenBuffer::set_cell, ScreenBuffer::next_cell, ScreenBuffer::indices, ScreenBuffer::resize", "src/windows/terminal.rs: TerminalWriteGuard::write_str"]}
{"id": "C127", "title": "On Windows too, threads that share a screen show one picture of any text", "statement": "On Windows, any number of threads that share a screen, each running any program of screen and guard calls, draw one picture with single- and double-width characters, at any time: whenever no thread is in the middle of a change, all that was drawn, shown and asked of the cursor has an order, in pieces that are not mixed and that follow each program, and the screen's buffer is the drawing that results from that order, while the console shows the drawing as it was at the last refresh or dropped guard of that order, with the cursor at the pen and of the kind asked for last.", "quantifier": "all numbers of threads, all programs, all schedules and all moments in them, all texts, attributes and sizes, all consoles that place text at the cursor in one position or two", "why_tests_cant": "Tests run a few schedules and draw a few pictures; the claim is about every schedule of every program, also of programs that never end, and about every text.", "anchors": ["src/windows/screen.rs: Screen::lock_write, Screen::refresh, ScreenWriteGuard::refresh, ScreenWriteGuard::drop, Screen::set_cursor_mode", "src/screen.rs: Screen::write_str, Screen::write_at", "src/buffer.rs: ScreenBuffer::set_cell, ScreenBuffer::next_cell"]}
{"id": "C128", "title": "On Windows a failed refresh is repaired by the next successful one", "statement": "On Windows, if refreshes return errors, at any console call, and a later refresh succeeds, then the console shows all that the calls of the program drew, with the cursor at the pen.", "quantifier": "all histories of drawing, cursor modes, refreshes and resizes with failures at any console calls, all sizes, texts and attributes", "why_tests_cant": "A failure can strike at any console call of any refresh of any history, and several may.", "anchors": ["src/windows/screen.rs: ScreenWriteGuard::refresh, ScreenWriteGuard::move_cursor, Writer::update_size", "src/windows/terminal.rs: TerminalWriteGuard::clear_screen, TerminalWriteGuard::write_str", "src/buffer.rs: ScreenBuffer::next_cell"]}
{"id": "C129", "title": "Only documented events are reported", "statement": "Whatever is typed or sent and whatever calls were made before, read_event never answers Event::Raw, never Key::Char with a control character, never Key::Ctrl with a capital letter (on Unix nor with i, j or m, and always with one of the other lowercase letters, '@', '\\', ']', '^' or '_'), never Key::F beyond F1 to F12, no modifiers other than Alt, Ctrl and Shift, never Signal::Resize, and a signal only if some configuration of the program asked for it; read_raw (and read_raw_event on Windows) answers Event::Raw with exactly the number of bytes, units or records put into the buffer, never more than fit, and no keys or mouse events.", "quantifier": "all terminal descriptions, all histories of waiting, reading, reading raw, preparing and restoring, all input, signals and interruptions at any point", "why_tests_cant": "Input is arbitrary bytes or records, cut and mixed with signals in arbitrary ways, and what may be reported depends on the whole history of configurations.", "anchors": ["src/terminal.rs: Event, Key, Signal, TerminalReadGuard::read_event, TerminalReadGuard::read_raw", "src/unix/terminal.rs: TerminalReadGuard::read_event, TerminalReadGuard::read_raw, TerminalReadGuard::handle_signal, TerminalReadGuard::peek_event", "src/windows/terminal.rs: TerminalReadGuard::read_event, TerminalReadGuard::read_raw, TerminalReadGuard::read_raw_event, key_press_event, ctrl_handler", "src/util.rs: unctrl_lower"]}
{"id": "C130", "title": "Builds with and without overflow checks agree", "statement": "Compiled without overflow checks (as release builds are), the library does exactly what it does with them, in every program that does not panic with them: the same answers, the same bytes or console calls, the same state. Where the build with checks panics, the other one's behaviour is known as well: drawing panics only for sizes with too many cells, for taking all columns from a screen with cells and for double-width text on a screen of one column; a newline at line usize::MAX goes to the first line; a mouse report with a zero coordinate is told as coordinate 4294967295; Unix timeouts that are too long panic as well, and Windows timeouts count modulo 2^32 milliseconds.", "quantifier": "all sequences of drawing calls on all sizes and for every width of usize; all programs on Unix and Windows screens and terminals, with all input, signals, failures and console answers; all timeouts", "why_tests_cant": "Tests run in one of the two builds, and the values at which they differ lie at the ends of the integer ranges.", "anchors": ["src/buffer.rs: ScreenBuffer", "src/terminal.rs: Cursor", "src/unix/terminal.rs: to_timeval, parse_mouse_data, TerminalWriteGuard::enter_screen", "src/unix/screen.rs: ScreenWriteGuard::refresh", "src/windows/terminal.rs: as_millis, TerminalWriteGuard", "src/windows/screen.rs: ScreenWriteGuard::refresh"]}
{"id": "C131", "title": "Keys typed act as PrepareConfig says", "statement": "After prepare succeeds, what the user types acts as the configuration says, whatever the terminal's settings were before. With block_signals, Ctrl-C is read as Key(Ctrl('c')) and any text, control characters included, is read as the keys it is; without it, the keys for the signals raise them, those in report_signals are read as Event::Signal and the others keep their meaning. enable_control_flow decides whether Ctrl-S and Ctrl-Q stop and start output. Mouse events are told only if enable_mouse is true, signals only if block_signals is false. It is so again after the program was stopped and continued, and after an inner prepare and restore.", "quantifier": "all earlier settings of the tty (or console mode), all special characters the user may have chosen, all configurations, all texts and all portions in which they arrive", "why_tests_cant": "The earlier settings are a product of many independent flags, and a test terminal has one setting and one set of special characters.", "anchors": ["src/terminal.rs: PrepareConfig", "src/unix/terminal.rs: Terminal::prepare, TerminalReadGuard::read_event, handle_signal", "src/windows/terminal.rs: prepare_input, read_event, catch_signals"]}
{"id": "C132", "title": "The library's buffers stay small", "statement": "However long a program runs, however much is typed and however much it writes, a terminal holds at most 256 bytes of input it has not handed out yet, and its output buffer is at most twice as large as what the program writes with one guard, or sends with one refresh.", "quantifier": "all histories of reads, waits, preparing and restoring with all input; all operations with all guards, one after the other; all drawing and refreshing; all answers of the device", "why_tests_cant": "Tests run for a short time; growth of a buffer shows only after long runs, and the bound depends on the order of operations.", "anchors": ["src/unix/terminal.rs: read_into_buffer, write_bytes, expand, flush, TerminalWriteGuard", "src/unix/screen.rs: ScreenWriteGuard::refresh"]}
{"id": "C133", "title": "A guard that is never dropped blocks the calls that need its lock, for ever, and dropping the terminal", "statement": "If a thread ends without dropping a guard (it forgot it, or it is kept in a value that is leaked), or calls a method that needs the lock of a guard that it holds itself, then every call that needs that lock never returns and does nothing, while trying to acquire it answers WouldBlock. If only read guards are kept, every call that writes, draws, asks for the size or acquires the write guard can still complete. If a write guard is kept, reading does not remain usable on Unix: a reader that meets a resize waits for ever and with it all readers. Dropping a Terminal or Screen hangs if a write guard was kept, dropping a Screen that prepared its terminal also if a read guard was kept, and otherwise returns.", "quantifier": "all programs, all schedules, all points at which a guard is kept, all calls", "why_tests_cant": "a hang for ever cannot be observed in finite time, and whether other calls go on depends on the schedule", "anchors": ["src/unix/terminal.rs: lock_reader, lock_writer, Drop for Terminal", "src/unix/screen.rs: Drop for Screen, try_lock_write", "src/windows/terminal.rs: Drop for Terminal", "src/windows/screen.rs: Drop for Screen"]}
{"id": "C134", "title": "The same keys give the same events on Unix and Windows", "statement": "If the same keys are pressed on a Unix terminal and on a Windows console (characters of the Basic Multilingual Plane, Ctrl with a letter, Enter, Tab, Escape, Backspace and the other keys with names that the terminal has a sequence for), programs that call read_event again and again get the same key events in the same order on both, those that the keys mean. This is false of Ctrl with I, J and M, which are Tab and Enter on Unix and themselves on Windows.", "quantifier": "all sequences of key presses, all ways the bytes arrive in portions, all other records (keys going up, modifiers, the mouse, sizes) between them, all held modifiers but Alt", "why_tests_cant": "all sequences of keys, all portions, two platforms of which a test runs on one", "anchors": ["src/unix/terminal.rs: read_event, read_input", "src/windows/terminal.rs: read_event, read_raw_event, key_press_event", "src/sequence.rs: find", "src/terminal.rs: impl From<char> for Key"]}
{"id": "C135", "title": "The same program draws the same picture on a Unix terminal and on a Windows console", "statement": "A program that draws on a Screen with the same calls in the same order (drawing methods, cursor modes, refreshes), on a Unix terminal and on a Windows console of the same size at first, and that is told the same sizes since, has the same size() and cursor() on both; and if the next refresh succeeds on both, terminal and console show the same: the same size, the cursor at the same position, and at each position the same text with the same attributes, as far as each can show them. Text takes one position per character; after a change of size the Windows window covers the buffer's lines.", "quantifier": "all programs of drawing calls, all sizes and changes of size, all terminals and consoles that meet the specification, all capabilities", "why_tests_cant": "two platforms, of which a test runs on one, and all programs", "anchors": ["src/unix/screen.rs: refresh, Drop, update_size", "src/windows/screen.rs: refresh, update_size", "src/buffer.rs: ScreenBuffer", "src/screen.rs: Screen"]}
{"id": "C136", "title": "The same Terminal calls do the same on a Unix terminal and on a Windows console", "statement": "A program that writes text, moves the cursor, erases and sets attributes through Terminal and TerminalWriteGuard, and neither runs text into the last column nor moves the cursor over the upper or left edge nor erases while attributes are set, has the same result on a Unix terminal and on a Windows console whose window is its whole buffer: if both looked alike before (size, cursor, its visibility, attributes for text to come, text and attributes at each position), they look alike afterwards; the cursor is then where the calls alone say, and the calls that succeed on Unix succeed on Windows as long as the console does not fail.", "quantifier": "all sequences of calls, all texts of characters of one column, all attributes, sizes and contents, all terminals and consoles that meet the specification", "why_tests_cant": "two platforms, of which a test runs on one, and all sequences of calls", "anchors": ["src/terminal.rs: Terminal, TerminalWriteGuard", "src/unix/terminal.rs: TerminalWriter", "src/windows/terminal.rs: TerminalWriter"]}
{"id": "C137", "title": "An interactive program shows what it makes of the keys that are pressed", "statement": "A program that in a loop reads an event without a time limit from its screen and, for a key, calls methods of Screen and refreshes it: while the user types (in whatever portions the input comes) it gets no error from reading; after any number of rounds it has answered the keys of a first part of the input, in order, and what is shown, cursor included, is what its calls for these keys draw; when it waits with nothing to come it has answered everything, and it gets there. When the same keys are pressed on a Unix terminal and on a Windows console, the program remembers the same and both show the same.", "quantifier": "all programs of this form, all keys and mouse actions typed and all ways of cutting the input into portions, all numbers of rounds, all terminals and consoles that meet the specification", "why_tests_cant": "the input, its timing, the program and the number of rounds are unbounded, and two platforms are compared", "anchors": ["src/screen.rs: Screen", "src/unix/screen.rs: Screen::new, read_event, refresh", "src/unix/terminal.rs: read_event", "src/windows/screen.rs: Screen::new, read_event, refresh", "src/windows/terminal.rs: read_event"]}
{"id": "C138", "title": "A refresh succeeds when the terminal takes the output, with few calls of write", "statement": "If the terminal has the capabilities that drawing needs, its window has a cell and the OS takes what is written (calls may be interrupted by signals), refresh returns Ok, whatever the program has called before and even after calls that failed. It makes at most two calls of write for each cell that has changed, and one more; if no cell's text is longer than the output buffer it makes at most one per changed cell and one more, and every call but the last hands over nearly a whole buffer. On Windows a refresh returns Ok if the console's calls succeed.", "quantifier": "all histories of calls of a program and of the terminal, all screens and window sizes, all interruptions of writes", "why_tests_cant": "the history, the screen's contents and the interruptions are unbounded", "anchors": ["src/unix/screen.rs: refresh, flush_buffer", "src/unix/terminal.rs: TermWriter, flush_data, write_bytes", "src/screen.rs: Screen::refresh, ScreenWriteGuard", "src/windows/screen.rs: refresh"]}
{"id": "C139", "title": "A timeout ends every wait on a Unix terminal", "statement": "With a timeout, wait_event, read_event and read_raw return once the time is over, whatever happens meanwhile: signals and interruptions that are not reported, failing system calls, new window sizes, input. If nothing comes that ends the wait, they return as soon as the timeout is over; a timeout of less than a millisecond does not wait at all.", "quantifier": "all states of the terminal and the reader, all things that happen before and during the wait, in any number and order, all durations", "why_tests_cant": "the interruptions and their order are unbounded, and a wait that starts again after each of them could go on for ever", "anchors": ["src/unix/terminal.rs: wait_event, read_event, read_raw, read_input, to_timeval", "src/terminal.rs: TerminalReadGuard"]}
{"id": "C140", "title": "The example programs of threads that share a terminal or a screen show what they should", "statement": "The two threaded example programs do what they are written for, with any number of threads, names, colours and rounds. In the one with a shared screen, each thread draws on a line of its own; once all threads have finished, each line shows the last text of its thread, the name in bold and in colour and the rest plain, the cursor is in the upper left corner, and everything else is as before. In the one with a shared terminal, the lines come out whole, never mixed, with the lines of each thread in its order.", "quantifier": "all numbers of threads, all names, colours and numbers of rounds, all schedules, all keys that the main thread reads, all terminals that implement the entry, and Windows consoles", "why_tests_cant": "the interleavings of the threads are unbounded in number, and a test sees only those the scheduler happens to choose", "anchors": ["examples/threads.rs: main", "examples/screen_threads.rs: main, start_thread", "src/screen.rs: Screen, ScreenWriteGuard", "src/terminal.rs: Terminal, TerminalWriteGuard"]}
{"id": "C141", "title": "A line of styled text looks as written", "statement": "Text written with the output methods of a terminal while attributes are chosen in between shows up character by character from the cursor on, each character with exactly the attributes that were asked for when it was written, with the cursor behind the text and everything else as before. In particular the example programs that show attributes and messages show the texts with the attributes they name, and leave no attributes behind.", "quantifier": "all sequences of calls that write text, choose attributes, set the cursor mode or flush, through a guard or without, all attributes, texts and cursor positions with space on the line, all terminals that implement the entry, and Windows consoles", "why_tests_cant": "the sequences of calls and the states they meet are unbounded, and what is sent depends on the attributes before each call", "anchors": ["src/terminal.rs: Terminal, TerminalWriteGuard (output methods)", "src/unix/terminal.rs: set_attrs, write_styled, write_str, write_char, write_fmt", "src/windows/terminal.rs: set_attrs, write_styled, write_str", "examples/attribute_test.rs: main", "examples/color.rs: main", "examples/style.rs: main"]}
{"id": "C142", "title": "term_write! shows its texts with the attributes its elements name", "statement": "When term_write! of a terminal returns Ok, every expression in it has been evaluated, and the terminal already shows the texts one after the other from the cursor on, each with exactly the attributes that the elements before it name, with the cursor behind them and everything else as before. Of a screen, it leaves the screen drawn as the documented equivalents of its elements draw, and the terminal already shows that.", "quantifier": "all lists of elements of the documented forms, all expressions, caller states, texts, attributes and cursor positions with space for the text, all histories of calls on a screen, all terminals that implement the entry, and Windows consoles", "why_tests_cant": "element lists and expressions are unbounded, and what is sent depends on the attributes before each element", "anchors": ["src/macros.rs: term_write!, Chain", "src/terminal.rs: Terminal::borrow_term_write_guard, TerminalWriteGuard", "src/screen.rs: Screen::borrow_term_write_guard, ScreenWriteGuard", "src/windows/screen.rs: Drop for ScreenWriteGuard"]}
{"id": "C143", "title": "The screen example shows the latest event until q is pressed", "statement": "On a window of at least 3 lines and 33 columns, the example program that shows events (read an event, clear, draw, write the event's text, refresh) never fails and never panics. It leaves its loop exactly when it is told of q; before that the window always shows the greeting, with its red and bold words, and the text of the latest event from the fifth line on, and nothing else. When it ends, because of q or with an error, whatever happened before, the terminal is as it was.", "quantifier": "all sequences of keys and mouse actions and their division into portions, all texts of events without double-width characters, all window sizes from 3x33, all numbers of rounds, all terminals that implement the entry, and Windows consoles", "why_tests_cant": "input sequences, their timing and the texts of the events are unbounded", "anchors": ["examples/screen.rs: main, draw_screen", "src/screen.rs: Screen::read_event, Screen::write_at, Screen::write_styled_at, Screen::set_cursor, Screen::write_fmt, Screen::refresh", "src/unix/screen.rs: Screen", "src/windows/screen.rs: Screen"]}
{"id": "C144", "title": "The input examples print all input once and in order, until q, and give the terminal back", "statement": "The example program that prints events prints the events of what the user does, each once and in order, and ends exactly when it has printed q. The lines of the example program that prints raw input have, put together, exactly the bytes of the input up to what it has not read, and it ends exactly when a line has the single byte q. The example program that lets signals through ends exactly when it has printed q, and prints, besides the events of the input, of the signals raised since the last one it printed the latest. When one of them ends, the terminal's settings and signal handlers are as before.", "quantifier": "all sequences of keys and mouse actions and their division into portions, for raw input all input, signals, failures and interruptions at any time, all numbers of rounds, all key maps", "why_tests_cant": "input, its timing and the points where reading fails are unbounded", "anchors": ["examples/input.rs: main", "examples/raw_input.rs: main", "examples/signals.rs: main", "src/terminal.rs: Terminal::prepare, Terminal::restore, Terminal::read_event", "src/unix/terminal.rs: Terminal::read_raw, Reader", "src/windows/terminal.rs: TerminalReadGuard::prepare, TerminalReadGuard::read_event, TerminalReadGuard::read_raw"]}
