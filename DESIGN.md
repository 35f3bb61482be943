# Formal model of murarth/mortal in Rocq (Coq 8.16.1)

## 1. Layout

`rocq/theories/` (logical name `Verif`):

| files | role |
|---|---|
| `Base.v` | outcome type (return / error / panic / blocked), list helpers |
| `M_*.v` | the model: executable Gallina, function by function, each definition citing `/repo` lines; no proofs |
| `S_*.v` | specifications, independent of the model's helpers |
| `P_*.v` | lemmas and proofs |
| `Prop_*.v` | the property theorems, each closed by `exact`, with `Print Assumptions` and a non-vacuity `Example` |

Standard library only. No axioms.

## 2. Modelling conventions

* `usize` values (lines, columns, indices) are `nat`; `usize::MAX` is a parameter `umax`, so every theorem holds for every pointer width. Overflow of `+` on `usize` is a panic (debug semantics) where it is reachable from user input.
* `char` and bytes are `N` (code point / byte value); a `&str` is either a list of chars or its UTF-8 bytes, whichever the code looks at.
* A method taking `&mut self` is a function from state to an outcome that contains the new state: `Ret s a` (Ok), `Fail s e` (Err, with the mutations made so far), `Panic`, `Blocked` (the call has not returned when the scripted OS responses run out).
* OS calls consume a script of OS responses; theorems quantify over all scripts.
* `unicode_width` and `is_combining_mark` are arbitrary functions (fields of an environment record), constrained by an explicit predicate `env_ok` where needed.
* terminfo is an arbitrary partial function from capabilities and parameters to bytes; what a terminal does with those bytes is an explicit contract (`S_Tty.v`) that theorems take as hypothesis and that a concrete emulator is proved to satisfy.
* Mutexes, threads: small-step interleaving of threads over locks.

## 3. Plan per property

Shapes: **Ref** refinement to an abstract spec, **Inv** invariant over all histories, **Alg** algebraic law / round trip, **Dec** decision rule, **Cex** the code violates the property: a `_refuted` theorem with a witness, plus the strongest `_partial` positive statement.

| id | modelled | plan |
|---|---|---|
| C01 | `SequenceMap` as `list (K*V)` with the real binary search | Ref to a function `bytes -> option (K*V)` over op lists |
| C02 | same | Inv: strictly sorted |
| C03 | `find` | Dec against the existence-of-extensions spec |
| C04 | stable sort + dedup / repeated insert | Ref to first/last occurrence |
| C05 | `Entry`, `OccupiedEntry`, `VacantEntry` | Ref |
| C06 | `SignalSet` as N bits | Ref to `signal -> bool`, Inv canonical |
| C07 | `from_iter`, `extend`, Debug | Alg |
| C08 | `ctrl`, `is_ctrl`, `unctrl_*` | Alg over all code points |
| C09 | `Prefixes` over UTF-8 bytes | Ref to the set of char-boundary prefixes |
| C10 | `Key::from(char)` | Dec + injectivity |
| C11 | `Cursor` | Alg with row-major index |
| C12 | `Size` | Dec |
| C13 | `ScreenBuffer`, all operations | Inv, no `Panic` |
| C14 | same, degenerate sizes; S_Overrun: a machine on sizes and cursors only, deciding which sessions panic | Cex; exact characterisation by induction over the history |
| C15 | `write_char`, `write_str` | Ref to an index-wise text layout |
| C16 | same | Inv on cell texts |
| C17 | same | Dec |
| C18 | same | partial (narrow) + Cex (wide) |
| C19 | same | Cex + partial |
| C20 | `resize`, `resize_buffer`, `new_buffer` | Ref |
| C21 | `try_cursor_at`, `write_at`, … | Dec |
| C22 | `write_styled` | partial + Cex |
| C23 | `refresh`, `next_cell`, writer, terminal contract | Inv relating back buffer, tracked cursor/attributes and terminal |
| C24 | same with wide characters | Cex; partial: a right half on the terminal belongs to a character drawn last (`belongs`, P_Screen.v), so a torn character's left half is drawn again first, and its right half because it differs from the cell it hid (`mended`) |
| C25 | same | corollary of the C23 invariant |
| C26 | same | Inv |
| C27 | same with failing writes | Cex; proved: the final flush; any failures of the OS but for one position each (P_UnixFail.v: invariant with exempt positions); any failure once the window's size is reported (C83) |
| C28 | writer attribute methods over bytes | Inv: tracked = requested = terminal |
| C29 | same | Dec |
| C30 | `write_bytes`, `flush`, `write_data` with scripted OS | partial (all-or-nothing writes) + Cex (short writes) |
| C31 | same | Cex |
| C32 | same | Inv |
| C33 | guard drop | Cex + partial |
| C34 | `move_*` | Dec |
| C35 | `peek_event`, `read_event`, `read_raw` over scripted OS | Inv on byte accounting |
| C36 | `peek_event` | Dec |
| C37 | `peek_event` + `SequenceMap` | Dec |
| C38 | `parse_mouse_data` | round trip with an SGR encoder |
| C39 | same | Cex + partial |
| C40 | `read_event` | Dec over all split points |
| C41 | same | Cex |
| C42 | `from_utf8` | Alg: exactly concatenated encodings |
| C43 | `handle_signal`, `resume` | Dec |
| C44 | `LAST_SIGNAL` | Cex; the newest signal by induction over timelines |
| C45 | `wait_event` | Cex + partial |
| C46 | `wait_event`/`read_event` | Dec |
| C47 | `to_timeval`, with the bounds that `TimeVal::milliseconds` of nix 0.26 asserts | Dec + Cex |
| C48 | prepare/restore/resume | Inv over balanced histories |
| C49 | same | Cex + partial |
| C50 | same | Dec |
| C51 | same with failing OS calls | Cex |
| C52 | lock traces of the API | generic deadlock-freedom theorem instantiated, + Cex for signal handling under both guards |
| C53 | guard sessions | serialisability of every schedule |
| C54 | `map*_lock_result` | Dec |
| C55 | `term_write!` chains | Ref to a fold |
| C56 | Windows attribute words | Alg |
| C57 | Windows mouse records | partial + Cex |
| C58 | Windows `write_str` | Inv |
| C59 | Windows `as_millis` | Dec + Cex |
| C60 | Windows `key_press_event` | Dec + Cex |
| C61 | Windows `move_rel` | Dec + Cex |
| C62 | Windows prepare/restore | Inv + Cex |
| C63 | `write_styled` | corollary of C28 |
| C64 | `clear_screen`, `clear_to_line_end`, `clear_to_screen_end` over the terminal contract | Dec |
| C65 | `set_cursor_mode` | Dec |
| C66 | `Screen::new`, `enter_screen`, `exit_screen`, `flush` | Dec over the contract |
| C67 | `refresh` | Inv + exact condition for the panic |
| C68 | `peek_event` on prefixes; sessions of `read_event` over portions (`S_Portions.v`) | Cex; induction over the reads |
| C69 | building the key map from terminfo | Ref to the list of capabilities |
| C70 | Windows `clear_to_line_end`, `clear_to_screen_end` | Dec on the console buffer |
| C71 | Windows `clear_screen` | partial + Cex |
| C72 | Windows `Terminal::new`, `Screen::new`, both `Drop`s, console screen buffers | round trip over all histories, early failures; Cex for late ones |
| C73 | `ctrl_handler`, `take_signal` | exact account over all histories + Cex |
| C74 | `read_event`, `read_raw_event` | Inv on the records |
| C75 | Windows `read_raw` | Cex |
| C76 | `key_press_event` on typed characters | partial + Cex |
| C77 | Windows `wait_event` | Dec over all timelines |
| C78 | `ScreenReadGuard` methods, `update_size` | Inv over all histories + Cex for `read_raw` |
| C79 | Windows `refresh` | Inv relating back buffer, tracked cursor/attributes and console buffer |
| C80 | Unix `Screen::new`, `Drop` of `Screen` and `Terminal`, composed with `prepare`/`restore` | Inv over all histories of a screen + Cex for each failing step |
| C81 | Unix `ScreenReadGuard` methods, `update_size` | Inv over all histories and schedules + Cex for an overtaken SIGWINCH |
| C82 | the whole Unix screen (M_UnixScreen) with a terminal emulator (S_Tty) | Inv over all programs: the terminal is in step with what was drawn; reading and preparing send nothing that is shown |
| C83 | reading SIGCONT on a screen, then refreshing | Cex, for every screen and terminal; proved once the size has been reported, after any history (failed drawing included) |
| C84 | poisoned mutexes on top of M_UnixScreen: `lock_*`, `expect`, both `Drop`s | without guard panics: reduction to C80; with: Inv (the terminal stays prepared), exact account of dropping |
| C85 | the same | Dec per call: calls that do not panic do what they do without panics; which calls panic |
| C86 | `M_Reader` | Ind on the timeline (`await`): what `WTimeout` means; Dec for `read_event`; refutations by computing the read |
| C87 | several `M_Reader` terminals that share `LAST_SIGNAL`, the dispositions and, if on one device, its settings and input | Ind on nested use; refutations for crossed restoring and for who gets a signal |
| C88 | descriptor table, `Terminal::open/stdout/stderr`, `Drop`, `FdSet::insert`'s limit | Inv against a ledger kept from the calls; refutations: poisoned write lock, descriptors from 1024 on |
| C89 | the locking of `windows/terminal.rs` and `windows/screen.rs` on the machine of C52; what accesses do is a parameter | as C52; refutation: reading through a screen's read guard with its write guard held |
| C90 | the same | as C53 |
| C91 | both lock models on the same programs | by C52 and C89; refutation: reading with the write guard held is harmless on Windows only |
| C92 | lock model with the writer's meaning | sessions are atomic (C53), and each access adds its own bytes to the stream (C30); threads of `term_write!` calls by an invariant on where each thread is |
| C93 | lock models of C52 and C89 | the order on locks: holders of the output can give it back by themselves, by induction on what they have left to do; Unix and Windows |
| C94 | lock model of C52, output model, abstract terminals | sessions are atomic (C53), and each operation takes the terminal's attributes from those requested before to those requested after (C28), by induction over the order of sessions; the messages of examples/threads.rs are shown to be an instance |
| C95 | `M_Api.v` (argument conversion and forwarding) over the output model, abstract terminals; documented effects as a relation between views in `S_Api.v` | each method's bytes are those of capabilities or text, whose effect the contract of the terminal gives; attributes by C28's simulation; induction over the calls |
| C96 | `M_ScreenApi.v` (argument conversion and forwarding) over the buffer and refresh models; the canvas of `S_Canvas.v`, a function on positions that knows nothing of cells or indices | simulation between buffer and canvas, method by method and character by character, through refresh and resize; then C23 |
| C97 | terminal modes as an abstract `modal` obeying xterm's mode sequences (`S_Modes.v`), over the prepare and writer models; a parsing xterm as instance | the output of prepare, restore and every output method split into mode sequences, keypad strings and strings that change no mode |
| C98 | user actions, what they send and what should be heard (`S_Typing.v`) over the reader model | induction over portions and actions; for text, an invariant of all runs: bytes not yet read are the UTF-8 of the text not yet told |
| C99 | `M_WinApi.v` (forwarding, moving by 0) over the console model; effects of `S_WinApi.v` on the face of a console | method by method, with the lemmas of C56, C58, C61, C70, C71; the console's answers matter only where they fail |
| C100 | the canvas of `S_Canvas.v` on the console of `M_WinWriter.v` (`S_WinCanvas.v`) | the buffer holds the canvas (simulation of C96), every cell has one character the console shows, hence C79's refresh theorem applies |
| C101 | a canvas whose positions may be right halves (`S_WideCanvas.v`), drawn on by the methods | the buffer holds the canvas (`P_WideCanvas.v`: every right half has a double-width character to its left and the other way round), C24's refresh theorem with its condition stated for pictures, of which one keeps what the right halves hid (`shot`, `mends`); for threads that share the screen, along the order of their doings (`P_WideTogether.v`, as C105); that each excluded case does go wrong (`P_WideExact.v`, `P_WideExact2.v`) |
| C102 | assignments to places of the vector between API calls (`M_SeqMut.v`) | the binary search stays in the vector whatever its order; strictly increasing keys establish C01's refinement relation |
| C103 | poisoned mutexes on top of M_WinScreen (`M_WinPoison.v`) | without guard panics: reduction to C72; with: Inv (the console stays as the screen set it), exact account of dropping |
| C104 | the same | Dec per call; Inv for the flags |
| C105 | threads of `M_Locks.v` on a screen of C96; order of sessions from C53 | Inv (straight-line programs have the sessions of their text), then induction over the order with C96 |
| C106 | the same | C105, then commutation of drawing in disjoint areas (induction over the order) |
| C107 | whole Unix screen of `M_UnixScreen.v` | invariant (buffer in order, device takes whole buffers, window sizes come from the start) over `urun`, also on failures; `go` of C14, C39, C47 |
| C108 | Windows terminal and screen of `M_WinWriter.v`, `M_WinReader.v`, `M_WinScreen.v` | invariant (buffer in order, console's buffer in order, size records come from the start) over histories with changes of the console, also on failures; bounds of all checked 16-bit sums; `go` of C14 |
| C109 | `GetStdHandle`, `result_handle`, `Terminal::new`, `enter_screen` of `M_WinScreen.v` | case analysis over the answers (exact condition); Cex: `INVALID_HANDLE_VALUE` is not null, so a failed creation and an invalid input pass `result_handle` |
| C110 | `Drop`s with their `eprintln!` and what a panic in them does, `M_Stderr.v` and `M_WinStderr.v` | agreement with the models without printing while standard error can be written; Cex: with all writes failing, methods panic, and dropping a screen or its guard aborts (for all states) |
| C111 | the accesses of `M_WinLocks.v` doing what `M_WinWriter.v` and `M_WinScreen.v` do (`M_WinShare.v`) | sessions are atomic (C90); straight-line programs make known sessions; replay along `wpainted` (C100) |
| C112 | console accesses (`M_WinShare.v`) in the threads of `M_WinLocks.v` | sessions are atomic (C90), replay is a run of the API (C99); calls that take no lock (moves by 0) have a place everywhere |
| C113 | tasks that branch on what they read (`S_Loop.v`) as clients of `M_Locks.v` | every walk of a task makes sessions of known kinds, whatever is answered; sessions are atomic (C53); replay with an invariant that holds for every terminal of the current size |
| C114 | relation `met` between the failures of the timeline and the errors returned (`S_Errs.v`) | every function moves along the timeline and keeps `met` (composition lemmas); promptness by unfolding the first access |
| C115 | histories that carry what was asked last (`watched`, `S_CursorMode.v`; `expects`, `S_WinCursor.v`) | a refresh sends the same on a terminal without the two capabilities, and is understood by a terminal that is only looked at while its cursor is as it was; on Windows each call keeps the cursor information |
| C116 | any client of `M_Locks.v` that follows the rules of `S_Locks.v`; what it may have done is the relation `did` of `S_Program.v` | induction over the program: its walk makes sessions of known kinds, with the right answers; sessions are atomic (C53); replay with an invariant for the picture, the cursor's visibility and what is still buffered |
| C117 | any client of `M_WinLocks.v` that follows the rules of `S_Locks.v`, over the shared console of `M_WinShare.v`; what it may have done is the relation `did` of `S_Program.v` | induction over the program: its walk makes sessions of known kinds, with the right answers; sessions are atomic (C90); replay with an invariant for the picture, the console's view and its cursor |
| C118 | any client of `M_Locks.v` or `M_WinLocks.v` that calls methods of `Terminal` and its guards and follows their rules; what it may have written is the relation `wrote` of `S_TermProgram.v` | induction over the program: its walk makes sessions of known kinds; sessions are atomic (C53, C90); replay with the documented effects of `S_Api.v` and `S_WinApi.v` |
| C119 | M_ReadShare.v (programs, the reader's lock, schedules) over M_Reader.v and M_WinReader.v. Specification S_ReadShare.v: `proper`, `did` (the pieces a program may have done) and `one_by_one`. | Invariant on every reachable configuration (P_ReadShare.v): the finished pieces and the owner's unfinished one replay from the start, and each thread stands where its pieces put it. With C98 and C74 each key and record goes to one thread (P_ReadShare2.v). |
| C120 | Clients of M_Locks.v and M_WinLocks.v: the macro (guard first, then each element's calls and its method) and the documented calls one after the other (S_MacroArgs.v). | The one-by-one program and macros with pure expressions follow the rules of C52/C89 by induction over the elements, so they finish. For the others, an invariant of every schedule: the thread is on its way to a lock that it holds (P_MacroArgs.v). |
| C121 | Clients of M_Locks.v with any text; doing the same without threads and guards: `in_turn` of S_WideProgram.v; the canvas of S_WideCanvas.v. | The walk along a program (C116) does not depend on the text; sessions are atomic (C53); replaying them gives `in_turn`, and an induction over that with the invariants of C101 gives the picture (P_WideProgram.v, P_WideProgram2.v). |
| C122 | Clients of M_Locks.v; what a program does with given answers: `did_so`, and doing it without threads and locks: `performed` (S_OneThread.v). | Sessions are atomic (C53); a walk along a program can always be completed, so the sessions so far are the first of a complete run; the writer's state is never lost, so dropping a guard answers nothing unusual; induction over the replay (P_OneThread.v). |
| C123 | Clients of M_WinLocks.v with the accesses of M_WinShare.v; what a program does with given answers: `wdid_so`, and doing it without threads and locks: `wperformed` (S_WinOneThread.v). | As C122, with the sessions of C90 (P_WinOneThread.v). |
| C124 | Clients of M_Locks.v and M_WinLocks.v; what a program does with given answers: `tdid`, and doing it without threads and locks: `tperformed`, `wtperformed` (S_TermOneThread.v). | As C122, with the sessions of C53 and C90; nothing behind the screen's lock is touched (P_TermOneThread.v). |
| C125 | M_WinScreen.v (`win_refresh`); the cells that changed: `changes` (S_WinMinimal.v); text as the console gets it: `typed` (S_WinWriter.v). | Induction over the loop of refresh, for success and failure together; the second refresh finds no cell that differs (`settled`, P_Screen3.v), attributes cleared and the cursor in place (P_WinMinimal.v). |
| C126 | M_WinScreen.v (`win_refresh`); a console that places text in one position or two (record `wide_places`), programs with a canvas (`win_painted`, `win_wdisplays`) in S_WinWide.v. | The loop of refresh keeps the console and the last picture in step (`sync`, P_WinWide.v); a right half on the console belongs to a cell that the last refresh drew (`belongs`), so a torn character's left half is drawn again first, and its right half because it differs from the cell it hid (`win_mended`); the canvas keeps what each right half hid (`shot`, P_WinWide2.v); a console that blanks torn characters refutes the rest. |
| C127 | M_WinLocks.v, M_WinShare.v and M_WinScreen.v: threads, locks and accesses as for C123, the console as for C126; what C126 excludes in an order of what was done (`win_gentle`) in S_WinWideProgram.v. | C123 gives an order in a single thread; induction on it keeps the history `win_painted` of C126, the view of the last refresh and the kind of cursor (`performed_pictures`, P_WinWideProgram.v). |
| C128 | M_WinScreen.v (`win_refresh`) on consoles that may fail any call; histories with failures (`struck`) in S_WinFail.v, the canvas in S_Canvas.v. | An invariant of the drawing loop in which some cells are exempt (`draw_but`, `refresh_but`, P_WinDraw.v); a failing refresh exempts at most the cell in hand (`draw_fails`, `refresh_fails`, P_WinFail.v); induction on the history (`struck_sound`). |
| C129 | M_Reader.v, M_Input.v, M_Keys.v, M_Prepare.v; M_WinReader.v; the events allowed in S_Events.v. | Every key sequence of a terminal maps to F1 to F12 or a named key and every byte string decodes to an allowed event (`keys_told`, `peek_told`); an invariant over histories that the signals reported were asked for (`run_told`, P_Events.v; `xrun_told`, P_Events2.v). |
| C130 | M_RelBuf.v, M_RelScreen.v, M_RelReader.v, M_RelRun.v, M_RelWin.v: the functions of the other models that do arithmetic and their callers, with arithmetic that wraps around. S_Release.v: the walk of the cursor without checks. | A relation between the two versions of each function, kept by sequencing (`osame`, P_Release.v, P_Release2.v); the walk of C14 redone (`history_free`, P_Release3.v); programs by induction, with C107 and C108 for those that never panic (P_Release4.v). |
| C131 | S_Driver.v: what Linux's tty driver does with a byte typed under given settings (`driver`, from termios(3)), what the console does under a given mode (`console`), and what the configuration promises (`configured`). The library: M_Prepare.v, M_Reader.v, M_WinReader.v. | From the exact settings after prepare (C48's `prepare_exact`, C62) flag by flag; text by C98; signals by running the reader on the timeline the key leads to; refutations likewise (P_Driver.v). |
| C132 | M_Reader.v and M_Writer.v, which have the buffers' capacities; S_Memory.v: how a vector grows (`doubling`), taking guards one after the other (`guarded`), refreshing (`refreshing`). | Input: an invariant on the buffer and its capacity; only a part of a character can be left when more is read. Output: capacity against the sum of what was sent and what is pending (`grown`), for every function of the writer (P_Memory.v). |
| C133 | the lock models `M_Locks.v`, `M_WinLocks.v` with threads that end while they hold locks, and the locks taken by dropping a terminal or screen (`M_Leak.v`) | invariant "the lock is held by an ended thread and the caller waits for it"; for output, the ordering of locks of C93 with the input lock excepted; a schedule for the refutation (`P_Leak.v`, `P_WinLeak.v`, `P_LeakDrop.v`) |
| C134 | the Unix and the Windows reader (`M_Reader.v`, `M_WinReader.v`); what a press makes a terminal send and a console record is specified (`S_Portable.v`) | Unix: C98; Windows: induction over the records, one `read_event` each (`P_Portable.v`) |
| C135 | the screens of both platforms (`M_Screen.v`, `M_WinScreen.v`) run by one list of deeds (`S_SamePicture.v`) | both are shown to display one canvas, by induction over the deeds, with the theorems behind C96 and C100 (`P_SamePicture.v`) |
| C136 | the public methods of both platforms (`M_Api.v`, `M_WinApi.v`) on one list of calls (`S_Alike.v`: what it means to look alike, and where the calls go) | the effects of C95 and C99 are compared call by call, by induction over the calls (`P_Alike.v`) |
| C137 | the loop over the models of both platforms (`S_Interact.v`: the program, its rounds and what it should show) | reading keeps what the user has done and the program has not been told (`hears`), drawing keeps that the screen holds the canvas; by induction over the rounds (`P_Interact.v`, `P_Interact2.v`), with C24, C98, C120, C134 and C135's lemmas |
| C138 | the existing models; `S_Succeeds.v` says what drawing needs, counts the cells that have changed, the calls of write and the bytes | each step of drawing succeeds and accounts for its writes (`P_Succeeds.v`, by induction over the cells left to draw); `P_Succeeds3.v` for Windows; the reachable screens are C107's and C79's |
| C139 | the reader's model with its timeline; `S_Timed.v`: time that goes on | every interruption uses up something that happened, and a step that finds the reader asleep ends at the end of the timeout (`P_Timed.v`, by induction over the turns of the loop) |
| C140 | `M_Examples.v`: the threads of the two programs as clients of the lock model; `S_Examples.v`: the lines a user expects | the order of the doings from C116, C118 and C119; then the canvas is followed round by round, with an invariant of what each line holds and that nothing is drawn elsewhere (`P_Examples*.v`) |
| C141 | `M_Lines.v`: the example programs as lists of calls; `S_Lines.v`, `S_WinLines.v`: the characters with the attributes asked for, laid out from the cursor on | the effect of each call from C95 and C99, and then by induction over the characters of each text and over the calls (`P_Lines.v`, `P_WinLines.v`) |
| C142 | `M_Macros.v`, `M_WinMacros.v`: the expansion and its evaluation; `S_MacroLines.v`: what the elements ask for, and the documented equivalents | elements to calls by C55, and then the picture by C141 (terminals), C96 and C100 (screens), and success of the refresh by C138 (`P_MacroLines.v`, `P_WinMacroLines.v`) |
| C143 | `M_ScreenExample.v`, `M_WinScreenExample.v`: the program; `S_ScreenExample.v`: the picture, position by position; `S_WinScreenExample.v` | events by C98's invariant, no panic by C14's, success by C138's and the picture by C96's, and a layout of ASCII text on canvases; induction over the rounds (`P_ScreenExample.v`, `P_ScreenExample2.v`, `P_WinScreenExample.v`); the end: every state of the program is one of the histories of C80 and C72 (`P_ScreenEnd.v`) |
| C144 | `M_InputExample.v`: the programs, printing as a list; `S_InputExample.v` | events by C98's invariant, raw bytes by C35's account of the input, the end by C48's invariant of prepared terminals, the error by the invariant that reading keeps a prepared terminal prepared (`P_InputExample.v`); on Windows events by C98's lemma of one record, raw units by an account of the records over each call (`M_WinInputExample.v`, `S_WinInputExample.v`, `P_WinInputExample.v`), signals by C73's account of histories (`S_SignalsExample.v`, `P_SignalsExample.v`), on Unix by C44's account of each call (`S_UnixSignalsExample.v`, `P_UnixSignalsExample.v`) |

## 4. Trusted base

**Kernel and axioms.** Coq 8.16.1's kernel (with `vm_compute`, used in examples and in a few finite case checks). Every theorem in `Prop_*.v` is followed by `Print Assumptions`; each prints *Closed under the global context*: no axiom is used, neither from the standard library nor our own. (A listing of all axioms in the loaded libraries shows seven entries `Coq.ssr.ssrunder.Under_rel.*`: parameters of a module type in the standard library's ssreflect files, loaded through `Lia`/`Zify`; no theorem rests on them.) No plugins, functors, module types, `Admitted`, or disabled checks.

**Specifications.** The statements rest on the vocabulary in `S_*.v`, which has to be read.

**The model.** That `M_*.v` says what the Rust code does is checked by reading; each definition cites its lines.

### What is modelled

| `/repo/src` | model | remarks |
|---|---|---|
| `sequence.rs` | `M_Seq.v` | all operations except `sequences_mut` (gives out `&mut V`); `sort_by` is a stable insertion sort |
| `signal.rs` | `M_Signal.v` | bits, operators, `FromIterator`/`Extend`, `Debug` |
| `util.rs` | `M_Util.v`, `M_Utf8.v` | UTF-8 and UTF-16 coding of std written out |
| `buffer.rs` | `M_Buf.v` | whole file; `unicode_width`, `is_combining_mark` are parameters |
| `terminal.rs` | `M_Geom.v` (`Size`, `Cursor`), `M_Attr.v` (`Style`, `Color`, `Theme`), `M_Util.v` (`Key`), `M_Prepare.v` (`PrepareConfig`), `M_Api.v` (output methods of `Terminal` and `TerminalWriteGuard`, with their argument conversions) | the methods of `TerminalReadGuard` and the locking methods are one-line calls and are identified with what they call |
| `screen.rs` | `M_ScreenApi.v`, `M_Screen.v`, `M_WinScreen.v` | the formatting traits, as above |
| `macros.rs` | `M_Macros.v`, `M_WinMacros.v` (Windows) | the grammar of `term_write!`/`term_writeln!` on token trees, an expression being one token |
| `priv_util.rs` | `M_LockResult.v` | whole file |
| `unix/terminal.rs` | `M_Writer.v` (output), `M_Input.v` (decoding), `M_Keys.v` (which capability is which key), `M_Prepare.v` (termios, signal handlers), `M_Reader.v` (reading, waiting, signals), `M_ReadShare.v` (threads that share the reader, also for Windows), `M_Process.v` (several terminals), `M_Fds.v` (descriptors), `M_Locks.v` (mutexes) | terminfo is a parameter; `select`, `read`, `write`, `tcsetattr`, `sigaction`, `ioctl` answer from scripts |
| `unix/screen.rs` | `M_Screen.v`, `M_Locks.v`, `M_UnixScreen.v`, `M_Poison.v` (panics of the program), `M_Stderr.v` (errors that are printed) | |
| `windows/terminal.rs` | `M_WinWriter.v` (output), `M_WinApi.v` (`Terminal`'s output methods), `M_WinReader.v` (input), `M_WinScreen.v` (screen buffers), `M_WinLocks.v` (mutexes), `M_WinShare.v` (what is behind them) | console calls are specified after their documentation and may fail at any call |
| `windows/screen.rs` | `M_WinScreen.v`, `M_WinLocks.v`, `M_WinShare.v`, `M_WinPoison.v` (panics of the program), `M_WinStderr.v` (errors that are printed) | |
| `../examples/threads.rs`, `../examples/screen_threads.rs` | `M_Examples.v` | the threads; random numbers are any texts, sleeping is left out |
| `../examples/attribute_test.rs`, `../examples/color.rs`, `../examples/style.rs` | `M_Lines.v`, `M_StyleExample.v` | the calls; without the line feeds at the ends |
| `../examples/screen.rs` | `M_ScreenExample.v`, `M_WinScreenExample.v` | whole; the `Debug` text of an event is a parameter |
| `../examples/input.rs`, `../examples/raw_input.rs`, `../examples/signals.rs` | `M_InputExample.v`, `M_WinInputExample.v` | whole; on Windows without the drop of the terminal; the standard output is a list of lines |
| all of the above that does arithmetic | `M_RelBuf.v`, `M_RelScreen.v`, `M_RelReader.v`, `M_RelRun.v`, `M_RelWin.v` | in a build without overflow checks (C130) |

### What is not modelled

* `lib.rs`, `*/mod.rs`, `*/ext.rs` (re-exports and extension traits that forward), `Debug`/`Display` of most types, the formatting traits (`write_fmt` is modelled from the pieces of text they produce).
* Reading the terminfo database itself, `name()`; what `open` does with a path (`M_Fds.v` has its descriptor only).
* Panics inside the library's methods end a run of `M_UnixScreen.v`/`M_Poison.v` (which panics there are is the subject of C107, and on Windows of C108); `M_Locks.v` and `M_WinLocks.v` have no panics while holding a lock. `M_Poison.v` has panics of the program with and without guards; `M_LockResult.v` the combination of results for every poison state; `M_WinPoison.v` the same panics of the program on Windows. Guards that are never dropped: their locks only (C133), not what the data behind them becomes.
* Standard error: the `Drop`s print errors with `eprintln!`, which panics if standard error cannot be written. Only `M_Stderr.v` (Unix) and `M_WinStderr.v` (Windows) have that (C110); every other model assumes that messages can be printed, and `C110_printed` and `C110_windows_printed` are the proof that this is all that is assumed.
* Memory: allocation never fails; growth of `Vec` (which decides when `write_data` meets a full buffer) is a parameter.

### Assumptions about the environment, stated as hypotheses or built into the model

* Arithmetic overflow panics, as in builds with overflow checks; the width of `usize` is a parameter. `M_Rel*.v` have the other builds, and C130 says that they differ only where the first kind panics.
* Unix: time is a list of ticks (bytes arriving, signals, interruptions, failures, window changes, passing time, steps of the library); the handlers run at any tick. Signal numbers are Linux's. `termios` bits unknown to the library are kept. A terminal is anything that meets the contract `implements` (`S_Tty.v`); the emulator of `S_Emu.v` is proved to meet it.
* Windows: `CreateConsoleScreenBuffer` and `GetStdHandle` answer `INVALID_HANDLE_VALUE` when they fail (documented), and every call on that handle fails with `ERROR_INVALID_HANDLE`.
* Windows: `ReadConsoleInputW` with no room takes nothing; `ReadConsoleW` skips records without a character; `SetConsoleCtrlHandler` counts registrations; `WaitForSingleObject` is signalled while there are records; `CreateConsoleScreenBuffer` makes a blank buffer of the size of the window with the attributes of the active buffer; `SetConsoleScreenBufferSize` refuses sizes smaller than the window; `SetConsoleCursorPosition` moves the window as far as needed to show the cursor; how text is drawn is a parameter, constrained (C79) by `places`.
* What typed keys come to (C131 only): `driver` and `console` in `S_Driver.v`, read off termios(3) and the documentation of console modes. Linux also throws away unread input when a key raises a signal (the library does not set `NOFLSH`); the model keeps it.
* nix: `FdSet::insert` panics for descriptors from `FD_SETSIZE` (1024) on (C88 only; elsewhere the descriptor is below). Several terminals (C87): calls follow one another.
* Locks: mutexes exclude each other and are not reentrant; a thread blocked on a free mutex may take it at any later step.

## 5. Testing the theorems

`seeded/LOG.jsonl` records edits of the model (in a scratch copy) that a realistic bug would make, and which theorems then fail. The harness replaces each proof that breaks by `Admitted` until everything builds again, and then asks `Print Assumptions` of every property theorem.
