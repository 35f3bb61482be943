(** Specification vocabulary for any programs that share a [Screen], also when accesses to
    the terminal fail and when the process is stopped and continued (C121). *)
From Verif Require Import Base M_Utf8 M_Geom M_Attr M_Buf S_Buf M_Writer S_Tty S_Writer M_Screen S_Screen M_ScreenApi
  S_Canvas M_Locks S_Program S_WideProgram.

(** What is done, with its answer.  [Resumed]: the terminal is prepared again when the
    process has been continued.  [Freed]: a write guard of the terminal is dropped. *)
Inductive deed : Type :=
| Did (x : mark) (r : ans)
| Resumed (mouse track keypad : bool) (r : ans)
| Freed.

(** What a program may have done, in pieces that nothing interrupts, as [did] in S_Program.
    What it does next depends on the answers.  [Screen::refresh] and dropping the write
    guard show the screen (once more) without reporting an error; methods that need the
    terminal take a write guard of it, and drop it. *)
Inductive did_so : option (list deed) -> client -> list (list deed) -> Prop :=
| so_end : did_so None Finish []
| so_draw m k r l : did_so None (k r) l -> did_so None (Call (SBuf (sforward m)) k) ([Did (Drawn m) r] :: l)
| so_show k r r' l : did_so None (k r) l -> did_so None (Call SRefresh k) ([Did Shown r; Did Shown r'; Freed] :: l)
| so_mode m k r l : did_so None (k r) l -> did_so None (Call (SSetCursorMode m) k) ([Did (Asked m) r; Freed] :: l)
| so_lock c k l : c = SLockWrite \/ c = STryLockWrite -> did_so (Some []) (k AOk) l -> did_so None (Call c k) l
| so_locked k l : did_so None (k AWouldBlock) l -> did_so None (Call STryLockWrite k) l
| so_locked_late k l : did_so None (k AWouldBlock) l -> did_so None (Call STryLockWrite k) ([Freed] :: l)
| so_through c k x r g l : through c x -> did_so (Some (g ++ [Did x r])) (k r) l -> did_so (Some g) (Call c k) l
| so_drop k g r l : did_so None (k AOk) l -> did_so (Some g) (Call SWDrop k) ((g ++ [Did Shown r; Freed]) :: l)
| so_told c k sz r l : reads c -> did_so None (k (AResized sz)) l ->
    did_so None (Call c k) ([Freed] :: [Did (Fitted sz) r] :: l)
| so_untold c k e l : reads c -> did_so None (k (AErr e)) l -> did_so None (Call c k) ([Freed] :: l)
| so_resumed c k mouse track keypad r l : reads c -> did_so None (k r) l ->
    did_so None (Call c k) ([Resumed mouse track keypad r; Freed] :: l)
| so_input g c k r l : input_answer c r -> did_so g (k r) l -> did_so g (Call c k) l.

(** What a result of the screen or its writer is to the caller. *)
Inductive answers {S A} : out S werr A -> S -> ans -> Prop :=
| answers_ok s a : answers (Ret s a) s AOk
| answers_err s e : answers (Fail s e) s (AErr e).

(** [Terminal::prepare] once more: the mouse and the keypad, if they were enabled. *)
Definition prepared_again (C : tcfg) (mouse track keypad : bool) (w : wst) : out wst werr unit :=
  let! (w, _b) := if mouse then enable_mouse C track w else Ret w false in
  let! (w, _b) := if keypad then enable_keypad C w else Ret w false in
  flush w.

(** One after the other, without threads and locks: [s] becomes [s']. *)
Inductive performed (E : env) (C : tcfg) : list deed -> scr -> scr -> Prop :=
| perf_end s : performed E C [] s s
| perf_drawn m l s b s' :
    screen_method E m (sb s) = Val b -> performed E C l (with_sb b s) s' -> performed E C (Did (Drawn m) AOk :: l) s s'
| perf_shown l s s1 r s' :
    answers (refresh E C s) s1 r -> performed E C l s1 s' -> performed E C (Did Shown r :: l) s s'
| perf_asked m l s s1 r s' :
    answers (on_writer (set_cursor_mode C m) s) s1 r -> performed E C l s1 s' -> performed E C (Did (Asked m) r :: l) s s'
| perf_fitted sz l s s1 s' :
    update_size E sz s = Val s1 -> performed E C l s1 s' -> performed E C (Did (Fitted sz) AOk :: l) s s'
| perf_resumed mouse track keypad l s s1 r s' :
    answers (on_writer (prepared_again C mouse track keypad) s) s1 r ->
    performed E C l s1 s' -> performed E C (Resumed mouse track keypad r :: l) s s'
| perf_freed l s s1 u s' :
    on_writer guard_drop s = Ret s1 u -> performed E C l s1 s' -> performed E C (Freed :: l) s s'.
