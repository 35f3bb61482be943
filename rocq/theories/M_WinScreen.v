(** Model of the screens of the Windows implementation: opening and dropping a terminal
    and a [Screen] (/repo/src/windows/terminal.rs, /repo/src/windows/screen.rs), drawing,
    and reading at the level of the screen.

    The console calls are specified after their documentation.  A handle is a number;
    [GetStdHandle] gives open handles.  Locking is not modelled here (see M_Locks.v). *)
From Verif Require Import Base M_Utf8 M_Geom M_Attr M_Signal M_Util M_Input M_Buf M_Writer M_Prepare M_Reader
  M_WinWriter M_WinReader.
Local Open Scope N_scope.

(** A screen buffer of the console: what it shows, the attributes for text to come, the
    cursor's look, and the output mode. *)
Record wbuf : Type := WBuf { b_view : view; b_attr : N; b_cursor : N * bool; b_mode : N }.

(** A terminal (windows/terminal.rs:85-91, 112-117) and the console: [t_w] is the
    terminal's writer and the buffer behind its [out_handle] [t_out], [t_mode] the output
    mode of that buffer, [t_else] the other open screen buffers, [t_active] the one that is
    displayed, [t_old] and [t_default] are [old_out_mode] and [default_attrs], and [t_in] is
    the input half. *)
Record wterm : Type := WTerm {
  t_w : wins;
  t_mode : N;
  t_out : N;
  t_else : list (N * wbuf);
  t_active : N;
  t_old : N;
  t_default : N;
  t_in : wsys
}.
Definition with_w (w : wins) (t : wterm) : wterm :=
  WTerm w (t_mode t) (t_out t) (t_else t) (t_active t) (t_old t) (t_default t) (t_in t).
Definition with_tmode (m : N) (t : wterm) : wterm :=
  WTerm (t_w t) m (t_out t) (t_else t) (t_active t) (t_old t) (t_default t) (t_in t).
Definition with_else (l : list (N * wbuf)) (t : wterm) : wterm :=
  WTerm (t_w t) (t_mode t) (t_out t) l (t_active t) (t_old t) (t_default t) (t_in t).
Definition with_active (h : N) (t : wterm) : wterm :=
  WTerm (t_w t) (t_mode t) (t_out t) (t_else t) h (t_old t) (t_default t) (t_in t).
Definition with_in (i : wsys) (t : wterm) : wterm :=
  WTerm (t_w t) (t_mode t) (t_out t) (t_else t) (t_active t) (t_old t) (t_default t) i.

Definition tres (A : Type) : Type := out wterm N A.

(** A method of the writer, a method of the reader. *)
Definition on_wins {A} (f : wins -> winres A) (t : wterm) : tres A :=
  match f (t_w t) with
  | Ret w a => Ret (with_w w t) a
  | Fail w e => Fail (with_w w t) e
  | Panic => Panic
  | Blocked => Blocked
  end.
Definition on_reader {A} (f : wsys -> wsres A) (t : wterm) : tres A :=
  match f (t_in t) with
  | Ret i a => Ret (with_in i t) a
  | Fail i e => Fail (with_in i t) e
  | Panic => Panic
  | Blocked => Blocked
  end.

(** ** Console calls about screen buffers *)

(** A call that may fail, like [ask]. *)
Definition t_call {A} (valid : bool) (f : wterm -> wterm * A) (t : wterm) : tres A :=
  let! (t, _u) := on_wins (ask valid (fun _ c => (c, tt))) t in
  let '(t, a) := f t in Ret t a.

(** The buffer behind [t_out]; the buffer behind any handle. *)
Definition cur_buf (t : wterm) : wbuf :=
  WBuf (c_view (w_con (t_w t))) (c_attr (w_con (t_w t))) (c_cursor (w_con (t_w t))) (t_mode t).
Fixpoint lookup (h : N) (l : list (N * wbuf)) : option wbuf :=
  match l with
  | [] => None
  | (k, b) :: l => if k =? h then Some b else lookup h l
  end.
Definition buf_of (h : N) (t : wterm) : option wbuf :=
  if t_out t =? h then Some (cur_buf t) else lookup h (t_else t).
Fixpoint remove_buf (h : N) (l : list (N * wbuf)) : list (N * wbuf) :=
  match l with
  | [] => []
  | (k, b) :: l => if k =? h then remove_buf h l else (k, b) :: remove_buf h l
  end.
Fixpoint set_buf (h : N) (b' : wbuf) (l : list (N * wbuf)) : list (N * wbuf) :=
  match l with
  | [] => []
  | (k, b) :: l => if k =? h then (k, b') :: l else (k, b) :: set_buf h b' l
  end.
Definition fresh_handle (t : wterm) : N := fold_right N.max (N.max (t_out t) (t_active t)) (map fst (t_else t)) + 1.

(** [CreateConsoleScreenBuffer]: a buffer of the size of the window of the active one,
    and with its attributes; blank, the cursor at the beginning, processed output and
    wrapping enabled. *)
Definition fresh_buffer (a : wbuf) : wbuf :=
  let w := v_win (b_view a) in
  let width := (rRight w - rLeft w + 1)%Z in
  let height := (rBottom w - rTop w + 1)%Z in
  WBuf (View (Coord width height) (Coord 0 0) (Rect 0 (height - 1) 0 (width - 1)) (fun _ _ => (SPACE, b_attr a)))
       (b_attr a) (25, true) 3.
(** Its result goes through [result_handle] (windows/terminal.rs:1259-1265), which takes the
    null handle for a failure; but the call answers [INVALID_HANDLE_VALUE] ([None] here) when
    it fails, so that the code goes on with that and the error is lost. *)
Definition create_buffer (t : wterm) : tres (option N) :=
  match t_call true (fun t =>
    let h := fresh_handle t in
    let a := match buf_of (t_active t) t with Some a => a | None => cur_buf t end in
    (with_else ((h, fresh_buffer a) :: t_else t) t, h)) t with
  | Ret t h => Ret t (Some h)
  | Fail t _ => Ret t None
  | Panic => Panic
  | Blocked => Blocked
  end.

(** What any call says to [INVALID_HANDLE_VALUE]. *)
Definition ERROR_INVALID_HANDLE : N := 6.

(** [SetConsoleScreenBufferSize] of a buffer that is not the terminal's: not smaller than
    the window; new cells are blank. *)
Definition resize_view (size : coord) (a : N) (v : view) : view :=
  View size (v_cur v) (v_win v)
    (fun y x => if in_buffer v (Coord x y) then v_cell v y x else (SPACE, a)).
Definition set_buffer_size (h : N) (size : coord) (t : wterm) : tres unit :=
  match lookup h (t_else t) with
  | None => t_call false (fun t => (t, tt)) t
  | Some b =>
      let w := v_win (b_view b) in
      t_call ((rRight w - rLeft w <? cX size)%Z && (rBottom w - rTop w <? cY size)%Z)
        (fun t => (with_else (set_buf h (WBuf (resize_view size (b_attr b) (b_view b)) (b_attr b) (b_cursor b) (b_mode b))
                                      (t_else t)) t, tt)) t
  end.

(** [SetConsoleActiveScreenBuffer] *)
Definition set_active_buffer (h : N) (t : wterm) : tres unit :=
  t_call (match buf_of h t with Some _ => true | None => false end) (fun t => (with_active h t, tt)) t.

(** [CloseHandle] of a buffer that is not the terminal's. *)
Definition close_handle (h : N) (t : wterm) : tres unit :=
  t_call (match lookup h (t_else t) with Some _ => true | None => false end)
    (fun t => (with_else (remove_buf h (t_else t)) t, tt)) t.

(** [GetConsoleMode], [SetConsoleMode] of [t_out] ([console_mode], [set_console_mode],
    windows/terminal.rs:1011-1017, 1025-1027). *)
Definition out_mode : wterm -> tres N := t_call true (fun t => (t, t_mode t)).
Definition set_out_mode (m : N) : wterm -> tres unit := t_call true (fun t => (with_tmode m t, tt)).

(** ** Entering and leaving *)

(** [swap_out_handle], windows/terminal.rs:925-927: the terminal now writes to [h].
    (Its attributes stay as they are.)  [h] is open. *)
Definition swap_out_handle (h : N) (t : wterm) : wterm :=
  match lookup h (t_else t) with
  | None => t
  | Some b =>
      let c := w_con (t_w t) in
      WTerm (Wins (w_at (t_w t)) (Con (b_view b) (b_attr b) (c_text c) (b_cursor b) (c_answers c)))
            (b_mode b) h ((t_out t, cur_buf t) :: remove_buf h (t_else t))
            (t_active t) (t_old t) (t_default t) (t_in t)
  end.

Definition ENABLE_PROCESSED_OUTPUT : N := 1.
Definition ENABLE_WRAP_AT_EOL_OUTPUT : N := 2.
Definition DISABLE_NEWLINE_AUTO_RETURN : N := 8.

Section WinScreen.
  Variable draw : list N -> N -> view -> view.
  Variable E : env.

  (** [setup_screen], windows/terminal.rs:1029-1033; [size_to_coord], 1119-1124. *)
  Definition setup_screen (h : N) (size : size) (t : wterm) : tres unit :=
    let! (t, _u) := set_buffer_size h (Coord (to_short (columns size)) (to_short (lines size))) t in
    set_active_buffer h t.

  (** [TerminalWriteGuard::enter_screen], windows/terminal.rs:575-604. *)
  Definition win_enter_screen (t : wterm) : tres N :=
    let! (t, size) := on_wins (win_size E) t in
    let! (t, h) := create_buffer t in
    match h with
    | None => Fail t ERROR_INVALID_HANDLE  (* the first call of [setup_screen]; then [close_handle] fails as well *)
    | Some h =>
    match setup_screen h size t with
    | Fail t e => match close_handle h t with
                  | Ret t _ | Fail t _ => Fail t e
                  | Panic => Panic
                  | Blocked => Blocked
                  end
    | Panic => Panic
    | Blocked => Blocked
    | Ret t _ =>
        let old := t_out t in
        let t := swap_out_handle h t in
        let! (t, m) := out_mode t in
        let! (t, _u) := set_out_mode
          (N.ldiff m (N.lor ENABLE_WRAP_AT_EOL_OUTPUT DISABLE_NEWLINE_AUTO_RETURN)) t in
        Ret t old
    end
    end.

  (** [TerminalWriteGuard::exit_screen], windows/terminal.rs:606-612. *)
  Definition win_exit_screen (old : N) (t : wterm) : tres unit :=
    let! (t, _u) := set_active_buffer old t in
    let h := t_out t in
    let t := swap_out_handle old t in
    close_handle h t.

  (** [Drop for Terminal], windows/terminal.rs:323-336; errors are only printed. *)
  Definition win_terminal_drop (t : wterm) : tres unit :=
    match on_wins (win_set_cursor_mode CNormal) t with
    | Ret t _ => match set_out_mode (t_old t) t with
                 | Ret t _ | Fail t _ => Ret t tt
                 | r => r
                 end
    | Fail t _ => Ret t tt
    | r => r
    end.

  (** [Terminal::new] (windows/terminal.rs:120-146) with [prepare_output] (1035-1049), on
      a console in the state [t] (of which the fields of the terminal do not matter). *)
  Definition win_terminal_new (t : wterm) : tres unit :=
    let! (t, _v) := on_wins get_info t in
    let d := c_attr (w_con (t_w t)) in
    let! (t, old) := out_mode t in
    let! (t, _u) := set_out_mode (N.lor (N.lor old ENABLE_PROCESSED_OUTPUT) ENABLE_WRAP_AT_EOL_OUTPUT) t in
    Ret (WTerm (Wins no_attrs (w_con (t_w t))) (t_mode t) (t_out t) (t_else t) (t_active t) old d
               (with_rd (WReader false 0) (t_in t))) tt.

  (** What [GetStdHandle] (windows/terminal.rs:122-125) answers: the null handle if the
      process has no such handle (and [io::Error::last_os_error] is then whatever error the
      thread met last), [INVALID_HANDLE_VALUE] if it fails, a handle of something other than
      a console (a file, a pipe), or the console's. *)
  Inductive std_handle : Type := SNull (last : N) | SInvalid | SFile | SConsole.

  (** [result_handle], windows/terminal.rs:1259-1265: the error, if any. *)
  Definition result_handle (h : std_handle) : option N :=
    match h with SNull e => Some e | _ => None end.

  (** [Terminal::new], windows/terminal.rs:120-146, with the standard input [i] and the
      standard output or error [o].  [console_info] fails for what is no console. *)
  Definition win_terminal_open (i o : std_handle) (t : wterm) : tres unit :=
    match result_handle i with
    | Some e => Fail t e
    | None =>
        match result_handle o with
        | Some e => Fail t e
        | None =>
            match o with
            | SConsole => win_terminal_new t
            | _ => Fail t ERROR_INVALID_HANDLE
            end
        end
    end.

  (** ** Screens *)

  (** [Screen] and its [Writer], windows/screen.rs:19-41. *)
  Record wscr : Type := WScr {
    g_sb : sbuf;
    g_clr : bool;
    g_real : cursor;
    g_state : wpstate;
    g_old : N;
    g_t : wterm
  }.
  Definition with_gsb (b : sbuf) (s : wscr) : wscr := WScr b (g_clr s) (g_real s) (g_state s) (g_old s) (g_t s).
  Definition with_gclr (x : bool) (s : wscr) : wscr := WScr (g_sb s) x (g_real s) (g_state s) (g_old s) (g_t s).
  Definition with_greal (c : cursor) (s : wscr) : wscr := WScr (g_sb s) (g_clr s) c (g_state s) (g_old s) (g_t s).
  Definition with_gt (t : wterm) (s : wscr) : wscr := WScr (g_sb s) (g_clr s) (g_real s) (g_state s) (g_old s) t.
  Definition gres (A : Type) : Type := out wscr N A.

  Definition on_term {A} (f : wterm -> tres A) (s : wscr) : gres A :=
    match f (g_t s) with
    | Ret t a => Ret (with_gt t s) a
    | Fail t e => Fail (with_gt t s) e
    | Panic => Panic
    | Blocked => Blocked
    end.

  (** [Screen::new], windows/screen.rs:44-60, up to the [?] operators. *)
  Definition win_screen_open (cfg : config) (t : wterm) : tres wscr :=
    let! (t, size) := on_wins (win_size E) t in
    let! (t, old) := win_enter_screen t in
    let! (t, st) := on_reader (win_prepare cfg) t in
    match sb_new E size with
    | Boom => Panic
    | Val b => Ret t (WScr b false (Cursor 0 0) st old t)
    end.
  (** [Screen::new] owns the terminal: when it fails the terminal is dropped. *)
  Definition win_screen_new (cfg : config) (t : wterm) : tres wscr :=
    match win_screen_open cfg t with
    | Fail t e => match win_terminal_drop t with
                  | Ret t _ => Fail t e
                  | Fail t e => Fail t e
                  | Panic => Panic
                  | Blocked => Blocked
                  end
    | r => r
    end.

  (** [Drop for Screen], windows/screen.rs:131-144 (errors are only printed), and then of
      its terminal. *)
  Definition win_screen_drop (s : wscr) : tres unit :=
    match on_reader (win_restore (g_state s)) (g_t s) with
    | Ret t _ => match win_exit_screen (g_old s) t with
                 | Ret t _ | Fail t _ => win_terminal_drop t
                 | r => r
                 end
    | Fail t _ => win_terminal_drop t
    | r => r
    end.

  (** [ScreenWriteGuard::move_cursor], windows/screen.rs:254-260. *)
  Definition gs_move_cursor (p : cursor) (s : wscr) : gres unit :=
    if cursor_eqb (g_real s) p then Ret s tt
    else let! (s, _u) := on_term (on_wins (win_move_cursor p)) s in
         Ret (with_greal p s) tt.

  (** [ScreenWriteGuard::apply_attrs], windows/screen.rs:245-252. *)
  Definition gs_apply_attrs (src dest : attrs) (s : wscr) : gres unit :=
    if attrs_eqb src dest then Ret s tt
    else on_term (on_wins (win_set_attributes (t_default (g_t s)) dest)) s.

  Definition gs_clear_attributes (s : wscr) : gres unit :=
    on_term (on_wins (win_clear_attributes (t_default (g_t s)))) s.

  (** The loop of [refresh], windows/screen.rs:222-230; [fuel] is the number of cells
      left. *)
  Fixpoint gs_draw (fuel : nat) (lo hi : nat) (at_ : attrs) (s : wscr) : gres unit :=
    match next_cell E (g_sb s) lo hi with
    | Boom => Panic
    | Val (b, lo', None) => Ret (with_gsb b s) tt
    | Val (b, lo', Some (pos, cell)) =>
        let! (s, _u) := gs_move_cursor pos (with_gsb b s) in
        let! (s, _u) := gs_apply_attrs at_ (cattrs cell) s in
        let! (s, _u) := on_term (on_wins (win_write_str draw (ctext cell))) s in
        match uadd (umax E) (column (g_real s)) 1 with
        | Boom => Panic
        | Val c =>
            let s := with_greal (Cursor (line (g_real s)) c) s in
            match fuel with
            | O => Panic
            | S fuel => gs_draw fuel lo' hi (cattrs cell) s
            end
        end
    end.

  (** [ScreenWriteGuard::refresh], windows/screen.rs:210-243. *)
  Definition win_refresh (s : wscr) : gres unit :=
    let! (s, _u) := if g_clr s then
                      let! (s, _u) := on_term (on_wins (win_clear_screen (t_default (g_t s)))) s in
                      Ret (with_gclr false s) tt
                    else Ret s tt in
    let! (s, _u) := gs_clear_attributes s in
    match sb_indices E (g_sb s) with
    | Boom => Panic
    | Val (lo, hi) =>
        let! (s, _u) := gs_draw (hi - lo) lo hi no_attrs s in
        let! (s, _u) := gs_clear_attributes s in
        if is_out_of_bounds (bcur (g_sb s)) (bsize (g_sb s)) then
          match cursor_last (bsize (g_sb s)) with
          | Boom => Panic
          | Val p => gs_move_cursor p s
          end
        else gs_move_cursor (bcur (g_sb s)) s
    end.

  (** [Writer::update_size], windows/screen.rs:272-279; [!0] is [usize::MAX]. *)
  Definition win_update_size (new : size) (s : wscr) : gres unit :=
    let r := if is_out_of_bounds (g_real s) new then Cursor (umax E) (umax E) else g_real s in
    match sb_resize E (g_sb s) new with
    | Boom => Panic
    | Val b => Ret (WScr b true r (g_state s) (g_old s) (g_t s)) tt
    end.

  (** [ScreenReadGuard::read_event] and [read_raw], windows/screen.rs:158-176. *)
  Definition follow_resize {A} (r : option event * A) (s : wscr) : gres (option event * A) :=
    match fst r with
    | Some (EResize z) => let! (s, _u) := win_update_size z s in Ret s r
    | _ => Ret s r
    end.
  Definition gs_read_event (timeout : option duration) (s : wscr) : gres (option event * list record) :=
    let! (s, r) := on_term (on_reader (win_read_event E timeout)) s in
    follow_resize r s.
  Definition gs_read_raw (len : nat) (timeout : option duration) (s : wscr) : gres (option event * list N) :=
    let! (s, r) := on_term (on_reader (win_read_raw len timeout)) s in
    follow_resize r s.

  (** [ScreenReadGuard::read_raw_event], windows/screen.rs:178-193: the records are
      searched from the end. *)
  Fixpoint find_size (l : list record) : option size :=
    match l with
    | [] => None
    | r :: l => match size_event E r with Some z => Some z | None => find_size l end
    end.
  Definition gs_read_raw_event (len : nat) (timeout : option duration) (s : wscr)
      : gres (option event * list record) :=
    let! (s, r) := on_term (on_reader (win_read_raw_event len timeout)) s in
    match fst r with
    | Some (ERaw n) =>
        match find_size (rev (firstn n (snd r))) with
        | Some z => let! (s, _u) := win_update_size z s in Ret s r
        | None => Ret s r
        end
    | _ => Ret s r
    end.

  (** What a program can do with a screen, short of dropping it: change the buffer,
      refresh it, set the cursor mode, wait and read.  (A write guard refreshes the screen
      when it is dropped, windows/screen.rs:264-270: one more [SRefresh].) *)
  Inductive wsop : Type :=
  | SBuffer (o : buf_op)
  | SRefresh
  | SCursorMode (m : cursor_mode)
  | SWait (timeout : option duration)
  | SReadEvent (timeout : option duration)
  | SReadRaw (len : nat) (timeout : option duration)
  | SReadRawEvent (len : nat) (timeout : option duration).
  Definition drop_answer {A} (r : gres A) : gres unit :=
    match r with
    | Ret s _ => Ret s tt
    | Fail s e => Fail s e
    | Panic => Panic
    | Blocked => Blocked
    end.
  Definition run_wsop (o : wsop) (s : wscr) : gres unit :=
    match o with
    | SBuffer o => match run_buf_op E (g_sb s) o with Val b => Ret (with_gsb b s) tt | Boom => Panic end
    | SRefresh => win_refresh s
    | SCursorMode m => on_term (on_wins (win_set_cursor_mode m)) s
    | SWait timeout => drop_answer (on_term (on_reader (win_wait_event timeout)) s)
    | SReadEvent timeout => drop_answer (gs_read_event timeout s)
    | SReadRaw len timeout => drop_answer (gs_read_raw len timeout s)
    | SReadRawEvent len timeout => drop_answer (gs_read_raw_event len timeout s)
    end.
End WinScreen.
