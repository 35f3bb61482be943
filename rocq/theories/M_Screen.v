(** Model of the Unix [Screen] writer (/repo/src/unix/screen.rs): drawing the buffer
    to the terminal.  Locking is in M_Locks.v, reading in M_Reader.v. *)
From Verif Require Import Base M_Utf8 M_Geom M_Attr M_Buf M_Writer.

(** The state behind a [ScreenWriteGuard] (unix/screen.rs:25-34): the terminal's
    writer and the screen's own [Writer] (buffer, [clear_screen], [real_cursor]). *)
Record scr : Type := Scr {
  sb : sbuf;
  clr : bool;
  real : cursor;
  wr : wst
}.

Definition with_sb (b : sbuf) (s : scr) : scr := Scr b (clr s) (real s) (wr s).
Definition with_clr (x : bool) (s : scr) : scr := Scr (sb s) x (real s) (wr s).
Definition with_real (c : cursor) (s : scr) : scr := Scr (sb s) (clr s) c (wr s).
Definition with_wr (w : wst) (s : scr) : scr := Scr (sb s) (clr s) (real s) w.

Definition sres : Type := out scr werr unit.

Section Screen.
  Variable E : env.
  Variable C : tcfg.

  (** A call of a [TerminalWriteGuard] method on the [writer] field. *)
  Definition on_writer (f : wst -> wres) (s : scr) : sres :=
    match f (wr s) with
    | Ret w u => Ret (with_wr w s) u
    | Fail w e => Fail (with_wr w s) e
    | Panic => Panic
    | Blocked => Blocked
    end.

  (** [ScreenWriteGuard::move_cursor] (unix/screen.rs:212-219). *)
  Definition s_move_cursor (p : cursor) (s : scr) : sres :=
    if cursor_eqb (real s) p then Ret s tt
    else let! (s, _u) := on_writer (move_cursor C p) s in
         Ret (with_real p s) tt.

  (** The drawing loop of [refresh] (unix/screen.rs:190-196).  [fuel] bounds the number
      of cells; it is given as the number of cells left. *)
  Fixpoint draw (fuel : nat) (lo hi : nat) (s : scr) : sres :=
    match next_cell E (sb s) lo hi with
    | Boom => Panic
    | Val (b, lo', None) => Ret (with_sb b s) tt
    | Val (b, lo', Some (pos, cell)) =>
        let! (s, _u) := s_move_cursor pos (with_sb b s) in
        let! (s, _u) := on_writer (set_attrs C (cattrs cell)) s in
        let! (s, _u) := on_writer (write_str C (ctext cell)) s in
        match uadd (umax E) (column (real s)) 1 with
        | Boom => Panic
        | Val c =>
            let s := with_real (Cursor (line (real s)) c) s in
            match fuel with
            | O => Panic
            | S fuel => draw fuel lo' hi s
            end
        end
    end.

  (** [ScreenWriteGuard::refresh] (unix/screen.rs:180-210) up to the final [flush]. *)
  Definition compose (s : scr) : sres :=
    let! (s, _u) := if clr s then
                      let! (s, _u) := on_writer (clear_screen C) s in
                      Ret (with_clr false s) tt
                    else Ret s tt in
    let! (s, _u) := on_writer (clear_attributes C) s in
    match sb_indices E (sb s) with
    | Boom => Panic
    | Val (lo, hi) =>
        let! (s, _u) := draw (hi - lo) lo hi s in
        let! (s, _u) := on_writer (clear_attributes C) s in
        if is_out_of_bounds (bcur (sb s)) (bsize (sb s)) then
          match cursor_last (bsize (sb s)) with
          | Boom => Panic
          | Val p => s_move_cursor p s
          end
        else s_move_cursor (bcur (sb s)) s
    end.

  (** [refresh], complete. *)
  Definition refresh (s : scr) : sres :=
    let! (s, _u) := compose s in
    on_writer flush s.

  (** [Writer::update_size] (unix/screen.rs:237-244), called by [read_event] and
      [read_raw] when they report [Resize] (147-165); [!0] is [usize::MAX]. *)
  Definition update_size (new : size) (s : scr) : pan scr :=
    let r := if is_out_of_bounds (real s) new then Cursor (umax E) (umax E) else real s in
    match sb_resize E (sb s) new with
    | Boom => Boom
    | Val b => Val (Scr b true r (wr s))
    end.

  (** Dropping a [ScreenWriteGuard]: [refresh] (unix/screen.rs:228-234), then the
      [TerminalWriteGuard] inside it is dropped; errors are only printed. *)
  Definition s_guard_drop (s : scr) : sres :=
    match refresh s with
    | Ret s' _ | Fail s' _ => on_writer guard_drop s'
    | r => r
    end.

  (** [Screen::refresh] (unix/screen.rs:119-121): lock, refresh, drop the guard. *)
  Definition screen_refresh (s : scr) : sres :=
    match refresh s with
    | Ret s' u => match s_guard_drop s' with
                  | Ret s'' _ => Ret s'' u
                  | r => r
                  end
    | Fail s' e => match s_guard_drop s' with
                   | Ret s'' _ => Fail s'' e
                   | r => r
                   end
    | r => r
    end.

  (** [Screen::set_cursor_mode] (unix/screen.rs:103-105) forwards to the terminal's,
      which locks and flushes. *)
  Definition screen_set_cursor_mode (m : cursor_mode) : scr -> sres :=
    on_writer (run_terminal_op C (OSetCursorMode m)).

  (** The writer side of [Screen::new] (unix/screen.rs:37-55): [size] as reported
      before and [sz'] inside [enter_screen]; [w] is the terminal's writer after
      [prepare].  [Terminal::enter_screen] (unix/terminal.rs:165-167) locks the
      writer, so the guard is dropped at the end. *)
  Definition screen_new (size : size) (sz' : N + M_Geom.size) (w : wst) : sres :=
    match sb_new E size with
    | Boom => Panic
    | Val b => 
        let s := Scr b false (Cursor 0 0) w in
        match on_writer (enter_screen C sz') s with
        | Ret s _ => on_writer guard_drop s
        | Fail s e => match on_writer guard_drop s with Ret s _ => Fail s e | r => r end
        | r => r
        end
    end.
End Screen.
