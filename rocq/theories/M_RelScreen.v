(** Refreshing a Unix [Screen] (/repo/src/unix/screen.rs) in a build without overflow
    checks: the definitions of M_Screen.v in which [usize] arithmetic occurs. *)
From Verif Require Import Base M_Utf8 M_Geom M_Attr M_Buf M_Writer M_Screen M_RelBuf.

Section RelScreen.
  Variable E : env.
  Variable C : tcfg.

  (** [enter_screen] (707-730).  [sz] is the answer of [get_winsize] (1157-1174);
      [size.lines - 1] wraps around on a terminal
      reporting 0 lines. *)
  Definition enter_screen_r (sz : N + size) (w : wst) : wres :=
    match info C ChangeScrollRegion, info C CursorHome with
    | Some scroll, Some home =>
        match sz with
        | inl e => Fail w (EOs e)
        | inr sz =>
            let! (w, _u) := expand_opt C EnterCaMode [] w in
            match lines sz with
            | O =>
                let! (w, _u) := expand C scroll [0%N; to_u32 (umax E)] w in
                let! (w, _u) := expand C home [] w in
                let! (w, _u) := clear_attributes C w in
                clear_screen C w
            | S l =>
                let! (w, _u) := expand C scroll [0%N; to_u32 l] w in
                let! (w, _u) := expand C home [] w in
                let! (w, _u) := clear_attributes C w in
                clear_screen C w
            end
        end
    | None, _ => Fail w (ENotSupported ChangeScrollRegion)
    | _, None => Fail w (ENotSupported CursorHome)
    end.

  (** The drawing loop of [refresh] (unix/screen.rs:190-196).  [fuel] bounds the number
      of cells; it is given as the number of cells left. *)
  Fixpoint draw_r (fuel : nat) (lo hi : nat) (s : scr) : sres :=
    match next_cell E (sb s) lo hi with
    | Boom => Panic
    | Val (b, lo', None) => Ret (with_sb b s) tt
    | Val (b, lo', Some (pos, cell)) =>
        let! (s, _u) := s_move_cursor C pos (with_sb b s) in
        let! (s, _u) := on_writer (set_attrs C (cattrs cell)) s in
        let! (s, _u) := on_writer (write_str C (ctext cell)) s in
        match wadd (umax E) (column (real s)) 1 with
        | Boom => Panic
        | Val c =>
            let s := with_real (Cursor (line (real s)) c) s in
            match fuel with
            | O => Panic
            | S fuel => draw_r fuel lo' hi s
            end
        end
    end.

  (** [ScreenWriteGuard::refresh] (unix/screen.rs:180-210) up to the final [flush]. *)
  Definition compose_r (s : scr) : sres :=
    let! (s, _u) := if clr s then
                      let! (s, _u) := on_writer (clear_screen C) s in
                      Ret (with_clr false s) tt
                    else Ret s tt in
    let! (s, _u) := on_writer (clear_attributes C) s in
    match sb_indices E (sb s) with
    | Boom => Panic
    | Val (lo, hi) =>
        let! (s, _u) := draw_r (hi - lo) lo hi s in
        let! (s, _u) := on_writer (clear_attributes C) s in
        if is_out_of_bounds (bcur (sb s)) (bsize (sb s)) then
          match cursor_last_r (umax E) (bsize (sb s)) with
          | Boom => Panic
          | Val p => s_move_cursor C p s
          end
        else s_move_cursor C (bcur (sb s)) s
    end.

  (** [refresh], complete. *)
  Definition refresh_r (s : scr) : sres :=
    let! (s, _u) := compose_r s in
    on_writer flush s.

  (** Dropping a [ScreenWriteGuard]: [refresh] (unix/screen.rs:228-234), then the
      [TerminalWriteGuard] inside it is dropped; errors are only printed. *)
  Definition s_guard_drop_r (s : scr) : sres :=
    match refresh_r s with
    | Ret s' _ | Fail s' _ => on_writer guard_drop s'
    | r => r
    end.

  (** [Screen::refresh] (unix/screen.rs:119-121): lock, refresh, drop the guard. *)
  Definition screen_refresh_r (s : scr) : sres :=
    match refresh_r s with
    | Ret s' u => match s_guard_drop_r s' with
                  | Ret s'' _ => Ret s'' u
                  | r => r
                  end
    | Fail s' e => match s_guard_drop_r s' with
                   | Ret s'' _ => Fail s'' e
                   | r => r
                   end
    | r => r
    end.

  (** The writer side of [Screen::new] (unix/screen.rs:37-55): [size] as reported
      before and [sz'] inside [enter_screen]; [w] is the terminal's writer after
      [prepare].  [Terminal::enter_screen] (unix/terminal.rs:165-167) locks the
      writer, so the guard is dropped at the end. *)
  Definition screen_new_r (size : size) (sz' : N + M_Geom.size) (w : wst) : sres :=
    match sb_new E size with
    | Boom => Panic
    | Val b => 
        let s := Scr b false (Cursor 0 0) w in
        match on_writer (enter_screen_r sz') s with
        | Ret s _ => on_writer guard_drop s
        | Fail s e => match on_writer guard_drop s with Ret s _ => Fail s e | r => r end
        | r => r
        end
    end.
End RelScreen.
