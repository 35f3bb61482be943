(** The Windows terminal and screen (/repo/src/windows) in a build without overflow
    checks: the definitions of M_WinWriter.v, M_WinReader.v and M_WinScreen.v in which
    arithmetic can overflow. *)
From Verif Require Import Base M_Utf8 M_Geom M_Attr M_Signal M_Util M_Input M_Buf M_Writer M_Prepare M_Reader
  M_WinWriter M_WinReader M_WinScreen M_RelBuf.

(** [SHORT] and [DWORD] arithmetic that wraps around. *)
Definition short_r {A} (z : Z) (k : Z -> winres A) : winres A := k ((z + 32768) mod 65536 - 32768)%Z.
Definition dword_r {A} (z : Z) (k : Z -> winres A) : winres A := k (z mod 4294967296)%Z.

Section RelWriter.
  Variables (draw : list N -> N -> view -> view) (default : N) (E : env).

  (** [clear_to_line_end], windows/terminal.rs:690-697. *)
  Definition win_clear_to_line_end_r (s : wins) : winres unit :=
    let! (s, info) := get_info s in
    let start := v_cur info in
    let size := v_size info in
    short_r (cX size - cX start) (fun d => clear_area default start (as_dword d) s).

  (** [clear_to_screen_end], windows/terminal.rs:699-711. *)
  Definition win_clear_to_screen_end_r (s : wins) : winres unit :=
    let! (s, info) := get_info s in
    let start := v_cur info in
    let size := v_size info in
    short_r (cY size - cY start) (fun lines =>
    short_r (cX size - cX start) (fun columns =>
    dword_r (as_dword lines * as_dword (cX size)) (fun m =>
    dword_r (m + as_dword columns) (fun n => clear_area default start n s)))).

  (** The rest of [clear_screen], windows/terminal.rs:651-687: scrolling text away if
      need be, and moving the cursor to the origin of the window [w]. *)
  Definition clear_rest_r (info : view) (win_height : Z) (w : rect) (s : wins) : winres unit :=
    short_r (rBottom w - cY (v_cur info)) (fun clear =>
    let finish (s : wins) := move_abs (Coord (rLeft w) (rTop w)) s in
    if (clear <? win_height)%Z then
      short_r (win_height - clear) (fun dist =>
      let! (s, _u) := scroll (Rect dist (cY (v_cur info)) 0 (cX (v_size info))) (Coord 0 0)
                        (SPACE, 0%N) s in
      finish s)
    else finish s).

  (** [clear_screen], windows/terminal.rs:622-688. *)
  Definition win_clear_screen_r (s : wins) : winres unit :=
    let! (s, info) := get_info s in
    let w := v_win info in
    short_r (rBottom w - rTop w) (fun h => short_r (h + 1) (fun win_height =>
    if (win_height =? cY (v_size info))%Z then
      dword_r (as_dword (cX (v_size info)) * as_dword (cY (v_size info))) (fun n =>
      let! (s, _u) := clear_area default (Coord 0 0) n s in
      move_abs (Coord (rLeft w) (rTop w)) s)
    else
      short_r (rBottom w + 1) (fun b1 => short_r (cY (v_size info) - b1) (fun max =>
      short_r (cY (v_cur info) + 1) (fun y1 => short_r (y1 - rTop w) (fun dist =>
      let down := Z.min dist max in
      if (0 <? down)%Z then
        short_r (rTop w + down) (fun t => short_r (rBottom w + down) (fun b =>
        let w := Rect t b (rLeft w) (rRight w) in
        let! (s, _u) := set_window w s in
        clear_rest_r info win_height w s))
      else clear_rest_r info win_height w s)))))).

  (** [move_rel], windows/terminal.rs:902-914. *)
  Definition move_rel_r (off : coord) (s : wins) : winres unit :=
    let! (s, info) := get_info s in
    short_r (cX (v_size info) - 1) (fun mx => short_r (cY (v_size info) - 1) (fun my =>
    move_abs (Coord (Z.min (sat_add (cX (v_cur info)) (cX off)) mx)
                    (Z.min (sat_add (cY (v_cur info)) (cY off)) my)) s)).

  (** windows/terminal.rs:713-736 *)
  Definition win_move_up_r (n : nat) : wins -> winres unit := move_rel_r (Coord 0 (to_short_neg E n)).
  Definition win_move_down_r (n : nat) : wins -> winres unit := move_rel_r (Coord 0 (to_short n)).
  Definition win_move_left_r (n : nat) : wins -> winres unit := move_rel_r (Coord (to_short_neg E n) 0).
  Definition win_move_right_r (n : nat) : wins -> winres unit := move_rel_r (Coord (to_short n) 0).

  (** The writing operations (windows/terminal.rs:690-736, 622-688). *)
  Definition run_win_r (o : wop) : wins -> winres unit :=
    match o with
    | OClearScreen => win_clear_screen_r
    | OClearToLineEnd => win_clear_to_line_end_r
    | OClearToScreenEnd => win_clear_to_screen_end_r
    | OMoveUp n => win_move_up_r n
    | OMoveDown n => win_move_down_r n
    | OMoveLeft n => win_move_left_r n
    | OMoveRight n => win_move_right_r n
    | o => run_win draw default E o
    end.
End RelWriter.

(** [as_millis], windows/terminal.rs:933-943: the product and the sum wrap around. *)
Definition as_millis_r (timeout : option duration) : pan N :=
  match timeout with
  | Some t =>
      let s := ((secs t * 1000) mod 18446744073709551616 mod 4294967296)%N in
      let ms := ((nanos t / 1000000) mod 4294967296)%N in
      Val ((s + ms) mod 4294967296)%N
  | None => Val INFINITE
  end.

Section RelReader.
  Variable E : env.

  (** [TerminalReadGuard::wait_event], windows/terminal.rs:428-441. *)
  Definition win_wait_event_r (timeout : option duration) (s : wsys) : wsres bool :=
    match win_get_signal s with
    | (s, Some _) => Ret s true
    | (s, None) =>
        match as_millis_r timeout with
        | Boom => Panic
        | Val ms =>
            match wait_for_single_object ms s with
            | (s, XReady) => Ret s true
            | (s, XTimeout) => Ret s false
            | (s, XError e) => Fail s e
            | (_, XNever) => Blocked
            end
        end
    end.

  (** [TerminalReadGuard::read_raw_event], windows/terminal.rs:497-515, with room for
      [len] records; also the records. *)
  Definition win_read_raw_event_r (len : nat) (timeout : option duration) (s : wsys)
      : wsres (option event * list record) :=
    let! (s, ready) := win_wait_event_r timeout s in
    if negb ready then Ret s (None, [])
    else match win_take_signal s with
         | (s, Some sig) => Ret s (Some (ESignal sig), [])
         | (s, None) =>
             let! (s, rs) := read_console_input (to_dword len) s in
             Ret s (Some (ERaw (length rs)), rs)
         end.

  (** [TerminalReadGuard::read_event], windows/terminal.rs:443-467; also the record
      decoded. *)
  Definition win_read_event_r (timeout : option duration) (s : wsys) : wsres (option event * list record) :=
    let! (s, r) := win_read_raw_event_r 1 timeout s in
    match r with
    | (Some (ERaw _), []) => Ret s (None, [])
    | (Some (ERaw _), r :: _) => let! (s, e) := win_decode E r s in Ret s (Some e, [r])
    | (r, _) => Ret s (r, [])
    end.

  (** [TerminalReadGuard::read_raw], windows/terminal.rs:469-495, with room for [len]
      code units; also the units read. *)
  Definition win_read_raw_r (len : nat) (timeout : option duration) (s : wsys)
      : wsres (option event * list N) :=
    let! (s, ready) := win_wait_event_r timeout s in
    if negb ready then Ret s (None, [])
    else match win_take_signal s with
         | (s, Some sig) => Ret s (Some (ESignal sig), [])
         | (s, None) =>
             let s := wadvance s in
             let room := N.to_nat (to_dword len) in
             let! (s, us) := read_console (S (length (w_queue s) + length (w_time s))) room s in
             match us with
             | [] => Ret s (None, [])
             | _ => Ret s (Some (ERaw (length us)), us)
             end
         end.
End RelReader.

Section RelWinScreen.
  Variables (draw : list N -> N -> view -> view) (E : env).

  (** The loop of [refresh], windows/screen.rs:222-230; [fuel] is the number of cells
      left. *)
  Fixpoint gs_draw_r (fuel : nat) (lo hi : nat) (at_ : attrs) (s : wscr) : gres unit :=
    match next_cell E (g_sb s) lo hi with
    | Boom => Panic
    | Val (b, lo', None) => Ret (with_gsb b s) tt
    | Val (b, lo', Some (pos, cell)) =>
        let! (s, _u) := gs_move_cursor pos (with_gsb b s) in
        let! (s, _u) := gs_apply_attrs at_ (cattrs cell) s in
        let! (s, _u) := on_term (on_wins (win_write_str draw (ctext cell))) s in
        match wadd (umax E) (column (g_real s)) 1 with
        | Boom => Panic
        | Val c =>
            let s := with_greal (Cursor (line (g_real s)) c) s in
            match fuel with
            | O => Panic
            | S fuel => gs_draw_r fuel lo' hi (cattrs cell) s
            end
        end
    end.

  (** [ScreenWriteGuard::refresh], windows/screen.rs:210-243. *)
  Definition win_refresh_r (s : wscr) : gres unit :=
    let! (s, _u) := if g_clr s then
                      let! (s, _u) := on_term (on_wins (win_clear_screen_r (t_default (g_t s)))) s in
                      Ret (with_gclr false s) tt
                    else Ret s tt in
    let! (s, _u) := gs_clear_attributes s in
    match sb_indices E (g_sb s) with
    | Boom => Panic
    | Val (lo, hi) =>
        let! (s, _u) := gs_draw_r (hi - lo) lo hi no_attrs s in
        let! (s, _u) := gs_clear_attributes s in
        if is_out_of_bounds (bcur (g_sb s)) (bsize (g_sb s)) then
          match cursor_last_r (umax E) (bsize (g_sb s)) with
          | Boom => Panic
          | Val p => gs_move_cursor p s
          end
        else gs_move_cursor (bcur (g_sb s)) s
    end.

  Definition gs_read_event_r (timeout : option duration) (s : wscr) : gres (option event * list record) :=
    let! (s, r) := on_term (on_reader (win_read_event_r E timeout)) s in
    follow_resize E r s.

  Definition gs_read_raw_r (len : nat) (timeout : option duration) (s : wscr) : gres (option event * list N) :=
    let! (s, r) := on_term (on_reader (win_read_raw_r len timeout)) s in
    follow_resize E r s.

  Definition gs_read_raw_event_r (len : nat) (timeout : option duration) (s : wscr)
      : gres (option event * list record) :=
    let! (s, r) := on_term (on_reader (win_read_raw_event_r len timeout)) s in
    match fst r with
    | Some (ERaw n) =>
        match find_size E (rev (firstn n (snd r))) with
        | Some z => let! (s, _u) := win_update_size E z s in Ret s r
        | None => Ret s r
        end
    | _ => Ret s r
    end.

  (** What a program can do with a screen (see [run_wsop] in M_WinScreen.v). *)
  Definition run_wsop_r (o : wsop) (s : wscr) : gres unit :=
    match o with
    | SBuffer o => match run_buf_op_r E (g_sb s) o with Val b => Ret (with_gsb b s) tt | Boom => Panic end
    | SRefresh => win_refresh_r s
    | SCursorMode m => on_term (on_wins (win_set_cursor_mode m)) s
    | SWait timeout => drop_answer (on_term (on_reader (win_wait_event_r timeout)) s)
    | SReadEvent timeout => drop_answer (gs_read_event_r timeout s)
    | SReadRaw len timeout => drop_answer (gs_read_raw_r len timeout s)
    | SReadRawEvent len timeout => drop_answer (gs_read_raw_event_r len timeout s)
    end.
End RelWinScreen.
