(** Model of the output half of the Windows terminal
    (/repo/src/windows/terminal.rs): attributes, text, erasing, moving the cursor.

    The console calls are specified here after their documentation.  Drawing text on
    the console ([WriteConsoleW]) is a parameter.  [SHORT] and [COORD] values are
    [Z]; words and characters are [N]; an arithmetic overflow is a panic (debug
    builds).  Locking is not modelled here (see M_Locks.v: the structure is the
    same). *)
From Verif Require Import Base M_Geom M_Attr M_Buf M_Writer.

(** [wincon] colour bits. *)
Definition FOREGROUND_BLUE : N := 0x1.
Definition FOREGROUND_GREEN : N := 0x2.
Definition FOREGROUND_RED : N := 0x4.
Definition FOREGROUND_INTENSITY : N := 0x8.
Definition BACKGROUND_BLUE : N := 0x10.
Definition BACKGROUND_GREEN : N := 0x20.
Definition BACKGROUND_RED : N := 0x40.

(** [fg_code], windows/terminal.rs:945-956. *)
Definition win_fg_code (c : color) : N :=
  match c with
  | Black => 0
  | Blue => FOREGROUND_BLUE
  | Cyan => N.lor FOREGROUND_BLUE FOREGROUND_GREEN
  | Green => FOREGROUND_GREEN
  | Magenta => N.lor FOREGROUND_BLUE FOREGROUND_RED
  | Red => FOREGROUND_RED
  | White => N.lor (N.lor FOREGROUND_RED FOREGROUND_GREEN) FOREGROUND_BLUE
  | Yellow => N.lor FOREGROUND_RED FOREGROUND_GREEN
  end.

(** [bg_code], windows/terminal.rs:958-969. *)
Definition win_bg_code (c : color) : N :=
  match c with
  | Black => 0
  | Blue => BACKGROUND_BLUE
  | Cyan => N.lor BACKGROUND_BLUE BACKGROUND_GREEN
  | Green => BACKGROUND_GREEN
  | Magenta => N.lor BACKGROUND_BLUE BACKGROUND_RED
  | Red => BACKGROUND_RED
  | White => N.lor (N.lor BACKGROUND_RED BACKGROUND_GREEN) BACKGROUND_BLUE
  | Yellow => N.lor BACKGROUND_RED BACKGROUND_GREEN
  end.

(** [style_code], windows/terminal.rs:971-980. *)
Definition win_style_code (s : style) : N :=
  if style_contains s BOLD then N.lor 0 FOREGROUND_INTENSITY else 0%N.

(** [u16::trailing_zeros]. *)
Fixpoint pos_trailing_zeros (p : positive) : N :=
  match p with
  | xO p => N.succ (pos_trailing_zeros p)
  | _ => 0
  end.
Definition trailing_zeros16 (n : N) : N :=
  match n with N0 => 16 | Npos p => pos_trailing_zeros p end.

(** Complement and shift of 16 bits. *)
Definition not16 (n : N) : N := N.lxor n 0xffff.
Definition shl16 (n k : N) : N := (N.shiftl n k mod 65536)%N.

(** [swap_colors], windows/terminal.rs:982-997. *)
Definition win_swap_colors (code : N) : N :=
  let fg_mask := win_fg_code White in
  let bg_mask := win_bg_code White in
  let shift := (trailing_zeros16 bg_mask - trailing_zeros16 fg_mask)%N in
  let f := N.land code fg_mask in
  let b := N.land code bg_mask in
  let swapped_fg := shl16 f shift in
  let swapped_bg := N.shiftr b shift in
  N.lor (N.lor (N.land code (not16 (N.lor fg_mask bg_mask))) swapped_fg) swapped_bg.

(** The word computed by [update_attrs], windows/terminal.rs:821-840. *)
Definition win_word (default : N) (a : attrs) : N :=
  let w := default in
  let w := match fg a with
           | Some c => N.lor (N.land w (not16 (win_fg_code White))) (win_fg_code c)
           | None => w
           end in
  let w := match bg a with
           | Some c => N.lor (N.land w (not16 (win_bg_code White))) (win_bg_code c)
           | None => w
           end in
  let w := N.lor w (win_style_code (sty a)) in
  if style_contains (sty a) REVERSE then win_swap_colors w else w.

(** ** The console *)

Record coord : Type := Coord { cX : Z; cY : Z }.
Record rect : Type := Rect { rTop : Z; rBottom : Z; rLeft : Z; rRight : Z }.

(** A screen buffer: size, cursor, visible window, and at each line and column a
    character and its attributes. *)
Record view : Type := View {
  v_size : coord;
  v_cur : coord;
  v_win : rect;
  v_cell : Z -> Z -> N * N
}.

(** Answers of the console to the calls: failure, or success ([n]: how many code units
    [WriteConsoleW] takes at most).  When the list ends, calls succeed and take
    everything. *)
Inductive cans : Type := CFail (e : N) | CTake (n : nat).

(** The console: the buffer, attributes for text to come, all text received so far
    with its attributes (a ghost), the cursor's size and visibility, and the answers
    to come. *)
Record con : Type := Con {
  c_view : view;
  c_attr : N;
  c_text : list (N * N);
  c_cursor : N * bool;
  c_answers : list cans
}.

(** Error for invalid parameters. *)
Definition ERROR_INVALID_PARAMETER : N := 87.

(** What the terminal keeps: [Writer] (windows/terminal.rs:112-117) and the console. *)
Record wins : Type := Wins { w_at : attrs; w_con : con }.
Definition with_at (a : attrs) (s : wins) : wins := Wins a (w_con s).
Definition with_con (c : con) (s : wins) : wins := Wins (w_at s) c.

Definition winres (A : Type) : Type := out wins N A.

Definition with_answers (l : list cans) (c : con) : con :=
  Con (c_view c) (c_attr c) (c_text c) (c_cursor c) l.
Definition with_view (v : view) (c : con) : con :=
  Con v (c_attr c) (c_text c) (c_cursor c) (c_answers c).

(** A console call with [result_bool] (windows/terminal.rs:1251-1257): it fails if the
    console says so or the parameters are invalid. *)
Definition ask {A} (valid : bool) (f : option nat -> con -> con * A) (s : wins) : winres A :=
  let c := w_con s in
  match c_answers c with
  | CFail e :: l => Fail (with_con (with_answers l c) s) e
  | CTake n :: l =>
      let c := with_answers l c in
      if valid then let '(c, a) := f (Some n) c in Ret (with_con c s) a
      else Fail (with_con c s) ERROR_INVALID_PARAMETER
  | [] => if valid then let '(c, a) := f None c in Ret (with_con c s) a
          else Fail s ERROR_INVALID_PARAMETER
  end.

Definition on_view (f : view -> view) (_n : option nat) (c : con) : con * unit :=
  (with_view (f (c_view c)) c, tt).

(** [GetConsoleScreenBufferInfo] *)
Definition get_info (s : wins) : winres view := ask true (fun _ c => (c, c_view c)) s.

(** [SetConsoleTextAttribute] ([set_attrs], windows/terminal.rs:916-919) *)
Definition set_console_attr (w : N) (s : wins) : winres unit :=
  ask true (fun _ c => (Con (c_view c) w (c_text c) (c_cursor c) (c_answers c), tt)) s.

(** [SetConsoleCursorInfo] *)
Definition set_cursor_info (i : N * bool) (s : wins) : winres unit :=
  ask true (fun _ c => (Con (c_view c) (c_attr c) (c_text c) i (c_answers c), tt)) s.

Definition in_buffer (v : view) (p : coord) : bool :=
  (0 <=? cX p)%Z && (cX p <? cX (v_size v))%Z && (0 <=? cY p)%Z && (cY p <? cY (v_size v))%Z.

(** [SetConsoleCursorPosition]: the position must be within the screen buffer; if it is
    not visible, the window moves as far as needed to show it. *)
Definition to_show (p lo hi : Z) : Z :=
  if (p <? lo)%Z then (p - lo)%Z else if (hi <? p)%Z then (p - hi)%Z else 0%Z.
Definition reveal (p : coord) (w : rect) : rect :=
  let dy := to_show (cY p) (rTop w) (rBottom w) in
  let dx := to_show (cX p) (rLeft w) (rRight w) in
  Rect (rTop w + dy) (rBottom w + dy) (rLeft w + dx) (rRight w + dx).
Definition set_cursor_position (p : coord) (s : wins) : winres unit :=
  ask (in_buffer (c_view (w_con s)) p)
    (on_view (fun v => View (v_size v) p (reveal p (v_win v)) (v_cell v))) s.

(** [SetConsoleWindowInfo] with absolute coordinates: the window must lie within the
    buffer. *)
Definition set_window (r : rect) (s : wins) : winres unit :=
  ask (in_buffer (c_view (w_con s)) (Coord (rLeft r) (rTop r)) &&
       in_buffer (c_view (w_con s)) (Coord (rRight r) (rBottom r)))
    (on_view (fun v => View (v_size v) (v_cur v) r (v_cell v))) s.

(** [FillConsoleOutputAttribute], [FillConsoleOutputCharacterA]: [n] cells from
    [start], going on at the next line, up to the end of the buffer. *)
Definition in_fill (v : view) (start : coord) (n : Z) (y x : Z) : bool :=
  let i := (y * cX (v_size v) + x)%Z in
  let i0 := (cY start * cX (v_size v) + cX start)%Z in
  (i0 <=? i)%Z && (i <? i0 + n)%Z.
Definition fill_attr (a : N) (n : Z) (start : coord) (s : wins) : winres unit :=
  ask (in_buffer (c_view (w_con s)) start)
    (on_view (fun v => View (v_size v) (v_cur v) (v_win v)
       (fun y x => if in_fill v start n y x then (fst (v_cell v y x), a) else v_cell v y x))) s.
Definition fill_char (ch : N) (n : Z) (start : coord) (s : wins) : winres unit :=
  ask (in_buffer (c_view (w_con s)) start)
    (on_view (fun v => View (v_size v) (v_cur v) (v_win v)
       (fun y x => if in_fill v start n y x then (ch, snd (v_cell v y x)) else v_cell v y x))) s.

(** [ScrollConsoleScreenBufferW] without clipping rectangle: the part of [src] within
    the buffer is moved so that the top left corner of [src] comes to [dest]; cells of
    it that are not overwritten get [fill]. *)
Definition in_rect (v : view) (r : rect) (y x : Z) : bool :=
  (rTop r <=? y)%Z && (y <=? rBottom r)%Z && (rLeft r <=? x)%Z && (x <=? rRight r)%Z &&
  in_buffer v (Coord x y).
Definition scroll (src : rect) (dest : coord) (fill : N * N) (s : wins) : winres unit :=
  ask true
    (on_view (fun v => View (v_size v) (v_cur v) (v_win v)
       (fun y x =>
          let y' := (y - cY dest + rTop src)%Z in
          let x' := (x - cX dest + rLeft src)%Z in
          if in_rect v src y' x' && in_buffer v (Coord x y) then v_cell v y' x'
          else if in_rect v src y x then fill
          else v_cell v y x))) s.

(** ** The methods of [TerminalWriteGuard] *)

Section WinWriter.
  (** What drawing text (code units, attributes) does to the buffer and its cursor. *)
  Variable draw : list N -> N -> view -> view.
  (** [Terminal::default_attrs] (windows/terminal.rs:87), [usize::MAX] *)
  Variables (default : N) (E : env).

  (** [WriteConsoleW]: takes some of the units, answers how many. *)
  Definition write_console (units : list N) (s : wins) : winres nat :=
    ask true (fun n c =>
      let k := match n with Some n => Nat.min n (length units) | None => length units end in
      let taken := firstn k units in
      (Con (draw taken (c_attr c) (c_view c)) (c_attr c)
           (c_text c ++ map (fun u => (u, c_attr c)) taken) (c_cursor c) (c_answers c), k)) s.

  (** [update_attrs], windows/terminal.rs:821-841. *)
  Definition win_update_attrs (s : wins) : winres unit :=
    set_console_attr (win_word default (w_at s)) s.

  (** windows/terminal.rs:757-819; the fields change before the call. *)
  Definition win_add_style (st : style) (s : wins) : winres unit :=
    let add := style_minus st (sty (w_at s)) in
    if style_is_empty add then Ret s tt
    else win_update_attrs (with_at (Attrs (fg (w_at s)) (bg (w_at s)) (style_union (sty (w_at s)) add)) s).
  Definition win_remove_style (st : style) (s : wins) : winres unit :=
    let remove := style_inter st (sty (w_at s)) in
    if style_is_empty remove then Ret s tt
    else win_update_attrs (with_at (Attrs (fg (w_at s)) (bg (w_at s)) (style_minus (sty (w_at s)) remove)) s).
  Definition win_set_style (st : style) (s : wins) : winres unit :=
    if N.eqb (sty (w_at s)) st then Ret s tt
    else win_update_attrs (with_at (Attrs (fg (w_at s)) (bg (w_at s)) st) s).
  Definition win_set_fg (c : option color) (s : wins) : winres unit :=
    if ocolor_eqb (fg (w_at s)) c then Ret s tt
    else win_update_attrs (with_at (Attrs c (bg (w_at s)) (sty (w_at s))) s).
  Definition win_set_bg (c : option color) (s : wins) : winres unit :=
    if ocolor_eqb (bg (w_at s)) c then Ret s tt
    else win_update_attrs (with_at (Attrs (fg (w_at s)) c (sty (w_at s))) s).
  Definition win_set_attributes (a : attrs) (s : wins) : winres unit :=
    if negb (ocolor_eqb (fg (w_at s)) (fg a)) || negb (ocolor_eqb (bg (w_at s)) (bg a))
       || negb (N.eqb (sty (w_at s)) (sty a))
    then win_update_attrs (with_at a s) else Ret s tt.
  (** windows/terminal.rs:753-755 *)
  Definition win_clear_attributes : wins -> winres unit := win_set_attributes no_attrs.

  (** [OsStr::encode_wide] of a [&str]: UTF-16. *)
  Definition utf16_units (c : N) : list N :=
    if (c <? 0x10000)%N then [c]
    else [0xD800 + N.shiftr (c - 0x10000) 10; 0xDC00 + N.land (c - 0x10000) 0x3FF]%N.
  Definition encode_wide (s : list N) : list N := flat_map utf16_units s.

  (** [to_dword], windows/terminal.rs:1138-1144. *)
  Definition DWORD_MAX : N := 4294967295.
  Definition to_dword (n : nat) : N := N.min (N.of_nat n) DWORD_MAX.

  (** The loop of [write_str], windows/terminal.rs:848-867.  One round per answer of the
      console, and a last one when it takes everything; [Blocked]: the rounds are used
      up (this does not happen with enough of them). *)
  Fixpoint write_loop (rounds : nat) (buf : list N) (n : nat) (s : wins) : winres unit :=
    if n <? length buf then
      match rounds with
      | O => Blocked
      | S rounds =>
          let len := N.to_nat (to_dword (length buf - n)) in
          let! (s, k) := write_console (firstn len (skipn n buf)) s in
          write_loop rounds buf (n + k) s
      end
    else Ret s tt.
  Definition win_write_str (str : list N) (s : wins) : winres unit :=
    let buf := encode_wide str in
    write_loop (length (c_answers (w_con s)) + length buf + 1) buf 0 s.
  Definition win_write_char (c : N) : wins -> winres unit := win_write_str [c].
  (** windows/terminal.rs:869-875 *)
  Definition win_write_styled (a : attrs) (str : list N) (s : wins) : winres unit :=
    let! (s, _u) := win_set_attributes a s in
    let! (s, _u) := win_write_str str s in
    win_clear_attributes s.

  (** [clear_area], windows/terminal.rs:877-895. *)
  Definition clear_area (start : coord) (n : Z) (s : wins) : winres unit :=
    let! (s, _u) := fill_attr default n start s in
    fill_char SPACE n start s.

  (** Checked [SHORT] and [DWORD] arithmetic. *)
  Definition short {A} (z : Z) (k : Z -> winres A) : winres A :=
    if (-32768 <=? z)%Z && (z <=? 32767)%Z then k z else Panic.
  Definition dword {A} (z : Z) (k : Z -> winres A) : winres A :=
    if (0 <=? z)%Z && (z <=? 4294967295)%Z then k z else Panic.
  (** [as DWORD] *)
  Definition as_dword (z : Z) : Z := (z mod 4294967296)%Z.

  (** [move_abs], windows/terminal.rs:897-900. *)
  Definition move_abs (p : coord) (s : wins) : winres unit := set_cursor_position p s.

  (** [clear_to_line_end], windows/terminal.rs:690-697. *)
  Definition win_clear_to_line_end (s : wins) : winres unit :=
    let! (s, info) := get_info s in
    let start := v_cur info in
    let size := v_size info in
    short (cX size - cX start) (fun d => clear_area start (as_dword d) s).

  (** [clear_to_screen_end], windows/terminal.rs:699-711. *)
  Definition win_clear_to_screen_end (s : wins) : winres unit :=
    let! (s, info) := get_info s in
    let start := v_cur info in
    let size := v_size info in
    short (cY size - cY start) (fun lines =>
    short (cX size - cX start) (fun columns =>
    dword (as_dword lines * as_dword (cX size)) (fun m =>
    dword (m + as_dword columns) (fun n => clear_area start n s)))).

  (** The rest of [clear_screen], windows/terminal.rs:651-687: scrolling text away if
      need be, and moving the cursor to the origin of the window [w]. *)
  Definition clear_rest (info : view) (win_height : Z) (w : rect) (s : wins) : winres unit :=
    short (rBottom w - cY (v_cur info)) (fun clear =>
    let finish (s : wins) := move_abs (Coord (rLeft w) (rTop w)) s in
    if (clear <? win_height)%Z then
      short (win_height - clear) (fun dist =>
      let! (s, _u) := scroll (Rect dist (cY (v_cur info)) 0 (cX (v_size info))) (Coord 0 0)
                        (SPACE, 0%N) s in
      finish s)
    else finish s).

  (** [clear_screen], windows/terminal.rs:622-688. *)
  Definition win_clear_screen (s : wins) : winres unit :=
    let! (s, info) := get_info s in
    let w := v_win info in
    short (rBottom w - rTop w) (fun h => short (h + 1) (fun win_height =>
    if (win_height =? cY (v_size info))%Z then
      dword (as_dword (cX (v_size info)) * as_dword (cY (v_size info))) (fun n =>
      let! (s, _u) := clear_area (Coord 0 0) n s in
      move_abs (Coord (rLeft w) (rTop w)) s)
    else
      short (rBottom w + 1) (fun b1 => short (cY (v_size info) - b1) (fun max =>
      short (cY (v_cur info) + 1) (fun y1 => short (y1 - rTop w) (fun dist =>
      let down := Z.min dist max in
      if (0 <? down)%Z then
        short (rTop w + down) (fun t => short (rBottom w + down) (fun b =>
        let w := Rect t b (rLeft w) (rRight w) in
        let! (s, _u) := set_window w s in
        clear_rest info win_height w s))
      else clear_rest info win_height w s)))))).

  (** [to_short], [to_short_neg], windows/terminal.rs:1146-1166; [isize::MAX] is half
      of [usize::MAX]. *)
  Definition to_short (n : nat) : Z := Z.min (Z.of_nat n) 32767.
  Definition to_short_neg (n : nat) : Z :=
    let m := if umax E / 2 <? n then (- Z.of_nat (umax E / 2) - 1)%Z else (- Z.of_nat n)%Z in
    Z.max m (-32768).

  (** [SHORT::saturating_add] *)
  Definition sat_add (a b : Z) : Z := Z.max (-32768) (Z.min 32767 (a + b)).

  (** [move_rel], windows/terminal.rs:902-914. *)
  Definition move_rel (off : coord) (s : wins) : winres unit :=
    let! (s, info) := get_info s in
    short (cX (v_size info) - 1) (fun mx => short (cY (v_size info) - 1) (fun my =>
    move_abs (Coord (Z.min (sat_add (cX (v_cur info)) (cX off)) mx)
                    (Z.min (sat_add (cY (v_cur info)) (cY off)) my)) s)).

  (** windows/terminal.rs:713-736 *)
  Definition win_move_cursor (p : cursor) : wins -> winres unit :=
    move_abs (Coord (to_short (column p)) (to_short (line p))).
  Definition win_move_to_first_column (s : wins) : winres unit :=
    let! (s, info) := get_info s in
    move_abs (Coord 0 (cY (v_cur info))) s.
  Definition win_move_up (n : nat) : wins -> winres unit := move_rel (Coord 0 (to_short_neg n)).
  Definition win_move_down (n : nat) : wins -> winres unit := move_rel (Coord 0 (to_short n)).
  Definition win_move_left (n : nat) : wins -> winres unit := move_rel (Coord (to_short_neg n) 0).
  Definition win_move_right (n : nat) : wins -> winres unit := move_rel (Coord (to_short n) 0).

  (** [set_cursor_mode], windows/terminal.rs:738-751. *)
  Definition win_set_cursor_mode (m : cursor_mode) : wins -> winres unit :=
    set_cursor_info match m with
                    | CNormal => (25%N, true)
                    | CInvisible => (1%N, false)
                    | COverwrite => (100%N, true)
                    end.

  (** [size], windows/terminal.rs:614-616, 1019-1023, 1105-1110; [as usize] of a
      negative number wraps around. *)
  Definition as_usize (z : Z) : nat := Z.to_nat (z mod (Z.of_nat (umax E) + 1)).
  Definition win_size (s : wins) : winres size :=
    let! (s, info) := get_info s in
    Ret s (Size (as_usize (cY (v_size info))) (as_usize (cX (v_size info)))).

  (** The writing operations, with the names of M_Writer.v. *)
  Definition run_win (o : wop) : wins -> winres unit :=
    match o with
    | OSetFg c => win_set_fg c
    | OSetBg c => win_set_bg c
    | OAddStyle st => win_add_style st
    | ORemoveStyle st => win_remove_style st
    | OSetStyle st => win_set_style st
    | OSetAttrs a => win_set_attributes a
    | OClearAttributes => win_clear_attributes
    | OClearScreen => win_clear_screen
    | OClearToLineEnd => win_clear_to_line_end
    | OClearToScreenEnd => win_clear_to_screen_end
    | OMoveUp n => win_move_up n
    | OMoveDown n => win_move_down n
    | OMoveLeft n => win_move_left n
    | OMoveRight n => win_move_right n
    | OMoveToFirstColumn => win_move_to_first_column
    | OMoveCursor p => win_move_cursor p
    | OSetCursorMode m => win_set_cursor_mode m
    | OWriteChar c => win_write_char c
    | OWriteStr str => win_write_str str
    | OWriteStyled a str => win_write_styled a str
    | OFlush => fun s => Ret s tt          (* windows/terminal.rs:618-620 *)
    end.
End WinWriter.
