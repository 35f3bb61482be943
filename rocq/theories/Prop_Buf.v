(** Property theorems for the screen buffer (C13-C22). *)
From Verif Require Import Base M_Geom S_Geom M_Attr M_Buf S_Buf P_Buf P_Buf2 P_Buf3.

(** C13: on screens of at least two columns no history panics, and the buffer
    stays well formed ([run .. = Val b] means: did not panic). *)
Theorem C13_history_never_panics :
  forall E sz ops, env_ok E -> good_size (umax E) 2 sz ->
    Forall (op_size_ok (umax E) 2) ops -> lines_fit (umax E) sz ops ->
    exists b, buf_history E sz ops = Val b /\
      length (buffer b) = lines (bsize b) * columns (bsize b) /\
      Forall (fun c => ctext c <> []) (buffer b).
Proof. exact history_never_panics. Qed.
Print Assumptions C13_history_never_panics.

Example C13_example :
  let E := demo_env 1000 in
  let ops := [BSetFg (Some Red); BWriteStr [97; 0xFF21; 9; 10; 98; 769]%N; BSetCursor (Cursor 7 3);
              BWriteChar 0xFF22%N; BResize (Size 2 2); BWriteAt (Cursor 1 1) [0xFF23]%N; BNextLine 4] in
  env_ok E /\ good_size (umax E) 2 (Size 3 4) /\ Forall (op_size_ok (umax E) 2) ops /\
  lines_fit (umax E) (Size 3 4) ops.
Proof.
  cbv zeta. split; [apply demo_env_ok|]. split; [unfold good_size, total; simpl; lia|]. split.
  - repeat constructor; unfold good_size, total; simpl; lia.
  - intros l. simpl. intuition (subst; lia).
Qed.

(** C14 (does not hold): one-column screens panic on wide characters, resizing to
    zero columns panics, and a combining mark on a zero-column screen panics. *)
Theorem C14_one_column_wide_refuted :
  exists E sz ops, env_ok E /\ good_size (umax E) 1 sz /\ Forall (op_size_ok (umax E) 1) ops /\
    lines_fit (umax E) sz ops /\ buf_history E sz ops = Boom.
Proof. exact one_column_panics. Qed.
Print Assumptions C14_one_column_wide_refuted.

Theorem C14_resize_to_zero_columns_refuted :
  exists E sz n, env_ok E /\ good_size (umax E) 2 sz /\
    buf_history E sz [BResize (Size n 0)] = Boom.
Proof. exact zero_columns_panics. Qed.
Print Assumptions C14_resize_to_zero_columns_refuted.

Theorem C14_mark_on_zero_columns_refuted :
  exists E sz s, env_ok E /\ total sz <= umax E /\ buf_history E sz [BWriteStr s] = Boom.
Proof. exact zero_columns_mark_panics. Qed.
Print Assumptions C14_mark_on_zero_columns_refuted.

(** C14, what holds: without double-width characters one column is enough. *)
Theorem C14_narrow_any_width_partial :
  forall E sz ops, env_ok E -> good_size (umax E) 1 sz ->
    Forall (op_size_ok (umax E) 1) ops -> Forall (fun o => no_wide E (op_text o)) ops ->
    lines_fit (umax E) sz ops ->
    exists b, buf_history E sz ops = Val b /\
      length (buffer b) = lines (bsize b) * columns (bsize b) /\
      Forall (fun c => ctext c <> []) (buffer b).
Proof. exact history_narrow_never_panics. Qed.
Print Assumptions C14_narrow_any_width_partial.

(** C15: single-width text is laid out row-major from the cursor, with the
    current attributes, and nothing else changes. *)
Theorem C15_text_layout :
  forall E s b, env_ok E -> buf_ok E b -> in_bounds (bcur b) (bsize b) -> Forall (narrow E) s ->
  let sz := bsize b in
  let i := cell_no sz (bcur b) in
  let n := Nat.min (length s) (total sz - i) in
  exists b',
    write_str E b s = (if length s <=? total sz - i then Ret b' tt else Fail b' tt) /\
    bsize b' = sz /\ back b' = back b /\ battrs b' = battrs b /\
    buf_ok E b' /\
    bcur b' = cell_pos sz (i + n) /\
    (forall k c, k < n -> nth_error s k = Some c -> cell_at b' (i + k) = Some (Cell (battrs b) [c])) /\
    (forall j, j < i \/ i + n <= j ->
       cell_at b' j = if (S j =? i) && negb (length s =? 0) && wide_at E b j then Some blank else cell_at b j).
Proof. exact (fun E s b HE Hb => layout E s HE b Hb). Qed.
Print Assumptions C15_text_layout.

(** The states C15-C19 speak of are the ones histories reach. *)
Theorem C15_states_reachable :
  forall E sz ops, env_ok E -> good_size (umax E) 2 sz ->
    Forall (op_size_ok (umax E) 2) ops -> lines_fit (umax E) sz ops ->
    exists b, buf_history E sz ops = Val b /\ buf_ok E b /\ 2 <= columns (bsize b).
Proof. exact histories_buf_ok. Qed.
Print Assumptions C15_states_reachable.

Example C15_example :
  let E := demo_env 1000 in
  exists b, buf_history E (Size 2 3) [BWriteStr [97; 98]%N] = Val b /\ buf_ok E b /\
    in_bounds (bcur b) (bsize b) /\ Forall (narrow E) [120; 121]%N /\
    match write_str E b [120; 121]%N with
    | Ret b' _ => map ctext (buffer b') = [[97]; [98]; [120]; [121]; [32]; [32]]%N /\ bcur b' = Cursor 1 1
    | _ => False
    end.
Proof. exact layout_example. Qed.

(** C16: after any history every cell holds one printable character followed by
    combining marks only; in particular no control character. *)
Theorem C16_cells_hold_no_control :
  forall E sz ops, env_ok E -> good_size (umax E) 2 sz ->
    Forall (op_size_ok (umax E) 2) ops -> lines_fit (umax E) sz ops ->
    exists b, buf_history E sz ops = Val b /\
      Forall (fun c => cell_text_ok E (ctext c)) (buffer b) /\
      (forall cell ch, In cell (buffer b) -> In ch (ctext cell) -> ~ is_control ch).
Proof. exact history_no_control. Qed.
Print Assumptions C16_cells_hold_no_control.

(** C16: a character that is neither printable, nor a mark, nor tab/CR/LF is
    ignored altogether; this includes every other control character. *)
Theorem C16_other_characters_ignored :
  forall E b c, env_ok E -> c <> TAB -> c <> CR -> c <> LF ->
    (is_control c -> write_char E b c = Ret b tt) /\
    (combining E c = false -> ~ printable E c -> write_char E b c = Ret b tt).
Proof. exact (fun E b c HE H1 H2 H3 => conj (fun H => control_ignored E b c HE H H1 H2 H3)
                (fun H H' => invisible_ignored E b c HE H1 H2 H3 H H')). Qed.
Print Assumptions C16_other_characters_ignored.

Example C16_example :
  let E := demo_env 1000 in
  env_ok E /\ is_control 27%N /\
  match sb_new E (Size 1 4) with
  | Val b => match write_str E b [27; 91; 51; 49; 109]%N with
             | Ret b' _ => map ctext (buffer b') = [[91]; [51]; [49]; [109]]%N
             | _ => False
             end
  | Boom => False
  end.
Proof. cbv zeta. split; [apply demo_env_ok|]. split; [unfold is_control; lia|]. vm_compute. reflexivity. Qed.

(** C17: carriage return and line feed only move the cursor. *)
Theorem C17_cr_lf :
  forall E b,
    write_char E b CR = Ret (SBuf (buffer b) (back b) (bsize b) (Cursor (line (bcur b)) 0) (battrs b)) tt /\
    (line (bcur b) < umax E ->
     write_char E b LF = Ret (SBuf (buffer b) (back b) (bsize b) (Cursor (S (line (bcur b))) 0) (battrs b)) tt).
Proof. exact cr_lf. Qed.
Print Assumptions C17_cr_lf.

(** C17: tab writes spaces up to the next tab stop or the end of the line. *)
Theorem C17_tab :
  forall E b, env_ok E -> buf_ok E b -> in_bounds (bcur b) (bsize b) ->
  let sz := bsize b in
  let l := line (bcur b) in
  let t := tab_target sz (column (bcur b)) in
  exists b',
    write_char E b TAB = Ret b' tt /\
    bsize b' = sz /\ back b' = back b /\ battrs b' = battrs b /\
    column (bcur b) < t /\
    bcur b' = (if t <? columns sz then Cursor l t else Cursor (l + 1) 0) /\
    (forall c, column (bcur b) <= c < t ->
       cell_at b' (cell_no sz (Cursor l c)) = Some (Cell (battrs b) [SPACE])) /\
    (forall j, j < cell_no sz (bcur b) \/ cell_no sz (Cursor l t) <= j ->
       cell_at b' j = if (S j =? cell_no sz (bcur b)) && wide_at E b j then Some blank else cell_at b j).
Proof. exact tab_layout. Qed.
Print Assumptions C17_tab.

Example C17_example :
  let E := demo_env 1000 in
  exists b, buf_history E (Size 2 10) [BWriteStr [120; 120; 120]%N] = Val b /\ buf_ok E b /\
    in_bounds (bcur b) (bsize b) /\ tab_target (bsize b) (column (bcur b)) = 8 /\
    match write_char E b TAB with Ret b' _ => bcur b' = Cursor 0 8 | _ => False end.
Proof. exact tab_example. Qed.

(** C18, what holds: marks attach to the cell before the cursor; in particular a
    single-width character followed by marks ends up, with them, in one cell. *)
Theorem C18_mark_attaches_to_previous_cell_partial :
  forall E b m j, buf_ok E b -> mark E m -> column (bcur b) < columns (bsize b) ->
  cell_no (bsize b) (bcur b) = S j -> j < total (bsize b) ->
  exists c b', cell_at b j = Some c /\ write_char E b m = Ret b' tt /\
    bsize b' = bsize b /\ back b' = back b /\ battrs b' = battrs b /\ bcur b' = bcur b /\
    cell_at b' j = Some (Cell (cattrs c) (ctext c ++ [m])) /\
    (forall k, k <> j -> cell_at b' k = cell_at b k).
Proof. exact mark_layout. Qed.
Print Assumptions C18_mark_attaches_to_previous_cell_partial.

Theorem C18_narrow_character_with_marks_partial :
  forall E b ch ms, env_ok E -> buf_ok E b -> in_bounds (bcur b) (bsize b) ->
  narrow E ch -> Forall (mark E) ms ->
  exists b', write_str E b (ch :: ms) = Ret b' tt /\
    cell_at b' (cell_no (bsize b) (bcur b)) = Some (Cell (battrs b) (ch :: ms)) /\
    bcur b' = cell_pos (bsize b) (S (cell_no (bsize b) (bcur b))).
Proof. exact char_with_marks. Qed.
Print Assumptions C18_narrow_character_with_marks_partial.

Theorem C18_mark_at_origin_ignored :
  forall E b m, mark E m -> bcur b = Cursor 0 0 -> write_char E b m = Ret b tt.
Proof. exact mark_origin. Qed.
Print Assumptions C18_mark_at_origin_ignored.

(** C18 does not hold after a double-width character: the mark goes to the
    filler cell and the character itself is unchanged. *)
Theorem C18_mark_after_wide_refuted :
  forall E b ch m, env_ok E -> buf_ok E b -> in_bounds (bcur b) (bsize b) -> wide E ch -> mark E m ->
    column (bcur b) + 2 <= columns (bsize b) ->
    exists b', write_str E b [ch; m] = Ret b' tt /\
      cell_at b' (cell_no (bsize b) (bcur b)) = Some (Cell (battrs b) [ch]) /\
      cell_at b' (S (cell_no (bsize b) (bcur b))) = Some (Cell (battrs b) [SPACE; m]).
Proof. exact mark_after_wide. Qed.
Print Assumptions C18_mark_after_wide_refuted.

Example C18_example :
  let E := demo_env 1000 in
  exists b, buf_history E (Size 1 4) [] = Val b /\ buf_ok E b /\ in_bounds (bcur b) (bsize b) /\
    wide E 0xFF21%N /\ mark E 769%N /\ narrow E 97%N /\ column (bcur b) + 2 <= columns (bsize b).
Proof. exact mark_example. Qed.

(** C19: a double-width character that fits takes two cells. *)
Theorem C19_wide_that_fits :
  forall E b ch, buf_ok E b -> in_bounds (bcur b) (bsize b) -> wide E ch ->
  column (bcur b) + 2 <= columns (bsize b) ->
  let i := cell_no (bsize b) (bcur b) in
  exists b', write_char E b ch = Ret b' tt /\
    bsize b' = bsize b /\ back b' = back b /\ battrs b' = battrs b /\
    bcur b' = cell_pos (bsize b) (i + 2) /\
    cell_at b' i = Some (Cell (battrs b) [ch]) /\
    cell_at b' (S i) = Some (Cell (battrs b) [SPACE]) /\
    (forall j, j < i \/ i + 2 <= j ->
       cell_at b' j = if (S j =? i) && wide_at E b j then Some blank else cell_at b j).
Proof. exact wide_fits. Qed.
Print Assumptions C19_wide_that_fits.

(** C19 does not hold in the last column: the character is written there too
    (not a space), for every screen, state and wide character; it is written
    again at the start of the next line. *)
Theorem C19_wide_in_last_column_refuted :
  forall E b ch, buf_ok E b -> in_bounds (bcur b) (bsize b) -> wide E ch ->
  2 <= columns (bsize b) -> column (bcur b) + 1 = columns (bsize b) ->
  let i := cell_no (bsize b) (bcur b) in
  exists b', write_char E b ch = (if line (bcur b) + 1 <? lines (bsize b) then Ret b' tt else Fail b' tt) /\
    bsize b' = bsize b /\ back b' = back b /\ battrs b' = battrs b /\
    cell_at b' i = Some (Cell (battrs b) [ch]) /\
    (line (bcur b) + 1 < lines (bsize b) ->
       cell_at b' (S i) = Some (Cell (battrs b) [ch]) /\
       cell_at b' (S (S i)) = Some (Cell (battrs b) [SPACE]) /\
       bcur b' = cell_pos (bsize b) (i + 3)) /\
    (lines (bsize b) <= line (bcur b) + 1 ->
       bcur b' = Cursor (line (bcur b) + 1) 0) /\
    (forall j, j < i \/ i + (if line (bcur b) + 1 <? lines (bsize b) then 3 else 1) <= j ->
       cell_at b' j = if (S j =? i) && wide_at E b j then Some blank else cell_at b j).
Proof. exact wide_last_column. Qed.
Print Assumptions C19_wide_in_last_column_refuted.

Example C19_example :
  let E := demo_env 1000 in
  exists b, buf_history E (Size 2 3) [BWriteStr [97; 98]%N] = Val b /\ buf_ok E b /\
    in_bounds (bcur b) (bsize b) /\ wide E 0xFF21%N /\ column (bcur b) + 1 = columns (bsize b) /\
    match write_char E b 0xFF21%N with
    | Ret b' _ => map ctext (buffer b') = [[97]; [98]; [0xFF21]; [0xFF21]; [32]; [32]]%N
    | _ => False
    end.
Proof. exact wide_example. Qed.

(** C20: resize keeps the overlap, blanks the rest, keeps cursor and attributes,
    and forgets everything it knew about the terminal (every cell of the back
    buffer differs from the buffer, so the next refresh redraws it). *)
Theorem C20_resize :
  forall E b new, buf_ok E b -> 1 <= columns new -> total new <= umax E ->
  exists b', sb_resize E b new = Val b' /\
    bsize b' = new /\ bcur b' = bcur b /\ battrs b' = battrs b /\
    (forall p, in_bounds p new -> in_bounds p (bsize b) ->
       cell_at b' (cell_no new p) = cell_at b (cell_no (bsize b) p)) /\
    (forall p, in_bounds p new -> ~ in_bounds p (bsize b) ->
       cell_at b' (cell_no new p) = Some (Cell no_attrs [SPACE])) /\
    length (buffer b') = total new /\ length (back b') = total new /\
    (forall j c, cell_at b' j = Some c -> nth_error (back b') j <> Some c).
Proof. exact resize_theorem. Qed.
Print Assumptions C20_resize.

Example C20_example :
  let E := demo_env 1000 in
  exists b, buf_history E (Size 2 3) [BWriteStr [97; 98; 99; 100; 101; 102]%N] = Val b /\ buf_ok E b /\
    match sb_resize E b (Size 3 2) with
    | Val b' => map ctext (buffer b') = [[97]; [98]; [100]; [101]; [32]; [32]]%N
    | Boom => False
    end.
Proof. exact resize_example. Qed.

(** C21: writes outside the screen change nothing at all. *)
Theorem C21_out_of_bounds_text :
  forall E b ch s, printable E ch \/ ch = TAB -> ~ in_bounds (bcur b) (bsize b) ->
    run_buf_op E b (BWriteChar ch) = Val b /\ run_buf_op E b (BWriteStr (ch :: s)) = Val b.
Proof. exact oob_text. Qed.
Print Assumptions C21_out_of_bounds_text.

Theorem C21_out_of_bounds_position :
  forall E b p a s, ~ in_bounds p (bsize b) ->
    run_buf_op E b (BWriteAt p s) = Val b /\ run_buf_op E b (BWriteStyledAt p a s) = Val b.
Proof. exact oob_position. Qed.
Print Assumptions C21_out_of_bounds_position.

Example C21_example :
  let E := demo_env 1000 in
  exists b, buf_history E (Size 1 2) [BWriteStr [97; 98]%N] = Val b /\
    ~ in_bounds (bcur b) (bsize b) /\ printable E 99%N /\ ~ in_bounds (Cursor 0 2) (bsize b).
Proof. exact oob_example. Qed.

(** C22, what holds: when the text fits, no attribute is left. *)
Theorem C22_write_styled_resets_partial :
  forall E b p a s b',
    (write_styled E b a s = Ret b' tt -> battrs b' = no_attrs) /\
    (write_styled_at E b p a s = Ret b' tt -> battrs b' = no_attrs).
Proof. exact (fun E b p a s b' => conj (write_styled_ok E b a s b') (write_styled_at_ok E b p a s b')). Qed.
Print Assumptions C22_write_styled_resets_partial.

(** C22, completed for single-width text that fits on the screen. *)
Theorem C22_fitting_text_resets_partial :
  forall E b a s, env_ok E -> buf_ok E b -> in_bounds (bcur b) (bsize b) -> Forall (narrow E) s ->
    cell_no (bsize b) (bcur b) + length s <= total (bsize b) ->
    exists b', run_buf_op E b (BWriteStyled a s) = Val b' /\ battrs b' = no_attrs.
Proof. exact styled_fits. Qed.
Print Assumptions C22_fitting_text_resets_partial.

(** C22 does not hold: text running off the screen leaves its attributes set, and
    they colour whatever is written next. *)
Theorem C22_overflow_keeps_attributes_refuted :
  forall E b a s, env_ok E -> buf_ok E b -> in_bounds (bcur b) (bsize b) -> Forall (narrow E) s ->
    total (bsize b) < cell_no (bsize b) (bcur b) + length s ->
    exists b', run_buf_op E b (BWriteStyled a s) = Val b' /\ battrs b' = a.
Proof. exact styled_overflows. Qed.
Print Assumptions C22_overflow_keeps_attributes_refuted.

Example C22_example :
  let E := demo_env 1000 in
  exists b, buf_history E (Size 1 2) [] = Val b /\ buf_ok E b /\ in_bounds (bcur b) (bsize b) /\
    Forall (narrow E) [97; 98; 99]%N /\
    total (bsize b) < cell_no (bsize b) (bcur b) + length [97; 98; 99]%N /\
    buf_history E (Size 1 2)
      [BWriteStyled (Attrs (Some Red) None 0%N) [97; 98; 99]%N; BSetCursor (Cursor 0 0); BWriteChar 100%N] =
    Val (SBuf [Cell (Attrs (Some Red) None 0%N) [100]%N; Cell (Attrs (Some Red) None 0%N) [98]%N]
              [blank; blank] (Size 1 2) (Cursor 0 1) (Attrs (Some Red) None 0%N)).
Proof. exact styled_example. Qed.
