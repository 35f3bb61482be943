(** The geometry (/repo/src/terminal.rs) and the screen buffer (/repo/src/buffer.rs) in a
    build without overflow checks: the definitions of M_Geom.v and M_Buf.v in which
    [usize] arithmetic occurs, with arithmetic that wraps around. *)
From Verif Require Import Base M_Geom M_Attr M_Buf.

(** Arithmetic of [usize] in such a build. *)
Definition wadd (umax a b : nat) : pan nat := Val ((a + b) mod S umax).
Definition wsub (umax a b : nat) : pan nat := Val (if b <=? a then a - b else S umax + a - b).
Definition wmul (umax a b : nat) : pan nat := Val ((a * b) mod S umax).

(** [Cursor::next], terminal.rs:124-138. *)
Definition cursor_next_r (umax : nat) (c : cursor) (sz : size) : pan (option cursor) :=
  match wadd umax (column c) 1 with
  | Boom => Boom
  | Val col =>
      match (if columns sz <=? col then
               match wadd umax (line c) 1 with
               | Val l => Val (l, 0)
               | Boom => Boom
               end
             else Val (line c, col)) with
      | Boom => Boom
      | Val (l, col) =>
          if lines sz <=? l then Val None else Val (Some (Cursor l col))
      end
  end.

(** [Cursor::previous], terminal.rs:144-154. *)
Definition cursor_previous_r (umax : nat) (c : cursor) (sz : size) : pan (option cursor) :=
  if column c =? 0 then
    if line c =? 0 then Val None
    else match wsub umax (columns sz) 1 with
         | Val col => Val (Some (Cursor (line c - 1) col))
         | Boom => Boom
         end
  else Val (Some (Cursor (line c) (column c - 1))).

(** [Cursor::last], terminal.rs:167-172. *)
Definition cursor_last_r (umax : nat) (sz : size) : pan cursor :=
  match wsub umax (lines sz) 1 with
  | Boom => Boom
  | Val l => match wsub umax (columns sz) 1 with
             | Boom => Boom
             | Val c => Val (Cursor l c)
             end
  end.

(** [Cursor::as_index], terminal.rs:182-184. *)
Definition as_index_r (umax : nat) (c : cursor) (sz : size) : pan nat :=
  match wmul umax (line c) (columns sz) with
  | Boom => Boom
  | Val n => wadd umax n (column c)
  end.

(** [next_line], buffer.rs:61-64. *)
Definition sb_next_line_r (E : env) (b : sbuf) (col : nat) : pan sbuf :=
  match wadd (umax E) (line (bcur b)) 1 with
  | Boom => Boom
  | Val l => Val (with_cur b (Cursor l col))
  end.

(** [cell_mut], buffer.rs:140-143: read and write through the reference. *)
Definition get_cell_r (E : env) (b : sbuf) (p : cursor) : pan cell :=
  match as_index_r (umax E) p (bsize b) with
  | Boom => Boom
  | Val i => match nth_error (buffer b) i with Some c => Val c | None => Boom end
  end.

Definition put_cell_r (E : env) (b : sbuf) (p : cursor) (c : cell) : pan sbuf :=
  match as_index_r (umax E) p (bsize b) with
  | Boom => Boom
  | Val i => match vec_set i c (buffer b) with
             | Some l => Val (with_buffer b l)
             | None => Boom
             end
  end.

(** [set_cell], buffer.rs:145-156. *)
Definition set_cell_r (E : env) (b : sbuf) (p : cursor) (ch : N) : pan sbuf :=
  put_cell_r E b p (Cell (battrs b) [ch]).

(** buffer.rs:197-200: [for _ in 0..rem { set_cell(pos, ch); pos.column += 1 }]. *)
Fixpoint fill_cells_r (E : env) (n : nat) (b : sbuf) (p : cursor) (ch : N) : pan sbuf :=
  match n with
  | 0 => Val b
  | S k =>
      match set_cell_r E b p ch with
      | Boom => Boom
      | Val b =>
          match wadd (umax E) (column p) 1 with
          | Boom => Boom
          | Val c => fill_cells_r E k b (Cursor (line p) c) ch
          end
      end
  end.

(** buffer.rs:211-214: [for _ in 1..width { pos.column += 1; set_cell(pos, ' ') }]
    with [n = width - 1] iterations. *)
Fixpoint fill_spaces_r (E : env) (n : nat) (b : sbuf) (p : cursor) : pan sbuf :=
  match n with
  | 0 => Val b
  | S k =>
      match wadd (umax E) (column p) 1 with
      | Boom => Boom
      | Val c =>
          match set_cell_r E b (Cursor (line p) c) SPACE with
          | Boom => Boom
          | Val b => fill_spaces_r E k b (Cursor (line p) c)
          end
      end
  end.

(** buffer.rs:180-186: blank a wide character whose right half is about to be
    overwritten. *)
Definition clear_wide_before_r (E : env) (b : sbuf) : pan sbuf :=
  match cursor_previous_r (umax E) (bcur b) (bsize b) with
  | Boom => Boom
  | Val None => Val b
  | Val (Some prev) =>
      match get_cell_r E b prev with
      | Boom => Boom
      | Val c => if is_wide E c then put_cell_r E b prev blank else Val b
      end
  end.

(** buffer.rs:193-204: wrap when the character does not fit. *)
Definition wrap_wide_r (E : env) (b : sbuf) (ch : N) (rem width : nat) : bout :=
  if rem <? width then
    if try_cursor b then
      match fill_cells_r E rem b (bcur b) ch with
      | Boom => Panic
      | Val b =>
          match wadd (umax E) (line (bcur b)) 1 with
          | Boom => Panic
          | Val l => Ret (with_cur b (Cursor l 0)) tt
          end
      end
    else Fail b tt
  else Ret b tt.

(** buffer.rs:206-221: store the character and advance. *)
Definition place_char_r (E : env) (b : sbuf) (ch : N) (width : nat) : bout :=
  if try_cursor b then
    match set_cell_r E b (bcur b) ch with
    | Boom => Panic
    | Val b =>
        match fill_spaces_r E (width - 1) b (bcur b) with
        | Boom => Panic
        | Val b =>
            match wadd (umax E) (column (bcur b)) width with
            | Boom => Panic
            | Val c =>
                if columns (bsize b) <=? c then
                  match wadd (umax E) (line (bcur b)) 1 with
                  | Boom => Panic
                  | Val l => Ret (with_cur b (Cursor l 0)) tt
                  end
                else Ret (with_cur b (Cursor (line (bcur b)) c)) tt
            end
        end
    end
  else Fail b tt.

(** [write_char] for characters other than tab, buffer.rs:167-224. *)
Definition write_nontab_r (E : env) (b : sbuf) (ch : N) : bout :=
  if N.eqb ch CR then Ret (with_cur b (Cursor (line (bcur b)) 0)) tt
  else if N.eqb ch LF then
    match wadd (umax E) (line (bcur b)) 1 with
    | Boom => Panic
    | Val l => Ret (with_cur b (Cursor l 0)) tt
    end
  else if combining E ch then
    match cursor_previous_r (umax E) (bcur b) (bsize b) with
    | Boom => Panic
    | Val None => Ret b tt
    | Val (Some prev) =>
        if try_cursor_at b prev then
          match get_cell_r E b prev with
          | Boom => Panic
          | Val c =>
              match put_cell_r E b prev (Cell (cattrs c) (ctext c ++ [ch])) with
              | Boom => Panic
              | Val b => Ret b tt
              end
          end
        else Fail b tt
    end
  else if is_visible E ch then
    if try_cursor b then
      match clear_wide_before_r E b with
      | Boom => Panic
      | Val b =>
          match wsub (umax E) (columns (bsize b)) (column (bcur b)) with
          | Boom => Panic
          | Val rem =>
              let width := width0 E ch in
              let! (b, _) := wrap_wide_r E b ch rem width in
              place_char_r E b ch width
          end
      end
    else Fail b tt
  else Ret b tt.

(** buffer.rs:164-166: [for _ in 0..n { self.write_char(' ')? }].  The recursive
    call's argument is [' '], which is not a tab, so one level suffices. *)
Fixpoint write_spaces_r (E : env) (n : nat) (b : sbuf) : bout :=
  match n with
  | 0 => Ret b tt
  | S k => let! (b, _) := write_nontab_r E b SPACE in write_spaces_r E k b
  end.

(** [write_char], buffer.rs:158-225. *)
Definition write_char_r (E : env) (b : sbuf) (ch : N) : bout :=
  if N.eqb ch TAB then
    if try_cursor b then
      match wsub (umax E) (columns (bsize b)) (column (bcur b)) with
      | Boom => Panic
      | Val rem =>
          write_spaces_r E (Nat.min rem (TAB_STOP - column (bcur b) mod TAB_STOP)) b
      end
    else Fail b tt
  else write_nontab_r E b ch.

(** [write_str], buffer.rs:227-233. *)
Fixpoint write_str_r (E : env) (b : sbuf) (s : list N) : bout :=
  match s with
  | [] => Ret b tt
  | ch :: s' => let! (b, _) := write_char_r E b ch in write_str_r E b s'
  end.

(** [write_at], buffer.rs:235-240. *)
Definition write_at_r (E : env) (b : sbuf) (p : cursor) (s : list N) : bout :=
  if try_cursor_at b p then write_str_r E (with_cur b p) s else Fail b tt.

(** [write_styled], buffer.rs:242-253. *)
Definition write_styled_r (E : env) (b : sbuf) (a : attrs) (s : list N) : bout :=
  let! (b, _) := write_str_r E (with_attrs b a) s in
  Ret (sb_clear_attributes b) tt.

(** [write_styled_at], buffer.rs:255-262. *)
Definition write_styled_at_r (E : env) (b : sbuf) (p : cursor) (a : attrs) (s : list N) : bout :=
  if try_cursor_at b p then write_styled_r E (with_cur b p) a s else Fail b tt.

Definition run_buf_op_r (E : env) (b : sbuf) (o : buf_op) : pan sbuf :=
  match o with
  | BResize sz => sb_resize E b sz
  | BSetCursor p => Val (sb_set_cursor b p)
  | BNextLine c => sb_next_line_r E b c
  | BClearScreen => Val (sb_clear_screen b)
  | BClearAttributes => Val (sb_clear_attributes b)
  | BAddStyle s => Val (sb_add_style b s)
  | BRemoveStyle s => Val (sb_remove_style b s)
  | BSetStyle s => Val (sb_set_style b s)
  | BSetFg c => Val (sb_set_fg b c)
  | BSetBg c => Val (sb_set_bg b c)
  | BSetTheme t => Val (sb_set_theme b t)
  | BWriteChar ch => ignore_err (write_char_r E b ch)
  | BWriteStr s => ignore_err (write_str_r E b s)
  | BWriteAt p s => ignore_err (write_at_r E b p s)
  | BWriteStyled a s => ignore_err (write_styled_r E b a s)
  | BWriteStyledAt p a s => ignore_err (write_styled_at_r E b p a s)
  end.

Fixpoint run_buf_ops_r (E : env) (b : sbuf) (l : list buf_op) : pan sbuf :=
  match l with
  | [] => Val b
  | o :: l' => match run_buf_op_r E b o with
               | Val b => run_buf_ops_r E b l'
               | Boom => Boom
               end
  end.

(** A whole history starting at [ScreenBuffer::new]. *)
Definition buf_history_r (E : env) (sz : size) (l : list buf_op) : pan sbuf :=
  match sb_new E sz with
  | Val b => run_buf_ops_r E b l
  | Boom => Boom
  end.
