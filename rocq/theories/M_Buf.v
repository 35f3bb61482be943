(** Model of [ScreenBuffer] (/repo/src/buffer.rs). *)
From Verif Require Import Base M_Geom M_Attr.

(** What the code takes from outside: [usize::MAX], the [unicode_width] table
    (util.rs:9-13) and [unicode_normalization]'s [is_combining_mark]
    (util.rs:17-21). *)
Record env : Type := Env {
  umax : nat;
  cwidth : N -> option nat;
  combining : N -> bool
}.

Definition TAB : N := 9%N.
Definition LF : N := 10%N.
Definition CR : N := 13%N.
Definition SPACE : N := 32%N.

(** [TAB_STOP], buffer.rs:10. *)
Definition TAB_STOP : nat := 8.

(** [char_width(ch).unwrap_or(0)]. *)
Definition width0 (E : env) (c : N) : nat :=
  match cwidth E c with Some w => w | None => 0 end.

(** [is_visible], priv_util.rs:15-20. *)
Definition is_visible (E : env) (c : N) : bool :=
  if (N.eqb c TAB) || (N.eqb c CR) || (N.eqb c LF) then true
  else negb (width0 E c =? 0).

(** [Cell], buffer.rs:471-477.  [SmallString] is a list of chars. *)
Record cell : Type := Cell { cattrs : attrs; ctext : list N }.

Fixpoint text_eqb (a b : list N) : bool :=
  match a, b with
  | [], [] => true
  | x :: a', y :: b' => N.eqb x y && text_eqb a' b'
  | _, _ => false
  end.

(** Derived [PartialEq] of [Cell]. *)
Definition cell_eqb (a b : cell) : bool :=
  attrs_eqb (cattrs a) (cattrs b) && text_eqb (ctext a) (ctext b).

(** [Cell::default], buffer.rs:516-520. *)
Definition blank : cell := Cell no_attrs [SPACE].

(** [Cell::invalid], buffer.rs:489-496. *)
Definition invalid : cell := Cell no_attrs [].

(** [Cell::first_char], buffer.rs:506-508 ([expect] panics on empty text). *)
Definition first_char (c : cell) : pan N :=
  match ctext c with x :: _ => Val x | [] => Boom end.

(** [Cell::is_wide], buffer.rs:510-513. *)
Definition is_wide (E : env) (c : cell) : bool :=
  match ctext c with
  | x :: _ => width0 E x =? 2
  | [] => false
  end.

(** [ScreenBuffer], buffer.rs:12-21. *)
Record sbuf : Type := SBuf {
  buffer : list cell;
  back : list cell;
  bsize : size;
  bcur : cursor;
  battrs : attrs
}.

(** Field updates. *)
Definition with_buffer (b : sbuf) l := SBuf l (back b) (bsize b) (bcur b) (battrs b).
Definition with_back (b : sbuf) l := SBuf (buffer b) l (bsize b) (bcur b) (battrs b).
Definition with_cur (b : sbuf) c := SBuf (buffer b) (back b) (bsize b) c (battrs b).
Definition with_attrs (b : sbuf) a := SBuf (buffer b) (back b) (bsize b) (bcur b) a.

(** [ScreenBuffer::new], buffer.rs:24-37. *)
Definition sb_new (E : env) (sz : size) : pan sbuf :=
  match area (umax E) sz with
  | Boom => Boom
  | Val n => Val (SBuf (repeat blank n) (repeat blank n) sz (Cursor 0 0) no_attrs)
  end.

(** [slice.chunks_mut(n)] (the slice is at most [fuel] long); a chunk size of
    zero panics. *)
Fixpoint chunks_aux {A} (fuel n : nat) (l : list A) : list (list A) :=
  match fuel with
  | 0 => []
  | S f => match l with
           | [] => []
           | _ => firstn n l :: chunks_aux f n (skipn n l)
           end
  end.
Definition chunks {A} (n : nat) (l : list A) : pan (list (list A)) :=
  match n with
  | 0 => Boom
  | _ => Val (chunks_aux (length l) n l)
  end.

(** buffer.rs:531-533: [for i in 0..n_cols { swap(&mut new[i], &mut old[i]) }];
    only the new chunk matters afterwards.  [None]: index panic. *)
Fixpoint swap_cols {A} (n : nat) (old new : list A) : option (list A) :=
  match n, old, new with
  | 0, _, _ => Some new
  | S k, o :: old', _ :: new' =>
      match swap_cols k old' new' with
      | Some r => Some (o :: r)
      | None => None
      end
  | _, _, _ => None
  end.

(** buffer.rs:529-534: the zipped loop over chunks; chunks of [new] beyond the
    shorter iterator are left as they are. *)
Fixpoint zip_swap {A} (n : nat) (olds news : list (list A)) : option (list (list A)) :=
  match olds, news with
  | o :: olds', w :: news' =>
      match swap_cols n o w, zip_swap n olds' news' with
      | Some w', Some r => Some (w' :: r)
      | _, _ => None
      end
  | _, _ => Some news
  end.

(** [resize_buffer], buffer.rs:522-539. *)
Definition resize_buffer (E : env) (buf : list cell) (old new : size) : pan (list cell) :=
  if size_eqb old new then Val buf
  else
    match area (umax E) new with
    | Boom => Boom
    | Val n =>
        let new_buf := repeat blank n in
        match buf with
        | [] => Val new_buf
        | _ =>
            let n_cols := Nat.min (columns old) (columns new) in
            match chunks (columns old) buf, chunks (columns new) new_buf with
            | Val oc, Val nc =>
                match zip_swap n_cols oc nc with
                | Some r => Val (concat r)
                | None => Boom
                end
            | _, _ => Boom
            end
        end
    end.

(** [new_buffer], buffer.rs:541-544. *)
Definition new_buffer (E : env) (new : size) : pan (list cell) :=
  match area (umax E) new with
  | Boom => Boom
  | Val n => Val (repeat invalid n)
  end.

(** [ScreenBuffer::resize], buffer.rs:47-55. *)
Definition sb_resize (E : env) (b : sbuf) (new : size) : pan sbuf :=
  match resize_buffer E (buffer b) (bsize b) new with
  | Boom => Boom
  | Val l =>
      match new_buffer E new with
      | Boom => Boom
      | Val bk => Val (SBuf l bk new (bcur b) (battrs b))
      end
  end.

(** [set_cursor], buffer.rs:57-59. *)
Definition sb_set_cursor (b : sbuf) (p : cursor) : sbuf := with_cur b p.

(** [next_line], buffer.rs:61-64. *)
Definition sb_next_line (E : env) (b : sbuf) (col : nat) : pan sbuf :=
  match uadd (umax E) (line (bcur b)) 1 with
  | Boom => Boom
  | Val l => Val (with_cur b (Cursor l col))
  end.

(** buffer.rs:66-96. *)
Definition sb_clear_attributes (b : sbuf) : sbuf := with_attrs b no_attrs.
Definition sb_add_style (b : sbuf) (s : style) : sbuf :=
  with_attrs b (Attrs (fg (battrs b)) (bg (battrs b)) (style_union (sty (battrs b)) s)).
Definition sb_remove_style (b : sbuf) (s : style) : sbuf :=
  with_attrs b (Attrs (fg (battrs b)) (bg (battrs b)) (style_minus (sty (battrs b)) s)).
Definition sb_set_style (b : sbuf) (s : style) : sbuf :=
  with_attrs b (Attrs (fg (battrs b)) (bg (battrs b)) s).
Definition sb_set_fg (b : sbuf) (c : option color) : sbuf :=
  with_attrs b (Attrs c (bg (battrs b)) (sty (battrs b))).
Definition sb_set_bg (b : sbuf) (c : option color) : sbuf :=
  with_attrs b (Attrs (fg (battrs b)) c (sty (battrs b))).
Definition sb_set_theme (b : sbuf) (t : attrs) : sbuf :=
  sb_set_style (sb_set_bg (sb_set_fg b (fg t)) (bg t)) (sty t).

(** [clear_screen], buffer.rs:98-102. *)
Definition sb_clear_screen (b : sbuf) : sbuf :=
  with_buffer b (map (fun _ => blank) (buffer b)).

(** [indices], buffer.rs:104-106: the range [0..area]. *)
Definition sb_indices (E : env) (b : sbuf) : pan (nat * nat) :=
  match area (umax E) (bsize b) with
  | Boom => Boom
  | Val n => Val (0, n)
  end.

(** [next_cell], buffer.rs:110-133.  The range is [(lo, hi)]; [fuel] bounds the
    number of iterations and is given as [hi - lo].  Returns the updated range. *)
Fixpoint next_cell_aux (E : env) (fuel : nat) (b : sbuf) (lo hi : nat)
  : pan (sbuf * nat * option (cursor * cell)) :=
  match fuel with
  | 0 => Val (b, lo, None)
  | S f =>
      if hi <=? lo then Val (b, lo, None)
      else
        match nth_error (buffer b) lo with
        | None => Boom
        | Some c =>
            match first_char c with
            | Boom => Boom
            | Val ch =>
                let idx := lo in
                let lo := S lo in
                (* buffer.rs:116-118: [indices.next()] on an empty range is a no-op *)
                let lo := if (width0 E ch =? 2) && (lo <? hi) then S lo else lo in
                match nth_error (back b) idx with
                | None => Boom
                | Some k =>
                    if cell_eqb c k then next_cell_aux E f b lo hi
                    else
                      match columns (bsize b) with
                      | 0 => Boom  (* division by zero *)
                      | _ =>
                          match vec_set idx c (back b) with
                          | None => Boom
                          | Some bk =>
                              Val (with_back b bk, lo,
                                   Some (Cursor (idx / columns (bsize b)) (idx mod columns (bsize b)), c))
                          end
                      end
                end
            end
        end
  end.

Definition next_cell (E : env) (b : sbuf) (lo hi : nat)
  : pan (sbuf * nat * option (cursor * cell)) :=
  next_cell_aux E (hi - lo) b lo hi.

(** [cell_mut], buffer.rs:140-143: read and write through the reference. *)
Definition get_cell (E : env) (b : sbuf) (p : cursor) : pan cell :=
  match as_index (umax E) p (bsize b) with
  | Boom => Boom
  | Val i => match nth_error (buffer b) i with Some c => Val c | None => Boom end
  end.
Definition put_cell (E : env) (b : sbuf) (p : cursor) (c : cell) : pan sbuf :=
  match as_index (umax E) p (bsize b) with
  | Boom => Boom
  | Val i => match vec_set i c (buffer b) with
             | Some l => Val (with_buffer b l)
             | None => Boom
             end
  end.

(** [set_cell], buffer.rs:145-156. *)
Definition set_cell (E : env) (b : sbuf) (p : cursor) (ch : N) : pan sbuf :=
  put_cell E b p (Cell (battrs b) [ch]).

(** [try_cursor_at], buffer.rs:268-274 ([true] is [Ok]). *)
Definition try_cursor_at (b : sbuf) (p : cursor) : bool :=
  negb ((lines (bsize b) <=? line p) || (columns (bsize b) <=? column p)).

(** [try_cursor], buffer.rs:264-266. *)
Definition try_cursor (b : sbuf) : bool := try_cursor_at b (bcur b).

Definition bout := out sbuf unit unit.

(** buffer.rs:197-200: [for _ in 0..rem { set_cell(pos, ch); pos.column += 1 }]. *)
Fixpoint fill_cells (E : env) (n : nat) (b : sbuf) (p : cursor) (ch : N) : pan sbuf :=
  match n with
  | 0 => Val b
  | S k =>
      match set_cell E b p ch with
      | Boom => Boom
      | Val b =>
          match uadd (umax E) (column p) 1 with
          | Boom => Boom
          | Val c => fill_cells E k b (Cursor (line p) c) ch
          end
      end
  end.

(** buffer.rs:211-214: [for _ in 1..width { pos.column += 1; set_cell(pos, ' ') }]
    with [n = width - 1] iterations. *)
Fixpoint fill_spaces (E : env) (n : nat) (b : sbuf) (p : cursor) : pan sbuf :=
  match n with
  | 0 => Val b
  | S k =>
      match uadd (umax E) (column p) 1 with
      | Boom => Boom
      | Val c =>
          match set_cell E b (Cursor (line p) c) SPACE with
          | Boom => Boom
          | Val b => fill_spaces E k b (Cursor (line p) c)
          end
      end
  end.

(** buffer.rs:180-186: blank a wide character whose right half is about to be
    overwritten. *)
Definition clear_wide_before (E : env) (b : sbuf) : pan sbuf :=
  match cursor_previous (bcur b) (bsize b) with
  | Boom => Boom
  | Val None => Val b
  | Val (Some prev) =>
      match get_cell E b prev with
      | Boom => Boom
      | Val c => if is_wide E c then put_cell E b prev blank else Val b
      end
  end.

(** buffer.rs:193-204: wrap when the character does not fit. *)
Definition wrap_wide (E : env) (b : sbuf) (ch : N) (rem width : nat) : bout :=
  if rem <? width then
    if try_cursor b then
      match fill_cells E rem b (bcur b) ch with
      | Boom => Panic
      | Val b =>
          match uadd (umax E) (line (bcur b)) 1 with
          | Boom => Panic
          | Val l => Ret (with_cur b (Cursor l 0)) tt
          end
      end
    else Fail b tt
  else Ret b tt.

(** buffer.rs:206-221: store the character and advance. *)
Definition place_char (E : env) (b : sbuf) (ch : N) (width : nat) : bout :=
  if try_cursor b then
    match set_cell E b (bcur b) ch with
    | Boom => Panic
    | Val b =>
        match fill_spaces E (width - 1) b (bcur b) with
        | Boom => Panic
        | Val b =>
            match uadd (umax E) (column (bcur b)) width with
            | Boom => Panic
            | Val c =>
                if columns (bsize b) <=? c then
                  match uadd (umax E) (line (bcur b)) 1 with
                  | Boom => Panic
                  | Val l => Ret (with_cur b (Cursor l 0)) tt
                  end
                else Ret (with_cur b (Cursor (line (bcur b)) c)) tt
            end
        end
    end
  else Fail b tt.

(** [write_char] for characters other than tab, buffer.rs:167-224. *)
Definition write_nontab (E : env) (b : sbuf) (ch : N) : bout :=
  if N.eqb ch CR then Ret (with_cur b (Cursor (line (bcur b)) 0)) tt
  else if N.eqb ch LF then
    match uadd (umax E) (line (bcur b)) 1 with
    | Boom => Panic
    | Val l => Ret (with_cur b (Cursor l 0)) tt
    end
  else if combining E ch then
    match cursor_previous (bcur b) (bsize b) with
    | Boom => Panic
    | Val None => Ret b tt
    | Val (Some prev) =>
        if try_cursor_at b prev then
          match get_cell E b prev with
          | Boom => Panic
          | Val c =>
              match put_cell E b prev (Cell (cattrs c) (ctext c ++ [ch])) with
              | Boom => Panic
              | Val b => Ret b tt
              end
          end
        else Fail b tt
    end
  else if is_visible E ch then
    if try_cursor b then
      match clear_wide_before E b with
      | Boom => Panic
      | Val b =>
          match usub (columns (bsize b)) (column (bcur b)) with
          | Boom => Panic
          | Val rem =>
              let width := width0 E ch in
              let! (b, _) := wrap_wide E b ch rem width in
              place_char E b ch width
          end
      end
    else Fail b tt
  else Ret b tt.

(** buffer.rs:164-166: [for _ in 0..n { self.write_char(' ')? }].  The recursive
    call's argument is [' '], which is not a tab, so one level suffices. *)
Fixpoint write_spaces (E : env) (n : nat) (b : sbuf) : bout :=
  match n with
  | 0 => Ret b tt
  | S k => let! (b, _) := write_nontab E b SPACE in write_spaces E k b
  end.

(** [write_char], buffer.rs:158-225. *)
Definition write_char (E : env) (b : sbuf) (ch : N) : bout :=
  if N.eqb ch TAB then
    if try_cursor b then
      match usub (columns (bsize b)) (column (bcur b)) with
      | Boom => Panic
      | Val rem =>
          write_spaces E (Nat.min rem (TAB_STOP - column (bcur b) mod TAB_STOP)) b
      end
    else Fail b tt
  else write_nontab E b ch.

(** [write_str], buffer.rs:227-233. *)
Fixpoint write_str (E : env) (b : sbuf) (s : list N) : bout :=
  match s with
  | [] => Ret b tt
  | ch :: s' => let! (b, _) := write_char E b ch in write_str E b s'
  end.

(** [write_at], buffer.rs:235-240. *)
Definition write_at (E : env) (b : sbuf) (p : cursor) (s : list N) : bout :=
  if try_cursor_at b p then write_str E (with_cur b p) s else Fail b tt.

(** [write_styled], buffer.rs:242-253. *)
Definition write_styled (E : env) (b : sbuf) (a : attrs) (s : list N) : bout :=
  let! (b, _) := write_str E (with_attrs b a) s in
  Ret (sb_clear_attributes b) tt.

(** [write_styled_at], buffer.rs:255-262. *)
Definition write_styled_at (E : env) (b : sbuf) (p : cursor) (a : attrs) (s : list N) : bout :=
  if try_cursor_at b p then write_styled E (with_cur b p) a s else Fail b tt.

(** The methods a [Screen] or [ScreenWriteGuard] forwards to the buffer
    (buffer.rs:281-466).  [let _ = ...] drops the [OutOfBounds] error. *)
Inductive buf_op : Type :=
| BResize (sz : size)            (* Writer::update_size, unix/screen.rs:237-244 *)
| BSetCursor (p : cursor)
| BNextLine (col : nat)
| BClearScreen
| BClearAttributes
| BAddStyle (s : style)
| BRemoveStyle (s : style)
| BSetStyle (s : style)
| BSetFg (c : option color)
| BSetBg (c : option color)
| BSetTheme (t : attrs)
| BWriteChar (ch : N)
| BWriteStr (s : list N)
| BWriteAt (p : cursor) (s : list N)
| BWriteStyled (a : attrs) (s : list N)
| BWriteStyledAt (p : cursor) (a : attrs) (s : list N).

Definition ignore_err (r : bout) : pan sbuf :=
  match r with
  | Ret b _ | Fail b _ => Val b
  | Panic | Blocked => Boom
  end.

Definition run_buf_op (E : env) (b : sbuf) (o : buf_op) : pan sbuf :=
  match o with
  | BResize sz => sb_resize E b sz
  | BSetCursor p => Val (sb_set_cursor b p)
  | BNextLine c => sb_next_line E b c
  | BClearScreen => Val (sb_clear_screen b)
  | BClearAttributes => Val (sb_clear_attributes b)
  | BAddStyle s => Val (sb_add_style b s)
  | BRemoveStyle s => Val (sb_remove_style b s)
  | BSetStyle s => Val (sb_set_style b s)
  | BSetFg c => Val (sb_set_fg b c)
  | BSetBg c => Val (sb_set_bg b c)
  | BSetTheme t => Val (sb_set_theme b t)
  | BWriteChar ch => ignore_err (write_char E b ch)
  | BWriteStr s => ignore_err (write_str E b s)
  | BWriteAt p s => ignore_err (write_at E b p s)
  | BWriteStyled a s => ignore_err (write_styled E b a s)
  | BWriteStyledAt p a s => ignore_err (write_styled_at E b p a s)
  end.

Fixpoint run_buf_ops (E : env) (b : sbuf) (l : list buf_op) : pan sbuf :=
  match l with
  | [] => Val b
  | o :: l' => match run_buf_op E b o with
               | Val b => run_buf_ops E b l'
               | Boom => Boom
               end
  end.

(** A whole history starting at [ScreenBuffer::new]. *)
Definition buf_history (E : env) (sz : size) (l : list buf_op) : pan sbuf :=
  match sb_new E sz with
  | Val b => run_buf_ops E b l
  | Boom => Boom
  end.
