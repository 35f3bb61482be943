(** Model of the public drawing methods of [Screen] and [ScreenWriteGuard]
    (/repo/src/screen.rs:158-361 and 388-584), which convert their arguments and forward
    to the screen buffer's methods (M_Buf.v) through the macro of buffer.rs:281-466. *)
From Verif Require Import Base M_Geom M_Attr M_Buf M_Api.

(** [C: Into<Cursor>]: a [Cursor], or a pair of line and column (terminal.rs:187-192). *)
Inductive position : Type := At (c : cursor) | Pair (l c : nat).
Definition into_cursor (p : position) : cursor :=
  match p with At c => c | Pair l c => Cursor l c end.

(** The methods with the arguments a caller gives; [Into<Option<..>>] as in M_Api.v. *)
Inductive smethod : Type :=
| SSetCursor (p : position)
| SNextLine (column : nat)
| SClearScreen
| SAddStyle (s : style) | SRemoveStyle (s : style) | SSetStyle (s : option style)
| SSetFg (c : option color) | SSetBg (c : option color)
| SSetTheme (fg bg : option color) (s : style)
| SClearAttributes
| SBold | SItalic | SUnderline | SReverse
| SWriteAt (p : position) (text : list N)
| SWriteStyled (fg bg : option color) (s : option style) (text : list N)
| SWriteStyledAt (p : position) (fg bg : option color) (s : option style) (text : list N)
| SWriteChar (c : N)
| SWriteStr (text : list N)
| SWriteFmt (pieces : list (list N)).

(** [add_style] (202-204, 435-437) and [write_str] (325-327, 560-562), which other
    methods call. *)
Definition screen_add_style (s : style) : buf_op := BAddStyle s.
Definition screen_write_str (text : list N) : buf_op := BWriteStr text.

(** The buffer method each of them calls, with its arguments. *)
Definition sforward (m : smethod) : buf_op :=
  match m with
  | SSetCursor p => BSetCursor (into_cursor p)                             (* 173-175, 405-407 *)
  | SNextLine c => BNextLine c                               (* 179-181, 411-413 *)
  | SClearScreen => BClearScreen                             (* 196-198, 428-430 *)
  | SAddStyle s => screen_add_style s                        (* 202-204, 435-437 *)
  | SRemoveStyle s => BRemoveStyle s                         (* 208-210, 441-443 *)
  | SSetStyle s => BSetStyle (style_or_default s)            (* 214-216, 447-449 *)
  | SSetFg c => BSetFg c                                     (* 220-222, 453-455 *)
  | SSetBg c => BSetBg c                                     (* 226-228, 459-461 *)
  | SSetTheme f b s => BSetTheme (Attrs f b s)               (* 232-234, 465-467 *)
  | SClearAttributes => BClearAttributes                     (* 238-240, 471-473 *)
  | SBold => screen_add_style BOLD                           (* 246-248, 479-481 *)
  | SItalic => screen_add_style ITALIC                       (* 254-256, 487-489 *)
  | SUnderline => screen_add_style UNDERLINE                 (* 262-264, 495-497 *)
  | SReverse => screen_add_style REVERSE                     (* 270-272, 503-505 *)
  | SWriteAt p text => BWriteAt (into_cursor p) text                       (* 282-285, 517-520 *)
  | SWriteStyled f b s text =>                               (* 290-296, 525-531 *)
      BWriteStyled (Attrs f b (style_or_default s)) text
  | SWriteStyledAt p f b s text =>                           (* 302-311, 537-546 *)
      BWriteStyledAt (into_cursor p) (Attrs f b (style_or_default s)) text
  | SWriteChar c => BWriteChar c                             (* 317-319, 552-554 *)
  | SWriteStr text => screen_write_str text                  (* 325-327, 560-562 *)
  | SWriteFmt pieces => screen_write_str (to_string pieces)  (* 352-355, 574-577 *)
  end.

(** What the method makes of the buffer. *)
Definition screen_method (E : env) (m : smethod) (b : sbuf) : pan sbuf := run_buf_op E b (sforward m).

Fixpoint screen_methods (E : env) (ms : list smethod) (b : sbuf) : pan sbuf :=
  match ms with
  | [] => Val b
  | m :: ms => match screen_method E m b with Val b => screen_methods E ms b | Boom => Boom end
  end.

(** [Screen::size] and [Screen::cursor] (161-169, 393-401; buffer.rs [size], [cursor]). *)
Definition screen_get_size (b : sbuf) : size := bsize b.
Definition screen_get_cursor (b : sbuf) : cursor := bcur b.
