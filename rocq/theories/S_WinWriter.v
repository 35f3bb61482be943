(** Specification vocabulary for the Windows output side (C56, C58, C61, C70, C71). *)
From Verif Require Import Base M_Geom M_Attr M_Utf8 S_Utf8 M_Buf M_Writer S_Tty S_Writer M_WinWriter.
Local Open Scope N_scope.

(** ** Attribute words (C56) *)

(** The primary colours of a colour: red, green, blue. *)
Definition rgb (c : color) : bool * bool * bool :=
  match c with
  | Black => (false, false, false)
  | Red => (true, false, false)
  | Green => (false, true, false)
  | Blue => (false, false, true)
  | Yellow => (true, true, false)
  | Magenta => (true, false, true)
  | Cyan => (false, true, true)
  | White => (true, true, true)
  end.

(** Bits 0, 1, 2 are blue, green and red of the text; 4, 5, 6 those of the background;
    bit 3 is the intensity of the text.  A colour that is not requested is that of the
    default word, and so are all other bits. *)
Definition plain_bit (default : N) (a : attrs) (n : N) : bool :=
  let of (c : option color) (f : bool * bool * bool -> bool) :=
    match c with Some c => f (rgb c) | None => N.testbit default n end in
  match n with
  | 0 => of (fg a) snd
  | 1 => of (fg a) (fun p => snd (fst p))
  | 2 => of (fg a) (fun p => fst (fst p))
  | 3 => N.testbit default 3 || N.testbit (sty a) 0
  | 4 => of (bg a) snd
  | 5 => of (bg a) (fun p => snd (fst p))
  | 6 => of (bg a) (fun p => fst (fst p))
  | _ => N.testbit default n
  end.

(** Reverse: text and background colours change places. *)
Definition word_bit (default : N) (a : attrs) (n : N) : bool :=
  if N.testbit (sty a) 2 then
    match n with
    | 0 | 1 | 2 => plain_bit default a (n + 4)
    | 4 | 5 | 6 => plain_bit default a (n - 4)
    | _ => plain_bit default a n
    end
  else plain_bit default a n.

(** The 16-bit word shows attributes [a]. *)
Definition shows (default : N) (a : attrs) (w : N) : Prop :=
  forall n, N.testbit w n = word_bit default a n.

(** ** Text (C58) *)

(** Decoding UTF-16 (Unicode 15, section 3.9, table 3-5). *)
Fixpoint utf16_decode (l : list N) : option (list N) :=
  match l with
  | [] => Some []
  | u :: l' =>
      if (0xD800 <=? u) && (u <? 0xDC00) then
        match l' with
        | v :: l'' =>
            if (0xDC00 <=? v) && (v <? 0xE000) then
              option_map (cons (0x10000 + (u - 0xD800) * 0x400 + (v - 0xDC00))) (utf16_decode l'')
            else None
        | [] => None
        end
      else if (0xDC00 <=? u) && (u <? 0xE000) then None
      else option_map (cons u) (utf16_decode l')
  end.

(** The text received after [s] compared to [s]. *)
Definition received (s s' : wins) (l : list (N * N)) : Prop :=
  c_text (w_con s') = c_text (w_con s) ++ l.

(** The text an operation writes, given the attributes in force before it. *)
Definition text_of (a : attrs) (o : wop) : list (N * attrs) :=
  match o with
  | OWriteChar c => [(c, a)]
  | OWriteStr l => map (fun c => (c, a)) l
  | OWriteStyled b l => map (fun c => (c, b)) l
  | _ => []
  end.
Fixpoint texts (a : attrs) (ops : list wop) : list (N * attrs) :=
  match ops with
  | [] => []
  | o :: ops => text_of a o ++ texts (request a o) ops
  end.

(** Running operations as long as they report success. *)
Fixpoint run_wins (draw : list N -> N -> view -> view) (default : N) (E : env) (ops : list wop) (s : wins)
  : option wins :=
  match ops with
  | [] => Some s
  | o :: ops => match run_win draw default E o s with
                | Ret s _ => run_wins draw default E ops s
                | _ => None
                end
  end.

(** ** The buffer (C61, C70, C71) *)
Local Open Scope Z_scope.

(** What a console is like: sizes are positive [SHORT]s, cursor and window lie within the
    buffer. *)
Definition view_ok (v : view) : Prop :=
  1 <= cX (v_size v) <= 32767 /\ 1 <= cY (v_size v) <= 32767 /\
  0 <= cX (v_cur v) < cX (v_size v) /\ 0 <= cY (v_cur v) < cY (v_size v) /\
  0 <= rLeft (v_win v) <= rRight (v_win v) /\ rRight (v_win v) < cX (v_size v) /\
  0 <= rTop (v_win v) <= rBottom (v_win v) /\ rBottom (v_win v) < cY (v_size v).

(** The console's calls do not fail of themselves. *)
Definition no_failure (l : list cans) : Prop := Forall (fun a => exists n, a = CTake n) l.

(** Same size and window; cursor at [p]; cells as given. *)
Definition now (s s' : wins) (p : coord) (cell : Z -> Z -> N * N) : Prop :=
  let v := c_view (w_con s) in
  let v' := c_view (w_con s') in
  w_at s' = w_at s /\ c_attr (w_con s') = c_attr (w_con s) /\ c_text (w_con s') = c_text (w_con s) /\
  v_size v' = v_size v /\ v_win v' = v_win v /\ v_cur v' = p /\
  forall y x, 0 <= y < cY (v_size v) -> 0 <= x < cX (v_size v) -> v_cell v' y x = cell y x.

(** The cursor goes to [p].  The window stays if [p] is visible; otherwise it moves, with
    its size, so that it is. *)
Definition follows (p : coord) (w w' : rect) : Prop :=
  rBottom w' - rTop w' = rBottom w - rTop w /\ rRight w' - rLeft w' = rRight w - rLeft w /\
  rTop w' <= cY p <= rBottom w' /\ rLeft w' <= cX p <= rRight w' /\
  (rTop w <= cY p <= rBottom w -> rLeft w <= cX p <= rRight w -> w' = w).
Definition goes_to (s s' : wins) (p : coord) : Prop :=
  let v := c_view (w_con s) in
  let v' := c_view (w_con s') in
  w_at s' = w_at s /\ c_attr (w_con s') = c_attr (w_con s) /\ c_text (w_con s') = c_text (w_con s) /\
  c_cursor (w_con s') = c_cursor (w_con s) /\
  v_size v' = v_size v /\ v_cur v' = p /\ v_cell v' = v_cell v /\ follows p (v_win v) (v_win v').

(** The visible part. *)
Definition in_window (v : view) (y x : Z) : Prop :=
  rTop (v_win v) <= y <= rBottom (v_win v) /\ rLeft (v_win v) <= x <= rRight (v_win v).
Definition blank (c : N * N) : Prop := fst c = SPACE.

(** The visible part is blank and the cursor is at its top left corner. *)
Definition cleared (v : view) : Prop :=
  (forall y x, in_window v y x -> blank (v_cell v y x)) /\
  v_cur v = Coord (rLeft (v_win v)) (rTop (v_win v)).
Definition win_height (v : view) : Z := rBottom (v_win v) - rTop (v_win v) + 1.

(** The window after it has gone down far enough to have the cursor's line just above it,
    or as far as the buffer has lines; it never goes up. *)
Definition lowered (v : view) : rect :=
  let down := Z.min (cY (v_cur v) + 1 - rTop (v_win v)) (cY (v_size v) - (rBottom (v_win v) + 1)) in
  if 0 <? down
  then Rect (rTop (v_win v) + down) (rBottom (v_win v) + down) (rLeft (v_win v)) (rRight (v_win v))
  else v_win v.

(** The received code units [l] are the characters [ta], each with the attributes it was
    meant to have. *)
Definition typed (default : N) (ta : list (N * attrs)) (l : list (N * N)) : Prop :=
  exists pieces : list (list (N * N)),
    l = concat pieces /\
    Forall2 (fun ca piece => utf16_decode (map fst piece) = Some [fst ca] /\
                             Forall (fun u => shows default (snd ca) (snd u)) piece) ta pieces.

(** The characters an operation writes are Unicode scalar values. *)
Definition op_scalar (o : wop) : Prop :=
  match o with
  | OWriteChar c => scalar c
  | OWriteStr l | OWriteStyled _ l => Forall scalar l
  | _ => True
  end.
