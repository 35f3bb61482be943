(** Specification vocabulary for double-width characters on a Windows screen (C126). *)
From Verif Require Import Base M_Utf8 S_Utf8 M_Geom S_Geom M_Attr M_Signal M_Util M_Input M_Buf S_Buf M_Writer M_Prepare M_Reader
  M_WinWriter M_WinReader S_WinReader M_WinScreen S_WinScreen M_ScreenApi S_WinCanvas.
From Verif Require S_WinWriter S_Screen S_Canvas.
From Verif Require Import S_WideCanvas.

(** What the console shows at line [y], column [x]; whether that is the right half of the
    double-width character to the left. *)
Definition glyph_at (v : view) (y x : Z) : N := fst (v_cell v y x).
Definition half_at (is_half : N -> bool) (v : view) (y x : Z) : bool := is_half (glyph_at v y x).

(** Setting [w] positions from the cursor on: they fit on the line and begin with no right
    half. *)
Definition starts_whole (is_half : N -> bool) (w : Z) (v : view) : Prop :=
  let p := v_cur v in (cX p + w <= cX (v_size v))%Z /\ half_at is_half v (cY p) (cX p) = false.

(** The position whose left half they overwrite. *)
Definition orphan (is_half : N -> bool) (w : Z) (v : view) (y x : Z) : bool :=
  ((y =? cY (v_cur v)) && (x =? cX (v_cur v) + w))%Z && half_at is_half v y x.

(** The console [v'] is [v] after [w] positions were set from the cursor on, which
    advances unless it meets the end of the line.  A right half that has lost its left half
    becomes anything but a right half. *)
Definition set_from (is_half : N -> bool) (w : Z) (f : Z -> N * N) (v v' : view) : Prop :=
  let p := v_cur v in
  S_WinWriter.view_ok v' /\ v_size v' = v_size v /\
  (cX p + w < cX (v_size v) -> v_cur v' = Coord (cX p + w) (cY p))%Z /\
  (forall y x, (0 <= y < cY (v_size v))%Z -> (0 <= x < cX (v_size v))%Z ->
     if ((y =? cY p) && (cX p <=? x) && (x <? cX p + w))%Z then v_cell v' y x = f (x - cX p)%Z
     else if orphan is_half w v y x then half_at is_half v' y x = false
     else v_cell v' y x = v_cell v y x).

(** How a console places text: [shown t = Some g] says that the text [t] takes one position,
    which then shows [g]; [shown2 t = Some (g, h)] that it takes two, which then show [g] and
    [h].  Nothing is said of text that overwrites the right half of a double-width character
    first, or of a double-width character in the last column. *)
Record wide_places (draw : list N -> N -> view -> view) (shown : list N -> option N)
    (shown2 : list N -> option (N * N)) (is_half : N -> bool) : Prop := {
  q_space : shown [SPACE] = Some SPACE;
  q_nil : forall a v, draw [] a v = v;
  q_app : forall l1 l2 a v, draw (l1 ++ l2) a v = draw l2 a (draw l1 a v);
  q_one_half : forall t g, shown t = Some g -> is_half g = false;
  q_two_half : forall t g h, shown2 t = Some (g, h) -> is_half g = false /\ is_half h = true;
  q_one : forall t g a v, shown t = Some g -> S_WinWriter.view_ok v -> starts_whole is_half 1 v ->
    set_from is_half 1 (fun _ => (g, a)) v (draw (encode_wide t) a v);
  q_two : forall t g h a v, shown2 t = Some (g, h) -> S_WinWriter.view_ok v -> starts_whole is_half 2 v ->
    set_from is_half 2 (fun i => if (i =? 0)%Z then (g, a) else (h, a)) v (draw (encode_wide t) a v)
}.

(** Text that begins with a double-width character. *)
Definition two_wide (E : env) (t : list N) : bool :=
  match t with x :: _ => match cwidth E x with Some 2 => true | _ => false end | [] => false end.

(** The console shows the text of each cell, in one position or two. *)
Definition all_shown (E : env) (shown : list N -> option N) (shown2 : list N -> option (N * N)) (b : sbuf) : Prop :=
  forall i c, cell_at b i = Some c -> S_Screen.half E b i = false ->
    if two_wide E (ctext c) then shown2 (ctext c) <> None else shown (ctext c) <> None.

(** It shows the screen's buffer: the text of each cell, with an attribute word that shows
    its attributes; right halves are those of the double-width characters before them, with
    their attributes. *)
Definition shows_wide (E : env) (shown : list N -> option N) (shown2 : list N -> option (N * N))
    (default : N) (v : view) (b : sbuf) : Prop :=
  v_size v = Coord (Z.of_nat (columns (bsize b))) (Z.of_nat (lines (bsize b))) /\
  forall p c, in_bounds p (bsize b) -> cell_at b (cell_no (bsize b) p) = Some c ->
    S_Screen.half E b (cell_no (bsize b) p) = false ->
    exists w, S_WinWriter.shows default (cattrs c) w /\
      if two_wide E (ctext c) then
        exists g h, shown2 (ctext c) = Some (g, h) /\
          v_cell v (Z.of_nat (line p)) (Z.of_nat (column p)) = (g, w) /\
          v_cell v (Z.of_nat (line p)) (Z.of_nat (column p) + 1) = (h, w)
      else
        exists g, shown (ctext c) = Some g /\ v_cell v (Z.of_nat (line p)) (Z.of_nat (column p)) = (g, w).

(** Where the console shows the right half of a double-width character and the buffer has
    none, the new cell is not the one that was refreshed there last, before the character
    covered it. *)
Definition win_mended (E : env) (is_half : N -> bool) (v : view) (b : sbuf) : Prop :=
  forall p, in_bounds p (bsize b) -> half_at is_half v (Z.of_nat (line p)) (Z.of_nat (column p)) = true ->
    S_Screen.half E b (cell_no (bsize b) p) = false ->
    nth_error (back b) (cell_no (bsize b) p) <> nth_error (buffer b) (cell_no (bsize b) p).

(** Conditions at a refresh, as for C24 and C79. *)
Definition win_ready (E : env) (shown : list N -> option N) (shown2 : list N -> option (N * N))
    (is_half : N -> bool) (s : wscr) : Prop :=
  S_Screen.wides_fit E (g_sb s) /\ all_shown E shown shown2 (g_sb s) /\
  (g_clr s = false -> win_mended E is_half (sees s) (g_sb s)) /\
  (g_clr s = true -> covers (sees s)).

(** ** The canvas *)

(** The console shows all text of the canvas. *)
Definition readable (E : env) (shown : list N -> option N) (shown2 : list N -> option (N * N)) (k : wcanvas) : Prop :=
  forall p t a, in_bounds p (wsize k) -> wink k (line p) (column p) = Glyph t a ->
    if two_wide E t then shown2 t <> None else shown t <> None.

(** Programs with a [Screen], as [wpainted] in S_WinCanvas and in S_WideCanvas, where
    [shot] and [mends] are defined.  [last] is
    what the last refresh left; [None]: there was none since the last change of size. *)
Inductive win_painted (draw : list N -> N -> view -> view) (shown : list N -> option N)
    (shown2 : list N -> option (N * N)) (E : env) : wscr -> wcanvas -> option shot -> Prop :=
| WW_new cfg t t1 s :
    displayed t -> S_WinWriter.view_ok (c_view (w_con (t_w t))) ->
    (t_default t < 65536)%N -> w_at (t_w t) = no_attrs -> c_attr (w_con (t_w t)) = t_default t ->
    win_screen_new E cfg t = Ret t1 s ->
    win_painted draw shown shown2 E s (wblank (size_of_view (c_view (w_con (t_w t)))))
      (Some (first_shot (wblank (size_of_view (c_view (w_con (t_w t)))))))
| WW_method s k last m b :
    win_painted draw shown shown2 E s k last -> easy E m k ->
    screen_method E m (g_sb s) = Val b ->
    win_painted draw shown shown2 E (with_gsb b s) (wdraw E m k) last
| WW_mode s k last m s' u :
    win_painted draw shown shown2 E s k last -> run_wsop draw E (SCursorMode m) s = Ret s' u ->
    win_painted draw shown shown2 E s' k last
| WW_refresh s k last s' u :
    win_painted draw shown shown2 E s k last -> readable E shown shown2 k ->
    match last with Some h => mends h k | None => covers (sees s) end ->
    win_refresh draw E s = Ret s' u ->
    win_painted draw shown shown2 E s' k (Some (next_shot last k))
| WW_resize s k last v s' u :
    win_painted draw shown shown2 E s k last -> S_WinWriter.view_ok v -> cuts_nothing (size_of_view v) k ->
    win_update_size E (size_of_view v) (seeing v s) = Ret s' u ->
    win_painted draw shown shown2 E s' (wrefit (size_of_view v) k) None.

(** The console shows the canvas: the same size, and at each position the canvas's text
    with an attribute word that shows the canvas's attributes; the right half of a
    double-width character is that of the text at its left. *)
Definition win_wdisplays (E : env) (shown : list N -> option N) (shown2 : list N -> option (N * N))
    (default : N) (v : view) (k : wcanvas) : Prop :=
  size_of_view v = wsize k /\
  forall p, in_bounds p (wsize k) ->
    exists g w, v_cell v (Z.of_nat (line p)) (Z.of_nat (column p)) = (g, w) /\
      match wink k (line p) (column p) with
      | Glyph t a => S_WinWriter.shows default a w /\
          if two_wide E t then exists h, shown2 t = Some (g, h) else shown t = Some g
      | Right => exists c t a l, column p = S c /\ wink k (line p) c = Glyph t a /\
          S_WinWriter.shows default a w /\ shown2 t = Some (l, g)
      end.

(** A console for demonstrations: code units from U+FF01 to U+FF60 take two positions, the
    others one.  If one half of a double-width character is overwritten, the other becomes a
    space.  At the end of a line the cursor stays. *)
Definition duo (u : N) : bool := ((65281 <=? u) && (u <=? 65376))%N.
Definition duo_half (g : N) : bool := (0x110000 <=? g)%N.
Definition duo_unit (u a : N) (v : view) : view :=
  let p := v_cur v in
  let w := (if duo u then 2 else 1)%Z in
  if (cX p + w <=? cX (v_size v))%Z then
    View (v_size v) (if (cX p + w <? cX (v_size v))%Z then Coord (cX p + w) (cY p) else p) (v_win v)
      (fun y x =>
         if negb (y =? cY p)%Z then v_cell v y x
         else if (x =? cX p)%Z then (u, a)
         else if ((cX p <? x) && (x <? cX p + w))%Z then (u + 0x110000, a)%N
         else if ((x + 1 =? cX p)%Z && half_at duo_half v y (cX p)) || ((x =? cX p + w)%Z && half_at duo_half v y x)
              then (SPACE, snd (v_cell v y x))
         else v_cell v y x)
  else v.
Definition duo_draw (l : list N) (a : N) (v : view) : view := fold_left (fun v u => duo_unit u a v) l v.
Definition duo_shown (t : list N) : option N :=
  match t with [u] => if ((u <? 0x10000)%N && negb (duo u)) then Some u else None | _ => None end.
Definition duo_shown2 (t : list N) : option (N * N) :=
  match t with [u] => if duo u then Some (u, u + 0x110000)%N else None | _ => None end.
