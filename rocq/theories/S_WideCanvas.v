(** What a program draws on a screen, double-width characters included.  A canvas as in
    S_Canvas, where a position may also be the right half of the double-width character
    to its left.  Nothing here refers to the screen buffer's code. *)
From Verif Require Import Base M_Utf8 S_Utf8 M_Geom S_Geom M_Attr M_Buf S_Buf M_Writer S_Tty S_Writer M_Screen S_Screen
  M_Api M_ScreenApi S_Canvas.

Inductive glyph : Type := Glyph (t : list N) (a : attrs) | Right.

Record wcanvas : Type := WCanvas {
  wsize : size;
  wink : nat -> nat -> glyph;      (* line, column *)
  wpen : cursor;
  wbrush : attrs
}.

Definition plain_attrs : attrs := Attrs None None 0%N.
Definition empty_glyph : glyph := Glyph [32%N] plain_attrs.
Definition wblank (sz : size) : wcanvas := WCanvas sz (fun _ _ => empty_glyph) (Cursor 0 0) plain_attrs.

Definition wset_pen (p : cursor) (k : wcanvas) : wcanvas := WCanvas (wsize k) (wink k) p (wbrush k).
Definition wset_brush (a : attrs) (k : wcanvas) : wcanvas := WCanvas (wsize k) (wink k) (wpen k) a.
Definition wset_ink (f : nat -> nat -> glyph) (k : wcanvas) : wcanvas := WCanvas (wsize k) f (wpen k) (wbrush k).

Definition is_right (g : glyph) : bool := match g with Right => true | Glyph _ _ => false end.
Definition glyph_attrs (g : glyph) : attrs := match g with Glyph _ a => a | Right => plain_attrs end.

(** A character of width [w] at the pen.  If it covers one half of a double-width
    character, the other half becomes a space: an empty one on the left, one with the
    character's attributes on the right. *)
Definition put (w : nat) (ch : N) (k : wcanvas) : wcanvas :=
  let p := wpen k in
  let c0 := column p in
  wset_pen (if column p + w <? columns (wsize k) then Cursor (line p) (column p + w) else Cursor (line p + 1) 0)
    (wset_ink (fun l c =>
       if negb (l =? line p) then wink k l c
       else if c =? c0 then Glyph [ch] (wbrush k)
       else if (c0 <? c) && (c <? c0 + w) then Right
       else if (c + 1 =? c0) && is_right (wink k l c0) then empty_glyph
       else if (c =? c0 + w) && is_right (wink k l c) then Glyph [32%N] (glyph_attrs (wink k l (c - 1)))
       else wink k l c) k).

(** A mark joins the character at a position, whose right half the position may be. *)
Definition whole_at (k : wcanvas) (q : cursor) : cursor :=
  if is_right (wink k (line q) (column q)) then Cursor (line q) (column q - 1) else q.
Definition add_mark (m : N) (q : cursor) (k : wcanvas) : wcanvas :=
  wset_ink (fun l c => if (l =? line q) && (c =? column q)
                       then match wink k l c with Glyph t a => Glyph (t ++ [m]) a | Right => Right end
                       else wink k l c) k.

(** Typing one character: [None] if there is no place for it. *)
Definition wtyped (E : env) (c : N) (k : wcanvas) : option wcanvas :=
  let p := wpen k in
  let sz := wsize k in
  if (c =? 13)%N then Some (wset_pen (Cursor (line p) 0) k)
  else if (c =? 10)%N then Some (wset_pen (Cursor (line p + 1) 0) k)
  else if (c =? 9)%N then
    (* spaces up to the next multiple of 8 or the end of the line *)
    if on_canvas sz p then
      Some (Nat.iter (Nat.min (columns sz) (8 * (column p / 8 + 1)) - column p) (put 1 32%N) k)
    else None
  else if combining E c then
    match before sz p with
    | None => Some k
    | Some q => if on_canvas sz q then Some (add_mark c (whole_at k q) k) else None
    end
  else match cwidth E c with
       | Some 1 => if on_canvas sz p then Some (put 1 c k) else None
       | Some 2 =>
           if on_canvas sz p then
             if column p + 2 <=? columns sz then Some (put 2 c k)
             else if (2 <=? columns sz) && (line p + 1 <? lines sz)
                  then Some (put 2 c (put 1 32%N k))   (* it goes to the next line *)
                  else None
           else None
       | _ => Some k                      (* nothing to see: ignored *)
       end.

(** What mortal does not do that way: a double-width character for which one column is
    left (C19), and a mark after a double-width character (C18). *)
Definition easy_char (E : env) (c : N) (k : wcanvas) : Prop :=
  (wide E c -> on_canvas (wsize k) (wpen k) = true -> column (wpen k) + 2 <= columns (wsize k)) /\
  (mark E c -> forall q, before (wsize k) (wpen k) = Some q -> wink k (line q) (column q) <> Right).

Fixpoint wtyping (E : env) (s : list N) (k : wcanvas) : wcanvas * bool :=
  match s with
  | [] => (k, true)
  | c :: s => match wtyped E c k with Some k => wtyping E s k | None => (k, false) end
  end.
Fixpoint easy_text (E : env) (s : list N) (k : wcanvas) : Prop :=
  match s with
  | [] => True
  | c :: s => easy_char E c k /\ match wtyped E c k with Some k => easy_text E s k | None => True end
  end.

Definition wwrite (E : env) (s : list N) (k : wcanvas) : wcanvas := fst (wtyping E s k).
Definition wwrite_with (E : env) (a : attrs) (s : list N) (k : wcanvas) : wcanvas :=
  let '(k, fitted) := wtyping E s (wset_brush a k) in
  if fitted : bool then wset_brush plain_attrs k else k.

(** The methods. *)
Definition wdraw (E : env) (m : smethod) (k : wcanvas) : wcanvas :=
  let a := wbrush k in
  match m with
  | SSetCursor p => wset_pen (where_ p) k
  | SNextLine c => wset_pen (Cursor (line (wpen k) + 1) c) k
  | SClearScreen => wset_ink (fun _ _ => empty_glyph) k
  | SAddStyle s => wset_brush (Attrs (fg a) (bg a) (N.lor (sty a) s)) k
  | SRemoveStyle s => wset_brush (Attrs (fg a) (bg a) (N.ldiff (sty a) s)) k
  | SSetStyle s => wset_brush (Attrs (fg a) (bg a) (pick s)) k
  | SSetFg c => wset_brush (Attrs c (bg a) (sty a)) k
  | SSetBg c => wset_brush (Attrs (fg a) c (sty a)) k
  | SSetTheme f b s => wset_brush (Attrs f b s) k
  | SClearAttributes => wset_brush plain_attrs k
  | SBold => wset_brush (Attrs (fg a) (bg a) (N.lor (sty a) BOLD)) k
  | SItalic => wset_brush (Attrs (fg a) (bg a) (N.lor (sty a) ITALIC)) k
  | SUnderline => wset_brush (Attrs (fg a) (bg a) (N.lor (sty a) UNDERLINE)) k
  | SReverse => wset_brush (Attrs (fg a) (bg a) (N.lor (sty a) REVERSE)) k
  | SWriteAt p s => if on_canvas (wsize k) (where_ p) then wwrite E s (wset_pen (where_ p) k) else k
  | SWriteStyled f b st s => wwrite_with E (Attrs f b (pick st)) s k
  | SWriteStyledAt p f b st s =>
      if on_canvas (wsize k) (where_ p) then wwrite_with E (Attrs f b (pick st)) s (wset_pen (where_ p) k) else k
  | SWriteChar c => wwrite E [c] k
  | SWriteStr s => wwrite E s k
  | SWriteFmt ps => wwrite E (concat ps) k
  end.

(** The text of a method is easy where it is written. *)
Definition easy (E : env) (m : smethod) (k : wcanvas) : Prop :=
  match m with
  | SWriteAt p s => on_canvas (wsize k) (where_ p) = true -> easy_text E s (wset_pen (where_ p) k)
  | SWriteStyled f b st s => easy_text E s (wset_brush (Attrs f b (pick st)) k)
  | SWriteStyledAt p f b st s =>
      on_canvas (wsize k) (where_ p) = true -> easy_text E s (wset_brush (Attrs f b (pick st)) (wset_pen (where_ p) k))
  | SWriteChar c => easy_text E [c] k
  | SWriteStr s => easy_text E s k
  | SWriteFmt ps => easy_text E (concat ps) k
  | _ => True
  end.

Fixpoint wdraws (E : env) (ms : list smethod) (k : wcanvas) : wcanvas :=
  match ms with [] => k | m :: ms => wdraws E ms (wdraw E m k) end.
Fixpoint all_easy (E : env) (ms : list smethod) (k : wcanvas) : Prop :=
  match ms with [] => True | m :: ms => easy E m k /\ all_easy E ms (wdraw E m k) end.

(** A new size keeps what both sizes have in common; the rest is empty. *)
Definition wrefit (sz : size) (k : wcanvas) : wcanvas :=
  WCanvas sz (fun l c => if (l <? lines (wsize k)) && (c <? columns (wsize k)) then wink k l c else empty_glyph)
    (wpen k) (wbrush k).
(** The new right edge cuts no double-width character. *)
Definition cuts_nothing (sz : size) (k : wcanvas) : Prop :=
  columns sz < columns (wsize k) -> forall l, l < lines (wsize k) -> l < lines sz -> wink k l (columns sz) <> Right.

(** The screen buffer holds the canvas: a right half is a space with the attributes of
    its character. *)
Definition held (k : wcanvas) (p : cursor) : cell :=
  match wink k (line p) (column p) with
  | Glyph t a => Cell a t
  | Right => Cell (glyph_attrs (wink k (line p) (column p - 1))) [32%N]
  end.
Definition wholds (b : sbuf) (k : wcanvas) : Prop :=
  screen_get_size b = wsize k /\ screen_get_cursor b = wpen k /\ battrs b = wbrush k /\
  forall p, in_bounds p (wsize k) -> cell_at b (cell_no (wsize k) p) = Some (held k p).

(** The terminal shows the canvas. *)
Definition wdisplays (C : tcfg) (v : view) (k : wcanvas) : Prop :=
  vsize v = wsize k /\
  forall p, in_bounds p (wsize k) ->
    nth_error (vcells v) (cell_no (wsize k) p) =
    Some (match wink k (line p) (column p) with
          | Glyph t a => VC t (shown_attrs C a)
          | Right => VTrail
          end).

Definition wpen_goal (k : wcanvas) : cursor :=
  if on_canvas (wsize k) (wpen k) then wpen k else Cursor (lines (wsize k) - 1) (columns (wsize k) - 1).

(** What a refresh left on the screen: the picture it showed and, for each position, the
    text and attributes that refreshes last showed there other than as a right half.
    [None]: nothing since the last change of size. *)
Record shot : Type := Shot { pic : wcanvas; under : nat -> nat -> option (list N * attrs) }.
Definition first_shot (k : wcanvas) : shot := Shot k (fun _ _ => Some ([32%N], plain_attrs)).
Definition next_shot (last : option shot) (k : wcanvas) : shot :=
  Shot k (fun l c =>
    match wink k l c with
    | Glyph t a => Some (t, a)
    | Right => match last with Some h => under h l c | None => None end
    end).

(** No position that showed a right half gets back the text and attributes that it had
    before. *)
Definition mends (h : shot) (k : wcanvas) : Prop :=
  forall p t a, in_bounds p (wsize k) -> wink (pic h) (line p) (column p) = Right ->
    wink k (line p) (column p) = Glyph t a -> under h (line p) (column p) <> Some (t, a).

(** Programs with a [Screen] on a terminal [K], as [painted] in S_Canvas.  [last] is what
    the last refresh left; [None]: there was none since the last change of size.  C24 tells
    what happens if a picture does not mend the one before. *)
Inductive wpainted (E : env) (C : tcfg) (K : tty) : scr -> tstate K -> wcanvas -> option shot -> Prop :=
| WPt_new sz w s t0 v0 :
    screen_size sz -> whole_writes (script w) ->
    look K (feed K t0 (stream w)) = Some v0 -> vsize v0 = sz -> vattrs v0 = shown_attrs C (wat w) ->
    screen_new E C sz (inr sz) w = Ret s tt ->
    wpainted E C K s (feed K t0 (stream (wr s))) (wblank sz) (Some (first_shot (wblank sz)))
| WPt_method s t k last m b :
    wpainted E C K s t k last -> easy E m k ->
    screen_method E m (sb s) = Val b ->
    wpainted E C K (with_sb b s) t (wdraw E m k) last
| WPt_mode s t k last m s' x :
    wpainted E C K s t k last ->
    on_writer (set_cursor_mode C m) s = Ret s' tt ->
    stream (wr s') = stream (wr s) ++ x ->
    wpainted E C K s' (feed K t x) k last
| WPt_refresh s t k last s' x :
    wpainted E C K s t k last ->
    (forall h, last = Some h -> mends h k) ->
    refresh E C s = Ret s' tt ->
    stream (wr s') = stream (wr s) ++ x ->
    wpainted E C K s' (feed K t x) k (Some (next_shot last k))
| WPt_unflushed s t k last s1 s2 e x :
    (* a refresh that fails when it finally flushes *)
    wpainted E C K s t k last ->
    (forall h, last = Some h -> mends h k) ->
    compose E C s = Ret s1 tt -> on_writer flush s1 = Fail s2 e ->
    stream (wr s2) = stream (wr s) ++ x ->
    wpainted E C K s2 (feed K t x) k (Some (next_shot last k))
| WPt_resize s t k last v new s' t' v' :
    (* the terminal changes its size, whatever it shows afterwards *)
    wpainted E C K s t k last -> cuts_nothing new k ->
    look K t = Some v -> screen_size new -> obuf (wr s) = [] ->
    look K t' = Some v' -> vsize v' = new -> vattrs v' = vattrs v ->
    update_size E new s = Val s' ->
    wpainted E C K s' t' (wrefit new k) None.
