(** What a program draws on a screen, as the documentation of src/screen.rs describes
    the methods: a canvas of positions, each with a text and attributes, a pen and the
    attributes for further text.  Nothing here refers to the screen buffer's code.
    Double-width characters are left out (C19, C24). *)
From Verif Require Import Base M_Utf8 S_Utf8 M_Geom S_Geom M_Attr M_Buf S_Buf M_Writer S_Tty S_Writer M_Screen S_Screen
  M_Api M_ScreenApi.

Record canvas : Type := Canvas {
  ksize : size;
  ink : nat -> nat -> list N * attrs;      (* line, column *)
  pen : cursor;
  brush : attrs
}.

Definition empty_ink : list N * attrs := ([32%N], Attrs None None 0%N).
Definition blank_canvas (sz : size) : canvas :=
  Canvas sz (fun _ _ => empty_ink) (Cursor 0 0) (Attrs None None 0%N).

Definition on_canvas (sz : size) (p : cursor) : bool := (line p <? lines sz) && (column p <? columns sz).

Definition set_pen (p : cursor) (k : canvas) : canvas := Canvas (ksize k) (ink k) p (brush k).
Definition set_brush (a : attrs) (k : canvas) : canvas := Canvas (ksize k) (ink k) (pen k) a.
Definition set_ink (f : nat -> nat -> list N * attrs) (k : canvas) : canvas := Canvas (ksize k) f (pen k) (brush k).

(** The position before another one, in reading order. *)
Definition before (sz : size) (p : cursor) : option cursor :=
  match column p, line p with
  | S c, l => Some (Cursor l c)
  | 0, S l => Some (Cursor l (columns sz - 1))
  | 0, 0 => None
  end.

(** Typing one character: [None] if there is no place for it. *)
Definition typed (E : env) (c : N) (k : canvas) : option canvas :=
  let p := pen k in
  let sz := ksize k in
  if (c =? 13)%N then Some (set_pen (Cursor (line p) 0) k)
  else if (c =? 10)%N then Some (set_pen (Cursor (line p + 1) 0) k)
  else if (c =? 9)%N then
    (* spaces up to the next multiple of 8 or the end of the line *)
    if on_canvas sz p then
      let stop := Nat.min (columns sz) (8 * (column p / 8 + 1)) in
      Some (set_pen (if stop <? columns sz then Cursor (line p) stop else Cursor (line p + 1) 0)
        (set_ink (fun l c => if (l =? line p) && (column p <=? c) && (c <? stop) then ([32%N], brush k) else ink k l c) k))
    else None
  else if combining E c then
    (* a mark joins what is before the pen *)
    match before sz p with
    | None => Some k
    | Some q =>
        if on_canvas sz q then
          Some (set_ink (fun l c' => if (l =? line q) && (c' =? column q)
                                     then (fst (ink k l c') ++ [c], snd (ink k l c')) else ink k l c') k)
        else None
    end
  else match cwidth E c with
       | Some 1 =>
           if on_canvas sz p then
             Some (set_pen (if column p + 1 <? columns sz then Cursor (line p) (column p + 1)
                            else Cursor (line p + 1) 0)
               (set_ink (fun l c' => if (l =? line p) && (c' =? column p) then ([c], brush k) else ink k l c') k))
           else None
       | _ => Some k                      (* nothing to see: ignored *)
       end.

(** Typing a text: what does not fit ends it.  The flag tells whether all of it fitted. *)
Fixpoint typing (E : env) (s : list N) (k : canvas) : canvas * bool :=
  match s with
  | [] => (k, true)
  | c :: s => match typed E c k with Some k => typing E s k | None => (k, false) end
  end.
Definition write (E : env) (s : list N) (k : canvas) : canvas := fst (typing E s k).

(** With other attributes, which are removed afterwards (but see C22: not if the text
    did not fit). *)
Definition write_with (E : env) (a : attrs) (s : list N) (k : canvas) : canvas :=
  let '(k, fitted) := typing E s (set_brush a k) in
  if fitted : bool then set_brush (Attrs None None 0%N) k else k.

Definition where_ (p : position) : cursor :=
  match p with At c => c | Pair l c => Cursor l c end.

Definition pick (s : option style) : style := match s with Some s => s | None => 0%N end.

(** The methods. *)
Definition draw (E : env) (m : smethod) (k : canvas) : canvas :=
  let a := brush k in
  match m with
  | SSetCursor p => set_pen (where_ p) k
  | SNextLine c => set_pen (Cursor (line (pen k) + 1) c) k
  | SClearScreen => set_ink (fun _ _ => empty_ink) k
  | SAddStyle s => set_brush (Attrs (fg a) (bg a) (N.lor (sty a) s)) k
  | SRemoveStyle s => set_brush (Attrs (fg a) (bg a) (N.ldiff (sty a) s)) k
  | SSetStyle s => set_brush (Attrs (fg a) (bg a) (pick s)) k
  | SSetFg c => set_brush (Attrs c (bg a) (sty a)) k
  | SSetBg c => set_brush (Attrs (fg a) c (sty a)) k
  | SSetTheme f b s => set_brush (Attrs f b s) k
  | SClearAttributes => set_brush (Attrs None None 0%N) k
  | SBold => set_brush (Attrs (fg a) (bg a) (N.lor (sty a) BOLD)) k
  | SItalic => set_brush (Attrs (fg a) (bg a) (N.lor (sty a) ITALIC)) k
  | SUnderline => set_brush (Attrs (fg a) (bg a) (N.lor (sty a) UNDERLINE)) k
  | SReverse => set_brush (Attrs (fg a) (bg a) (N.lor (sty a) REVERSE)) k
  | SWriteAt p s => if on_canvas (ksize k) (where_ p) then write E s (set_pen (where_ p) k) else k
  | SWriteStyled f b st s => write_with E (Attrs f b (pick st)) s k
  | SWriteStyledAt p f b st s =>
      if on_canvas (ksize k) (where_ p) then write_with E (Attrs f b (pick st)) s (set_pen (where_ p) k) else k
  | SWriteChar c => write E [c] k
  | SWriteStr s => write E s k
  | SWriteFmt ps => write E (concat ps) k
  end.

Fixpoint draws (E : env) (ms : list smethod) (k : canvas) : canvas :=
  match ms with [] => k | m :: ms => draws E ms (draw E m k) end.

(** A new size keeps what both sizes have in common; the rest is empty. *)
Definition refit (sz : size) (k : canvas) : canvas :=
  Canvas sz (fun l c => if (l <? lines (ksize k)) && (c <? columns (ksize k)) then ink k l c else empty_ink)
    (pen k) (brush k).

(** The text of a method. *)
Definition method_text (m : smethod) : list N :=
  match m with
  | SWriteAt _ s | SWriteStyled _ _ _ s | SWriteStyledAt _ _ _ _ s | SWriteStr s => s
  | SWriteChar c => [c]
  | SWriteFmt ps => concat ps
  | _ => []
  end.

(** The screen buffer holds the canvas. *)
Definition holds (b : sbuf) (k : canvas) : Prop :=
  screen_get_size b = ksize k /\ screen_get_cursor b = pen k /\ battrs b = brush k /\
  forall p, in_bounds p (ksize k) ->
    cell_at b (cell_no (ksize k) p) = Some (Cell (snd (ink k (line p) (column p))) (fst (ink k (line p) (column p)))).

(** The terminal shows the canvas. *)
Definition displays (C : tcfg) (v : view) (k : canvas) : Prop :=
  vsize v = ksize k /\
  forall p, in_bounds p (ksize k) ->
    nth_error (vcells v) (cell_no (ksize k) p) =
    Some (VC (fst (ink k (line p) (column p))) (shown_attrs C (snd (ink k (line p) (column p))))).

(** Where the cursor of the terminal should be. *)
Definition pen_goal (k : canvas) : cursor :=
  if on_canvas (ksize k) (pen k) then pen k else Cursor (lines (ksize k) - 1) (columns (ksize k) - 1).

(** Programs with a [Screen] on a terminal [K]: [painted s t k] says that the screen is
    in state [s], the terminal, once it has received everything sent so far, in state
    [t], and [k] is the canvas the calls of the program make. *)
Inductive painted (E : env) (C : tcfg) (K : tty) : scr -> tstate K -> canvas -> Prop :=
| Pt_new sz w s t0 v0 :
    screen_size sz -> whole_writes (script w) ->
    look K (feed K t0 (stream w)) = Some v0 -> vsize v0 = sz -> vattrs v0 = shown_attrs C (wat w) ->
    screen_new E C sz (inr sz) w = Ret s tt ->
    painted E C K s (feed K t0 (stream (wr s))) (blank_canvas sz)
| Pt_method s t k m b :
    painted E C K s t k -> no_wide E (method_text m) ->
    screen_method E m (sb s) = Val b ->
    painted E C K (with_sb b s) t (draw E m k)
| Pt_mode s t k m s' x :
    painted E C K s t k ->
    on_writer (set_cursor_mode C m) s = Ret s' tt ->
    stream (wr s') = stream (wr s) ++ x ->
    painted E C K s' (feed K t x) k
| Pt_refresh s t k s' x :
    painted E C K s t k ->
    refresh E C s = Ret s' tt ->
    stream (wr s') = stream (wr s) ++ x ->
    painted E C K s' (feed K t x) k
| Pt_unflushed s t k s1 s2 e x :
    (* a refresh that fails when it finally flushes *)
    painted E C K s t k ->
    compose E C s = Ret s1 tt -> on_writer flush s1 = Fail s2 e ->
    stream (wr s2) = stream (wr s) ++ x ->
    painted E C K s2 (feed K t x) k
| Pt_resize s t k v new s' t' v' :
    (* the terminal changes its size, whatever it shows afterwards *)
    painted E C K s t k ->
    look K t = Some v -> screen_size new -> obuf (wr s) = [] ->
    look K t' = Some v' -> vsize v' = new -> vattrs v' = vattrs v ->
    update_size E new s = Val s' ->
    painted E C K s' t' (refit new k).
