(** Specification vocabulary for the same calls on a Unix terminal and a Windows console
    (C136). *)
From Verif Require Import Base M_Utf8 S_Utf8 M_Geom S_Geom M_Attr M_Buf S_Buf M_Writer S_Tty S_Writer M_Api S_Api.
From Verif Require M_WinWriter S_WinWriter S_WinScreen S_WinApi.

(** All of the console's buffer is visible.  Such a console does not scroll its window. *)
Definition whole_window (v : M_WinWriter.view) : Prop :=
  M_WinWriter.v_win v = M_WinWriter.Rect 0 (M_WinWriter.cY (M_WinWriter.v_size v) - 1) 0 (M_WinWriter.cX (M_WinWriter.v_size v) - 1).
Definition keeps_window (draw : list N -> N -> M_WinWriter.view -> M_WinWriter.view) : Prop :=
  forall l a v, whole_window v -> whole_window (draw l a v).

(** The terminal [u] and the console [F] ([S_WinApi.face]) are alike: all of the console's
    buffer is visible; sizes, cursors, visibility of the cursor and the attributes for text
    to come are the same; and at each position there is one text with the same attributes,
    on the console as a glyph ([shown]) with an attribute word. *)
Definition alike (shown : list N -> option N) (default : N) (u : view) (F : S_WinApi.face) : Prop :=
  let v := S_WinApi.f_view F in
  S_WinWriter.view_ok v /\ whole_window v /\
  M_WinWriter.v_size v = M_WinWriter.Coord (Z.of_nat (columns (vsize u))) (Z.of_nat (lines (vsize u))) /\
  M_WinWriter.v_cur v = M_WinWriter.Coord (Z.of_nat (column (vcur u))) (Z.of_nat (line (vcur u))) /\
  S_WinApi.f_attrs F = vattrs u /\ snd (S_WinApi.f_cursor F) = vvis u /\
  forall p, in_bounds p (vsize u) ->
    exists text a w g,
      nth_error (vcells u) (cell_no (vsize u) p) = Some (VC text a) /\
      M_WinWriter.v_cell v (Z.of_nat (line p)) (Z.of_nat (column p)) = (g, w) /\
      shown text = Some g /\ S_WinWriter.shows default a w.

(** Text of characters that take one position each, on both. *)
Definition plain_text (E : env) (shown : list N -> option N) (text : list N) : Prop :=
  Forall (fun c => scalar c /\ narrow E c /\ shown [c] <> None) text.
Definition plain_method (E : env) (shown : list N -> option N) (m : tmethod) : Prop :=
  match m with
  | TAddStyle s | TRemoveStyle s | TSetStyle (Some s) | TSetTheme _ _ s => style_ok s
  | TWriteStyled _ _ s text => match s with Some s => style_ok s | None => True end /\ plain_text E shown text
  | TWriteChar c => plain_text E shown [c]
  | TWriteStr text => plain_text E shown text
  | TWriteFmt pieces => plain_text E shown (concat pieces)
  | _ => True
  end.

(** Where the cursor goes, and the attributes that are in force then.  [None]: the cursor is
    to go over the upper or left edge (C61), text does not leave a free column on its line
    (what comes then is up to terminal and console), or something is to be erased while there are
    attributes in force (terminals differ in whether they erase with these). *)
Definition along (n : nat) (sz : size) (p : cursor) : option cursor :=
  if column p + n <? columns sz then Some (Cursor (line p) (column p + n)) else None.
Definition walk (sz : size) (m : tmethod) (p : cursor) (a : attrs) : option (cursor * attrs) :=
  let stay a := Some (p, a) in
  let go q := Some (q, a) in
  let style s := stay (Attrs (fg a) (bg a) s) in
  let unstyled {A} (r : option A) := if attrs_eqb a no_attrs then r else None in
  match m with
  | TFlush | TSetCursorMode _ => stay a
  | TClearScreen => unstyled (go (Cursor 0 0))
  | TClearToLineEnd | TClearToScreenEnd => unstyled (stay a)
  | TMoveUp n => if n <=? line p then go (Cursor (line p - n) (column p)) else None
  | TMoveLeft n => if n <=? column p then go (Cursor (line p) (column p - n)) else None
  | TMoveDown n => if (N.of_nat n <=? u32_max)%N then go (Cursor (Nat.min (line p + n) (lines sz - 1)) (column p)) else None
  | TMoveRight n => if (N.of_nat n <=? u32_max)%N then go (Cursor (line p) (Nat.min (column p + n) (columns sz - 1))) else None
  | TMoveToFirstColumn => go (Cursor (line p) 0)
  | TAddStyle s => style (N.lor (sty a) s)
  | TRemoveStyle s => style (N.ldiff (sty a) s)
  | TSetStyle s => style (match s with Some s => s | None => 0%N end)
  | TBold => style (N.lor (sty a) BOLD)
  | TItalic => style (N.lor (sty a) ITALIC)
  | TUnderline => style (N.lor (sty a) UNDERLINE)
  | TReverse => style (N.lor (sty a) REVERSE)
  | TSetTheme f b s => stay (Attrs f b s)
  | TSetFg c => stay (Attrs c (bg a) (sty a))
  | TSetBg c => stay (Attrs (fg a) c (sty a))
  | TClearAttributes => stay no_attrs
  | TWriteStyled _ _ _ text => option_map (fun q => (q, no_attrs)) (along (length text) sz p)
  | TWriteChar _ => option_map (fun q => (q, a)) (along 1 sz p)
  | TWriteStr text => option_map (fun q => (q, a)) (along (length text) sz p)
  | TWriteFmt pieces => option_map (fun q => (q, a)) (along (length (concat pieces)) sz p)
  end.
Definition method_of (c : api_call) : tmethod := match c with OnGuard m | OnTerminal m => m end.
Fixpoint walks (sz : size) (cs : list api_call) (p : cursor) (a : attrs) : option (cursor * attrs) :=
  match cs with
  | [] => Some (p, a)
  | c :: cs => match walk sz (method_of c) p a with Some (p, a) => walks sz cs p a | None => None end
  end.
