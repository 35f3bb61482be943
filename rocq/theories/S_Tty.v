(** What a terminal is, and what it means for a terminal to implement its terminfo
    entry.  This is the contract the output theorems take as hypothesis; S_Emu.v has
    an ANSI terminal that satisfies it. *)
From Verif Require Import Base M_Utf8 S_Utf8 M_Geom S_Geom M_Attr M_Buf S_Buf M_Writer.

(** What one screen position shows: some text with attributes, or the right half of
    the double-width character in the position before it. *)
Inductive vcell : Type :=
| VC (text : list N) (a : attrs)
| VTrail.

(** What a person in front of the terminal (or the next byte) can tell: the size, the
    cells row by row, the cursor (column [= columns] while the wrap after the last
    column is pending), the attributes in force for further text, and whether the
    cursor is visible. *)
Record view : Type := View {
  vsize : size;
  vcells : list vcell;
  vcur : cursor;
  vattrs : attrs;
  vvis : bool
}.

Definition set_vattrs (a : attrs) (v : view) : view := View (vsize v) (vcells v) (vcur v) a (vvis v).
Definition set_vcur (c : cursor) (v : view) : view := View (vsize v) (vcells v) c (vattrs v) (vvis v).
Definition set_vcells (l : list vcell) (v : view) : view := View (vsize v) l (vcur v) (vattrs v) (vvis v).
Definition set_vvis (b : bool) (v : view) : view := View (vsize v) (vcells v) (vcur v) (vattrs v) b.

(** A terminal: it consumes bytes, and between complete control sequences it shows a
    view ([None]: in the middle of a sequence, or in a state nothing is said about). *)
Record tty : Type := Tty {
  tstate : Type;
  feed : tstate -> bytes -> tstate;
  look : tstate -> option view
}.

(** ANSI colour numbers, in order from 0. *)
Definition ansi_colors : list color := [Black; Red; Green; Yellow; Blue; Magenta; Cyan; White].

(** Parameters for which a capability's effect is specified. *)
Definition cap_dom (c : cap) (ps : list N) (v : view) : Prop :=
  match c, ps with
  | SetAForeground, [n] | SetABackground, [n] => (n < 8)%N
  | CursorAddress, [l; k] =>
      (l < N.of_nat (lines (vsize v)))%N /\ (k < N.of_nat (columns (vsize v)))%N
  | ChangeScrollRegion, [t; b] => t = 0%N /\ (b = N.of_nat (lines (vsize v)) - 1)%N
  | ParmUpCursor, [n] | ParmDownCursor, [n] | ParmLeftCursor, [n] | ParmRightCursor, [n] => (0 < n)%N
  | SetAForeground, _ | SetABackground, _ | CursorAddress, _ | ChangeScrollRegion, _
  | ParmUpCursor, _ | ParmDownCursor, _ | ParmLeftCursor, _ | ParmRightCursor, _ => False
  | _, [] => True
  | _, _ => False
  end.

Definition same_but_cells (v v' : view) : Prop :=
  vsize v' = vsize v /\ vcur v' = vcur v /\ vattrs v' = vattrs v /\ vvis v' = vvis v /\
  length (vcells v') = length (vcells v).

(** Positions from [i] to [k - 1] are blank: empty space, without attributes if none
    are in force (terminals differ in whether they erase with the background colour),
    and the others are as they were. *)
Definition erased (i k : nat) (v v' : view) : Prop :=
  (forall j, j < i \/ k <= j -> nth_error (vcells v') j = nth_error (vcells v) j) /\
  (forall j, i <= j < k ->
     exists a, nth_error (vcells v') j = Some (VC [SPACE] a) /\ (vattrs v = no_attrs -> a = no_attrs)).

(** The cursor is on a cell, and not on the right half of a double-width character. *)
Definition on_cell (v : view) : Prop :=
  in_bounds (vcur v) (vsize v) /\ nth_error (vcells v) (cell_no (vsize v) (vcur v)) <> Some VTrail.

Definition keeps (v v' : view) : Prop :=
  vsize v' = vsize v /\ vattrs v' = vattrs v /\ vvis v' = vvis v /\
  length (vcells v') = length (vcells v).

(** Relative movement to [p]; while a wrap is pending terminals differ in where the
    cursor goes, and nothing is said about it. *)
Definition moved (p : cursor) (v v' : view) : Prop :=
  keeps v v' /\ (column (vcur v) < columns (vsize v) -> v' = set_vcur p v).

(** The effect of a capability. *)
Definition cap_effect (c : cap) (ps : list N) (v v' : view) : Prop :=
  let a := vattrs v in
  let cur := vcur v in
  let arg := N.to_nat (hd 1%N ps) in
  match c with
  | ExitAttributeMode => v' = set_vattrs no_attrs v
  | SetAForeground =>
      exists k, nth_error ansi_colors arg = Some k /\ v' = set_vattrs (Attrs (Some k) (bg a) (sty a)) v
  | SetABackground =>
      exists k, nth_error ansi_colors arg = Some k /\ v' = set_vattrs (Attrs (fg a) (Some k) (sty a)) v
  | EnterBoldMode => v' = set_vattrs (Attrs (fg a) (bg a) (N.lor (sty a) BOLD)) v
  | EnterItalicsMode => v' = set_vattrs (Attrs (fg a) (bg a) (N.lor (sty a) ITALIC)) v
  | EnterReverseMode => v' = set_vattrs (Attrs (fg a) (bg a) (N.lor (sty a) REVERSE)) v
  | EnterUnderlineMode => v' = set_vattrs (Attrs (fg a) (bg a) (N.lor (sty a) UNDERLINE)) v
  | ExitItalicsMode => v' = set_vattrs (Attrs (fg a) (bg a) (N.ldiff (sty a) ITALIC)) v
  | ExitUnderlineMode => v' = set_vattrs (Attrs (fg a) (bg a) (N.ldiff (sty a) UNDERLINE)) v
  | CursorHome => v' = set_vcur (Cursor 0 0) v
  | CursorAddress => v' = set_vcur (Cursor arg (N.to_nat (nth 1 ps 0%N))) v
  | CursorUp | ParmUpCursor => moved (Cursor (line cur - arg) (column cur)) v v'
  | ParmDownCursor => moved (Cursor (Nat.min (line cur + arg) (lines (vsize v) - 1)) (column cur)) v v'
  | CursorLeft | ParmLeftCursor => moved (Cursor (line cur) (column cur - arg)) v v'
  | CursorRight | ParmRightCursor =>
      moved (Cursor (line cur) (Nat.min (column cur + arg) (columns (vsize v) - 1))) v v'
  | ClearScreen =>
      vcur v' = Cursor 0 0 /\ same_but_cells (set_vcur (Cursor 0 0) v) v' /\ erased 0 (total (vsize v)) v v'
  | ClrEos => same_but_cells v v' /\ (on_cell v -> erased (cell_no (vsize v) cur) (total (vsize v)) v v')
  | ClrEol => same_but_cells v v' /\
      (on_cell v -> erased (cell_no (vsize v) cur) (S (line cur) * columns (vsize v)) v v')
  | CursorNormal => v' = set_vvis true v
  | CursorInvisible => v' = set_vvis false v
  | KeypadLocal | KeypadXmit => v' = v
  | EnterCaMode | ExitCaMode | ChangeScrollRegion => keeps v v'
  end.

(** Printing a character [c] of [w] columns at a cursor that leaves room for it and is not
    on the right half of a double-width character.  A right half just after it, whose left
    half it overwrites, becomes anything but a right half. *)
Definition room (w : nat) (v : view) : Prop :=
  line (vcur v) < lines (vsize v) /\
  column (vcur v) + w <= columns (vsize v) /\
  let i := cell_no (vsize v) (vcur v) in
  nth_error (vcells v) i <> Some VTrail.

Definition put_effect (c : N) (w : nat) (v v' : view) : Prop :=
  let i := cell_no (vsize v) (vcur v) in
  vsize v' = vsize v /\ vattrs v' = vattrs v /\ vvis v' = vvis v /\
  length (vcells v') = length (vcells v) /\
  vcur v' = Cursor (line (vcur v)) (column (vcur v) + w) /\
  nth_error (vcells v') i = Some (VC [c] (vattrs v)) /\
  (w = 2 -> nth_error (vcells v') (i + 1) = Some VTrail) /\
  (forall j, j < i \/ i + w < j -> nth_error (vcells v') j = nth_error (vcells v) j) /\
  (nth_error (vcells v) (i + w) <> Some VTrail -> nth_error (vcells v') (i + w) = nth_error (vcells v) (i + w)) /\
  nth_error (vcells v') (i + w) <> Some VTrail.

(** A combining mark joins the text of the cell that ends left of the cursor.  [i] is
    that cell: the one before the cursor or, if that is a right half, the one before
    it. *)
Definition left_cell (v : view) (i : nat) : Prop :=
  0 < column (vcur v) <= columns (vsize v) /\ line (vcur v) < lines (vsize v) /\
  let p := cell_no (vsize v) (vcur v) - 1 in
  (i = p /\ nth_error (vcells v) p <> Some VTrail) \/
  (i = p - 1 /\ nth_error (vcells v) p = Some VTrail).

Definition mark_effect (m : N) (i : nat) (v v' : view) : Prop :=
  vsize v' = vsize v /\ vattrs v' = vattrs v /\ vvis v' = vvis v /\ vcur v' = vcur v /\
  length (vcells v') = length (vcells v) /\
  (forall s a, nth_error (vcells v) i = Some (VC s a) ->
     nth_error (vcells v') i = Some (VC (s ++ [m]) a)) /\
  (forall j, j <> i -> nth_error (vcells v') j = nth_error (vcells v) j).

(** Anything that is text: characters with cells of their own, marks, and the
    controls tab, line feed and carriage return. *)
Definition texty (E : env) (c : N) : Prop :=
  scalar c /\ (printable E c \/ mark E c \/ c = TAB \/ c = LF \/ c = CR).

(** The view is well formed. *)
Definition view_ok (v : view) : Prop := length (vcells v) = total (vsize v).

(** The terminal [K] implements the terminfo entry of [C] (with the character widths
    of [E]). *)
Record implements (E : env) (C : tcfg) (K : tty) : Prop := Implements {
  feed_app : forall t a b, feed K t (a ++ b) = feed K (feed K t a) b;
  feed_nil : forall t, feed K t [] = t;
  look_ok : forall t v, look K t = Some v -> view_ok v;
  cap_ok : forall c e, info C c = Some e ->
    forall k ps bs k', e k ps = (bs, k', true) ->
    forall t v, look K t = Some v -> cap_dom c ps v ->
    exists v', look K (feed K t bs) = Some v' /\ cap_effect c ps v v';
  text_ok : forall c, texty E c -> forall t v, look K t = Some v ->
    exists v', look K (feed K t (utf8 c)) = Some v' /\ keeps v v' /\
      (forall w, cwidth E c = Some w -> printable E c -> room w v -> put_effect c w v v') /\
      (forall i, mark E c -> left_cell v i -> mark_effect c i v v') /\
      (c = CR -> v' = set_vcur (Cursor (line (vcur v)) 0) v);
  mouse_ok : xterm C = true -> forall t v, look K t = Some v ->
    look K (feed K t XTERM_ENABLE_MOUSE) = Some v /\
    look K (feed K t XTERM_ENABLE_MOUSE_MOTION) = Some v /\
    look K (feed K t XTERM_DISABLE_MOUSE) = Some v /\
    look K (feed K t XTERM_DISABLE_MOUSE_MOTION) = Some v
}.
