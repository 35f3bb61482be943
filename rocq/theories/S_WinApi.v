(** What the documentation of src/terminal.rs says each output method does, in terms of
    a Windows console. *)
From Verif Require Import Base M_Utf8 S_Utf8 M_Geom M_Attr M_Buf M_Writer M_Api M_WinWriter S_WinWriter.
Local Open Scope Z_scope.

(** What a program sees of the console: the screen buffer with cursor and window, the
    attributes text to come will have, and size and visibility of the cursor. *)
Record face : Type := Face { f_view : view; f_attrs : attrs; f_cursor : N * bool }.
Definition faces (default : N) (c : con) (F : face) : Prop :=
  c_view c = f_view F /\ shows default (f_attrs F) (c_attr c) /\ c_cursor c = f_cursor F.

(** How a console draws: text may be given to it in pieces, and its buffer keeps its size
    with cursor and window within it.  Where the text goes is the console's business. *)
Record draws (draw : list N -> N -> view -> view) : Prop := {
  d_nil : forall a v, draw [] a v = v;
  d_app : forall l1 l2 a v, draw (l1 ++ l2) a v = draw l2 a (draw l1 a v);
  d_ok : forall l a v, view_ok v -> view_ok (draw l a v) /\ v_size (draw l a v) = v_size v
}.

(** Text is drawn in UTF-16 with a word that shows the attributes. *)
Definition types_text (draw : list N -> N -> view -> view) (default : N) (a : attrs) (text : list N) (v v' : view) : Prop :=
  exists units w, Forall (fun u => (u < 65536)%N) units /\ utf16_decode units = Some text /\ shows default a w /\ v' = draw units w v.

(** The cursor moves to [p]; the window follows. *)
Definition to (p : coord) (v v' : view) : Prop :=
  v_size v' = v_size v /\ v_cur v' = p /\ v_cell v' = v_cell v /\ follows p (v_win v) (v_win v').

(** The cells described by [P] become blank. *)
Definition wiped (default : N) (P : Z -> Z -> bool) (v v' : view) : Prop :=
  v_size v' = v_size v /\ v_cur v' = v_cur v /\ v_win v' = v_win v /\
  forall y x, 0 <= y < cY (v_size v) -> 0 <= x < cX (v_size v) ->
    v_cell v' y x = if P y x then (SPACE, default) else v_cell v y x.

Definition on_view_only (F F' : face) (R : view -> view -> Prop) : Prop :=
  f_attrs F' = f_attrs F /\ f_cursor F' = f_cursor F /\ R (f_view F) (f_view F').
Definition restyled (F : face) (f : style -> style) : face :=
  Face (f_view F) (Attrs (fg (f_attrs F)) (bg (f_attrs F)) (f (sty (f_attrs F)))) (f_cursor F).

Section Effects.
  Variables (draw : list N -> N -> view -> view) (default : N).

  (** The effect of a method that succeeds. *)
  Definition win_effect (m : tmethod) (F F' : face) : Prop :=
    let v := f_view F in
    let a := f_attrs F in
    let x := cX (v_cur v) in
    let y := cY (v_cur v) in
    match m with
    | TFlush => F' = F
    | TClearScreen => on_view_only F F' (fun v v' =>
        v_size v' = v_size v /\ win_height v' = win_height v /\
        v_cur v' = Coord (rLeft (v_win v')) (rTop (v_win v')) /\
        (* blank only here: C71 *)
        (win_height v = cY (v_size v) \/
         2 * win_height v <= cY (v_size v) /\
         (forall y x, cY (v_cur v) < y < cY (v_size v) -> 0 <= x < cX (v_size v) -> blank (v_cell v y x)) ->
         cleared v') /\
        (* and then without attributes, if all of the buffer is visible *)
        (win_height v = cY (v_size v) ->
         v_win v' = v_win v /\
         forall y x, 0 <= y < cY (v_size v) -> 0 <= x < cX (v_size v) -> v_cell v' y x = (SPACE, default)))
    | TClearToLineEnd => on_view_only F F' (wiped default (fun y' x' => (y' =? y) && (x <=? x')))
    | TClearToScreenEnd => on_view_only F F' (wiped default (fun y' x' => (y <? y') || (y' =? y) && (x <=? x')))
    | TMoveUp n => Z.of_nat n <= y /\ on_view_only F F' (to (Coord x (y - Z.of_nat n)))
    | TMoveDown n => on_view_only F F' (to (Coord x (Z.min (y + Z.of_nat n) (cY (v_size v) - 1))))
    | TMoveLeft n => Z.of_nat n <= x /\ on_view_only F F' (to (Coord (x - Z.of_nat n) y))
    | TMoveRight n => on_view_only F F' (to (Coord (Z.min (x + Z.of_nat n) (cX (v_size v) - 1)) y))
    | TMoveToFirstColumn => on_view_only F F' (to (Coord 0 y))
    | TSetCursorMode CInvisible => exists n, F' = Face v a (n, false)
    | TSetCursorMode CNormal => F' = Face v a (25%N, true)
    | TSetCursorMode COverwrite => F' = Face v a (100%N, true)
    | TAddStyle s => F' = restyled F (fun old => N.lor old s)
    | TRemoveStyle s => F' = restyled F (fun old => N.ldiff old s)
    | TSetStyle (Some s) => F' = restyled F (fun _ => s)
    | TSetStyle None => F' = restyled F (fun _ => 0%N)
    | TSetTheme f b s => F' = Face v (Attrs f b s) (f_cursor F)
    | TSetFg c => F' = Face v (Attrs c (bg a) (sty a)) (f_cursor F)
    | TSetBg c => F' = Face v (Attrs (fg a) c (sty a)) (f_cursor F)
    | TClearAttributes => F' = Face v (Attrs None None 0%N) (f_cursor F)
    | TBold => F' = restyled F (fun old => N.lor old BOLD)
    | TItalic => F' = restyled F (fun old => N.lor old ITALIC)
    | TUnderline => F' = restyled F (fun old => N.lor old UNDERLINE)
    | TReverse => F' = restyled F (fun old => N.lor old REVERSE)
    | TWriteStyled f b s text =>
        let st := match s with Some s => s | None => 0%N end in
        exists v', types_text draw default (Attrs f b st) text v v' /\ F' = Face v' (Attrs None None 0%N) (f_cursor F)
    | TWriteChar c => on_view_only F F' (types_text draw default a [c])
    | TWriteStr text => on_view_only F F' (types_text draw default a text)
    | TWriteFmt pieces => on_view_only F F' (types_text draw default a (concat pieces))
    end.

  (** Moving by 0. *)
  Definition no_move (m : tmethod) : bool :=
    match m with TMoveUp n | TMoveDown n | TMoveLeft n | TMoveRight n => Nat.eqb n 0 | _ => false end.

  Definition call_effect (c : api_call) (F F' : face) : Prop :=
    match c with
    | OnGuard m => win_effect m F F'
    | OnTerminal m => if no_move m then F' = F else win_effect m F F'
    end.

  Inductive win_effects : list api_call -> face -> face -> Prop :=
  | wef_nil F : win_effects [] F F
  | wef_cons c cs F F1 F2 : call_effect c F F1 -> win_effects cs F1 F2 -> win_effects (c :: cs) F F2.
End Effects.

(** Text is made of Unicode scalar values, as in Rust. *)
Definition scalar_text (m : tmethod) : Prop :=
  match m with
  | TWriteStyled _ _ _ text | TWriteStr text => Forall scalar text
  | TWriteChar c => scalar c
  | TWriteFmt pieces => Forall (Forall scalar) pieces
  | _ => True
  end.

Definition call_scalar (c : api_call) : Prop :=
  match c with OnGuard m | OnTerminal m => scalar_text m end.

(** The call would move the cursor over the upper or left edge. *)
Definition over_edge (c : api_call) (v : view) : Prop :=
  match c with
  | OnGuard (TMoveUp n) | OnTerminal (TMoveUp n) => cY (v_cur v) < Z.of_nat n
  | OnGuard (TMoveLeft n) | OnTerminal (TMoveLeft n) => cX (v_cur v) < Z.of_nat n
  | _ => False
  end.
