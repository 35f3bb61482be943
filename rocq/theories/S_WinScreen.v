(** Specification vocabulary for Windows screens (C72, C78, C79). *)
From Verif Require Import Base M_Utf8 S_Utf8 M_Geom S_Geom M_Attr M_Signal M_Util M_Input M_Buf S_Buf M_Writer M_Prepare M_Reader
  M_WinWriter M_WinReader S_WinReader M_WinScreen.
From Verif Require S_WinWriter S_Screen.

(** ** Opening and dropping (C72) *)

(** The terminal writes to the displayed buffer; its handle is open once. *)
Definition displayed (t : wterm) : Prop :=
  t_active t = t_out t /\ ~ In (t_out t) (map fst (t_else t)).

(** The answers to come to console calls on the output side. *)
Definition answers (t : wterm) : list cans := c_answers (w_con (t_w t)).
(** No call will fail. *)
Definition calls_work (t : wterm) : Prop := S_WinWriter.no_failure (answers t) /\ os_works (t_in t).

(** The terminal writes to the same buffer, which is displayed as before; the same other
    buffers are open; and the buffer shows the same and has the same attributes for text to
    come. *)
Definition same_buffers (t t' : wterm) : Prop :=
  t_out t' = t_out t /\ t_active t' = t_active t /\ t_else t' = t_else t /\
  c_view (w_con (t_w t')) = c_view (w_con (t_w t)) /\ c_attr (w_con (t_w t')) = c_attr (w_con (t_w t)).

(** A program's calls, one after the other; errors are reported and it goes on. *)
Fixpoint run_wsops (draw : list N -> N -> view -> view) (E : env) (ops : list wsop) (s : wscr) : option wscr :=
  match ops with
  | [] => Some s
  | o :: ops => match run_wsop draw E o s with
                | Ret s _ | Fail s _ => run_wsops draw E ops s
                | _ => None
                end
  end.

(** Another buffer than those of [t] is displayed. *)
Definition strayed (t t' : wterm) : Prop :=
  t_active t' <> t_out t /\ ~ In (t_active t') (map fst (t_else t)).

(** ** Reading (C78) *)

(** The size after records: that of the last size record, if there is one. *)
Definition size_after (E : env) (rs : list record) (z : size) : size :=
  fold_left (fun z r => match r with
                        | SizeRec p => Size (as_usize E (cY p)) (as_usize E (cX p))
                        | _ => z
                        end) rs z.

(** All calls but [read_raw] (and resizing the buffer behind the screen's back, which
    programs cannot do). *)
Definition not_raw (o : wsop) : Prop :=
  match o with SReadRaw _ _ | SBuffer (BResize _) => False | _ => True end.

(** ** Drawing (C79) *)

(** How a console places text: [shown t = Some g] says that the text [t] takes one position,
    which then shows [g].  Drawing it sets the position of the cursor; the cursor advances,
    except at the end of the line, where it goes to some position of the buffer.  The window
    may move. *)
Record places (draw : list N -> N -> view -> view) (shown : list N -> option N) : Prop := {
  p_space : shown [SPACE] = Some SPACE;
  p_nil : forall a v, draw [] a v = v;
  p_app : forall l1 l2 a v, draw (l1 ++ l2) a v = draw l2 a (draw l1 a v);
  p_cell : forall t g a v, shown t = Some g -> S_WinWriter.view_ok v ->
    let v' := draw (encode_wide t) a v in
    let p := v_cur v in
    S_WinWriter.view_ok v' /\ v_size v' = v_size v /\
    (cX p + 1 < cX (v_size v) -> v_cur v' = Coord (cX p + 1) (cY p))%Z /\
    (forall y x, (0 <= y < cY (v_size v))%Z -> (0 <= x < cX (v_size v))%Z ->
       v_cell v' y x = if ((y =? cY p) && (x =? cX p))%Z then (g, a) else v_cell v y x)
}.

(** The buffer the screen draws to. *)
Definition sees (s : wscr) : view := c_view (w_con (t_w (g_t s))).

(** It shows the screen's buffer: each cell's text, with an attribute word that shows its
    attributes. *)
Definition shows_buffer (shown : list N -> option N) (default : N) (v : view) (b : sbuf) : Prop :=
  v_size v = Coord (Z.of_nat (columns (bsize b))) (Z.of_nat (lines (bsize b))) /\
  forall p c, in_bounds p (bsize b) -> cell_at b (cell_no (bsize b) p) = Some c ->
    exists g w, v_cell v (Z.of_nat (line p)) (Z.of_nat (column p)) = (g, w) /\
                shown (ctext c) = Some g /\ S_WinWriter.shows default (cattrs c) w.

(** Conditions at a refresh: all cells have text that takes one position; and, if the size
    has changed since the last refresh, the window starts at the origin of the buffer and is
    as high as it is, or the cursor was not left at the origin. *)
Definition one_position (E : env) (shown : list N -> option N) (b : sbuf) : Prop :=
  Forall (fun c => shown (ctext c) <> None /\
                   match ctext c with x :: _ => ~ wide E x | [] => True end) (buffer b).
Definition window_fits (s : wscr) : Prop :=
  g_clr s = true ->
  (rLeft (v_win (sees s)) = 0%Z /\ S_WinWriter.win_height (sees s) = cY (v_size (sees s))) \/
  g_real s <> Cursor 0 0.

(** The console's view becomes [v]. *)
Definition seeing (v : view) (s : wscr) : wscr :=
  let t := g_t s in
  with_gt (with_w (with_con (with_view v (w_con (t_w t))) (t_w t)) t) s.

(** Histories of a screen: it is made on a terminal without attributes in force, the
    buffer is changed, the cursor mode is set, the screen is refreshed (successfully, under
    [careful]), and the console changes its size, shows whatever it likes, and the change is
    read. *)
Inductive whistory (draw : list N -> N -> view -> view) (E : env) (careful : wscr -> Prop) : wscr -> Prop :=
| WH_new cfg t t1 s :
    displayed t -> S_WinWriter.view_ok (c_view (w_con (t_w t))) ->
    (t_default t < 65536)%N -> w_at (t_w t) = no_attrs -> c_attr (w_con (t_w t)) = t_default t ->
    win_screen_new E cfg t = Ret t1 s ->
    whistory draw E careful s
| WH_buffer s o b :
    whistory draw E careful s -> (forall sz, o <> BResize sz) ->
    run_buf_op E (g_sb s) o = Val b -> whistory draw E careful (with_gsb b s)
| WH_mode s m s' u :
    whistory draw E careful s -> run_wsop draw E (SCursorMode m) s = Ret s' u ->
    whistory draw E careful s'
| WH_refresh s s' u :
    whistory draw E careful s -> careful s -> win_refresh draw E s = Ret s' u ->
    whistory draw E careful s'
| WH_resize s v s' u :
    whistory draw E careful s -> S_WinWriter.view_ok v ->
    win_update_size E (Size (Z.to_nat (cY (v_size v))) (Z.to_nat (cX (v_size v)))) (seeing v s) = Ret s' u ->
    whistory draw E careful s'.

(** A simple console for demonstrations: each code unit takes a position; at the end of a
    line the cursor stays. *)
Definition demo_draw (l : list N) (a : N) (v : view) : view :=
  fold_left (fun v u =>
    let p := v_cur v in
    View (v_size v) (if (cX p + 1 <? cX (v_size v))%Z then Coord (cX p + 1) (cY p) else p) (v_win v)
      (fun y x => if ((y =? cY p) && (x =? cX p))%Z then (u, a) else v_cell v y x)) l v.
Definition demo_shown (t : list N) : option N :=
  match t with [u] => if (u <? 0x10000)%N then Some u else None | _ => None end.
