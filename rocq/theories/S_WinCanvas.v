(** Specification vocabulary for drawing on a screen on Windows (C100): the canvas of
    S_Canvas.v on the console of M_WinWriter.v. *)
From Verif Require Import Base M_Utf8 S_Utf8 M_Geom S_Geom M_Attr M_Signal M_Util M_Input M_Buf S_Buf M_Writer M_Prepare M_Reader
  M_WinWriter M_WinReader S_WinReader M_WinScreen S_WinScreen M_ScreenApi.
From Verif Require S_WinWriter S_Canvas.

(** A character that takes one position if it takes any: tab, line feed, carriage return;
    a character without width; or one that is no mark, has width 1 and that the console shows in one
    position. *)
Definition single (E : env) (shown : list N -> option N) (c : N) : Prop :=
  c = 9%N \/ c = 10%N \/ c = 13%N \/
  (combining E c = false /\ ~ wide E c /\ (cwidth E c = Some 1 -> shown [c] <> None)).

(** The size of a console buffer. *)
Definition size_of_view (v : view) : size := Size (Z.to_nat (cY (v_size v))) (Z.to_nat (cX (v_size v))).

(** The window covers the lines of the buffer. *)
Definition covers (v : view) : Prop := rLeft (v_win v) = 0%Z /\ S_WinWriter.win_height v = cY (v_size v).

(** Programs with a [Screen]: [wpainted s k r] says that the screen is in state [s] and [k]
    is the canvas the calls of the program make; [r] tells whether the size has changed
    since the last refresh.  The screen is made on a terminal without attributes in force;
    methods are called; the cursor mode is set; the screen is refreshed, after a change of
    the size only while the window covers the buffer; and the console changes its size,
    shows whatever it likes, and the change is read. *)
Inductive wpainted (draw : list N -> N -> view -> view) (shown : list N -> option N) (E : env)
  : wscr -> S_Canvas.canvas -> bool -> Prop :=
| WP_new cfg t t1 s :
    displayed t -> S_WinWriter.view_ok (c_view (w_con (t_w t))) ->
    (t_default t < 65536)%N -> w_at (t_w t) = no_attrs -> c_attr (w_con (t_w t)) = t_default t ->
    win_screen_new E cfg t = Ret t1 s ->
    wpainted draw shown E s (S_Canvas.blank_canvas (size_of_view (c_view (w_con (t_w t))))) false
| WP_method s k r m b :
    wpainted draw shown E s k r -> Forall (single E shown) (S_Canvas.method_text m) ->
    screen_method E m (g_sb s) = Val b ->
    wpainted draw shown E (with_gsb b s) (S_Canvas.draw E m k) r
| WP_mode s k r m s' u :
    wpainted draw shown E s k r -> run_wsop draw E (SCursorMode m) s = Ret s' u ->
    wpainted draw shown E s' k r
| WP_refresh s k r s' u :
    wpainted draw shown E s k r -> (r = true -> covers (sees s)) -> win_refresh draw E s = Ret s' u ->
    wpainted draw shown E s' k false
| WP_resize s k r v s' u :
    wpainted draw shown E s k r -> S_WinWriter.view_ok v ->
    win_update_size E (size_of_view v) (seeing v s) = Ret s' u ->
    wpainted draw shown E s' (S_Canvas.refit (size_of_view v) k) true.

(** The console shows the canvas: the same size, and at each position the canvas's text
    with an attribute word that shows the canvas's attributes. *)
Definition wdisplays (shown : list N -> option N) (default : N) (v : view) (k : S_Canvas.canvas) : Prop :=
  size_of_view v = S_Canvas.ksize k /\
  forall p, in_bounds p (S_Canvas.ksize k) ->
    exists g w, v_cell v (Z.of_nat (line p)) (Z.of_nat (column p)) = (g, w) /\
                shown (fst (S_Canvas.ink k (line p) (column p))) = Some g /\
                S_WinWriter.shows default (snd (S_Canvas.ink k (line p) (column p))) w.
