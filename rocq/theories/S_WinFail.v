(** Specification vocabulary for refreshes of a Windows screen that fail (C128). *)
From Verif Require Import Base M_Utf8 S_Utf8 M_Geom S_Geom M_Attr M_Signal M_Util M_Input M_Buf S_Buf M_Writer M_Prepare M_Reader
  M_WinWriter M_WinReader S_WinReader M_WinScreen S_WinScreen M_ScreenApi S_WinCanvas.
From Verif Require S_WinWriter S_Canvas.

(** Text that the console takes whole or not at all: one UTF-16 code unit. *)
Definition one_unit (t : list N) : Prop := length (encode_wide t) <= 1.

(** The console writes with the attributes that the terminal thinks are set (what else may
    happen is C56). *)
Definition in_step (s : wscr) : Prop :=
  c_attr (w_con (t_w (g_t s))) = win_word (t_default (g_t s)) (w_at (t_w (g_t s))).

(** Programs with a [Screen] as in S_WinCanvas, but calls may fail: [struck s k r l] says that
    the screen is in state [s], [k] is its canvas, [r] tells whether the size has changed
    since the last refresh, and [l] has the canvas of each failed refresh since the size last
    changed, the last first.  A refresh may fail after one that succeeded at this size, but it
    is not setting the attributes that fails; and after a change of the size, the clearing of
    the console, with which that refresh begins, may fail (nothing is drawn then). *)
Inductive struck (draw : list N -> N -> view -> view) (shown : list N -> option N) (E : env)
  : wscr -> S_Canvas.canvas -> bool -> list S_Canvas.canvas -> Prop :=
| WF_painted s k r : wpainted draw shown E s k r -> struck draw shown E s k r []
| WF_method s k r l m b :
    struck draw shown E s k r l -> Forall (single E shown) (S_Canvas.method_text m) ->
    screen_method E m (g_sb s) = Val b ->
    struck draw shown E (with_gsb b s) (S_Canvas.draw E m k) r l
| WF_mode s k r l m s' u :
    struck draw shown E s k r l -> run_wsop draw E (SCursorMode m) s = Ret s' u ->
    struck draw shown E s' k r l
| WF_mode_failed s k r l m s' e :
    struck draw shown E s k r l -> run_wsop draw E (SCursorMode m) s = Fail s' e ->
    struck draw shown E s' k r l
| WF_refresh s k r l s' u :
    struck draw shown E s k r l -> (r = true -> covers (sees s)) -> win_refresh draw E s = Ret s' u ->
    struck draw shown E s' k false l
| WF_failed s k l s' e :
    struck draw shown E s k false l ->
    (forall p, in_bounds p (S_Canvas.ksize k) -> one_unit (fst (S_Canvas.ink k (line p) (column p)))) ->
    win_refresh draw E s = Fail s' e -> in_step s' ->
    struck draw shown E s' k false (k :: l)
| WF_unclear s k l s' e :
    struck draw shown E s k true l -> covers (sees s) -> win_refresh draw E s = Fail s' e ->
    (exists w e0, win_clear_screen (t_default (g_t s)) (t_w (g_t s)) = Fail w e0) ->
    struck draw shown E s' k true l
| WF_resize s k r l v s' u :
    struck draw shown E s k r l -> S_WinWriter.view_ok v ->
    win_update_size E (size_of_view v) (seeing v s) = Ret s' u ->
    struck draw shown E s' (S_Canvas.refit (size_of_view v) k) true [].

(** The console shows what the canvas has at [p]. *)
Definition shows_ink (shown : list N -> option N) (default : N) (v : view) (k : S_Canvas.canvas) (p : cursor) : Prop :=
  exists g w, v_cell v (Z.of_nat (line p)) (Z.of_nat (column p)) = (g, w) /\
              shown (fst (S_Canvas.ink k (line p) (column p))) = Some g /\
              S_WinWriter.shows default (snd (S_Canvas.ink k (line p) (column p))) w.
