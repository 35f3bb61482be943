(** Specification vocabulary for one program that draws on a Unix terminal and on a Windows
    console (C135). *)
From Verif Require Import Base M_Utf8 S_Utf8 M_Geom S_Geom M_Attr M_Signal M_Util M_Input M_Buf S_Buf M_Writer M_Prepare M_Reader
  M_WinWriter M_WinReader S_WinReader M_WinScreen S_WinScreen M_ScreenApi S_WinCanvas.
From Verif Require S_Tty S_Writer M_Screen S_Screen S_WinWriter S_Canvas.

(** What a program does with its screen, in order, with the sizes it is told. *)
Inductive deed : Type := Draws (m : smethod) | Shows | Mode (m : cursor_mode) | Fits (sz : size).

(** The program on Unix: the screen and the terminal after [l] ([S_Canvas.painted] says what
    a terminal is and does). *)
Inductive unix_run (E : env) (C : tcfg) (K : S_Tty.tty) (sz : size)
  : list deed -> M_Screen.scr -> S_Tty.tstate K -> Prop :=
| U_new w s t0 v0 :
    S_Screen.screen_size sz -> S_Writer.whole_writes (script w) ->
    S_Tty.look K (S_Tty.feed K t0 (S_Writer.stream w)) = Some v0 -> S_Tty.vsize v0 = sz ->
    S_Tty.vattrs v0 = S_Writer.shown_attrs C (wat w) ->
    M_Screen.screen_new E C sz (inr sz) w = Ret s tt ->
    unix_run E C K sz [] s (S_Tty.feed K t0 (S_Writer.stream (M_Screen.wr s)))
| U_draw l s t m b :
    unix_run E C K sz l s t -> screen_method E m (M_Screen.sb s) = Val b ->
    unix_run E C K sz (l ++ [Draws m]) (M_Screen.with_sb b s) t
| U_mode l s t m s' x :
    unix_run E C K sz l s t -> M_Screen.on_writer (set_cursor_mode C m) s = Ret s' tt ->
    S_Writer.stream (M_Screen.wr s') = S_Writer.stream (M_Screen.wr s) ++ x ->
    unix_run E C K sz (l ++ [Mode m]) s' (S_Tty.feed K t x)
| U_show l s t s' x :
    unix_run E C K sz l s t -> M_Screen.refresh E C s = Ret s' tt ->
    S_Writer.stream (M_Screen.wr s') = S_Writer.stream (M_Screen.wr s) ++ x ->
    unix_run E C K sz (l ++ [Shows]) s' (S_Tty.feed K t x)
| U_fit l s t v new s' t' v' :
    unix_run E C K sz l s t ->
    S_Tty.look K t = Some v -> S_Screen.screen_size new -> obuf (M_Screen.wr s) = [] ->
    S_Tty.look K t' = Some v' -> S_Tty.vsize v' = new -> S_Tty.vattrs v' = S_Tty.vattrs v ->
    M_Screen.update_size E new s = Val s' ->
    unix_run E C K sz (l ++ [Fits new]) s' t'.

(** The program on Windows: the screen, with its console, after [l]; the flag says whether
    the size changed since it was last shown ([S_WinCanvas.wpainted]). *)
Inductive win_run (draw : list N -> N -> view -> view) (E : env) (sz : size) : list deed -> wscr -> bool -> Prop :=
| W_new cfg t t1 s :
    displayed t -> S_WinWriter.view_ok (c_view (w_con (t_w t))) ->
    (t_default t < 65536)%N -> w_at (t_w t) = no_attrs -> c_attr (w_con (t_w t)) = t_default t ->
    size_of_view (c_view (w_con (t_w t))) = sz -> win_screen_new E cfg t = Ret t1 s ->
    win_run draw E sz [] s false
| W_draw l s r m b :
    win_run draw E sz l s r -> screen_method E m (g_sb s) = Val b ->
    win_run draw E sz (l ++ [Draws m]) (with_gsb b s) r
| W_mode l s r m s' u :
    win_run draw E sz l s r -> run_wsop draw E (SCursorMode m) s = Ret s' u ->
    win_run draw E sz (l ++ [Mode m]) s' r
| W_show l s r s' u :
    win_run draw E sz l s r -> (r = true -> covers (sees s)) -> win_refresh draw E s = Ret s' u ->
    win_run draw E sz (l ++ [Shows]) s' false
| W_fit l s r v s' u :
    win_run draw E sz l s r -> S_WinWriter.view_ok v -> win_update_size E (size_of_view v) (seeing v s) = Ret s' u ->
    win_run draw E sz (l ++ [Fits (size_of_view v)]) s' true.

(** Text that both can show, one position for each character. *)
Definition plain (E : env) (shown : list N -> option N) (d : deed) : Prop :=
  match d with
  | Draws m => S_Buf.no_wide E (S_Canvas.method_text m) /\ Forall (single E shown) (S_Canvas.method_text m)
  | _ => True
  end.

(** A terminal and a console that show the same: the sizes and cursors are the same, and at
    each position there is one text and one set of attributes that both show, each in its
    way ([S_Writer.shown_attrs]: with the capabilities it has; [S_WinWriter.shows]: as an
    attribute word; [shown]: as a code unit). *)
Definition same_picture (C : tcfg) (shown : list N -> option N) (default : N) (u : S_Tty.view) (w : view) : Prop :=
  size_of_view w = S_Tty.vsize u /\
  v_cur w = Coord (Z.of_nat (column (S_Tty.vcur u))) (Z.of_nat (line (S_Tty.vcur u))) /\
  forall p, in_bounds p (S_Tty.vsize u) ->
    exists text a g i,
      nth_error (S_Tty.vcells u) (cell_no (S_Tty.vsize u) p) = Some (S_Tty.VC text (S_Writer.shown_attrs C a)) /\
      v_cell w (Z.of_nat (line p)) (Z.of_nat (column p)) = (g, i) /\
      shown text = Some g /\ S_WinWriter.shows default a i.
