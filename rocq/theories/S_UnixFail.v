(** Specification vocabulary for refreshes of a Unix screen that fail (C27). *)
From Verif Require Import Base M_Utf8 S_Utf8 M_Geom S_Geom M_Attr M_Buf S_Buf M_Writer S_Tty S_Writer M_Screen S_Screen
  M_Api M_ScreenApi S_Canvas.

(** It was the OS that did not take output: an error, or no bytes at all. *)
Definition io_error (e : werr) : Prop :=
  match e with EOs _ | EWriteZero => True | EExpand | ENotSupported _ => False end.

(** Programs with a [Screen] as in S_Canvas.v, but any refresh may fail because the OS takes
    no output: [battered s t k l] says that the screen is in state [s], the terminal, once it
    has received everything sent so far, in state [t], [k] is the canvas the calls of the
    program make, and [l] has the canvas of each refresh that failed while it was drawing
    since the size last changed, the last first. *)
Inductive battered (E : env) (C : tcfg) (K : tty) : scr -> tstate K -> canvas -> list canvas -> Prop :=
| UF_painted s t k : painted E C K s t k -> battered E C K s t k []
| UF_method s t k l m b :
    battered E C K s t k l -> no_wide E (method_text m) ->
    screen_method E m (sb s) = Val b ->
    battered E C K (with_sb b s) t (draw E m k) l
| UF_mode s t k l m s' x :
    battered E C K s t k l ->
    on_writer (set_cursor_mode C m) s = Ret s' tt ->
    stream (wr s') = stream (wr s) ++ x ->
    battered E C K s' (feed K t x) k l
| UF_refresh s t k l s' x :
    battered E C K s t k l ->
    refresh E C s = Ret s' tt ->
    stream (wr s') = stream (wr s) ++ x ->
    battered E C K s' (feed K t x) k l
| UF_unflushed s t k l s1 s' e x :
    (* a refresh that fails when it finally flushes *)
    battered E C K s t k l ->
    compose E C s = Ret s1 tt -> on_writer flush s1 = Fail s' e ->
    stream (wr s') = stream (wr s) ++ x ->
    battered E C K s' (feed K t x) k l
| UF_failed s t k l s' e x :
    (* a refresh that fails while it is drawing *)
    battered E C K s t k l ->
    compose E C s = Fail s' e -> io_error e ->
    stream (wr s') = stream (wr s) ++ x ->
    battered E C K s' (feed K t x) k (k :: l)
| UF_dropped s t k l s' :
    (* the guard of [Screen::refresh] has refreshed the screen once more; now the guard of the
       terminal is dropped, which flushes *)
    battered E C K s t k l -> on_writer guard_drop s = Ret s' tt ->
    battered E C K s' t k l
| UF_resize s t k l v new s' t' v' :
    (* the terminal changes its size; [t'] is its state, whatever it shows, when it has also
       received what was still in the output buffer *)
    battered E C K s t k l ->
    look K t = Some v -> screen_size new ->
    look K t' = Some v' -> vsize v' = new -> vattrs v' = vattrs v ->
    update_size E new s = Val s' ->
    battered E C K s' t' (refit new k) [].

(** The terminal shows what the canvas has at [p]. *)
Definition displays_at (C : tcfg) (v : view) (k : canvas) (p : cursor) : Prop :=
  nth_error (vcells v) (cell_no (ksize k) p) =
  Some (VC (fst (ink k (line p) (column p))) (shown_attrs C (snd (ink k (line p) (column p))))).
