(** Specification for programs on a Unix screen, with the terminal they draw on. *)
From Verif Require Import Base M_Utf8 M_Geom M_Attr M_Buf S_Buf M_Seq M_Signal M_Util M_Input M_Writer S_Tty S_Writer
  M_Screen S_Screen M_Prepare M_Reader M_UnixScreen S_UnixScreen.

(** The text an operation writes has no double-width characters. *)
Definition single_gop (E : env) (o : gop) : Prop := match o with GBuffer b => single_width E b | _ => True end.
Definition single_op (E : env) (o : uop) : Prop :=
  match o with
  | UBuffer b => single_width E b
  | ULocked l => Forall (single_gop E) l
  | _ => True
  end.

(** A refresh that draws everything; sending it may fail at the very end. *)
Definition drawn (E : env) (C : tcfg) (x x' : scr) : Prop :=
  refresh E C x = Ret x' tt \/ exists x1 e, compose E C x = Ret x1 tt /\ on_writer flush x1 = Fail x' e.

(** Nothing else fails while a write guard is used and dropped, or in an operation. *)
Inductive g_calm (E : env) (C : tcfg) : list gop -> scr -> Prop :=
| Calm_drop x x' : drawn E C x x' -> g_calm E C [] x
| Calm_buffer o l x b : run_buf_op E (sb x) o = Val b -> g_calm E C l (with_sb b x) -> g_calm E C (GBuffer o :: l) x
| Calm_mode c l x x' : on_writer (set_cursor_mode C c) x = Ret x' tt -> g_calm E C l x' -> g_calm E C (GMode c :: l) x
| Calm_refresh l x x' : drawn E C x x' -> g_calm E C l x' -> g_calm E C (GRefresh :: l) x.
Definition calm (E : env) (C : tcfg) (o : uop) (u : uscr) : Prop :=
  match o with
  | URefresh => g_calm E C [GRefresh] (out_side u)
  | ULocked l => g_calm E C l (out_side u)
  | UMode c => exists w, set_cursor_mode C c (M_Prepare.wr (u_sys u)) = Ret w tt
  | _ => True
  end.

(** The window did not change meanwhile. *)
Definition same_window (u u' : uscr) : Prop :=
  exists l, time (u_sys u) = l ++ time (u_sys u') /\ forall r, ~ In (TWin r) l.

(** Programs on a screen whose terminal is [K].  [program u (Some t)]: [u] is the
    screen, [t] the terminal once it has received everything sent so far.  When the window
    has changed, and when drawing failed, nothing is said about the terminal ([None]), until
    the program is told the window's size: then the terminal has that size, and shows
    anything ([t'], which has still to receive what waits in the output buffer).  The operating system takes whole buffers or nothing (it may do otherwise
    while nothing is said about the terminal). *)
Inductive program (E : env) (C : tcfg) (m : seq_map) (K : tty) : uscr -> option (tstate K) -> Prop :=
| P_new cfg s0 s1 u z t0 v0 :
    win s0 = inr z -> screen_size z -> whole_writes (script (M_Prepare.wr s0)) ->
    look K (feed K t0 (stream (M_Prepare.wr s0))) = Some v0 -> vsize v0 = z ->
    vattrs v0 = shown_attrs C (wat (M_Prepare.wr s0)) ->
    unix_screen_new E C cfg s0 = Ret s1 u ->
    program E C m K u (Some (feed K t0 (stream (M_Prepare.wr (u_sys u)))))
| P_step u t o u' r x :
    program E C m K u (Some t) ->
    public_op o -> single_op E o -> calm E C o u ->
    ustep E C m o u = Some (u', r) -> resize_of r = None -> same_window u u' ->
    stream (M_Prepare.wr (u_sys u')) = stream (M_Prepare.wr (u_sys u)) ++ x ->
    program E C m K u' (Some (feed K t x))
| P_away u t o u' r :
    program E C m K u t ->
    public_op o -> single_op E o ->
    ustep E C m o u = Some (u', r) -> (forall z, resize_of r = Some z -> screen_size z) ->
    program E C m K u' None
| P_told u t o u' r z t' v' :
    program E C m K u t ->
    public_op o -> single_op E o ->
    ustep E C m o u = Some (u', r) -> resize_of r = Some z -> screen_size z ->
    whole_writes (script (M_Prepare.wr (u_sys u'))) ->
    look K (feed K t' (obuf (M_Prepare.wr (u_sys u')))) = Some v' -> vsize v' = z -> vattrs v' = shown_attrs C (wat (M_Prepare.wr (u_sys u'))) ->
    program E C m K u' (Some (feed K t' (obuf (M_Prepare.wr (u_sys u'))))).

(** Operations that end with drawing. *)
Definition draws (o : uop) : Prop := match o with URefresh | ULocked _ => True | _ => False end.
