(** Which calls of a Unix screen can panic (C107), told from the size of the window, the
    program's calls and their replies. *)
From Verif Require Import Base M_Utf8 M_Geom S_Geom M_Attr M_Buf S_Overrun M_Seq M_Signal M_Util M_Input S_Input M_Writer
  M_Screen M_Prepare M_Reader S_Reader M_UnixScreen S_UnixScreen.

(** A size that the window has or will have. *)
Definition window_size (s : sys) (z : size) : Prop := win s = inr z \/ In (TWin (inr z)) (time s).

(** What is drawn through a write guard. *)
Definition drawings (l : list gop) : list buf_op :=
  flat_map (fun o => match o with GBuffer b => [b] | _ => [] end) l.

(** The size and the cursor of a screen after a call and its reply, and after several. *)
Definition tracked (E : env) (st : size * cursor) (o : uop) (r : reply) : option (size * cursor) :=
  match o with
  | UBuffer b => go E st b
  | ULocked l => goes_on E st (drawings l)
  | _ => match resize_of r with Some z => go E st (BResize z) | None => Some st end
  end.
Fixpoint track (E : env) (st : size * cursor) (ops : list uop) (rs : list reply) : option (size * cursor) :=
  match ops, rs with
  | [], [] => Some st
  | o :: ops, r :: rs => match tracked E st o r with Some st => track E st ops rs | None => None end
  | _, _ => None
  end.

(** The input begins with a mouse report that has a zero coordinate (see C39). *)
Definition zero_mouse (m : seq_map) (buf : bytes) : Prop :=
  exists q r, longest m buf q XTermMouse /\ buf = q ++ r /\ zero_report r.

(** What can make a call panic.  [s]: the terminal, [kept]: input that was read but not
    reported yet. *)
Definition bad_resize (E : env) (s : sys) (st : size * cursor) : Prop :=
  exists z, window_size s z /\ go E st (BResize z) = None.
Definition reason (E : env) (m : seq_map) (s : sys) (kept : bytes) (st : size * cursor) (o : uop) : Prop :=
  match o with
  | UBuffer b => go E st b = None
  | UMode _ => False
  | URefresh => total (fst st) = 0
  | ULocked l => goes_on E st (drawings l) = None \/ total (fst st) = 0
  | UWait t => overflows t \/ zero_mouse m kept
  | URead t => overflows t \/ (exists x, zero_mouse m (kept ++ x)) \/ bad_resize E s st
  | URaw _ t => overflows t \/ bad_resize E s st
  end.

(** The call [o] panics; it never returns. *)
Definition panics (E : env) (C : tcfg) (m : seq_map) (o : uop) (u : uscr) : Prop :=
  match o with
  | UBuffer b => run_buf_op E (u_sb u) b = Boom
  | UMode c => screen_set_cursor_mode C c (out_side u) = Panic
  | URefresh => screen_refresh E C (out_side u) = Panic
  | ULocked l => g_run E C l (out_side u) = Panic
  | UWait t => wait_event m t (u_sys u) = Panic
  | URead t => read_event C m t (u_sys u) = Panic \/
      exists x e, read_event C m t (u_sys u) = Ret x e /\ follow E e (with_sys x u) = Boom
  | URaw room t => read_raw C m room t (u_sys u) = Panic \/
      exists x e bs, read_raw C m room t (u_sys u) = Ret x (e, bs) /\ follow E e (with_sys x u) = Boom
  end.
Definition hangs (E : env) (C : tcfg) (m : seq_map) (o : uop) (u : uscr) : Prop :=
  match o with
  | UBuffer _ => False
  | UMode c => screen_set_cursor_mode C c (out_side u) = Blocked
  | URefresh => screen_refresh E C (out_side u) = Blocked
  | ULocked l => g_run E C l (out_side u) = Blocked
  | UWait t => wait_event m t (u_sys u) = Blocked
  | URead t => read_event C m t (u_sys u) = Blocked
  | URaw room t => read_raw C m room t (u_sys u) = Blocked
  end.

(** A window that the library can show a screen on, always. *)
Definition decent (E : env) (s : sys) : Prop :=
  forall z, window_size s z -> 0 < lines z /\ 2 <= columns z /\ total z <= umax E.

(** The text of an operation and the line where it starts. *)
Definition text (o : buf_op) : list N :=
  match o with
  | BWriteChar ch => [ch]
  | BWriteStr s | BWriteStyled _ s | BWriteAt _ s | BWriteStyledAt _ _ s => s
  | _ => []
  end.
Definition start_line (p : cursor) (o : buf_op) : nat :=
  match o with
  | BWriteAt q _ | BWriteStyledAt q _ _ => line q
  | _ => line p
  end.

(** A bound for the line that an operation can move the cursor to, beyond where it was. *)
Definition weight (o : buf_op) : nat :=
  match o with
  | BSetCursor q => line q
  | BNextLine _ => 1
  | BWriteAt q s | BWriteStyledAt q _ s => line q + 2 * length s
  | _ => 2 * length (text o)
  end.
Definition weights (l : list buf_op) : nat := list_sum (map weight l).
Definition op_drawings (o : uop) : list buf_op :=
  match o with UBuffer b => [b] | ULocked l => drawings l | _ => [] end.
(** A program that does not go down beyond all lines. *)
Definition modest (E : env) (ops : list uop) : Prop := weights (flat_map op_drawings ops) < umax E.
Definition modest_timeout (o : uop) : Prop :=
  match o with UWait t | URead t | URaw _ t => ~ overflows t | _ => True end.
(** The library does not look for mouse reports on this terminal (it is not an xterm). *)
Definition no_mouse (m : seq_map) : Prop := forall q, ~ In (q, XTermMouse) (sm_sequences m).
