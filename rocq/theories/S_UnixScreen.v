(** Specifications for the Unix screen as a whole. *)
From Verif Require Import Base M_Utf8 M_Geom M_Attr M_Buf M_Seq M_Signal M_Util M_Input M_Writer S_Writer
  M_Screen M_Prepare M_Reader M_UnixScreen.

(** Nothing the operating system is asked for fails. *)
Definition works (s : sys) : Prop :=
  perfect (script (M_Prepare.wr s)) /\ Forall (fun r => r = None) (os s).

(** The capabilities that leaving a screen needs, which have no parameters, can be expanded. *)
Definition leaving_caps : list cap := [ExitCaMode; CursorNormal; KeypadXmit; KeypadLocal].
Definition plain_caps (C : tcfg) : Prop :=
  forall c e k, In c leaving_caps -> info C c = Some e -> snd (e k []) = true.

(** The string of such a capability; [k]: the memory of the expansion. *)
Definition cap_bytes (C : tcfg) (c : cap) (k : N) : bytes :=
  match info C c with Some e => fst (fst (e k [])) | None => [] end.

(** Settings, signal handlers and resumption as they were. *)
Definition same_terminal (s s' : sys) : Prop :=
  tio s' = tio s /\ (forall n, disp s' n = disp s n) /\ resume_cfg s' = resume_cfg s.

(** What turns off the input modes of a screen. *)
Definition modes_off (C : tcfg) (mouse keypad : bool) (x : bytes) : Prop :=
  exists k, x = (if mouse then XTERM_DISABLE_MOUSE ++ XTERM_DISABLE_MOUSE_MOTION else []) ++
                (if keypad then cap_bytes C KeypadLocal k else []).

(** [update_size] is not a method a program can call. *)
Definition public_gop (o : gop) : Prop := match o with GBuffer (BResize _) => False | _ => True end.
Definition public_op (o : uop) : Prop :=
  match o with
  | UBuffer (BResize _) => False
  | ULocked l => Forall public_gop l
  | _ => True
  end.

(** The size that a reply reports, and the last one of several. *)
Definition resize_of (r : reply) : option size :=
  match r with
  | YEvent (Some (EResize z)) | YRaw (Some (EResize z)) _ => Some z
  | _ => None
  end.
Fixpoint last_reported (z : size) (rs : list reply) : size :=
  match rs with
  | [] => z
  | r :: rs => last_reported (match resize_of r with Some z' => z' | None => z end) rs
  end.

(** No change of the window's size is waiting to be reported or still to come. *)
Definition no_winch (s : sys) : Prop := last_sig s <> SIGWINCH /\ ~ In (TSig SIGWINCH) (time s).

(** The window changes its size, which is announced, but before the program looks
    another signal arrives; the size does not change again. *)
Definition overtaken_winch (z : size) (n : N) (s : sys) : Prop :=
  exists l, time s = TWin (inr z) :: TSig SIGWINCH :: TSig n :: l /\
    disp s SIGWINCH = Ours /\ disp s n = Ours /\ n <> SIGWINCH /\
    ~ In (TSig SIGWINCH) l /\ forall r, ~ In (TWin r) l.
