(** Specification for programs that panic while they use a screen. *)
From Verif Require Import Base M_Utf8 M_Geom M_Attr M_Buf M_Seq M_Signal M_Util M_Input M_Writer S_Writer
  M_Screen M_Prepare M_Reader S_Prepare M_UnixScreen S_UnixScreen M_Poison.

(** The program panics while it has a guard; a write guard. *)
Definition guard_panic (o : xop) : Prop := match o with XPanicWrite _ | XPanicRead => True | _ => False end.
Definition write_panic (o : xop) : Prop := match o with XPanicWrite _ => True | _ => False end.

(** The terminal is still prepared with [cfg], from the state [s0]: its settings, its
    handlers. *)
Definition still_prepared (cfg : config) (s0 s : sys) : Prop :=
  tio s = raw_tio cfg (tio s0) /\ resume_cfg s = Some cfg /\ forall n, handled cfg n = true -> disp s n = Ours.

(** Calls on the output side of a screen. *)
Definition output_call (o : uop) : Prop :=
  match o with UBuffer _ | UMode _ | URefresh | ULocked _ => True | _ => False end.

(** Calls on its input side. *)
Definition read_call (o : uop) : Prop := match o with UWait _ | URead _ | URaw _ _ => True | _ => False end.
Definition read_panic (o : xop) : Prop := match o with XPanicRead => True | _ => False end.

(** What a call does to a screen nobody panicked with, told of [x]. *)
Definition as_if_unpoisoned (r : option (uscr * reply)) (x : pscr) : option (pscr * xreply) :=
  match r with
  | Some (u, a) => Some (with_u u x, XReply a)
  | None => None
  end.

(** The signal is neither pending nor still to come. *)
Definition no_signal (n : N) (s : sys) : Prop := last_sig s <> n /\ ~ In (TSig n) (time s).
