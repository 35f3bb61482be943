(** Specification for programs that panic while they use a Windows screen. *)
From Verif Require Import Base M_Utf8 M_Geom M_Attr M_Buf M_Signal M_Util M_Input M_Writer M_Prepare M_Reader
  M_WinWriter M_WinReader M_WinScreen S_WinScreen M_WinPoison.

(** The program panics while it has a guard; a write guard. *)
Definition in_guard (o : kop) : Prop := match o with KPanicWrite _ | KPanicRead => True | _ => False end.
Definition in_write_guard (o : kop) : Prop := match o with KPanicWrite _ => True | _ => False end.

(** The console as a screen keeps it, [t] being the terminal before the screen was opened
    and [t1] when it was open: it displays another buffer than those there were, its input
    is neither echoed nor read by lines, and the control handler is registered as when the
    screen was open. *)
Definition kept (t t1 t' : wterm) : Prop :=
  strayed t t' /\ N.testbit (w_mode (t_in t')) 2 = false /\ N.testbit (w_mode (t_in t')) 1 = false /\
  w_mode (t_in t') = w_mode (t_in t1) /\ w_regs (t_in t') = w_regs (t_in t1).

(** Calls on the output side of a screen. *)
Definition output (o : kop) : Prop := match o with KDraw _ | KLocked _ => True | _ => False end.

(** Those and the calls on its input side: the calls of a program that takes no guard out of
    an error. *)
Definition answered (o : kop) : Prop := match o with KDraw _ | KLocked _ | KRead _ => True | _ => False end.

(** The answer of a read call tells of a new size of the window. *)
Definition tells_size (r : kreply) : Prop :=
  match r with
  | KGot (Some (EResize _)) _ | KUnits (Some (EResize _)) _ => True
  | KGot (Some (ERaw _)) rs => Exists (fun r => match r with SizeRec _ => True | _ => False end) rs
  | _ => False
  end.

(** What a call does to a screen whose mutexes are not poisoned, told of [x]. *)
Definition as_if_unharmed (r : option (wpscr * kreply)) (x : wpscr) : option (wpscr * kreply) :=
  match r with
  | Some (y, a) => Some (with_s (q_s y) x, a)
  | None => None
  end.
