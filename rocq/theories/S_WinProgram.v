(** Specification vocabulary for any programs that share a [Screen] on Windows (C117). *)
From Verif Require Import Base M_Utf8 M_Geom M_Attr M_Buf S_Buf M_Writer M_ScreenApi M_Locks S_Program S_WinCursor.
From Verif Require S_Canvas.

(** A call of a method of [Screen] or one of its guards; what is drawn satisfies [T]. *)
Definition drawing_call (T : smethod -> Prop) (c : call) : Prop :=
  match c with
  | SLockRead | SLockWrite | STryLockRead | STryLockWrite | SWait | SRead | SRefresh | SSetCursorMode _
  | SRDrop | SRWait | SRRead | SWDrop | SWRefresh | SWSetCursorMode _ => True
  | SBuf o | SWBuf o => exists m, o = sforward m /\ T m
  | _ => False
  end.
Fixpoint drawing_program (T : smethod -> Prop) (p : client) : Prop :=
  match p with
  | Finish => True
  | Call c k => drawing_call T c /\ forall r, drawing_program T (k r)
  end.

(** The cursor that was asked for last: its size, and whether it is seen. *)
Fixpoint cursor_after (l : list mark) (i : N * bool) : N * bool :=
  match l with
  | [] => i
  | Asked m :: l => cursor_after l (cursor_of m)
  | _ :: l => cursor_after l i
  end.

(** No call reads that the window has a new size. *)
Definition no_new_size (tr : list event) : Prop :=
  forall i sz r, ~ In (EvAct i (AD (DUpdateSize sz)) r) tr.
