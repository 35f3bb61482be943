(** Specification vocabulary for threads that draw on a screen while others read its
    events (C113). *)
From Verif Require Import Base M_Utf8 M_Geom M_Attr M_Buf S_Buf M_Writer S_Tty S_Writer M_Screen S_Screen M_ScreenApi
  S_Canvas M_Locks S_Together.

(** What a thread does with a [Screen] it shares: it draws, it waits for an event, it reads
    one; what it does then may depend on the event. *)
Inductive task : Type :=
| End
| Do (d : doing) (k : task)
| Poll (k : ans -> task)
| Next (k : ans -> task).

Fixpoint task_client (T : task) : client :=
  match T with
  | End => Finish
  | Do d k => doing_client d (task_client k)
  | Poll k => Call SWait (fun r => task_client (k r))
  | Next k => Call SRead (fun r => task_client (k r))
  end.

Fixpoint narrow_task (E : env) (T : task) : Prop :=
  match T with
  | End => True
  | Do d k => narrow_doing E d /\ narrow_task E k
  | Poll k | Next k => forall r, narrow_task E (k r)
  end.

(** What a thread did, as far as it matters for the picture: it drew something, or it read
    that the window has a new size. *)
Inductive deed : Type := Did (d : doing) | Told (sz : size).

(** A thread with the task [T] may have done this. *)
Inductive does : task -> list deed -> Prop :=
| does_end : does End []
| does_do d k l : does k l -> does (Do d k) (Did d :: l)
| does_poll k r l : does (k r) l -> does (Poll k) l
| does_told k sz l : does (k (AResized sz)) l -> does (Next k) (Told sz :: l)
| does_next k r l : (forall sz, r <> AResized sz) -> does (k r) l -> does (Next k) l.

(** What it means for the picture: strokes, and changes of the size. *)
Inductive change : Type := Stroke (s : stroke) | Fit (sz : size).
Definition changes (d : deed) : list change :=
  match d with
  | Did d => map Stroke (strokes d)
  | Told sz => [Fit sz]
  end.
(** The canvas after some changes. *)
Fixpoint evolved (E : env) (l : list change) (k : canvas) : canvas :=
  match l with
  | [] => k
  | Stroke (Draw m) :: l => evolved E l (draw E m k)
  | Stroke Show :: l => evolved E l k
  | Fit sz :: l => evolved E l (refit sz k)
  end.

(** The program is not stopped and continued (C83) meanwhile. *)
Definition not_continued (tr : list event) : Prop :=
  forall i mouse track keypad r, ~ In (EvAct i (AW (WPrepare mouse track keypad)) r) tr.
(** The sizes reported are such that a screen can have them. *)
Definition usable_sizes (tr : list event) : Prop :=
  forall i sz r, In (EvAct i (AD (DUpdateSize sz)) r) tr -> screen_size sz.

(** A terminal showing anything, of this size and without attributes in force. *)
Definition of_size (K : tty) (sz : size) (t : tstate K) : Prop :=
  exists v, look K t = Some v /\ vsize v = sz /\ vattrs v = no_attrs.
