(** Model of a program with several terminals.  They share what belongs to the process:
    [LAST_SIGNAL] (/repo/src/unix/terminal.rs:1364-1387) and the dispositions of signals
    ([sigaction], 391-407 and 435-451); and those on one device (as [Terminal::stdout]
    and [Terminal::stderr], 133-139) share its settings, its input and its window. *)
From Verif Require Import Base M_Geom M_Seq M_Signal M_Util M_Input M_Writer M_Prepare M_Reader.
Local Open Scope N_scope.

Record device : Type := Device { d_tio : termios; d_queue : list bytes; d_failing : option N; d_win : N + size }.

(** The terminals, the devices, [LAST_SIGNAL], the dispositions.  The corresponding fields
    of the terminals are not used. *)
Record process : Type := Proc { term : nat -> sys; dev : nat -> device; slot : N; acts : N -> action }.

Section Process.
  (** Terminfo entry, key map and device of each terminal. *)
  Variables (C : nat -> tcfg) (m : nat -> seq_map) (on : nat -> nat).

  (** What terminal [i] sees, with [l] what happens during the call ... *)
  Definition enter (i : nat) (l : list tick) (p : process) : sys :=
    let s := term p i in let d := dev p (on i) in
    Sys (inbuf s) (incap s) (resume_cfg s) (report s) (wr s) (slot p) (d_tio d) (acts p)
      (d_queue d) (d_failing d) (d_win d) (os s) l.
  (** ... and what is left of [l] after it. *)
  Definition settle (s : sys) : sys := fold_left (fun s t => happens t s) (time s) (with_time [] s).
  Definition leave (i : nat) (s : sys) (p : process) : process :=
    Proc (fun k => if (k =? i)%nat then s else term p k)
         (fun d => if (d =? on i)%nat then Device (tio s) (queue s) (failing s) (win s) else dev p d)
         (last_sig s) (disp s).

  (** A call of a method of terminal [i] (terminal.rs:634-760).  Simplification: input
      for another device counts as arriving during the next call that uses it, and
      calls of different threads are one after the other. *)
  Definition pstep (i : nat) (l : list tick) (o : rop) (p : process) : option (process * reply) :=
    match rstep (C i) (m i) o (enter i l p) with
    | Some (s, r) => Some (leave i (settle s) p, r)
    | None => None
    end.
End Process.
