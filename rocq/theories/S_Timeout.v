(** Specification of what ends a wait (C86). *)
From Verif Require Import Base M_Utf8 S_Utf8 M_Geom M_Seq S_Seq M_Signal M_Util M_Input S_Input M_Writer M_Prepare M_Reader S_Reader.

(** There is a timeout, and it was zero or has just elapsed: [TTime] was the last thing
    that happened. *)
Definition elapsed (t : option duration) (s s' : sys) : Prop :=
  exists d ms, t = Some d /\ to_timeval d = Val ms /\ (ms = 0%N \/ exists l, time s = l ++ TTime :: time s').

(** A signal had arrived before, or arrived meanwhile. *)
Definition arrived (sig : signal) (s : sys) : Prop :=
  exists n, conv_signal n = Some sig /\ (n = last_sig s \/ In (TSig n) (time s)).
