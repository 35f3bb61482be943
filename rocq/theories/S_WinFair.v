(** Specification vocabulary for waiting on Windows (C93). *)
From Verif Require Import Base M_Geom M_Buf M_Writer M_Locks M_WinLocks.

(** A thread is waiting for something from outside and holds no guard for output. *)
Definition wawaiting {Wd Dd} (c : wconfig Wd Dd) (i : nat) : Prop :=
  (exists k, wthreads c i = Env k) /\ wowner c LWriter <> Some i /\ wowner c LData <> Some i.
