(** Specification vocabulary for waiting (C93). *)
From Verif Require Import Base M_Geom M_Buf M_Writer M_Locks.

(** A thread is waiting for something from outside (input, a signal, a timeout) and
    holds no guard for output. *)
Definition awaiting (c : config) (i : nat) : Prop :=
  (exists k, threads c i = Env k) /\ owner c LWriter <> Some i /\ owner c LData <> Some i.

(** The calls that write, draw or ask for the size, or acquire the guard to do so. *)
Definition output_call (x : call) : bool :=
  match x with
  | TSize | TWrite _ | TLockWrite | TTryLockWrite
  | SRefresh | SSetCursorMode _ | SBuf _ | SLockWrite | STryLockWrite => true
  | _ => false
  end.
