(** Specification vocabulary for the lock results (C54). *)
From Verif Require Import Base M_LockResult.

(** The mutexes a lock method needs. *)
Definition all_free (l : list mutex) : bool := forallb (fun m => negb (held m)) l.
Definition all_clean (l : list mutex) : bool := forallb (fun m => negb (poisoned m)) l.

(** The answer a lock method should give that needs the mutexes [l] and then hands
    out the guard [g]. *)
Definition try_answer (l : list mutex) (g : guard) : try_result guard :=
  if all_free l then if all_clean l then TOk g else TPoisoned g else TWouldBlock.
Definition lock_answer (l : list mutex) (g : guard) : option (lock_result guard) :=
  if all_free l then Some (if all_clean l then LOk g else LPoisoned g) else None.

(** The mutex guards inside a guard. *)
Fixpoint locks_of (g : guard) : list guard :=
  match g with
  | GReader | GWriter | GData => [g]
  | GTerminalRead r | GTerminalWrite r | GScreenRead r | GPublic r => locks_of r
  | GScreenWrite w d => locks_of w ++ locks_of d
  end.
