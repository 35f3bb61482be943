(** Specification vocabulary for locking on Windows (C89, C90, C91). *)
From Verif Require Import Base M_Geom M_Buf M_Writer M_Locks S_Locks M_WinLocks.

(** The documented rules ([allowed false], S_Locks.v).  A [Screen] owns its terminal,
    so that the read guard of a screen is never held together with a write guard of its
    terminal that is not the screen's.

    [careful] adds one rule that the documentation does not have: the read guard of a
    _screen_ is not used to read while the write guard of the screen is held. *)
Definition wallowed (careful : bool) (r w : option kind) (c : call) : Prop :=
  allowed false r w c /\
  (c = SRRead -> w = None \/ careful = false /\ w = Some OfScreen).

(** A client following these rules, whatever its calls answer; it ends without guards. *)
Fixpoint wfollows (careful : bool) (r w : option kind) (p : client) : Prop :=
  match p with
  | Finish => r = None /\ w = None
  | Call c k =>
      wallowed careful r w c /\
      forall a, wfollows careful (read_guard_after c a r) (write_guard_after c a w) (k a)
  end.

(** The calls of terminals and of their guards. *)
Definition of_terminal (c : call) : bool :=
  match c with
  | SLockRead | SLockWrite | STryLockRead | STryLockWrite | SWait | SRead | SRefresh
  | SSetCursorMode _ | SBuf _ | SRDrop | SRWait | SRRead | SWDrop | SWRefresh
  | SWSetCursorMode _ | SWBuf _ => false
  | _ => true
  end.

(** A client using no screen. *)
Fixpoint no_screen (p : client) : Prop :=
  match p with
  | Finish => True
  | Call c k => of_terminal c = true /\ forall a, no_screen (k a)
  end.

Section Spec.
  Context {Wd Dd : Type}.
  Variable M : access Wd Dd.

  Definition wfinished (c : wconfig Wd Dd) : Prop := forall i, wthreads c i = Done.

  (** Doing accesses one after the other, from shared data [s] to [s'], with the same
      answers. *)
  Fixpoint wreplays (l : list (act * ans)) (s s' : Wd * Dd) : Prop :=
    match l with
    | [] => s = s'
    | (a, r) :: l => snd (wmeans M a s) = r /\ wreplays l (fst (wmeans M a s)) s'
    end.

  (** [c'] comes right after [c]. *)
  Definition wnext (c' c : wconfig Wd Dd) : Prop := exists e, wstep M c e c'.

  (** No thread holds any of the locks. *)
  Definition wall_unlocked (c : wconfig Wd Dd) : Prop := forall l, wowner c l = None.
End Spec.
