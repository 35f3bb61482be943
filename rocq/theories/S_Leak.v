(** Specification vocabulary for guards that are never dropped (C133). *)
From Verif Require Import Base M_Geom M_Buf M_Writer M_Locks S_Locks M_WinLocks S_WinLocks M_Leak.

(** The calls that wait for a lock: for the input, for the output, and for a screen's
    buffer.  A screen's write guard has the last two. *)
Definition moves_by_0 (o : wop) : bool :=
  match o with OMoveUp 0 | OMoveDown 0 | OMoveLeft 0 | OMoveRight 0 => true | _ => false end.
Definition waits_for (l : lock) (x : call) : bool :=
  match l, x with
  | LReader, (TLockRead | TWait | TRead | TPrepare _ _ _ | TRestore _ _ | SLockRead | SWait | SRead) => true
  | LWriter, (TLockWrite | TSize | TPrepare _ _ _ | TRestore _ _ | RPrepare _ _ _ | RRestore _ _
             | SLockWrite | SRefresh | SSetCursorMode _) => true
  | LWriter, TWrite o => negb (moves_by_0 o)
  | LData, (SLockWrite | SRefresh | SBuf _) => true
  | _, _ => false
  end.

(** The calls that only try. *)
Definition tries (l : lock) (x : call) : bool :=
  match l, x with
  | LReader, (TTryLockRead | STryLockRead) | LWriter, TTryLockWrite => true
  | _, _ => false
  end.

(** Programs that follow the rules, as [follows true] and [wfollows true], but may end with
    a read guard that they never drop. *)
Fixpoint may_keep_read (r w : option kind) (p : client) : Prop :=
  match p with
  | Finish => w = None
  | Call c k =>
      allowed true r w c /\ forall a, may_keep_read (read_guard_after c a r) (write_guard_after c a w) (k a)
  end.
Fixpoint wmay_keep_read (r w : option kind) (p : client) : Prop :=
  match p with
  | Finish => w = None
  | Call c k =>
      wallowed true r w c /\ forall a, wmay_keep_read (read_guard_after c a r) (write_guard_after c a w) (k a)
  end.

(** Whatever happens from [c] on, thread [j] is waiting for a lock and accesses nothing. *)
Definition waits_for_ever (E : env) (C : tcfg) (c : config) (j : nat) : Prop :=
  forall tr c', run E C c tr c' ->
    (exists l k, threads c' j = Acq l k) /\ forall a r, ~ In (EvAct j a r) tr.
Definition wwaits_for_ever {Wd Dd} (M : access Wd Dd) (c : wconfig Wd Dd) (j : nat) : Prop :=
  forall tr c', wrun M c tr c' ->
    (exists l k, wthreads c' j = Acq l k) /\ forall a r, ~ In (EvAct j a r) tr.

(** The thread that moves. *)
Definition mover (e : event) : nat :=
  match e with EvAcq i _ | EvRel i _ | EvAct i _ _ | EvOther i => i end.

(** Nobody drops the guard of thread [i]: it has ended, or is itself the thread [j] that
    is asked about. *)
Definition keeps (c : config) (i j : nat) (l : lock) : Prop :=
  owner c l = Some i /\ (threads c i = Done \/ i = j).
Definition wkeeps {Wd Dd} (c : wconfig Wd Dd) (i j : nat) (l : lock) : Prop :=
  wowner c l = Some i /\ (wthreads c i = Done \/ i = j).
