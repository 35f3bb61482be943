(** Specification vocabulary for locking (C52, C53). *)
From Verif Require Import Base M_Geom M_Buf M_Writer M_Locks.

(** Whose guard a thread holds. *)
Inductive kind : Type := OfTerminal | OfScreen.

(** The documented rules (terminal.rs:506-515, 591-663, 865-906; screen.rs:20-31,
    111-155): a thread holding the read guard [r] and the write guard [w] may make the
    call.
    - Guards are used while they are held.
    - A lock already held is not acquired again, by a locking method or by a method
      that "internally acquires" it; [prepare] and [restore] of the read guard
      acquire the write lock, their [_with_lock] variants use the guard.
    - The read lock is acquired before the write lock ([try_] never waits, so it may
      be called at any time).

    [careful] adds one rule that the documentation does not have: the read guard's
    [read_event] and [read_raw] are not called while the write guard is held. *)
Definition allowed (careful : bool) (r w : option kind) (c : call) : Prop :=
  match c with
  | TLockRead | TWait | TRead | SLockRead | SWait | SRead | TPrepare _ _ _ | TRestore _ _ =>
      r = None /\ w = None
  | TTryLockRead | STryLockRead => r = None
  | TLockWrite | TTryLockWrite | TSize | TWrite _ | SLockWrite | STryLockWrite | SRefresh
  | SSetCursorMode _ | SBuf _ => w = None
  | RDrop | RWait => r = Some OfTerminal
  | RRead => r = Some OfTerminal /\ (careful = true -> w = None)
  | RPrepare _ _ _ | RRestore _ _ => r = Some OfTerminal /\ w = None
  | RPrepareWithLock _ _ _ | RRestoreWithLock _ _ => r = Some OfTerminal /\ w = Some OfTerminal
  | WDrop | WDo _ => w = Some OfTerminal
  | SRDrop | SRWait => r = Some OfScreen
  | SRRead => r = Some OfScreen /\ (careful = true -> w = None)
  | SWDrop | SWRefresh | SWSetCursorMode _ | SWBuf _ => w = Some OfScreen
  end.

(** The guards held after the call, given its answer. *)
Definition read_guard_after (c : call) (a : ans) (r : option kind) : option kind :=
  match c, a with
  | TLockRead, _ | TTryLockRead, AOk => Some OfTerminal
  | SLockRead, _ | STryLockRead, AOk => Some OfScreen
  | RDrop, _ | SRDrop, _ => None
  | _, _ => r
  end.
Definition write_guard_after (c : call) (a : ans) (w : option kind) : option kind :=
  match c, a with
  | TLockWrite, _ | TTryLockWrite, AOk => Some OfTerminal
  | SLockWrite, _ | STryLockWrite, AOk => Some OfScreen
  | WDrop, _ | SWDrop, _ => None
  | _, _ => w
  end.

(** A client following the rules, whatever its calls answer; it ends without guards. *)
Fixpoint follows (careful : bool) (r w : option kind) (p : client) : Prop :=
  match p with
  | Finish => r = None /\ w = None
  | Call c k =>
      allowed careful r w c /\
      forall a, follows careful (read_guard_after c a r) (write_guard_after c a w) (k a)
  end.

Definition finished (c : config) : Prop := forall i, threads c i = Done.

(** The sessions of thread [i] in a history: what it did to the shared data from
    acquiring a lock on it until holding none.  State: whether it holds the writer
    and the data lock, the current session, and the finished ones. *)
Record sess : Type := Sess {
  s_w : bool; s_d : bool; s_cur : list (act * ans); s_done : list (list (act * ans))
}.
Definition sess_step (i : nat) (s : sess) (e : event) : sess :=
  match e with
  | EvAcq j LWriter => if j =? i then Sess true (s_d s) (s_cur s) (s_done s) else s
  | EvAcq j LData => if j =? i then Sess (s_w s) true (s_cur s) (s_done s) else s
  | EvRel j LWriter =>
      if j =? i then
        if s_d s then Sess false true (s_cur s) (s_done s)
        else Sess false false [] (s_done s ++ [s_cur s])
      else s
  | EvRel j LData =>
      if j =? i then
        if s_w s then Sess true false (s_cur s) (s_done s)
        else Sess false false [] (s_done s ++ [s_cur s])
      else s
  | EvAct j a r => if j =? i then Sess (s_w s) (s_d s) (s_cur s ++ [(a, r)]) (s_done s) else s
  | _ => s
  end.
Definition sess_of (i : nat) (tr : list event) : sess :=
  fold_left (sess_step i) tr (Sess false false [] []).
Definition sessions (i : nat) (tr : list event) : list (list (act * ans)) := s_done (sess_of i tr).

(** Doing accesses one after the other, from shared data [s] to [s'], with the same
    answers. *)
Fixpoint replays (E : env) (C : tcfg) (l : list (act * ans)) (s s' : wside * dside) : Prop :=
  match l with
  | [] => s = s'
  | (a, r) :: l => snd (meaning E C a s) = r /\ replays E C l (fst (meaning E C a s)) s'
  end.

(** [c'] comes right after [c]. *)
Definition next (E : env) (C : tcfg) (c' c : config) : Prop := exists e, step E C c e c'.

(** No thread holds any of the locks. *)
Definition all_unlocked (c : config) : Prop := forall l, owner c l = None.
