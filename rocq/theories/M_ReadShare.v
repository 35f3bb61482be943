(** Threads that share the input of one terminal.

    Unix and Windows are alike here: every reading method of [Terminal] locks the reader,
    works through the guard and drops it (unix/terminal.rs:153-179, windows/terminal.rs:
    222-246); those of [Screen] do the same with the reader of the screen's terminal
    (unix/screen.rs:67-117, windows/screen.rs:72-127); [lock_read] and [try_lock_read]
    hand the guard to the program (unix/terminal.rs:271-289, windows/terminal.rs:294-312),
    whose methods work without locking.

    What a method does to the terminal's input side is a parameter [act]: M_Reader.v has
    it for Unix and M_WinReader.v for Windows.  [None] is a call that does not return.

    Simplifications: a method's work under the lock is one step (no other thread touches
    the reader meanwhile, which is what the lock is for).  On Unix a resumed process also
    makes the reader lock the writer: the writer belongs to the state here and threads
    that write at the same time are in M_Locks.v and S_TermProgram.v instead.  A poisoned
    lock (M_Poison.v) and a thread that locks the reader twice ([proper], S_ReadShare.v)
    are left out. *)
From Verif Require Import Base.

Section Share.
  Context {St Op An : Type}.
  Variable act : Op -> St -> option (St * An).

  (** Programs of one thread: what it calls may depend on all earlier answers. *)
  Inductive reader_prog : Type :=
  | HEnd
  | HCall (o : Op) (k : An -> reader_prog)            (* a method of [Terminal] or [Screen] *)
  | HLock (k : reader_prog)                           (* [lock_read], keeping the guard *)
  | HTry (yes no : reader_prog)                       (* [try_lock_read] *)
  | HGuard (o : Op) (k : An -> reader_prog)           (* a method of the guard *)
  | HDrop (k : reader_prog).                          (* the guard is dropped *)

  (** The steps these amount to. *)
  Inductive reader_code : Type :=
  | KEnd
  | KLock (k : reader_code)                           (* [Mutex::lock] *)
  | KTry (yes no : reader_code)                       (* [Mutex::try_lock] *)
  | KDo (o : Op) (k : An -> reader_code)
  | KUnlock (k : reader_code).                        (* the [MutexGuard] is dropped *)
  (** unix/terminal.rs:153-179, 271-289, 291-293 (windows/terminal.rs:222-246, 294-316). *)
  Fixpoint code (p : reader_prog) : reader_code :=
    match p with
    | HEnd => KEnd
    | HCall o k => KLock (KDo o (fun a => KUnlock (code (k a))))
    | HLock k => KLock (code k)
    | HTry yes no => KTry (code yes) (code no)
    | HGuard o k => KDo o (fun a => code (k a))
    | HDrop k => KUnlock (code k)
    end.

  (** The threads, who has the reader's lock, and the input side. *)
  Record readers : Type := Readers { r_threads : nat -> reader_code; r_owner : option nat; r_state : St }.
  Definition at_thread (i : nat) (p : reader_code) (f : nat -> reader_code) (j : nat) : reader_code :=
    if Nat.eqb j i then p else f j.
  Inductive reader_step : readers -> nat -> readers -> Prop :=
  | Rs_lock i k f s : f i = KLock k ->
      reader_step (Readers f None s) i (Readers (at_thread i k f) (Some i) s)
  | Rs_try i yes no f s : f i = KTry yes no ->
      reader_step (Readers f None s) i (Readers (at_thread i yes f) (Some i) s)
  | Rs_busy i yes no f j s : f i = KTry yes no ->
      reader_step (Readers f (Some j) s) i (Readers (at_thread i no f) (Some j) s)
  | Rs_do i o k f w s s' a : f i = KDo o k -> act o s = Some (s', a) ->
      reader_step (Readers f w s) i (Readers (at_thread i (k a) f) w s')
  | Rs_unlock i k f w s : f i = KUnlock k ->
      reader_step (Readers f w s) i (Readers (at_thread i k f) None s).
  (** The schedule: which thread takes each step. *)
  Inductive reader_run : readers -> list nat -> readers -> Prop :=
  | Rr_nil c : reader_run c [] c
  | Rr_cons c i c' l c'' : reader_step c i c' -> reader_run c' l c'' -> reader_run c (i :: l) c''.
  Definition reader_start (ps : list reader_prog) (s : St) : readers :=
    Readers (fun i => code (nth i ps HEnd)) None s.
  Definition all_ended (c : readers) : Prop := forall i, r_threads c i = KEnd.
End Share.
Arguments reader_prog : clear implicits.
Arguments reader_code : clear implicits.
Arguments readers : clear implicits.
