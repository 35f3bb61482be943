(** Property theorems for the lock results (C54). *)
From Verif Require Import Base M_LockResult S_LockResult P_LockResult.

(** C54: the combined result of two locks is [Ok] iff both are, and carries both
    guards in any case. *)
Theorem C54_both :
  forall (T U R : Type) (x : lock_result T) (y : lock_result U) (f : T -> U -> R) (a : T) (b : U),
  (x = LOk a \/ x = LPoisoned a) -> (y = LOk b \/ y = LPoisoned b) ->
  (map2_lock_result x y f = LOk (f a b) <-> x = LOk a /\ y = LOk b) /\
  (map2_lock_result x y f = LOk (f a b) \/ map2_lock_result x y f = LPoisoned (f a b)) /\
  (map2_lock_result x y f <> LPoisoned (f a b) -> x = LOk a /\ y = LOk b).
Proof. exact both_facts. Qed.
Print Assumptions C54_both.

(** C54: the combined result of two attempts is [WouldBlock] iff either is, [Ok] iff
    both are, [Poisoned] otherwise, with both guards. *)
Theorem C54_both_tries :
  forall (T U R : Type) (x : try_result T) (y : try_result U) (f : T -> U -> R),
  (map2_try_lock_result x y f = TWouldBlock <-> x = TWouldBlock \/ y = TWouldBlock) /\
  (forall r, map2_try_lock_result x y f = TOk r <-> exists a b, x = TOk a /\ y = TOk b /\ r = f a b) /\
  (forall r, map2_try_lock_result x y f = TPoisoned r <->
     exists a b, (x = TPoisoned a /\ (y = TOk b \/ y = TPoisoned b) \/ x = TOk a /\ y = TPoisoned b) /\
                 r = f a b).
Proof. exact tries_facts. Qed.
Print Assumptions C54_both_tries.

(** C54: what the public methods answer, for every state of the mutexes: they wait
    (or would block) iff a mutex they need is taken, report poison iff one of them is
    poisoned, and otherwise succeed; the guard holds exactly the mutexes needed. *)
Theorem C54_methods :
  forall m : mutexes,
  terminal_try_lock_read m = try_answer [reader_m m] (GPublic (GTerminalRead GReader)) /\
  terminal_try_lock_write m = try_answer [writer_m m] (GPublic (GTerminalWrite GWriter)) /\
  screen_try_lock_read m = try_answer [reader_m m] (GPublic (GScreenRead (GTerminalRead GReader))) /\
  screen_try_lock_write m =
    try_answer [writer_m m; data_m m] (GPublic (GScreenWrite (GTerminalWrite GWriter) GData)) /\
  terminal_lock_read m = lock_answer [reader_m m] (GPublic (GTerminalRead GReader)) /\
  terminal_lock_write m = lock_answer [writer_m m] (GPublic (GTerminalWrite GWriter)) /\
  screen_lock_read m = lock_answer [reader_m m] (GPublic (GScreenRead (GTerminalRead GReader))) /\
  screen_lock_write m =
    lock_answer [writer_m m; data_m m] (GPublic (GScreenWrite (GTerminalWrite GWriter) GData)).
Proof. exact methods_facts. Qed.
Print Assumptions C54_methods.

(** A screen whose data mutex is poisoned: the guard is still available inside the
    error and holds both mutexes. *)
Example C54_example :
  let m := Mutexes (Mutex true false) (Mutex false false) (Mutex false true) in
  screen_try_lock_write m = TPoisoned (GPublic (GScreenWrite (GTerminalWrite GWriter) GData)) /\
  screen_try_lock_read m = TWouldBlock /\
  locks_of (GPublic (GScreenWrite (GTerminalWrite GWriter) GData)) = [GWriter; GData] /\
  map2_lock_result (LPoisoned 1) (LOk 2) Nat.add = LPoisoned 3.
Proof. repeat split. Qed.
