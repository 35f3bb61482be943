(** Model of the lock-result combinators of /repo/src/priv_util.rs and of the
    (try_)lock methods built from them. *)
From Verif Require Import Base.

(** [std::sync::LockResult<T>]: a [PoisonError] carries the guard. *)
Inductive lock_result (T : Type) : Type :=
| LOk (t : T)
| LPoisoned (t : T).
Arguments LOk {T} t.
Arguments LPoisoned {T} t.

(** [std::sync::TryLockResult<T>]. *)
Inductive try_result (T : Type) : Type :=
| TOk (t : T)
| TPoisoned (t : T)
| TWouldBlock.
Arguments TOk {T} t.
Arguments TPoisoned {T} t.
Arguments TWouldBlock {T}.

(** [map_lock_result], priv_util.rs:22-28. *)
Definition map_lock_result {T U} (res : lock_result T) (f : T -> U) : lock_result U :=
  match res with
  | LOk t => LOk (f t)
  | LPoisoned t => LPoisoned (f t)
  end.

(** [map_try_lock_result], priv_util.rs:30-38. *)
Definition map_try_lock_result {T U} (res : try_result T) (f : T -> U) : try_result U :=
  match res with
  | TOk t => TOk (f t)
  | TPoisoned t => TPoisoned (f t)
  | TWouldBlock => TWouldBlock
  end.

(** [map2_lock_result], priv_util.rs:40-48. *)
Definition map2_lock_result {T U R} (res : lock_result T) (res2 : lock_result U) (f : T -> U -> R)
  : lock_result R :=
  match res, res2 with
  | LOk a, LOk b => LOk (f a b)
  | LOk a, LPoisoned b => LPoisoned (f a b)
  | LPoisoned a, LOk b => LPoisoned (f a b)
  | LPoisoned a, LPoisoned b => LPoisoned (f a b)
  end.

(** [map2_try_lock_result], priv_util.rs:50-65. *)
Definition map2_try_lock_result {T U R} (res : try_result T) (res2 : try_result U) (f : T -> U -> R)
  : try_result R :=
  match res, res2 with
  | TOk a, TOk b => TOk (f a b)
  | TWouldBlock, _ => TWouldBlock
  | _, TWouldBlock => TWouldBlock
  | TOk a, TPoisoned b => TPoisoned (f a b)
  | TPoisoned a, TOk b => TPoisoned (f a b)
  | TPoisoned a, TPoisoned b => TPoisoned (f a b)
  end.

(** A [std::sync::Mutex] as another thread sees it. *)
Record mutex : Type := Mutex { held : bool; poisoned : bool }.

(** [Mutex::try_lock] of the standard library; the guard is named by [g]. *)
Definition mutex_try_lock {G} (m : mutex) (g : G) : try_result G :=
  if held m then TWouldBlock else if poisoned m then TPoisoned g else TOk g.

(** [Mutex::lock] of the standard library: [None] while it waits. *)
Definition mutex_lock {G} (m : mutex) (g : G) : option (lock_result G) :=
  if held m then None else Some (if poisoned m then LPoisoned g else LOk g).

(** The guard values: a guard names the mutexes whose guards it holds. *)
Inductive guard : Type :=
| GReader                                (* MutexGuard<Reader> *)
| GWriter                                (* MutexGuard<Writer> of the terminal *)
| GData                                  (* MutexGuard<Writer> of the screen *)
| GTerminalRead (r : guard)              (* unix TerminalReadGuard *)
| GTerminalWrite (w : guard)             (* unix TerminalWriteGuard *)
| GScreenRead (r : guard)                (* unix ScreenReadGuard *)
| GScreenWrite (w d : guard)             (* unix ScreenWriteGuard *)
| GPublic (g : guard).                   (* the public wrapper around any of these *)

(** The mutexes of a [Terminal] and a [Screen] (unix/terminal.rs:72-73,
    unix/screen.rs:17). *)
Record mutexes : Type := Mutexes { reader_m : mutex; writer_m : mutex; data_m : mutex }.

(** unix/terminal.rs:271-289. *)
Definition unix_lock_read (m : mutexes) : option (lock_result guard) :=
  option_map (fun r => map_lock_result r GTerminalRead) (mutex_lock (reader_m m) GReader).
Definition unix_lock_write (m : mutexes) : option (lock_result guard) :=
  option_map (fun r => map_lock_result r GTerminalWrite) (mutex_lock (writer_m m) GWriter).
Definition unix_try_lock_read (m : mutexes) : try_result guard :=
  map_try_lock_result (mutex_try_lock (reader_m m) GReader) GTerminalRead.
Definition unix_try_lock_write (m : mutexes) : try_result guard :=
  map_try_lock_result (mutex_try_lock (writer_m m) GWriter) GTerminalWrite.

(** terminal.rs:562-588. *)
Definition terminal_lock_read (m : mutexes) : option (lock_result guard) :=
  option_map (fun r => map_lock_result r GPublic) (unix_lock_read m).
Definition terminal_lock_write (m : mutexes) : option (lock_result guard) :=
  option_map (fun r => map_lock_result r GPublic) (unix_lock_write m).
Definition terminal_try_lock_read (m : mutexes) : try_result guard :=
  map_try_lock_result (unix_try_lock_read m) GPublic.
Definition terminal_try_lock_write (m : mutexes) : try_result guard :=
  map_try_lock_result (unix_try_lock_write m) GPublic.

(** unix/screen.rs:67-85 wrapped by screen.rs:82-108.  [lock_write] waits for the
    terminal's lock first, then for the data lock (arguments are evaluated in
    order); [None] while it waits for either. *)
Definition screen_lock_read (m : mutexes) : option (lock_result guard) :=
  option_map (fun r => map_lock_result (map_lock_result r GScreenRead) GPublic) (unix_lock_read m).
Definition screen_lock_write (m : mutexes) : option (lock_result guard) :=
  match unix_lock_write m with
  | None => None
  | Some w => match mutex_lock (data_m m) GData with
              | None => None
              | Some d => Some (map_lock_result (map2_lock_result w d GScreenWrite) GPublic)
              end
  end.
Definition screen_try_lock_read (m : mutexes) : try_result guard :=
  map_try_lock_result (map_try_lock_result (unix_try_lock_read m) GScreenRead) GPublic.
Definition screen_try_lock_write (m : mutexes) : try_result guard :=
  map_try_lock_result
    (map2_try_lock_result (unix_try_lock_write m) (mutex_try_lock (data_m m) GData) GScreenWrite)
    GPublic.
