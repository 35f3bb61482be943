(** Model of the locking in /repo/src/unix/terminal.rs and /repo/src/unix/screen.rs:
    client threads calling the public methods of one shared [Terminal] or [Screen].

    Simplifications: no thread panics while it holds a guard, so no mutex is ever
    poisoned; what a call reads from the device is an arbitrary choice of the
    environment (reading itself is modelled in M_Reader.v). *)
From Verif Require Import Base M_Attr M_Geom M_Buf M_Writer M_Screen.

(** The mutexes: [Terminal::reader] and [Terminal::writer] (unix/terminal.rs:72-73),
    [Screen::writer] (unix/screen.rs:17). *)
Inductive lock : Type := LReader | LWriter | LData.

Definition lock_eqb (a b : lock) : bool :=
  match a, b with
  | LReader, LReader | LWriter, LWriter | LData, LData => true
  | _, _ => false
  end.

(** Accesses to the data behind [LWriter]. *)
Inductive wact : Type :=
| WOp (o : wop)                              (* a method of TerminalWriteGuard *)
| WGuardDrop                                 (* Drop for TerminalWriteGuard, unix/terminal.rs:1049-1055 *)
| WPrepare (mouse track keypad : bool)       (* writer part of prepare_with_lock, :377-392 *)
| WRestore (mouse keypad : bool).            (* writer part of restore_with_lock, :423-431 *)

(** Accesses to the data behind [LData]. *)
Inductive dact : Type :=
| DBuf (o : buf_op)                          (* a buffer method *)
| DUpdateSize (sz : size).                   (* Writer::update_size, unix/screen.rs:237-244 *)

(** Accesses to the shared data; [ARefresh] is [ScreenWriteGuard::refresh]
    (unix/screen.rs:180-210), which needs both. *)
Inductive act : Type :=
| AW (a : wact)
| AD (a : dact)
| ARefresh.

(** What a call returns, as far as it matters here. *)
Inductive ans : Type :=
| AOk
| AErr (e : werr)
| AWouldBlock
| AResized (sz : size)                       (* Event::Resize *)
| AOther (n : N)                             (* any other event, timeout or reading error *)
| AGone.                                     (* the call did not return (panic, or waiting for ever in write) *)

(** Data behind [LWriter]; [None] once a call on it did not return. *)
Definition wside : Type := option wst.

(** Data behind [LData] ([Writer] in unix/screen.rs:30-34). *)
Record sdata : Type := SData { dbuf : sbuf; dclr : bool; dreal : cursor }.
Definition dside : Type := option sdata.

Section Meaning.
  Variables (E : env) (C : tcfg).

  Definition wresult (r : wres) : wside * ans :=
    match r with
    | Ret w _ => (Some w, AOk)
    | Fail w e => (Some w, AErr e)
    | Panic | Blocked => (None, AGone)
    end.

  Definition wmeaning (a : wact) (s : wside) : wside * ans :=
    match s with
    | None => (None, AGone)
    | Some w =>
        wresult
          match a with
          | WOp o => run_wop C o w
          | WGuardDrop => guard_drop w
          | WPrepare mouse track keypad =>
              let! (w, _b) := if mouse then enable_mouse C track w else Ret w false in
              let! (w, _b) := if keypad then enable_keypad C w else Ret w false in
              flush w
          | WRestore mouse keypad =>
              let! (w, _u) := when mouse (disable_mouse C) w in
              let! (w, _u) := when keypad (disable_keypad C) w in
              flush w
          end
    end.

  Definition dmeaning (a : dact) (s : dside) : dside * ans :=
    match s with
    | None => (None, AGone)
    | Some d =>
        match a with
        | DBuf o => match run_buf_op E (dbuf d) o with
                    | Val b => (Some (SData b (dclr d) (dreal d)), AOk)
                    | Boom => (None, AGone)
                    end
        | DUpdateSize sz =>
            (* the writer plays no role in [update_size] *)
            match update_size E sz (Scr (dbuf d) (dclr d) (dreal d) (writer_new 0 [])) with
            | Val s => (Some (SData (sb s) (clr s) (real s)), AOk)
            | Boom => (None, AGone)
            end
        end
    end.

  Definition meaning (a : act) (s : wside * dside) : (wside * dside) * ans :=
    let '(w, d) := s in
    match a with
    | AW a => let '(w', r) := wmeaning a w in ((w', d), r)
    | AD a => let '(d', r) := dmeaning a d in ((w, d'), r)
    | ARefresh =>
        match w, d with
        | Some w, Some d =>
            match refresh E C (Scr (dbuf d) (dclr d) (dreal d) w) with
            | Ret s _ => ((Some (wr s), Some (SData (sb s) (clr s) (real s))), AOk)
            | Fail s e => ((Some (wr s), Some (SData (sb s) (clr s) (real s))), AErr e)
            | Panic | Blocked => ((None, None), AGone)
            end
        | _, _ => ((None, None), AGone)
        end
    end.
End Meaning.

(** What reading meets: a resize signal ([size()] then answers), a continue signal
    while the terminal is prepared, or anything else. *)
Inductive choice : Type :=
| CResize (r : werr + size)
| CContinue (mouse track keypad : bool)
| COther (n : N).

(** What a thread has left to do. *)
Inductive prog : Type :=
| Done
| Acq (l : lock) (k : prog)                  (* Mutex::lock *)
| TryAcq (l : lock) (yes no : prog)          (* Mutex::try_lock *)
| Rel (l : lock) (k : prog)                  (* dropping the MutexGuard *)
| Act (a : act) (k : ans -> prog)
| Env (k : choice -> prog).

(** The public methods that lock. *)
Inductive call : Type :=
(* Terminal *)
| TLockRead | TLockWrite | TTryLockRead | TTryLockWrite
| TSize | TWait | TRead
| TPrepare (mouse track keypad : bool) | TRestore (mouse keypad : bool)
| TWrite (o : wop)
(* TerminalReadGuard *)
| RDrop | RWait | RRead
| RPrepare (mouse track keypad : bool) | RRestore (mouse keypad : bool)
| RPrepareWithLock (mouse track keypad : bool) | RRestoreWithLock (mouse keypad : bool)
(* TerminalWriteGuard *)
| WDrop | WDo (o : wop)
(* Screen *)
| SLockRead | SLockWrite | STryLockRead | STryLockWrite
| SWait | SRead | SRefresh | SSetCursorMode (m : cursor_mode) | SBuf (o : buf_op)
(* ScreenReadGuard *)
| SRDrop | SRWait | SRRead
(* ScreenWriteGuard *)
| SWDrop | SWRefresh | SWSetCursorMode (m : cursor_mode) | SWBuf (o : buf_op).

(** A client thread: finished, or a call and what it does with the answer. *)
Inductive client : Type :=
| Finish
| Call (c : call) (k : ans -> client).

(** Dropping a [TerminalWriteGuard]. *)
Definition drop_writer (k : prog) : prog := Act (AW WGuardDrop) (fun _ => Rel LWriter k).

(** [let mut writer = self.lock_writer(); ...]: a temporary [TerminalWriteGuard]. *)
Definition with_writer (body : (ans -> prog) -> prog) (k : ans -> prog) : prog :=
  Acq LWriter (body (fun r => drop_writer (k r))).

(** Dropping a [ScreenWriteGuard] (unix/screen.rs:228-234, and its fields in
    declaration order, :25-28). *)
Definition drop_screen_writer (k : prog) : prog :=
  Act ARefresh (fun _ => Act (AW WGuardDrop) (fun _ => Rel LWriter (Rel LData k))).

(** [TerminalReadGuard::read_event] and [read_raw] (unix/terminal.rs:492-530) with
    [handle_signal] (:604-621) and [resume] (:623-628): at most one signal is
    handled; [size] and [prepare] take the writer. *)
Definition read_block (k : ans -> prog) : prog :=
  Env (fun c =>
    match c with
    | CResize r => with_writer (fun k => k (match r with inl e => AErr e | inr sz => AResized sz end)) k
    | CContinue mouse track keypad => with_writer (fun k => Act (AW (WPrepare mouse track keypad)) k) k
    | COther n => k (AOther n)
    end).

(** [ScreenReadGuard::read_event] and [read_raw] (unix/screen.rs:147-165). *)
Definition screen_read_block (k : ans -> prog) : prog :=
  read_block (fun r =>
    match r with
    | AResized sz => Acq LData (Act (AD (DUpdateSize sz)) (fun _ => Rel LData (k r)))
    | _ => k r
    end).

(** [wait_event] takes no further lock (unix/terminal.rs:456-490). *)
Definition wait_block (k : ans -> prog) : prog := Env (fun c => match c with COther n => k (AOther n) | _ => k AOk end).

(** The [Terminal] methods forwarding to the read guard (unix/terminal.rs:153-179). *)
Definition with_reader (body : (ans -> prog) -> prog) (k : ans -> prog) : prog :=
  Acq LReader (body (fun r => Rel LReader (k r))).

(** What a method does. *)
Definition method (c : call) (k : ans -> prog) : prog :=
  match c with
  (* unix/terminal.rs:271-289 *)
  | TLockRead => Acq LReader (k AOk)
  | TLockWrite => Acq LWriter (k AOk)
  | TTryLockRead => TryAcq LReader (k AOk) (k AWouldBlock)
  | TTryLockWrite => TryAcq LWriter (k AOk) (k AWouldBlock)
  (* unix/terminal.rs:149-179; [size] asks the OS *)
  | TSize => with_writer (fun k => Env (fun c => match c with
                                                 | CResize (inl e) => k (AErr e)
                                                 | CResize (inr sz) => k (AResized sz)
                                                 | _ => k AOk
                                                 end)) k
  | TWait => with_reader wait_block k
  | TRead => with_reader read_block k
  | TPrepare mouse track keypad =>
      with_reader (with_writer (fun k => Act (AW (WPrepare mouse track keypad)) k)) k
  | TRestore mouse keypad => with_reader (with_writer (fun k => Act (AW (WRestore mouse keypad)) k)) k
  (* unix/terminal.rs:181-269; the moves by 0 do not lock *)
  | TWrite (OMoveUp 0) | TWrite (OMoveDown 0) | TWrite (OMoveLeft 0) | TWrite (OMoveRight 0) => k AOk
  | TWrite o => with_writer (fun k => Act (AW (WOp o)) k) k
  (* unix/terminal.rs:312-530 *)
  | RDrop => Rel LReader (k AOk)
  | RWait => wait_block k
  | RRead => read_block k
  | RPrepare mouse track keypad => with_writer (fun k => Act (AW (WPrepare mouse track keypad)) k) k
  | RRestore mouse keypad => with_writer (fun k => Act (AW (WRestore mouse keypad)) k) k
  | RPrepareWithLock mouse track keypad => Act (AW (WPrepare mouse track keypad)) k
  | RRestoreWithLock mouse keypad => Act (AW (WRestore mouse keypad)) k
  (* unix/terminal.rs:666-1055 *)
  | WDrop => drop_writer (k AOk)
  | WDo o => Act (AW (WOp o)) k
  (* unix/screen.rs:67-85; [try_lock_write] tries both locks, then drops what it got *)
  | SLockRead => Acq LReader (k AOk)
  | SLockWrite => Acq LWriter (Acq LData (k AOk))
  | STryLockRead => TryAcq LReader (k AOk) (k AWouldBlock)
  | STryLockWrite =>
      TryAcq LWriter
        (TryAcq LData (k AOk) (drop_writer (k AWouldBlock)))
        (TryAcq LData (Rel LData (k AWouldBlock)) (k AWouldBlock))
  (* unix/screen.rs:103-121 *)
  | SWait => with_reader wait_block k
  | SRead => with_reader screen_read_block k
  | SRefresh => Acq LWriter (Acq LData (Act ARefresh (fun r => drop_screen_writer (k r))))
  | SSetCursorMode m => with_writer (fun k => Act (AW (WOp (OSetCursorMode m))) k) k
  (* unix/screen.rs:65 and buffer.rs:281-374 *)
  | SBuf o => Acq LData (Act (AD (DBuf o)) (fun r => Rel LData (k r)))
  (* unix/screen.rs:138-166 *)
  | SRDrop => Rel LReader (k AOk)
  | SRWait => wait_block k
  | SRRead => screen_read_block k
  (* unix/screen.rs:168-234 and buffer.rs:376-466 *)
  | SWDrop => drop_screen_writer (k AOk)
  | SWRefresh => Act ARefresh k
  | SWSetCursorMode m => Act (AW (WOp (OSetCursorMode m))) k
  | SWBuf o => Act (AD (DBuf o)) k
  end.

Fixpoint compile (p : client) : prog :=
  match p with
  | Finish => Done
  | Call c k => method c (fun r => compile (k r))
  end.

(** All threads, the owner of each mutex, and the shared data. *)
Record config : Type := Config {
  threads : nat -> prog;
  owner : lock -> option nat;
  shared : wside * dside
}.

Definition set_thread (i : nat) (p : prog) (t : nat -> prog) : nat -> prog :=
  fun j => if j =? i then p else t j.
Definition set_owner (l : lock) (o : option nat) (w : lock -> option nat) : lock -> option nat :=
  fun l' => if lock_eqb l' l then o else w l'.

(** Threads [0, 1, ...] running the clients of the list. *)
Definition start (l : list client) (s : wside * dside) : config :=
  Config (fun i => compile (nth i l Finish)) (fun _ => None) s.

(** What can be seen of a step. *)
Inductive event : Type :=
| EvAcq (i : nat) (l : lock)
| EvRel (i : nat) (l : lock)
| EvAct (i : nat) (a : act) (r : ans)
| EvOther (i : nat).

(** One step of one thread; [std::sync::Mutex] semantics: [lock] proceeds when the
    mutex is free, [try_lock] fails when it is not. *)
Inductive step (E : env) (C : tcfg) : config -> event -> config -> Prop :=
| step_acq i l k t o s :
    t i = Acq l k -> o l = None ->
    step E C (Config t o s) (EvAcq i l) (Config (set_thread i k t) (set_owner l (Some i) o) s)
| step_try_yes i l k k' t o s :
    t i = TryAcq l k k' -> o l = None ->
    step E C (Config t o s) (EvAcq i l) (Config (set_thread i k t) (set_owner l (Some i) o) s)
| step_try_no i l k k' j t o s :
    t i = TryAcq l k k' -> o l = Some j ->
    step E C (Config t o s) (EvOther i) (Config (set_thread i k' t) o s)
| step_rel i l k t o s :
    t i = Rel l k -> o l = Some i ->
    step E C (Config t o s) (EvRel i l) (Config (set_thread i k t) (set_owner l None o) s)
| step_act i a k t o s s' r :
    t i = Act a k -> meaning E C a s = (s', r) ->
    step E C (Config t o s) (EvAct i a r) (Config (set_thread i (k r) t) o s')
| step_env i k c t o s :
    t i = Env k ->
    step E C (Config t o s) (EvOther i) (Config (set_thread i (k c) t) o s).

(** A schedule: any number of steps, with what is seen. *)
Inductive run (E : env) (C : tcfg) (c : config) : list event -> config -> Prop :=
| run_nil : run E C c [] c
| run_snoc tr c1 e c2 : run E C c tr c1 -> step E C c1 e c2 -> run E C c (tr ++ [e]) c2.
