(** Model of the locking in /repo/src/windows/terminal.rs and
    /repo/src/windows/screen.rs: client threads calling the public methods of one
    shared [Terminal] or [Screen] on Windows.  The methods, their answers and the
    small steps threads are made of are those of M_Locks.v; what the methods do is not.

    Simplifications: those of M_Locks.v; and what an access does to the data behind
    its lock is left open (a parameter): the console and the screen are modelled in
    M_WinWriter.v and M_WinScreen.v, nothing here depends on them. *)
From Verif Require Import Base M_Geom M_Buf M_Writer M_Locks.

(** What the accesses do: those of the terminal to the data behind
    [Terminal::writer] (windows/terminal.rs:90) together with the console, those of
    the screen to the data behind [Screen::writer] (windows/screen.rs:24), and
    [ScreenWriteGuard::refresh] (windows/screen.rs:210-244) to both. *)
Record access (Wd Dd : Type) : Type := Access {
  on_writer : wact -> Wd -> Wd * ans;
  on_data : dact -> Dd -> Dd * ans;
  on_both : Wd -> Dd -> (Wd * Dd) * ans
}.
Arguments Access {Wd Dd}.
Arguments on_writer {Wd Dd}.
Arguments on_data {Wd Dd}.
Arguments on_both {Wd Dd}.

Definition wmeans {Wd Dd} (M : access Wd Dd) (a : act) (s : Wd * Dd) : (Wd * Dd) * ans :=
  let '(w, d) := s in
  match a with
  | AW a => let '(w', r) := on_writer M a w in ((w', d), r)
  | AD a => let '(d', r) := on_data M a d in ((w, d'), r)
  | ARefresh => on_both M w d
  end.

(** A temporary [TerminalWriteGuard]; there is no [Drop] for it on Windows. *)
Definition wwith_writer (body : (ans -> prog) -> prog) (k : ans -> prog) : prog :=
  Acq LWriter (body (fun r => Rel LWriter (k r))).

(** Dropping a [ScreenWriteGuard] (windows/screen.rs:264-270, and its fields in
    declaration order, :32-35). *)
Definition wdrop_screen_writer (k : prog) : prog :=
  Act ARefresh (fun _ => Rel LWriter (Rel LData k)).

(** [TerminalReadGuard::read_event], [read_raw] and [read_raw_event]
    (windows/terminal.rs:441-515): the size comes with the event, no lock is taken.
    There is no continue signal: any other event stands for it. *)
Definition wread_block (k : ans -> prog) : prog :=
  Env (fun c =>
    match c with
    | CResize (inl e) => k (AErr e)
    | CResize (inr sz) => k (AResized sz)
    | CContinue _ _ _ => k (AOther 0)
    | COther n => k (AOther n)
    end).

(** [ScreenReadGuard::read_event], [read_raw] and [read_raw_event]
    (windows/screen.rs:161-195).  Simplified: the last of these answers with the
    number of records, not with the size found in them. *)
Definition wscreen_read_block (k : ans -> prog) : prog :=
  wread_block (fun r =>
    match r with
    | AResized sz => Acq LData (Act (AD (DUpdateSize sz)) (fun _ => Rel LData (k r)))
    | _ => k r
    end).

(** What a method does on Windows. *)
Definition wmethod (c : call) (k : ans -> prog) : prog :=
  match c with
  (* windows/terminal.rs:294-312 *)
  | TLockRead => Acq LReader (k AOk)
  | TLockWrite => Acq LWriter (k AOk)
  | TTryLockRead => TryAcq LReader (k AOk) (k AWouldBlock)
  | TTryLockWrite => TryAcq LWriter (k AOk) (k AWouldBlock)
  (* windows/terminal.rs:163-165, 222-246 *)
  | TSize => wwith_writer (fun k => Env (fun c => match c with
                                                  | CResize (inl e) => k (AErr e)
                                                  | CResize (inr sz) => k (AResized sz)
                                                  | _ => k AOk
                                                  end)) k
  | TWait => with_reader wait_block k
  | TRead => with_reader wread_block k
  | TPrepare mouse track keypad =>
      with_reader (wwith_writer (fun k => Act (AW (WPrepare mouse track keypad)) k)) k
  | TRestore mouse keypad => with_reader (wwith_writer (fun k => Act (AW (WRestore mouse keypad)) k)) k
  (* windows/terminal.rs:167-209, 248-292; the moves by 0 do not lock *)
  | TWrite (OMoveUp 0) | TWrite (OMoveDown 0) | TWrite (OMoveLeft 0) | TWrite (OMoveRight 0) => k AOk
  | TWrite o => wwith_writer (fun k => Act (AW (WOp o)) k) k
  (* windows/terminal.rs:338-515; [prepare] and [restore] take the writer, which they
     do not use ("for consistency", :344-346) *)
  | RDrop => Rel LReader (k AOk)
  | RWait => wait_block k
  | RRead => wread_block k
  | RPrepare mouse track keypad => wwith_writer (fun k => Act (AW (WPrepare mouse track keypad)) k) k
  | RRestore mouse keypad => wwith_writer (fun k => Act (AW (WRestore mouse keypad)) k) k
  | RPrepareWithLock mouse track keypad => Act (AW (WPrepare mouse track keypad)) k
  | RRestoreWithLock mouse keypad => Act (AW (WRestore mouse keypad)) k
  (* windows/terminal.rs:572-930 *)
  | WDrop => Rel LWriter (k AOk)
  | WDo o => Act (AW (WOp o)) k
  (* windows/screen.rs:72-90; [try_lock_write] tries both locks, then drops what it got *)
  | SLockRead => Acq LReader (k AOk)
  | SLockWrite => Acq LWriter (Acq LData (k AOk))
  | STryLockRead => TryAcq LReader (k AOk) (k AWouldBlock)
  | STryLockWrite =>
      TryAcq LWriter
        (TryAcq LData (k AOk) (Rel LWriter (k AWouldBlock)))
        (TryAcq LData (Rel LData (k AWouldBlock)) (k AWouldBlock))
  (* windows/screen.rs:108-131 *)
  | SWait => with_reader wait_block k
  | SRead => with_reader wscreen_read_block k
  | SRefresh => Acq LWriter (Acq LData (Act ARefresh (fun r => wdrop_screen_writer (k r))))
  | SSetCursorMode m => wwith_writer (fun k => Act (AW (WOp (OSetCursorMode m))) k) k
  (* windows/screen.rs:70, 100-102 and buffer.rs:281-374 *)
  | SBuf o => Acq LData (Act (AD (DBuf o)) (fun r => Rel LData (k r)))
  (* windows/screen.rs:157-195 *)
  | SRDrop => Rel LReader (k AOk)
  | SRWait => wait_block k
  | SRRead => wscreen_read_block k
  (* windows/screen.rs:198-270 and buffer.rs:376-466 *)
  | SWDrop => wdrop_screen_writer (k AOk)
  | SWRefresh => Act ARefresh k
  | SWSetCursorMode m => Act (AW (WOp (OSetCursorMode m))) k
  | SWBuf o => Act (AD (DBuf o)) k
  end.

Fixpoint wcompile (p : client) : prog :=
  match p with
  | Finish => Done
  | Call c k => wmethod c (fun r => wcompile (k r))
  end.

(** All threads, the owner of each mutex, and the shared data. *)
Record wconfig (Wd Dd : Type) : Type := WConfig {
  wthreads : nat -> prog;
  wowner : lock -> option nat;
  wshared : Wd * Dd
}.
Arguments WConfig {Wd Dd}.
Arguments wthreads {Wd Dd}.
Arguments wowner {Wd Dd}.
Arguments wshared {Wd Dd}.

(** Threads [0, 1, ...] running the clients of the list. *)
Definition wstart {Wd Dd} (l : list client) (s : Wd * Dd) : wconfig Wd Dd :=
  WConfig (fun i => wcompile (nth i l Finish)) (fun _ => None) s.

(** One step of one thread, as in M_Locks.v. *)
Inductive wstep {Wd Dd} (M : access Wd Dd) : wconfig Wd Dd -> event -> wconfig Wd Dd -> Prop :=
| wstep_acq i l k t o s :
    t i = Acq l k -> o l = None ->
    wstep M (WConfig t o s) (EvAcq i l) (WConfig (set_thread i k t) (set_owner l (Some i) o) s)
| wstep_try_yes i l k k' t o s :
    t i = TryAcq l k k' -> o l = None ->
    wstep M (WConfig t o s) (EvAcq i l) (WConfig (set_thread i k t) (set_owner l (Some i) o) s)
| wstep_try_no i l k k' j t o s :
    t i = TryAcq l k k' -> o l = Some j ->
    wstep M (WConfig t o s) (EvOther i) (WConfig (set_thread i k' t) o s)
| wstep_rel i l k t o s :
    t i = Rel l k -> o l = Some i ->
    wstep M (WConfig t o s) (EvRel i l) (WConfig (set_thread i k t) (set_owner l None o) s)
| wstep_act i a k t o s s' r :
    t i = Act a k -> wmeans M a s = (s', r) ->
    wstep M (WConfig t o s) (EvAct i a r) (WConfig (set_thread i (k r) t) o s')
| wstep_env i k c t o s :
    t i = Env k ->
    wstep M (WConfig t o s) (EvOther i) (WConfig (set_thread i (k c) t) o s).

(** A schedule: any number of steps, with what is seen. *)
Inductive wrun {Wd Dd} (M : access Wd Dd) (c : wconfig Wd Dd) : list event -> wconfig Wd Dd -> Prop :=
| wrun_nil : wrun M c [] c
| wrun_snoc tr c1 e c2 : wrun M c tr c1 -> wstep M c1 e c2 -> wrun M c (tr ++ [e]) c2.
