(** Model of panics of a program that uses a Unix [Screen] (/repo/src/unix/screen.rs,
    unix/terminal.rs): which mutexes they poison, and what calls do afterwards.

    A [std::sync::Mutex] is poisoned when a guard that was taken by a thread that was
    not panicking is dropped while the thread panics; [lock] then returns the guard in
    a [PoisonError].  A panic that leaves [drop] while the thread is panicking already
    aborts the process.

    Simplifications: panics of the program are modelled (between the library's methods,
    with a guard of the screen or without); a panic inside a method (of which M_Buf and
    M_Writer say when it happens) ends the run.  A panic ends one thread or is caught;
    the screen is then used further. *)
From Verif Require Import Base M_Utf8 M_Geom M_Attr M_Buf M_Seq M_Signal M_Util M_Input M_Writer
  M_Screen M_Prepare M_Reader M_UnixScreen.

(** A screen and which of its mutexes are poisoned: [Terminal::reader],
    [Terminal::writer] (unix/terminal.rs:72-73), [Screen::writer] (unix/screen.rs:17). *)
Record pscr : Type := PScr { x_u : uscr; x_r : bool; x_w : bool; x_d : bool }.
Definition with_u (u : uscr) (x : pscr) : pscr := PScr u (x_r x) (x_w x) (x_d x).
Definition unpoisoned (u : uscr) : pscr := PScr u false false false.

(** What a program can do.  [XDo]: the methods of the screen, guards being unwrapped;
    [XForce]: a write guard is taken, out of the [PoisonError] if there is one, used
    and dropped; [XPanicWrite]: the same, and the program panics while it has the
    guard; [XPanicRead]: the same with a read guard (reading with it before is as
    [XDo]); [XPanic]: the program panics without a guard. *)
Inductive xop : Type :=
| XDo (o : uop)
| XForce (l : list gop)
| XPanicWrite (l : list gop)
| XPanicRead
| XPanic.
Inductive xreply : Type := XReply (r : reply) | XPanicked.

(** Errors, or a panic. *)
Definition xres (A : Type) : Type := out sys (option rerr) A.
Definition lifted {A} (r : rres A) : xres A :=
  match r with
  | Ret s a => Ret s a
  | Fail s e => Fail s (Some e)
  | Panic => Panic
  | Blocked => Blocked
  end.

Section Poison.
  Variables (E : env) (C : tcfg) (m : seq_map).

  (** [lock_writer()] (unix/terminal.rs:295-297) with a poisoned mutex: [expect] panics,
      the guard inside the error is dropped. *)
  Definition writer_panics {A} (s : sys) : xres A :=
    match on_wr guard_drop s with
    | Ret s _ | Fail s _ => Fail s None
    | Panic => Panic
    | Blocked => Blocked
    end.

  (** [handle_signal] and [resume] (unix/terminal.rs:604-628); [pw]: the writer's mutex
      is poisoned. *)
  Definition p_handle_signal (pw : bool) (sig : signal) (s : sys) : xres (option event) :=
    let locks := match sig with
                 | Continue => match resume_cfg s with Some _ => true | None => false end
                 | Resize => true
                 | _ => false
                 end in
    if pw && locks then writer_panics s else lifted (handle_signal C sig s).

  (** [read_event] (unix/terminal.rs:492-508). *)
  Definition p_read_event (pw : bool) (timeout : option duration) (s : sys) : xres (option event) :=
    let! (s, e) := lifted (try_read m s) in
    match e with
    | Some e => Ret s (Some e)
    | None =>
        let! (s, r) := lifted (read_into_buffer C m timeout s) in
        match r with
        | Some (IRaw _) => lifted (try_read m s)
        | Some (ISignal sig) => p_handle_signal pw sig s
        | None => Ret s None
        end
    end.

  (** [read_raw] (unix/terminal.rs:510-530). *)
  Definition p_read_raw (pw : bool) (room : nat) (timeout : option duration) (s : sys)
    : xres (option event * bytes) :=
    match inbuf s with
    | _ :: _ => lifted (read_raw C m room timeout s)
    | [] =>
        let! (s, r) := lifted (read_input m room timeout s) in
        match r with
        | Some (IRaw bs) => Ret s (Some (ERaw (length bs)), bs)
        | Some (ISignal sig) => let! (s, e) := p_handle_signal pw sig s in Ret s (e, [])
        | None => Ret s (None, [])
        end
    end.

  (** The rest of the screen's [read_event] and [read_raw] (unix/screen.rs:147-169).  A
      panic poisons the reader's mutex, whose guard is held. *)
  Definition p_read {A} (ev : A -> option event) (rep : A -> reply) (r : xres A) (x : pscr)
    : option (pscr * xreply) :=
    let u := x_u x in
    match r with
    | Ret s a =>
        match ev a with
        | Some (EResize _) =>
            if x_d x then Some (PScr (with_sys s u) true (x_w x) (x_d x), XPanicked)
            else match follow E (ev a) (with_sys s u) with
                 | Val u => Some (with_u u x, XReply (rep a))
                 | Boom => None
                 end
        | _ => Some (with_u (with_sys s u) x, XReply (rep a))
        end
    | Fail s (Some e) => Some (with_u (with_sys s u) x, XReply (YErr e))
    | Fail s None => Some (PScr (with_sys s u) true (x_w x) (x_d x), XPanicked)
    | Panic | Blocked => None
    end.

  (** A write guard is taken and used; with [boom], the program panics then.  The guard
      is dropped in any case (unix/screen.rs:228-234): it refreshes and flushes. *)
  Definition p_write (boom : bool) (l : list gop) (x : pscr) : option (pscr * xreply) :=
    match g_run E C l (out_side (x_u x)) with
    | Ret y _ | Fail y _ =>
        Some (PScr (with_out y (x_u x)) (x_r x) (x_w x || boom) (x_d x || boom),
              if boom then XPanicked else XReply YUnit)
    | Panic | Blocked => None
    end.

  Definition xstep (o : xop) (x : pscr) : option (pscr * xreply) :=
    let ok o := match ustep E C m o (x_u x) with
                | Some (u, r) => Some (with_u u x, XReply r)
                | None => None
                end in
    match o with
    (* [lock_write_data().expect(..)], unix/screen.rs:95-97 *)
    | XDo (UBuffer b) => if x_d x then Some (x, XPanicked) else ok (UBuffer b)
    (* [Terminal::set_cursor_mode], unix/terminal.rs:225-227 *)
    | XDo (UMode c) =>
        if x_w x then
          match writer_panics (A := unit) (u_sys (x_u x)) with
          | Ret s _ | Fail s _ => Some (with_u (with_sys s (x_u x)) x, XPanicked)
          | Panic | Blocked => None
          end
        else ok (UMode c)
    (* [lock_write()] with [expect] (unix/screen.rs:91-93) or the program's [unwrap]: the
       guards are dropped with the error *)
    | XDo URefresh => if x_w x || x_d x then p_write true [] x else ok URefresh
    | XDo (ULocked l) => if x_w x || x_d x then p_write true [] x else ok (ULocked l)
    (* [lock_reader()], unix/screen.rs:87-89 *)
    | XDo (UWait t) => if x_r x then Some (x, XPanicked) else ok (UWait t)
    | XDo (URead t) => if x_r x then Some (x, XPanicked)
                       else p_read (fun e => e) YEvent (p_read_event (x_w x) t (u_sys (x_u x))) x
    | XDo (URaw n t) => if x_r x then Some (x, XPanicked)
                        else p_read fst (fun a => YRaw (fst a) (snd a)) (p_read_raw (x_w x) n t (u_sys (x_u x))) x
    | XForce l => p_write false l x
    | XPanicWrite l => p_write true l x
    | XPanicRead => Some (PScr (x_u x) true (x_w x) (x_d x), XPanicked)
    | XPanic => Some (x, XPanicked)
    end.

  Fixpoint xrun (ops : list xop) (x : pscr) : option (pscr * list xreply) :=
    match ops with
    | [] => Some (x, [])
    | o :: ops => match xstep o x with
                  | Some (x, r) => match xrun ops x with
                                   | Some (x, rs) => Some (x, r :: rs)
                                   | None => None
                                   end
                  | None => None
                  end
    end.

  (** Dropping the screen (unix/screen.rs:124-136), then its field [term]
      (unix/terminal.rs:300-310).  [restore] (unix/terminal.rs:177-179, 414-417) locks the
      reader, then the writer.  After a panic in [Screen::drop] the field is dropped all
      the same; if that panics too, the process is aborted (whether the guard inside the
      error is still dropped depends on the version of Rust and is left out). *)
  Inductive dropped : Type :=
  | Given (s : sys) (printed : option rerr * option rerr)
  | Unwinds (s : sys)
  | Aborts (s : sys)
  | DLost.
  Definition xdrop (x : pscr) : dropped :=
    let s := u_sys (x_u x) in
    if x_r x then
      if x_w x then Aborts s
      else match terminal_drop C s with
           | Ret s _ | Fail s _ => Unwinds s
           | Panic | Blocked => DLost
           end
    else if x_w x then
      match writer_panics (A := unit) s with
      | Ret s _ | Fail s _ => Aborts s
      | Panic | Blocked => DLost
      end
    else match screen_drop C (x_u x) with
         | Ret s p => Given s p
         | _ => DLost
         end.
End Poison.
