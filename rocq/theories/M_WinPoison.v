(** Model of panics of a program that uses a Windows [Screen]
    (/repo/src/windows/screen.rs, windows/terminal.rs): which mutexes they poison, and
    what calls do afterwards.  As in M_Poison.v: a mutex is poisoned when a guard that was
    taken by a thread that was not panicking is dropped while it panics, and a panic that
    leaves [drop] while the thread panics already aborts the process.

    Simplifications: panics of the program are modelled (between the library's methods,
    with a guard of the screen or without); a panic inside a method ends the run, except
    those of [expect] on a poisoned mutex.  What the system does with the console's
    buffers when the process ends is not modelled. *)
From Verif Require Import Base M_Utf8 M_Geom M_Attr M_Buf M_Signal M_Util M_Input M_Writer M_Prepare M_Reader
  M_WinWriter M_WinReader M_WinScreen.

(** A screen and which of its mutexes are poisoned: [Terminal::reader],
    [Terminal::writer] (windows/terminal.rs:89-90), [Screen::writer]
    (windows/screen.rs:24). *)
Record wpscr : Type := WPScr { q_s : wscr; q_r : bool; q_w : bool; q_d : bool }.
Definition with_s (s : wscr) (x : wpscr) : wpscr := WPScr s (q_r x) (q_w x) (q_d x).
Definition unharmed (s : wscr) : wpscr := WPScr s false false false.

(** The methods of a write guard, and of a read guard. *)
Inductive kwrite : Type := KBuffer (o : buf_op) | KRefresh | KMode (m : cursor_mode).
Inductive kread : Type :=
| KWait (timeout : option duration)
| KEvent (timeout : option duration)
| KRaw (len : nat) (timeout : option duration)
| KRecords (len : nat) (timeout : option duration).

(** What a program can do.  [KDraw], [KRead]: the methods of the screen; [KLocked]: a
    write guard is taken with [lock_write().unwrap()], used and dropped; [KForce] and
    [KForceRead]: a guard is taken, out of the [PoisonError] if there is one, used and
    dropped; [KPanicWrite]: a write guard is taken like this, and the program panics while
    it has it; [KPanicRead]: the same with a read guard; [KPanic]: the program panics
    without a guard. *)
Inductive kop : Type :=
| KDraw (o : kwrite)
| KRead (o : kread)
| KLocked (l : list kwrite)
| KForce (l : list kwrite)
| KForceRead (o : kread)
| KPanicWrite (l : list kwrite)
| KPanicRead
| KPanic.

(** What the program is told: the method returns, or panics, or it is the program that
    panics. *)
Inductive kreply : Type :=
| KOk
| KReady (b : bool)
| KGot (e : option event) (rs : list record)
| KUnits (e : option event) (us : list N)
| KErr (e : N)
| KPanicked.

Section WinPoison.
  Variable draw : list N -> N -> view -> view.
  Variable E : env.

  (** The methods of the write guard (windows/screen.rs:201-243). *)
  Definition k_write1 (o : kwrite) (s : wscr) : gres unit :=
    match o with
    | KBuffer o => match run_buf_op E (g_sb s) o with Val b => Ret (with_gsb b s) tt | Boom => Panic end
    | KRefresh => win_refresh draw E s
    | KMode m => on_term (on_wins (win_set_cursor_mode m)) s
    end.
  Fixpoint k_writes (l : list kwrite) (s : wscr) : option wscr :=
    match l with
    | [] => Some s
    | o :: l => match k_write1 o s with
                | Ret s _ | Fail s _ => k_writes l s
                | Panic | Blocked => None
                end
    end.

  (** A write guard is taken and used; with [boom], the program panics then.  The guard
      is dropped in any case (windows/screen.rs:264-270): it refreshes the screen. *)
  Definition k_guard (boom : bool) (l : list kwrite) (x : wpscr) : option (wpscr * kreply) :=
    match k_writes l (q_s x) with
    | None => None
    | Some s =>
        match win_refresh draw E s with
        | Ret s _ | Fail s _ => Some (WPScr s (q_r x) (q_w x || boom) (q_d x || boom), if boom then KPanicked else KOk)
        | Panic | Blocked => None
        end
    end.

  (** The methods of the read guard (windows/screen.rs:157-195); the size in the event, if
      there is one, is given to [lock_write_data().update_size(..)], and then a panic
      poisons the reader's mutex, whose guard is held. *)
  Definition k_resized (e : option event) : option size :=
    match e with Some (EResize z) => Some z | _ => None end.
  Definition k_sized {A} (z : A -> option size) (rep : A -> kreply) (r : gres A) (x : wpscr) : option (wpscr * kreply) :=
    match r with
    | Ret s a =>
        match z a with
        | None => Some (with_s s x, rep a)
        | Some z =>
            if q_d x then Some (WPScr s true (q_w x) (q_d x), KPanicked)
            else match win_update_size E z s with
                 | Ret s _ => Some (with_s s x, rep a)
                 | _ => None
                 end
        end
    | Fail s e => Some (with_s s x, KErr e)
    | Panic | Blocked => None
    end.
  Definition k_read (o : kread) (x : wpscr) : option (wpscr * kreply) :=
    match o with
    | KWait t => k_sized (fun _ => None) KReady (on_term (on_reader (win_wait_event t)) (q_s x)) x
    | KEvent t =>
        k_sized (fun a => k_resized (fst a)) (fun a => KGot (fst a) (snd a))
                (on_term (on_reader (win_read_event E t)) (q_s x)) x
    | KRaw n t =>
        k_sized (fun a => k_resized (fst a)) (fun a => KUnits (fst a) (snd a))
                (on_term (on_reader (win_read_raw n t)) (q_s x)) x
    | KRecords n t =>
        k_sized (fun a => match fst a with Some (ERaw n) => find_size E (rev (firstn n (snd a))) | _ => None end)
                (fun a => KGot (fst a) (snd a))
                (on_term (on_reader (win_read_raw_event n t)) (q_s x)) x
    end.

  Definition k_told (r : gres unit) (x : wpscr) : option (wpscr * kreply) :=
    match r with
    | Ret s _ => Some (with_s s x, KOk)
    | Fail s e => Some (with_s s x, KErr e)
    | Panic | Blocked => None
    end.
  Definition kstep (o : kop) (x : wpscr) : option (wpscr * kreply) :=
    match o with
    (* [lock_write_data()], windows/screen.rs:70, 100-102 *)
    | KDraw (KBuffer b) => if q_d x then Some (x, KPanicked) else k_told (k_write1 (KBuffer b) (q_s x)) x
    (* [Terminal::set_cursor_mode], windows/terminal.rs:248-250, 318-320 *)
    | KDraw (KMode m) => if q_w x then Some (x, KPanicked) else k_told (k_write1 (KMode m) (q_s x)) x
    (* [lock_writer()], windows/screen.rs:96-98: a guard in the error of [lock_write] is
       dropped when [expect] panics; otherwise [refresh] is called and then the guard is
       dropped (windows/screen.rs:128-130) *)
    | KDraw KRefresh =>
        if q_w x || q_d x then k_guard true [] x
        else match win_refresh draw E (q_s x) with
             | Ret s _ => k_told (match win_refresh draw E s with Fail s _ => Ret s tt | r => r end) x
             | Fail s e => match win_refresh draw E s with
                           | Ret s _ | Fail s _ => Some (with_s s x, KErr e)
                           | Panic | Blocked => None
                           end
             | Panic | Blocked => None
             end
    | KLocked l => if q_w x || q_d x then k_guard true [] x else k_guard false l x
    (* [lock_reader()], windows/screen.rs:92-94 *)
    | KRead o => if q_r x then Some (x, KPanicked) else k_read o x
    | KForce l => k_guard false l x
    | KForceRead o => k_read o x
    | KPanicWrite l => k_guard true l x
    | KPanicRead => Some (WPScr (q_s x) true (q_w x) (q_d x), KPanicked)
    | KPanic => Some (x, KPanicked)
    end.

  Fixpoint krun (ops : list kop) (x : wpscr) : option (wpscr * list kreply) :=
    match ops with
    | [] => Some (x, [])
    | o :: ops => match kstep o x with
                  | Some (x, r) => match krun ops x with
                                   | Some (x, rs) => Some (x, r :: rs)
                                   | None => None
                                   end
                  | None => None
                  end
    end.

  (** Dropping the screen (windows/screen.rs:134-147), then its field [term]
      (windows/terminal.rs:323-336).  [restore] (windows/terminal.rs:226-228, 407-410) locks
      the reader, then the writer.  After a panic in [Screen::drop] the field is dropped all
      the same; [set_cursor_mode] there locks the writer, and if that panics too the
      process is aborted. *)
  Inductive kdropped : Type :=
  | KGiven (t : wterm)
  | KUnwinds (t : wterm)
  | KAborts (t : wterm)
  | KLost.
  Definition kdrop (x : wpscr) : kdropped :=
    let t := g_t (q_s x) in
    if q_w x then KAborts t
    else if q_r x then
      match win_terminal_drop t with
      | Ret t _ | Fail t _ => KUnwinds t
      | Panic | Blocked => KLost
      end
    else match win_screen_drop (q_s x) with
         | Ret t _ => KGiven t
         | _ => KLost
         end.
End WinPoison.
