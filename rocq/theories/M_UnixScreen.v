(** Model of the Unix [Screen] as a whole (/repo/src/unix/screen.rs): creating it on a
    terminal, using it, reading from it and dropping it.  Drawing is in M_Screen.v,
    preparing and reading the terminal in M_Prepare.v and M_Reader.v. *)
From Verif Require Import Base M_Utf8 M_Geom M_Attr M_Buf M_Seq M_Signal M_Util M_Input M_Writer
  M_Screen M_Prepare M_Reader.

(** [Screen] (unix/screen.rs:14-19, 31-35): the screen's [Writer] (buffer,
    [clear_screen], [real_cursor]), the [PrepareState] and the terminal. *)
Record uscr : Type := UScr {
  u_sb : sbuf;
  u_clr : bool;
  u_real : cursor;
  u_st : pstate;
  u_sys : sys
}.

(** What a [ScreenWriteGuard] sees of it (unix/screen.rs:26-29). *)
Definition out_side (s : uscr) : scr := Scr (u_sb s) (u_clr s) (u_real s) (M_Prepare.wr (u_sys s)).
Definition with_out (x : scr) (s : uscr) : uscr :=
  UScr (sb x) (clr x) (real x) (u_st s) (M_Prepare.with_wr (M_Screen.wr x) (u_sys s)).
Definition with_sys (x : sys) (s : uscr) : uscr := UScr (u_sb s) (u_clr s) (u_real s) (u_st s) x.

Section UnixScreen.
  Variables (E : env) (C : tcfg) (m : seq_map).

  (** A convenience method of [Terminal] that locks the writer and runs [f]. *)
  Definition locked (f : wst -> wres) : sys -> rres unit := with_guard (on_wr f).

  (** Dropping a [Terminal] (unix/terminal.rs:300-310); an error is only printed, the
      result says which.  Closing the file is outside the model. *)
  Definition terminal_drop (s : sys) : rres (option rerr) :=
    match on_wr (run_terminal_op C (OSetCursorMode CNormal)) s with
    | Ret s _ => Ret s None
    | Fail s e => Ret s (Some e)
    | Panic => Panic
    | Blocked => Blocked
    end.

  (** Dropping a [Screen] (unix/screen.rs:124-136), then its field [term].  The result:
      the errors that are printed by the two. *)
  Definition leave (st : pstate) (s : sys) : rres (option rerr) :=
    match restore C st s with
    | Ret s _ => match locked (exit_screen C) s with
                 | Ret s _ => Ret s None
                 | Fail s e => Ret s (Some e)
                 | Panic => Panic
                 | Blocked => Blocked
                 end
    | Fail s e => Ret s (Some e)
    | Panic => Panic
    | Blocked => Blocked
    end.
  Definition screen_drop (s : uscr) : rres (option rerr * option rerr) :=
    let! (x, e1) := leave (u_st s) (u_sys s) in
    let! (x, e2) := terminal_drop x in
    Ret x (e1, e2).

  (** [Screen::new] (unix/screen.rs:38-56).  It takes the terminal by value: failing
      before there is a [Screen] drops the terminal, failing afterwards the [Screen].
      [Terminal::enter_screen] (unix/terminal.rs:165-167) asks for the size again. *)
  Definition failed {A} (e : rerr) (r : rres (option rerr)) : out sys rerr A :=
    match r with
    | Ret s _ | Fail s _ => Fail s e
    | Panic => Panic
    | Blocked => Blocked
    end.
  Definition unix_screen_new (cfg : config) (s : sys) : out sys rerr uscr :=
    match term_size s with
    | Ret s z =>
        match prepare C cfg s with
        | Ret s st =>
            match sb_new E z with
            | Boom => Panic
            | Val b =>
                match locked (enter_screen C (win s)) s with
                | Ret s _ => Ret s (UScr b false (Cursor 0 0) st s)
                | Fail s e => match leave st s with
                              | Ret s _ => failed e (terminal_drop s)
                              | Fail s _ => Fail s e
                              | Panic => Panic
                              | Blocked => Blocked
                              end
                | Panic => Panic
                | Blocked => Blocked
                end
            end
        | Fail s e => failed e (terminal_drop s)
        | Panic => Panic
        | Blocked => Blocked
        end
    | Fail s e => failed e (terminal_drop s)
    | Panic => Panic
    | Blocked => Blocked
    end.

  (** What a program can do with a screen.  Methods of [Screen] (unix/screen.rs:66-121)
      and its read guard (143-170); [ULocked]: a write guard is taken, used and dropped
      (173-234).  Methods that only look ([size], [cursor], [name]) are left out. *)
  Inductive gop : Type := GBuffer (o : buf_op) | GMode (c : cursor_mode) | GRefresh.
  Inductive uop : Type :=
  | UBuffer (o : buf_op)
  | UMode (c : cursor_mode)
  | URefresh
  | ULocked (l : list gop)
  | UWait (timeout : option duration)
  | URead (timeout : option duration)
  | URaw (room : nat) (timeout : option duration).

  (** A step on the output side; an error is the reply. *)
  Definition on_out (f : scr -> sres) (s : uscr) : option (uscr * reply) :=
    match f (out_side s) with
    | Ret x _ => Some (with_out x s, YUnit)
    | Fail x e => Some (with_out x s, YErr (RW e))
    | Panic | Blocked => None
    end.

  (** A method of the write guard. *)
  Definition g_step (o : gop) (x : scr) : sres :=
    match o with
    | GBuffer o => match run_buf_op E (sb x) o with
                   | Val b => Ret (with_sb b x) tt
                   | Boom => Panic
                   end
    | GMode c => on_writer (set_cursor_mode C c) x
    | GRefresh => refresh E C x
    end.
  (** Several of them; the program goes on after errors.  Then the guard is dropped. *)
  Fixpoint g_run (l : list gop) (x : scr) : sres :=
    match l with
    | [] => s_guard_drop E C x
    | o :: l => match g_step o x with
                | Ret x _ | Fail x _ => g_run l x
                | r => r
                end
    end.

  (** [read_event] and [read_raw] of the screen's read guard (unix/screen.rs:147-169):
      the terminal's, then [update_size] if they report [Resize]. *)
  Definition follow (e : option event) (s : uscr) : pan uscr :=
    match e with
    | Some (EResize z) => match update_size E z (out_side s) with
                          | Val x => Val (with_out x s)
                          | Boom => Boom
                          end
    | _ => Val s
    end.
  Definition ustep (o : uop) (s : uscr) : option (uscr * reply) :=
    match o with
    | UBuffer o => on_out (g_step (GBuffer o)) s
    | UMode c => on_out (screen_set_cursor_mode C c) s
    | URefresh => on_out (screen_refresh E C) s
    | ULocked l => on_out (g_run l) s
    | UWait t => match wait_event m t (u_sys s) with
                 | Ret x b => Some (with_sys x s, YBool b)
                 | Fail x e => Some (with_sys x s, YErr e)
                 | Panic | Blocked => None
                 end
    | URead t => match read_event C m t (u_sys s) with
                 | Ret x e => match follow e (with_sys x s) with
                              | Val s => Some (s, YEvent e)
                              | Boom => None
                              end
                 | Fail x e => Some (with_sys x s, YErr e)
                 | Panic | Blocked => None
                 end
    | URaw room t => match read_raw C m room t (u_sys s) with
                     | Ret x (e, bs) => match follow e (with_sys x s) with
                                        | Val s => Some (s, YRaw e bs)
                                        | Boom => None
                                        end
                     | Fail x e => Some (with_sys x s, YErr e)
                     | Panic | Blocked => None
                     end
    end.

  (** A program: it goes on after errors; [None]: it panicked or waits for ever. *)
  Fixpoint urun (ops : list uop) (s : uscr) : option (uscr * list reply) :=
    match ops with
    | [] => Some (s, [])
    | o :: ops => match ustep o s with
                  | Some (s, r) => match urun ops s with
                                   | Some (s, rs) => Some (s, r :: rs)
                                   | None => None
                                   end
                  | None => None
                  end
    end.
End UnixScreen.
