(** The Unix [Screen] as a whole (/repo/src/unix/screen.rs) in a build without overflow
    checks: the definitions of M_UnixScreen.v that use those of M_RelBuf.v, M_RelScreen.v
    and M_RelReader.v. *)
From Verif Require Import Base M_Utf8 M_Geom M_Attr M_Buf M_Seq M_Signal M_Util M_Input M_Writer
  M_Screen M_Prepare M_Reader M_UnixScreen M_RelBuf M_RelScreen M_RelReader.

Section RelRun.
  Variables (E : env) (C : tcfg) (m : seq_map).

  (** [Screen::new] (unix/screen.rs:38-56).  It takes the terminal by value: failing
      before there is a [Screen] drops the terminal, failing afterwards the [Screen].
      [Terminal::enter_screen] (unix/terminal.rs:165-167) asks for the size again. *)
  Definition unix_screen_new_r (cfg : config) (s : sys) : out sys rerr uscr :=
    match term_size s with
    | Ret s z =>
        match prepare C cfg s with
        | Ret s st =>
            match sb_new E z with
            | Boom => Panic
            | Val b =>
                match locked (enter_screen_r E C (win s)) s with
                | Ret s _ => Ret s (UScr b false (Cursor 0 0) st s)
                | Fail s e => match leave C st s with
                              | Ret s _ => failed e (terminal_drop C s)
                              | Fail s _ => Fail s e
                              | Panic => Panic
                              | Blocked => Blocked
                              end
                | Panic => Panic
                | Blocked => Blocked
                end
            end
        | Fail s e => failed e (terminal_drop C s)
        | Panic => Panic
        | Blocked => Blocked
        end
    | Fail s e => failed e (terminal_drop C s)
    | Panic => Panic
    | Blocked => Blocked
    end.

  (** A method of the write guard. *)
  Definition g_step_r (o : gop) (x : scr) : sres :=
    match o with
    | GBuffer o => match run_buf_op_r E (sb x) o with
                   | Val b => Ret (with_sb b x) tt
                   | Boom => Panic
                   end
    | GMode c => on_writer (set_cursor_mode C c) x
    | GRefresh => refresh_r E C x
    end.
  (** Several of them; the program goes on after errors.  Then the guard is dropped. *)
  Fixpoint g_run_r (l : list gop) (x : scr) : sres :=
    match l with
    | [] => s_guard_drop_r E C x
    | o :: l => match g_step_r o x with
                | Ret x _ | Fail x _ => g_run_r l x
                | r => r
                end
    end.

  (** A call of a program (see [ustep] in M_UnixScreen.v). *)
  Definition ustep_r (o : uop) (s : uscr) : option (uscr * reply) :=
    match o with
    | UBuffer o => on_out (g_step_r (GBuffer o)) s
    | UMode c => on_out (screen_set_cursor_mode C c) s
    | URefresh => on_out (screen_refresh_r E C) s
    | ULocked l => on_out (g_run_r l) s
    | UWait t => match wait_event_r m t (u_sys s) with
                 | Ret x b => Some (with_sys x s, YBool b)
                 | Fail x e => Some (with_sys x s, YErr e)
                 | Panic | Blocked => None
                 end
    | URead t => match read_event_r C m t (u_sys s) with
                 | Ret x e => match follow E e (with_sys x s) with
                              | Val s => Some (s, YEvent e)
                              | Boom => None
                              end
                 | Fail x e => Some (with_sys x s, YErr e)
                 | Panic | Blocked => None
                 end
    | URaw room t => match read_raw_r C m room t (u_sys s) with
                     | Ret x (e, bs) => match follow E e (with_sys x s) with
                                        | Val s => Some (s, YRaw e bs)
                                        | Boom => None
                                        end
                     | Fail x e => Some (with_sys x s, YErr e)
                     | Panic | Blocked => None
                     end
    end.

  (** A program: it goes on after errors; [None]: it panicked or waits for ever. *)
  Fixpoint urun_r (ops : list uop) (s : uscr) : option (uscr * list reply) :=
    match ops with
    | [] => Some (s, [])
    | o :: ops => match ustep_r o s with
                  | Some (s, r) => match urun_r ops s with
                                   | Some (s, rs) => Some (s, r :: rs)
                                   | None => None
                                   end
                  | None => None
                  end
    end.
End RelRun.
