(** Model of configuring a Unix terminal for input: [prepare] and [restore]
    (/repo/src/unix/terminal.rs:312-454), the state shared with the reader, and the part
    of the operating system they use. *)
From Verif Require Import Base M_Geom M_Signal M_Writer.
Local Open Scope N_scope.

(** ** The operating system *)

(** [termios]: the flag words as bits, the two control characters the code sets and an
    opaque value for everything else (the other control characters, line speed ...).
    Simplification: nix drops flag bits it has no name for; here all bits have one. *)
Record termios : Type := Tio { iflag : N; oflag : N; cflag : N; lflag : N; vmin : N; vtime : N; others : N }.

(** The flags the code names (Linux' values). *)
Definition INLCR : N := 64.
Definition ICRNL : N := 256.
Definition IXON : N := 1024.
Definition ISIG : N := 1.
Definition ICANON : N := 2.
Definition ECHO : N := 8.

(** bitflags' [remove] and [insert]. *)
Definition flag_remove (f x : N) : N := N.ldiff f x.
Definition flag_insert (f x : N) : N := N.lor f x.

(** Signal numbers (Linux) and dispositions: [Ours] is the library's handler
    (unix/terminal.rs:1366-1368), [Other n] anything else (default, ignore, the
    program's own handler). *)
Definition SIGINT : N := 2.
Definition SIGQUIT : N := 3.
Definition SIGCONT : N := 18.
Definition SIGTSTP : N := 20.
Definition SIGWINCH : N := 28.
Inductive action : Type := Ours | Other (n : N).

(** What can happen outside the library, in order of time:
    - [TSig n]: signal [n] arrives;  - [TIntr]: a signal with another handler arrives;
    - [TInput bs]: the terminal has [bs] as input;
    - [TTime]: time passes, up to the end of a timeout someone waits for;
    - [TFail e]: the next [select] or [read] will fail with error [e];
    - [TWin r]: the window size (or the error of asking for it) becomes [r];
    - [TStep]: the library performs one of the operations that look at this state. *)
Inductive tick : Type :=
| TSig (n : N)
| TIntr
| TInput (bs : bytes)
| TTime
| TFail (e : N)
| TWin (r : N + size)
| TStep.

(** ** Configuration: [PrepareConfig] (terminal.rs:391-446) and its default (448-459) *)
Record config : Type := Config {
  block_signals : bool;
  enable_control_flow : bool;
  cfg_keypad : bool;
  cfg_mouse : bool;
  always_track_motion : bool;
  report_signals : sigset
}.
Definition default_config : config := Config true false true false false ss_new.

(** ** State
    [Reader] (unix/terminal.rs:87-91: [inbuf] with its capacity, [resume], [report]),
    the writer with its device ([wr], M_Writer), [LAST_SIGNAL] (1364) and the operating
    system: terminal settings, dispositions, input received and not yet read (in the
    portions [read] hands it out), a pending failure of [select]/[read], the window
    size, the failures that [tcgetattr], [tcsetattr] and [sigaction] will meet, in order
    ([None] or the end of the list: success), and the future. *)
Record sys : Type := Sys {
  inbuf : bytes;
  incap : nat;
  resume_cfg : option config;
  report : sigset;
  wr : wst;
  last_sig : N;
  tio : termios;
  disp : N -> action;
  queue : list bytes;
  failing : option N;
  win : N + size;
  os : list (option N);
  time : list tick
}.

Definition with_inbuf (b : bytes) (c : nat) (s : sys) : sys :=
  Sys b c (resume_cfg s) (report s) (wr s) (last_sig s) (tio s) (disp s) (queue s) (failing s) (win s) (os s) (time s).
Definition with_resume (r : option config) (s : sys) : sys :=
  Sys (inbuf s) (incap s) r (report s) (wr s) (last_sig s) (tio s) (disp s) (queue s) (failing s) (win s) (os s) (time s).
Definition with_report (r : sigset) (s : sys) : sys :=
  Sys (inbuf s) (incap s) (resume_cfg s) r (wr s) (last_sig s) (tio s) (disp s) (queue s) (failing s) (win s) (os s) (time s).
Definition with_wr (w : wst) (s : sys) : sys :=
  Sys (inbuf s) (incap s) (resume_cfg s) (report s) w (last_sig s) (tio s) (disp s) (queue s) (failing s) (win s) (os s) (time s).
Definition with_last (n : N) (s : sys) : sys :=
  Sys (inbuf s) (incap s) (resume_cfg s) (report s) (wr s) n (tio s) (disp s) (queue s) (failing s) (win s) (os s) (time s).
Definition with_tio (t : termios) (s : sys) : sys :=
  Sys (inbuf s) (incap s) (resume_cfg s) (report s) (wr s) (last_sig s) t (disp s) (queue s) (failing s) (win s) (os s) (time s).
Definition with_disp (d : N -> action) (s : sys) : sys :=
  Sys (inbuf s) (incap s) (resume_cfg s) (report s) (wr s) (last_sig s) (tio s) d (queue s) (failing s) (win s) (os s) (time s).
Definition with_queue (q : list bytes) (s : sys) : sys :=
  Sys (inbuf s) (incap s) (resume_cfg s) (report s) (wr s) (last_sig s) (tio s) (disp s) q (failing s) (win s) (os s) (time s).
Definition with_failing (f : option N) (s : sys) : sys :=
  Sys (inbuf s) (incap s) (resume_cfg s) (report s) (wr s) (last_sig s) (tio s) (disp s) (queue s) f (win s) (os s) (time s).
Definition with_win (x : N + size) (s : sys) : sys :=
  Sys (inbuf s) (incap s) (resume_cfg s) (report s) (wr s) (last_sig s) (tio s) (disp s) (queue s) (failing s) x (os s) (time s).
Definition with_os (o : list (option N)) (s : sys) : sys :=
  Sys (inbuf s) (incap s) (resume_cfg s) (report s) (wr s) (last_sig s) (tio s) (disp s) (queue s) (failing s) (win s) o (time s).
Definition with_time (t : list tick) (s : sys) : sys :=
  Sys (inbuf s) (incap s) (resume_cfg s) (report s) (wr s) (last_sig s) (tio s) (disp s) (queue s) (failing s) (win s) (os s) t.

(** Errors of the input half: those of the operating system and the writer, and "read
    invalid utf-8 data from terminal" (unix/terminal.rs:1356-1358). *)
Inductive rerr : Type := RW (e : werr) | RUtf8.
Definition rres (A : Type) : Type := out sys rerr A.

(** A call that may fail as [os] says. *)
Definition os_call {A} (ok : sys -> rres A) (s : sys) : rres A :=
  match os s with
  | [] => ok s
  | None :: l => ok (with_os l s)
  | Some e :: l => Fail (with_os l s) (RW (EOs e))
  end.

(** [tcgetattr], [tcsetattr], [sigaction] (which returns the old action). *)
Definition tcgetattr : sys -> rres termios := os_call (fun s => Ret s (tio s)).
Definition tcsetattr (t : termios) : sys -> rres unit := os_call (fun s => Ret (with_tio t s) tt).
Definition sigaction (n : N) (a : action) : sys -> rres action :=
  os_call (fun s => Ret (with_disp (fun k => if k =? n then a else disp s k) s) (disp s n)).

(** A method of the writer. *)
Definition on_wr {A} (f : wst -> out wst werr A) (s : sys) : rres A :=
  match f (wr s) with
  | Ret w a => Ret (with_wr w s) a
  | Fail w e => Fail (with_wr w s) (RW e)
  | Panic => Panic
  | Blocked => Blocked
  end.

(** [PrepareState] (unix/terminal.rs:1117-1127). *)
Record pstate : Type := PState {
  old_tio : termios;
  old_cont : option action;
  old_int : option action;
  old_tstp : option action;
  old_quit : option action;
  old_winch : option action;
  restore_keypad : bool;
  restore_mouse : bool;
  prev_resume : option config
}.

(** The settings [prepare] asks for (unix/terminal.rs:341-374). *)
Definition raw_tio (cfg : config) (t : termios) : termios :=
  let i := flag_remove (iflag t) (N.lor INLCR ICRNL) in
  let l := flag_remove (lflag t) (N.lor ICANON ECHO) in
  let l := if block_signals cfg then flag_remove l ISIG else flag_insert l ISIG in
  let i := if enable_control_flow cfg then flag_insert i IXON else flag_remove i IXON in
  Tio i (oflag t) (cflag t) l 0 0 (others t).

Section Prepare.
  Variable C : tcfg.

  (** [sigaction(n, &action)] if [b]. *)
  Definition install (b : bool) (n : N) (s : sys) : rres (option action) :=
    if b then let! (s, a) := sigaction n Ours s in Ret s (Some a) else Ret s None.

  (** [prepare_with_lock] (unix/terminal.rs:322-412).  Simplification: signals arriving
      during it count as arriving before or after it (nothing in it looks at them). *)
  Definition prepare_with_lock (cfg : config) (s : sys) : rres pstate :=
    let! (s, old) := tcgetattr s in
    let prev := resume_cfg s in
    let! (s, _u) := tcsetattr (raw_tio cfg old) s in
    let! (s, mouse) := if cfg_mouse cfg then on_wr (enable_mouse C (always_track_motion cfg)) s
                       else Ret s false in
    let! (s, keypad) := if cfg_keypad cfg then on_wr (enable_keypad C) s else Ret s false in
    let! (s, _u) := on_wr flush s in
    let! (s, ocont) := install true SIGCONT s in
    let! (s, owinch) := install true SIGWINCH s in
    let! (s, oint) := install (ss_contains (report_signals cfg) Interrupt) SIGINT s in
    let! (s, otstp) := install (ss_contains (report_signals cfg) Suspend) SIGTSTP s in
    let! (s, oquit) := install (ss_contains (report_signals cfg) Quit) SIGQUIT s in
    Ret (with_resume (Some cfg) (with_report (report_signals cfg) s))
        (PState old ocont oint otstp oquit owinch keypad mouse prev).

  (** Dropping the write guard that [f] was run with (1049-1055). *)
  Definition with_guard {A} (f : sys -> rres A) (s : sys) : rres A :=
    match f s with
    | Ret s a => let! (s, _u) := on_wr guard_drop s in Ret s a
    | Fail s e => let! (s, _u) := on_wr guard_drop s in Fail s e
    | r => r
    end.

  (** [prepare] (unix/terminal.rs:317-320). *)
  Definition prepare (cfg : config) : sys -> rres pstate := with_guard (prepare_with_lock cfg).

  (** [if let Some(ref old) = ... { sigaction(n, old)? }] *)
  Definition put_back (n : N) (a : option action) (s : sys) : rres unit :=
    match a with
    | Some a => let! (s, _a) := sigaction n a s in Ret s tt
    | None => Ret s tt
    end.

  (** [restore_with_lock] (unix/terminal.rs:419-454), [restore] (414-417). *)
  Definition restore_with_lock (st : pstate) (s : sys) : rres unit :=
    let s := with_resume (prev_resume st) s in
    let! (s, _u) := if restore_mouse st then on_wr (disable_mouse C) s else Ret s tt in
    let! (s, _u) := if restore_keypad st then on_wr (disable_keypad C) s else Ret s tt in
    let! (s, _u) := on_wr flush s in
    let! (s, _u) := tcsetattr (old_tio st) s in
    let! (s, _u) := put_back SIGCONT (old_cont st) s in
    let! (s, _u) := put_back SIGINT (old_int st) s in
    let! (s, _u) := put_back SIGTSTP (old_tstp st) s in
    let! (s, _u) := put_back SIGQUIT (old_quit st) s in
    put_back SIGWINCH (old_winch st) s.
  Definition restore (st : pstate) : sys -> rres unit := with_guard (restore_with_lock st).

  (** [resume] (unix/terminal.rs:623-628): the new [PrepareState] is dropped. *)
  Definition resume (s : sys) : rres unit :=
    match resume_cfg s with
    | Some cfg => let! (s, _st) := prepare cfg s in Ret s tt
    | None => Ret s tt
    end.
End Prepare.
