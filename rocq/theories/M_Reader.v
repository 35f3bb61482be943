(** Model of reading from a Unix terminal (/repo/src/unix/terminal.rs:456-628,
    1192-1203, 1364-1387). *)
From Verif Require Import Base M_Utf8 M_Geom M_Seq M_Signal M_Util M_Input M_Writer M_Prepare.
Local Open Scope N_scope.

(** [std::time::Duration]: seconds ([u64]) and nanoseconds below 10^9. *)
Record duration : Type := Duration { secs : N; nanos : N }.

(** The sum in [to_timeval] (unix/terminal.rs:1192-1203), in milliseconds; [Boom]: the
    [i64] addition overflows (debug semantics). *)
Definition I64_MAX : N := 9223372036854775807.
Definition duration_ms (d : duration) : pan N :=
  let MAX_SECS := I64_MAX / 1000 in
  let s := if MAX_SECS <? secs d then MAX_SECS else secs d in
  let millis := nanos d / 1000000 in
  if s * 1000 + millis <=? I64_MAX then Val (s * 1000 + millis) else Boom.

(** [TimeVal::milliseconds], with which it ends (1202).  This is nix 0.26
    (sys/time.rs), not /repo: it multiplies by 1000 ([checked_mul(..).expect(..)]) and
    asserts that the seconds are at most [TV_MAX_SECONDS]. *)
Definition TV_MAX_SECONDS : N := I64_MAX / 1000000 - 1.
Definition milliseconds (ms : N) : pan N :=
  if ms * 1000 <=? I64_MAX then
    if ms / 1000 <=? TV_MAX_SECONDS then Val ms else Boom
  else Boom.

(** [to_timeval] (unix/terminal.rs:1192-1203): the timeout in milliseconds. *)
Definition to_timeval (d : duration) : pan N :=
  match duration_ms d with Val ms => milliseconds ms | Boom => Boom end.

(** [conv_signal] (unix/terminal.rs:1370-1379). *)
Definition conv_signal (n : N) : option signal :=
  if n =? SIGCONT then Some Continue
  else if n =? SIGINT then Some Interrupt
  else if n =? SIGQUIT then Some Quit
  else if n =? SIGTSTP then Some Suspend
  else if n =? SIGWINCH then Some Resize
  else None.

(** What a tick changes; [handle_signal] (1366-1368) runs if it is installed. *)
Definition happens (t : tick) (s : sys) : sys :=
  match t with
  | TSig n => match disp s n with Ours => with_last n s | Other _ => s end
  | TInput bs => with_queue (queue s ++ [bs]) s
  | TFail e => with_failing (Some e) s
  | TWin r => with_win r s
  | TIntr | TTime | TStep => s
  end.

(** What happens until the library takes its next step. *)
Fixpoint pass (l : list tick) (s : sys) : sys :=
  match l with
  | [] => with_time [] s
  | TStep :: l => with_time l s
  | t :: l => pass l (happens t s)
  end.
Definition advance (s : sys) : sys := pass (time s) s.

(** [get_signal] (1381-1383), [take_signal] (1385-1387). *)
Definition get_signal (s : sys) : sys * option signal :=
  let s := advance s in (s, conv_signal (last_sig s)).
Definition take_signal (s : sys) : sys * option signal :=
  let s := advance s in (with_last 0 s, conv_signal (last_sig s)).

(** How a wait for input ends. *)
Inductive woke : Type := WReady | WTimeout | WEintr | WError (e : N) | WNever.

(** Waiting until there is input, a failure, a signal, or the end of the timeout:
    [ms = None] is no timeout. *)
Fixpoint await (ms : option N) (l : list tick) (s : sys) : sys * woke :=
  match failing s with
  | Some e => (with_failing None (with_time l s), WError e)
  | None =>
      match queue s with
      | _ :: _ => (with_time l s, WReady)
      | [] =>
          if (match ms with Some 0 => true | _ => false end) then (with_time l s, WTimeout) else
          match l with
          | [] => (with_time [] s, WNever)
          | TSig n :: l =>
              match disp s n with
              | Ours => (with_time l (with_last n s), WEintr)
              | Other _ => await ms l s
              end
          | TIntr :: l => (with_time l s, WEintr)
          | TTime :: l => match ms with
                          | Some _ => (with_time l s, WTimeout)
                          | None => await ms l s
                          end
          | t :: l => await ms l (happens t s)
          end
      end
  end.

(** [select] on the input (nix; the kernel). *)
Definition select (ms : option N) (s : sys) : sys * woke :=
  let s := advance s in await ms (time s) s.

(** [read(in_fd, buf)] with [buf.len() = room]: the first portion of the queue, as much
    of it as fits.  With nothing there it returns 0 bytes if the terminal is set so
    (not canonical, VMIN = 0) and otherwise waits. *)
Inductive got : Type := GBytes (bs : bytes) | GIntr | GErr (e : N) | GNever.
Definition take_queue (room : nat) (s : sys) : sys * got :=
  match queue s with
  | [] => (s, GBytes [])
  | bs :: q =>
      if (length bs <=? room)%nat then (with_queue q s, GBytes bs)
      else (with_queue (skipn room bs :: q) s, GBytes (firstn room bs))
  end.
Definition never_waits (t : termios) : bool := (N.land (lflag t) ICANON =? 0) && (vmin t =? 0).
Definition os_read (room : nat) (s : sys) : sys * got :=
  let s := advance s in
  let ms := if never_waits (tio s) then Some 0 else None in
  match await ms (time s) s with
  | (s, WReady) => take_queue room s
  | (s, WTimeout) => (s, GBytes [])
  | (s, WEintr) => (s, GIntr)
  | (s, WError e) => (s, GErr e)
  | (s, WNever) => (s, GNever)
  end.

(** The value of the errno for an interrupted call: such a failure is retried. *)
Definition EINTR : N := 4.

(** What [read_input] returns when it returns [Some]: a signal or bytes. *)
Inductive input : Type := ISignal (sig : signal) | IRaw (bs : bytes).

Section Reader.
  Variables (C : tcfg) (m : seq_map).

  (** [peek_event(&in_buffer, ..)?] *)
  Definition peek (s : sys) : rres (option (event * nat)) :=
    match peek_event (inbuf s) m with
    | Boom => Panic
    | Val PErr => Fail s RUtf8
    | Val PNone => Ret s None
    | Val (PEvent e n) => Ret s (Some (e, n))
    end.

  (** The loop of [wait_event] (unix/terminal.rs:467-488).  [fuel]: every turn uses up
      an interruption of the timeline. *)
  Fixpoint wait_loop (fuel : nat) (ms : option N) (s : sys) : rres bool :=
    match fuel with
    | O => Blocked
    | S fuel =>
        let '(s, r) := select ms s in
        let interrupted s :=
          let '(s, sig) := get_signal s in
          match sig with
          | Some _ => Ret s true
          | None => wait_loop fuel ms s
          end in
        match r with
        | WReady => Ret s true
        | WTimeout => Ret s false
        | WEintr => interrupted s
        | WError e => if e =? EINTR then interrupted s else Fail s (RW (EOs e))
        | WNever => Blocked
        end
    end.

  (** Enough turns for the rest of the timeline (and a failure already pending). *)
  Definition turns (s : sys) : nat := S (S (length (time s))).

  (** [wait_event] (unix/terminal.rs:456-490). *)
  Definition wait_event (timeout : option duration) (s : sys) : rres bool :=
    let '(s, sig) := get_signal s in
    match sig with
    | Some _ => Ret s true
    | None =>
        let! (s, p) := peek s in
        match p with
        | Some _ => Ret s true
        | None =>
            match timeout with
            | None => wait_loop (turns s) None s
            | Some d => match to_timeval d with
                        | Boom => Panic
                        | Val ms => wait_loop (turns s) (Some ms) s
                        end
            end
        end
    end.

  (** The loop of [read_input] (unix/terminal.rs:574-584). *)
  Fixpoint read_loop (fuel : nat) (room : nat) (s : sys) : rres (option input) :=
    match fuel with
    | O => Blocked
    | S fuel =>
        let '(s, r) := os_read room s in
        let interrupted s :=
          let '(s, sig) := take_signal s in
          match sig with
          | Some sig => Ret s (Some (ISignal sig))
          | None => read_loop fuel room s
          end in
        match r with
        | GBytes bs => Ret s (Some (IRaw bs))
        | GIntr => interrupted s
        | GErr e => if e =? EINTR then interrupted s else Fail s (RW (EOs e))
        | GNever => Blocked
        end
    end.

  (** [read_input] (unix/terminal.rs:559-585); the bytes read are part of the result
      instead of being put into [buf]. *)
  Definition read_input (room : nat) (timeout : option duration) (s : sys) : rres (option input) :=
    let '(s, sig) := take_signal s in
    match sig with
    | Some sig => Ret s (Some (ISignal sig))
    | None =>
        let! (s, ready) := wait_event timeout s in
        if negb ready then Ret s None else
        let '(s, sig) := take_signal s in
        match sig with
        | Some sig => Ret s (Some (ISignal sig))
        | None => read_loop (turns s) room s
        end
    end.

  (** [read_into_buffer] (unix/terminal.rs:532-557): while it waits, [in_buffer] is an
      empty vector; [Vec::reserve] grows the allocation if needed. *)
  Definition read_into_buffer (timeout : option duration) (s : sys) : rres (option input) :=
    let buf := inbuf s in
    let len := length buf in
    let cap := if (len + 128 <=? incap s)%nat then incap s else grow C (incap s) (len + 128) in
    match read_input (cap - len) timeout (with_inbuf [] 0 s) with
    | Ret s (Some (IRaw bs)) => Ret (with_inbuf (buf ++ bs) cap s) (Some (IRaw bs))
    | Ret s r => Ret (with_inbuf buf cap s) r
    | Fail s e => Fail (with_inbuf buf cap s) e
    | Panic => Panic
    | Blocked => Blocked
    end.

  (** [try_read] (unix/terminal.rs:587-602). *)
  Definition try_read (s : sys) : rres (option event) :=
    match inbuf s with
    | [] => Ret s None
    | _ =>
        let! (s, p) := peek s in
        match p with
        | Some (e, n) => Ret (with_inbuf (skipn n (inbuf s)) (incap s) s) (Some e)
        | None => Ret s None
        end
    end.

  (** [Terminal::size] (unix/terminal.rs:149-151, 670-672): a write guard is taken and
      dropped around it. *)
  Definition term_size : sys -> rres size :=
    with_guard (fun s => match win s with inl e => Fail s (RW (EOs e)) | inr z => Ret s z end).

  (** [handle_signal] (unix/terminal.rs:604-621). *)
  Definition report_signal (sig : signal) (s : sys) : rres (option event) :=
    if ss_contains (report s) sig then Ret s (Some (ESignal sig)) else Ret s None.
  Definition handle_signal (sig : signal) (s : sys) : rres (option event) :=
    match sig with
    | Continue => let! (s, _u) := resume C s in report_signal sig s
    | Resize => let! (s, z) := term_size s in Ret s (Some (EResize z))
    | _ => report_signal sig s
    end.

  (** [read_event] (unix/terminal.rs:492-508). *)
  Definition read_event (timeout : option duration) (s : sys) : rres (option event) :=
    let! (s, e) := try_read s in
    match e with
    | Some e => Ret s (Some e)
    | None =>
        let! (s, r) := read_into_buffer timeout s in
        match r with
        | Some (IRaw _) => try_read s
        | Some (ISignal sig) => handle_signal sig s
        | None => Ret s None
        end
    end.

  (** [read_raw] (unix/terminal.rs:510-530) with [buf.len() = room]: the event and the
      bytes put into [buf]. *)
  Definition read_raw (room : nat) (timeout : option duration) (s : sys) : rres (option event * bytes) :=
    match inbuf s with
    | _ :: _ =>
        let n := Nat.min room (length (inbuf s)) in
        Ret (with_inbuf (skipn n (inbuf s)) (incap s) s) (Some (ERaw n), firstn n (inbuf s))
    | [] =>
        let! (s, r) := read_input room timeout s in
        match r with
        | Some (IRaw bs) => Ret s (Some (ERaw (length bs)), bs)
        | Some (ISignal sig) => let! (s, e) := handle_signal sig s in Ret s (e, [])
        | None => Ret s (None, [])
        end
    end.

  (** The methods of [TerminalReadGuard] a program can call (terminal.rs:634-760). *)
  Inductive rop : Type :=
  | RWait (timeout : option duration)
  | RRead (timeout : option duration)
  | RRaw (room : nat) (timeout : option duration)
  | RPrepare (cfg : config)
  | RRestore (st : pstate).
  Inductive reply : Type :=
  | YBool (b : bool) | YEvent (e : option event) | YRaw (e : option event) (bs : bytes)
  | YState (st : pstate) | YUnit | YErr (e : rerr).

  Definition ret {A} (r : rres A) (f : A -> reply) : option (sys * reply) :=
    match r with
    | Ret s a => Some (s, f a)
    | Fail s e => Some (s, YErr e)
    | Panic | Blocked => None
    end.
  Definition rstep (o : rop) (s : sys) : option (sys * reply) :=
    match o with
    | RWait t => ret (wait_event t s) YBool
    | RRead t => ret (read_event t s) YEvent
    | RRaw n t => ret (read_raw n t s) (fun x => YRaw (fst x) (snd x))
    | RPrepare cfg => ret (prepare C cfg s) YState
    | RRestore st => ret (restore C st s) (fun _ => YUnit)
    end.
  Fixpoint rrun (ops : list rop) (s : sys) : option (sys * list reply) :=
    match ops with
    | [] => Some (s, [])
    | o :: ops =>
        match rstep o s with
        | Some (s, r) => match rrun ops s with
                         | Some (s, rs) => Some (s, r :: rs)
                         | None => None
                         end
        | None => None
        end
    end.
End Reader.
