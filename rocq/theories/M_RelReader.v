(** Reading from a Unix terminal (/repo/src/unix/terminal.rs) in a build without overflow
    checks: the definitions of M_Input.v and M_Reader.v in which arithmetic can overflow. *)
From Verif Require Import Base M_Utf8 M_Geom M_Seq M_Signal M_Util M_Input M_Writer M_Prepare M_Reader.
Local Open Scope N_scope.

(** [n - 1] of a [u32] in such a build. *)
Definition pred_u32 (n : N) : N := if n =? 0 then U32_MAX else n - 1.

(** [parse_mouse_data] (unix/terminal.rs:1255-1310): the event and the number of bytes
    used; [line - 1] and [column - 1] wrap to [u32::MAX]. *)
Definition parse_mouse_data_r (buf : bytes) : pan (option (mouse_event * nat)) :=
  match parse_integer buf with
  | None => Val None
  | Some (input, e, buf1) =>
      if negb (e =? 59) then Val None else
      match parse_integer buf1 with
      | None => Val None
      | Some (column, e, buf2) =>
          if negb (e =? 59) then Val None else
          match parse_integer buf2 with
          | None => Val None
          | Some (line, e, buf3) =>
              match (if e =? 77 then Some true else if e =? 109 then Some false else None) with
              | None => Val None
              | Some is_pressed =>
                  let mods := 0 in
                  let mods := if negb (N.land input XTERM_SHIFT_MASK =? 0) then N.lor mods SHIFT else mods in
                  let mods := if negb (N.land input XTERM_META_MASK =? 0) then N.lor mods ALT else mods in
                  let mods := if negb (N.land input XTERM_CTRL_MASK =? 0) then N.lor mods CTRL else mods in
                  let input := N.land input (u32_not XTERM_MODIFIER_MASK) in
                  let minput :=
                    if input <=? 3 then mouse_button_event input is_pressed
                    else if input =? 64 then MWheelUp
                    else if input =? 65 then MWheelDown
                    else MMotion in
                  Val (Some (MouseEvent (Cursor (N.to_nat (pred_u32 line)) (N.to_nat (pred_u32 column))) minput mods,
                                  (length buf - length buf3)%nat))
              end
          end
      end
  end.

Definition peek_event_r (buf : bytes) (m : seq_map) : pan peeked :=
  match utf8_prefix buf with
  | None => Val PErr
  | Some [] => Val PNone
  | Some s =>
      match scan m (prefixes s) None with
      | Boom => Boom
      | Val last_match =>
          let res :=
            match last_match with
            | None => Val None
            | Some (sq, SKey k) => Val (Some (EKey k, length sq))
            | Some (sq, XTermMouse) =>
                match parse_mouse_data_r (skipn (length sq) buf) with
                | Boom => Boom
                | Val None => Val None
                | Val (Some (d, len)) => Val (Some (EMouse d, (length sq + len)%nat))
                end
            end in
          match res with
          | Boom => Boom
          | Val (Some (ev, n)) => Val (PEvent ev n)
          | Val None =>
              match next_char s with
              | None => Boom   (* [unwrap] *)
              | Some (ch, _) => Val (PEvent (EKey (key_from_char ch)) (len_utf8 ch))
              end
          end
      end
  end.

(** [i64] arithmetic that wraps around. *)
Definition wrap_i64 (z : Z) : Z := ((z + 9223372036854775808) mod 18446744073709551616 - 9223372036854775808)%Z.

(** The sum in [to_timeval] (unix/terminal.rs:1192-1203), in milliseconds. *)
Definition duration_ms_r (d : duration) : Z :=
  let MAX_SECS := I64_MAX / 1000 in
  let s := if MAX_SECS <? secs d then MAX_SECS else secs d in
  let millis := nanos d / 1000000 in
  wrap_i64 (Z.of_N (s * 1000 + millis)).

(** [TimeVal::milliseconds] of nix 0.26 (sys/time.rs): [checked_mul(..).expect(..)] and
    the assertion on the seconds are there in every build. *)
Definition milliseconds_r (ms : Z) : pan Z :=
  if (-9223372036854775808 <=? ms * 1000)%Z && (ms * 1000 <=? Z.of_N I64_MAX)%Z then
    if (- Z.of_N TV_MAX_SECONDS <=? ms / 1000)%Z && (ms / 1000 <=? Z.of_N TV_MAX_SECONDS)%Z then Val ms else Boom
  else Boom.

(** [to_timeval] (unix/terminal.rs:1192-1203).  Simplification: a negative number of
    milliseconds would count as none; P_Release.v shows that there is none. *)
Definition to_timeval_r (d : duration) : pan N :=
  match milliseconds_r (duration_ms_r d) with Val ms => Val (Z.to_N ms) | Boom => Boom end.

Section RelReader.
  Variables (C : tcfg) (m : seq_map).

  (** [peek_event(&in_buffer, ..)?] *)
  Definition peek_r (s : sys) : rres (option (event * nat)) :=
    match peek_event_r (inbuf s) m with
    | Boom => Panic
    | Val PErr => Fail s RUtf8
    | Val PNone => Ret s None
    | Val (PEvent e n) => Ret s (Some (e, n))
    end.

  (** [wait_event] (unix/terminal.rs:456-490). *)
  Definition wait_event_r (timeout : option duration) (s : sys) : rres bool :=
    let '(s, sig) := get_signal s in
    match sig with
    | Some _ => Ret s true
    | None =>
        let! (s, p) := peek_r s in
        match p with
        | Some _ => Ret s true
        | None =>
            match timeout with
            | None => wait_loop (turns s) None s
            | Some d => match to_timeval_r d with
                        | Boom => Panic
                        | Val ms => wait_loop (turns s) (Some ms) s
                        end
            end
        end
    end.

  (** [read_input] (unix/terminal.rs:559-585); the bytes read are part of the result
      instead of being put into [buf]. *)
  Definition read_input_r (room : nat) (timeout : option duration) (s : sys) : rres (option input) :=
    let '(s, sig) := take_signal s in
    match sig with
    | Some sig => Ret s (Some (ISignal sig))
    | None =>
        let! (s, ready) := wait_event_r timeout s in
        if negb ready then Ret s None else
        let '(s, sig) := take_signal s in
        match sig with
        | Some sig => Ret s (Some (ISignal sig))
        | None => read_loop (turns s) room s
        end
    end.

  (** [read_into_buffer] (unix/terminal.rs:532-557): while it waits, [in_buffer] is an
      empty vector; [Vec::reserve] grows the allocation if needed. *)
  Definition read_into_buffer_r (timeout : option duration) (s : sys) : rres (option input) :=
    let buf := inbuf s in
    let len := length buf in
    let cap := if (len + 128 <=? incap s)%nat then incap s else grow C (incap s) (len + 128) in
    match read_input_r (cap - len) timeout (with_inbuf [] 0 s) with
    | Ret s (Some (IRaw bs)) => Ret (with_inbuf (buf ++ bs) cap s) (Some (IRaw bs))
    | Ret s r => Ret (with_inbuf buf cap s) r
    | Fail s e => Fail (with_inbuf buf cap s) e
    | Panic => Panic
    | Blocked => Blocked
    end.

  (** [try_read] (unix/terminal.rs:587-602). *)
  Definition try_read_r (s : sys) : rres (option event) :=
    match inbuf s with
    | [] => Ret s None
    | _ =>
        let! (s, p) := peek_r s in
        match p with
        | Some (e, n) => Ret (with_inbuf (skipn n (inbuf s)) (incap s) s) (Some e)
        | None => Ret s None
        end
    end.

  (** [read_event] (unix/terminal.rs:492-508). *)
  Definition read_event_r (timeout : option duration) (s : sys) : rres (option event) :=
    let! (s, e) := try_read_r s in
    match e with
    | Some e => Ret s (Some e)
    | None =>
        let! (s, r) := read_into_buffer_r timeout s in
        match r with
        | Some (IRaw _) => try_read_r s
        | Some (ISignal sig) => handle_signal C sig s
        | None => Ret s None
        end
    end.

  (** [read_raw] (unix/terminal.rs:510-530) with [buf.len() = room]: the event and the
      bytes put into [buf]. *)
  Definition read_raw_r (room : nat) (timeout : option duration) (s : sys) : rres (option event * bytes) :=
    match inbuf s with
    | _ :: _ =>
        let n := Nat.min room (length (inbuf s)) in
        Ret (with_inbuf (skipn n (inbuf s)) (incap s) s) (Some (ERaw n), firstn n (inbuf s))
    | [] =>
        let! (s, r) := read_input_r room timeout s in
        match r with
        | Some (IRaw bs) => Ret s (Some (ERaw (length bs)), bs)
        | Some (ISignal sig) => let! (s, e) := handle_signal C sig s in Ret s (e, [])
        | None => Ret s (None, [])
        end
    end.

  Definition rstep_r (o : rop) (s : sys) : option (sys * reply) :=
    match o with
    | RWait t => ret (wait_event_r t s) YBool
    | RRead t => ret (read_event_r t s) YEvent
    | RRaw n t => ret (read_raw_r n t s) (fun x => YRaw (fst x) (snd x))
    | RPrepare cfg => ret (prepare C cfg s) YState
    | RRestore st => ret (restore C st s) (fun _ => YUnit)
    end.

  Fixpoint rrun_r (ops : list rop) (s : sys) : option (sys * list reply) :=
    match ops with
    | [] => Some (s, [])
    | o :: ops =>
        match rstep_r o s with
        | Some (s, r) => match rrun_r ops s with
                         | Some (s, rs) => Some (s, r :: rs)
                         | None => None
                         end
        | None => None
        end
    end.
End RelReader.
