(** Property theorems for reading from a terminal (C35-C41, C43-C47). *)
From Verif Require Import Base M_Utf8 S_Utf8 M_Geom M_Seq S_Seq M_Signal M_Util M_Input S_Input P_Input M_Writer S_Writer S_Emu
  M_Prepare M_Reader S_Prepare S_Reader P_Prepare P_Reader P_Reader2 P_Reader3 Prop_Input Prop_Prepare.
Local Open Scope N_scope.

(** C35: over any history of waiting, reading events, reading raw input, preparing and
    restoring, with whatever the operating system does, the replies account for the
    difference between the input before and after, in order. *)
Theorem C35_accounts :
  forall C m, key_map m -> forall ops s s' rs, rrun C m ops s = Some (s', rs) ->
    accounts m rs (S_Reader.stream s) (S_Reader.stream s').
Proof. exact rrun_accounts. Qed.
Print Assumptions C35_accounts.

(** Input in two portions, a signal in between: the Home key, then raw bytes, then "b". *)
Definition ex_input : list tick := [TStep; TInput [27; 79; 72; 120]; TStep; TStep; TStep; TStep; TStep; TStep; TSig 28; TInput [121; 98]; TIntr].
Example C35_example :
  match rrun ansi_cfg ex_map [RPrepare default_config; RWait None; RRead None; RRaw 1 None; RRead None; RRaw 1 None; RRead None] (ex_sys ex_input) with
  | Some (s', rs) => skipn 1 rs = [YBool true; YEvent (Some (EKey KHome)); YRaw (Some (ERaw 1)) [120];
                        YEvent (Some (EResize (Size 24 80))); YRaw (Some (ERaw 1)) [121]; YEvent (Some (EKey (KChar 98)))]
                     /\ S_Reader.stream s' = []
  | None => False
  end.
Proof. vm_compute. split; reflexivity. Qed.

(** C36: a plain character at the start of the buffered input. *)
Theorem C36_read_character :
  forall C m t s c rest, key_map m -> scalar c -> inbuf s = utf8 c ++ rest -> no_match m (utf8 c ++ rest) ->
    read_event C m t s = Ret (with_inbuf rest (incap s) s) (Some (EKey (key_from_char c))).
Proof.
  exact (fun C m t s c rest Hm Hc Hi Hn =>
    read_buffered_at C m t s (utf8 c) rest _ Hi (eq_trans (f_equal (fun b => peek_event b m) Hi) (peek_plain m c rest Hm Hc Hn))).
Qed.
Print Assumptions C36_read_character.

(** C37: a registered key sequence. *)
Theorem C37_read_key :
  forall C m t s q rest k, key_map m -> inbuf s = q ++ rest -> longest m (q ++ rest) q (SKey k) ->
    read_event C m t s = Ret (with_inbuf rest (incap s) s) (Some (EKey k)).
Proof.
  exact (fun C m t s q rest k Hm Hi Hl =>
    read_buffered_at C m t s q rest _ Hi (eq_trans (f_equal (fun b => peek_event b m) Hi) (peek_key m (q ++ rest) q k Hm Hl))).
Qed.
Print Assumptions C37_read_key.

(** C38: a mouse report. *)
Theorem C38_read_mouse :
  forall C m t s d rest, key_map m -> inbuf s = S_Input.report d ++ rest ->
    longest m (S_Input.report d ++ rest) XTERM_MOUSE_INTRO XTermMouse -> at_line d < U32_MAX -> at_column d < U32_MAX ->
    read_event C m t s = Ret (with_inbuf rest (incap s) s) (Some (EMouse (told d))).
Proof.
  exact (fun C m t s d rest Hm Hi Hl H1 H2 =>
    read_buffered_at C m t s (S_Input.report d) rest _ Hi
      (eq_trans (f_equal (fun b => peek_event b m) Hi) (report_decodes m d rest Hm Hl H1 H2))).
Qed.
Print Assumptions C38_read_mouse.

Definition ex_buffered (b : bytes) : sys := with_inbuf b 200 (ex_sys []).
Example C38_read_example :
  (match read_event ansi_cfg ex_map None (ex_buffered (S_Input.report ex_deed ++ [65])) with
   | Ret s' e => (inbuf s', e) | _ => ([], None) end)
  = ([65], Some (EMouse (MouseEvent (Cursor 4 11) (MReleased MMiddle) (SHIFT + CTRL)))).
Proof. vm_compute. reflexivity. Qed.

(** C39, for [read_event] and [wait_event]: what can make them panic is a mouse report
    with a zero coordinate ([C39_panics_refuted] says which inputs those are) or an
    overflowing timeout ([C47_overflow_refuted]), and nothing else. *)
Theorem C39_read_panics_partial :
  forall C m t s, whole_writes (script (wr s)) -> read_event C m t s = Panic ->
    overflows t \/ exists x, peek_event (inbuf s ++ x) m = Boom.
Proof. exact read_panic. Qed.
Print Assumptions C39_read_panics_partial.
Theorem C39_wait_panics_partial :
  forall m t s, wait_event m t s = Panic -> peek_event (inbuf s) m = Boom \/ overflows t.
Proof. exact wait_panic. Qed.
Print Assumptions C39_wait_panics_partial.

Example C39_read_example :
  read_event ansi_cfg ex_map None (ex_sys [TInput [27; 91; 60; 48; 59; 48; 59; 53; 77]]) = Panic.
Proof. vm_compute. reflexivity. Qed.

(** C40: a character whose encoding arrives in any pieces is reported with the last
    piece; until then there is no event and no error.  Interruptions, window changes and
    expiring timers may come in between. *)
Theorem C40_split_character :
  forall C m, (forall c n, (n <= grow C c n)%nat) -> forall c, key_map m -> scalar c -> no_match m (utf8 c) ->
    forall chunks p s rest, Forall (fun b => b <> []) chunks -> chunks <> [] -> p ++ concat chunks = utf8 c ->
    calm s -> inbuf s = p -> portions s = chunks ++ rest ->
    exists s', rrun C m (repeat (RRead None) (length chunks)) s =
      Some (s', repeat (YEvent None) (length chunks - 1) ++ [YEvent (Some (EKey (key_from_char c)))]) /\
      inbuf s' = [] /\ portions s' = rest.
Proof. exact char_pieces. Qed.
Print Assumptions C40_split_character.

Definition ex_split : sys := ex_sys [TInput [240]; TIntr; TStep; TTime; TInput [159; 152]; TStep; TWin (inr (Size 9 9)); TInput [128]; TInput [97]].
Example C40_example : calm ex_split /\ portions ex_split = [[240]; [159; 152]; [128]] ++ [[97]] /\
  concat [[240]; [159; 152]; [128]] = utf8 128512 /\ no_match ex_map (utf8 128512) /\
  (match rrun ansi_cfg ex_map (repeat (RRead None) 3) ex_split with Some (_, rs) => rs | None => [] end)
  = [YEvent None; YEvent None; YEvent (Some (EKey (KChar 128512)))].
Proof.
  split; [|split; [|split; [|split]]]; try (vm_compute; reflexivity).
  - split; [reflexivity|]. split; [reflexivity|]. repeat constructor.
  - intros q v (H & Hq & (r & Hr)). vm_compute in H.
    repeat (destruct H as [H|H]; [injection H as <- <-; vm_compute in Hr; discriminate Hr|]). destruct H.
Qed.

(** C41 fails: once the buffered input starts with bytes that are not UTF-8 and cannot
    become UTF-8, every [read_event] reports an error and nothing changes. *)
Theorem C41_stuck_refuted :
  forall C m s ops, inbuf s <> [] -> (forall c r, scalar c -> inbuf s <> utf8 c ++ r) -> ~ truncated_char (inbuf s) ->
    Forall (fun o => exists t, o = RRead t) ops ->
    rrun C m ops s = Some (s, repeat (YErr RUtf8) (length ops)).
Proof. exact stuck. Qed.
Print Assumptions C41_stuck_refuted.

(** [read_raw] does get past it. *)
Theorem C41_read_raw_partial :
  forall C m t room s bad rest, inbuf s = bad ++ rest -> bad <> [] -> room = length bad ->
    read_raw C m room t s = Ret (with_inbuf rest (incap s) s) (Some (ERaw room), bad).
Proof. exact raw_past. Qed.
Print Assumptions C41_read_raw_partial.

Example C41_example :
  (match rrun ansi_cfg ex_map [RRead None; RRead None; RRaw 1 None; RRead None] (ex_buffered [255; 97]) with Some (_, rs) => rs | None => [] end)
  = [YErr RUtf8; YErr RUtf8; YRaw (Some (ERaw 1)) [255]; YEvent (Some (EKey (KChar 97)))].
Proof. vm_compute. reflexivity. Qed.
Example C41_hypothesis : (forall c r, scalar c -> [255; 97] <> utf8 c ++ r) /\ ~ truncated_char [255; 97].
Proof. exact bad_start. Qed.

(** C43: the signal in the slot when the reader looks ([advance s]: with what has
    happened by then) becomes the event it deserves, once; SIGCONT prepares the
    terminal again. *)
Theorem C43_signal_event :
  forall C m t s sig s' e, peek_event (inbuf s) m = Val PNone ->
    conv_signal (last_sig (advance s)) = Some sig -> read_event C m t s = Ret s' e ->
    let again := match sig with Continue => resume_cfg s | _ => None end in
    e = deserved (match again with Some c => report_signals c | None => M_Prepare.report s end) sig (win (advance s)) /\
    (sig = Resize -> exists z, win (advance s) = inr z) /\
    match again with
    | Some c => prepared c (tio s) (tio s') /\ (forall n, disp s' n = if handled c n then Ours else disp s n) /\
                M_Prepare.report s' = report_signals c
    | None => tio s' = tio s /\ disp s' = disp s /\ M_Prepare.report s' = M_Prepare.report s
    end /\
    resume_cfg s' = resume_cfg s /\ last_sig s' = 0%N /\ inbuf s' = inbuf s.
Proof. exact signal_event. Qed.
Print Assumptions C43_signal_event.

Example C43_example :
  match rrun ansi_cfg ex_map [RPrepare ex_cfg; RRead None; RRead None; RRead None; RRead None]
          (ex_sys [TSig 2; TStep; TSig 18; TStep; TWin (inr (Size 5 6)); TSig 28; TStep; TSig 3; TSig 15; TSig 2; TStep]) with
  | Some (_, rs) => skipn 1 rs = [YEvent (Some (ESignal Interrupt)); YEvent None; YEvent (Some (EResize (Size 5 6))); YEvent (Some (ESignal Interrupt))]
  | None => False
  end.
Proof. vm_compute. reflexivity. Qed.

(** C44 fails: of two signals that arrive before the reader looks, the first leaves no
    trace: everything goes on as if it had not arrived. *)
Theorem C44_overtaken_refuted :
  forall C m t s a b l, disp s a = Ours -> disp s b = Ours -> time s = TSig a :: TSig b :: l -> inbuf s = [] ->
    read_event C m t s = read_event C m t (with_time (TSig b :: l) s) /\
    wait_event m t s = wait_event m t (with_time (TSig b :: l) s).
Proof.
  exact (fun C m t s a b l Ha Hb Ht Hi =>
    conj (overtaken_read C m t s a b l Ha Hb Ht Hi) (overtaken_wait m t s a b l Ha Hb Ht)).
Qed.
Print Assumptions C44_overtaken_refuted.

Definition ex_both : config := Config false true false false false (ss_insert (ss_insert ss_new Interrupt) Quit).
Example C44_example :
  match rrun ansi_cfg ex_map [RPrepare ex_both; RRead None; RWait (Some (Duration 0 0))] (ex_sys [TSig 2; TSig 3; TStep]) with
  | Some (_, rs) => skipn 1 rs = [YEvent (Some (ESignal Quit)); YBool false]
  | None => False
  end.
Proof. vm_compute. reflexivity. Qed.

(** C45 holds for a signal that is there when the call looks (for [read_event]:
    [C43_signal_event]) ... *)
Theorem C45_before_partial :
  forall m t s sig, conv_signal (last_sig (advance s)) = Some sig -> wait_event m t s = Ret (advance s) true.
Proof. exact wait_signal. Qed.
Print Assumptions C45_before_partial.

(** ... and for one that arrives while it sleeps. *)
Theorem C45_during_partial :
  forall m s idle n l sig, asleep m s -> conv_signal (last_sig s) = None -> conv_signal n = Some sig ->
    disp s n = Ours -> Forall idle_tick idle -> time s = TStep :: TStep :: idle ++ TSig n :: TStep :: l ->
    exists s', wait_event m None s = Ret s' true /\ last_sig s' = n.
Proof. exact wakes. Qed.
Print Assumptions C45_during_partial.

(** C45 fails for a signal that arrives after the call has looked for one and before it
    sleeps: without a timeout it never returns (as long as nothing else happens) ... *)
Theorem C45_between_refuted :
  forall m s n l, asleep m s -> conv_signal (last_sig s) = None ->
    disp s n = Ours -> Forall idle_tick l -> time s = TStep :: TSig n :: TStep :: l ->
    wait_event m None s = Blocked.
Proof. exact sleeps_on. Qed.
Print Assumptions C45_between_refuted.

(** ... and with one it reports that there is nothing, with the signal in the slot. *)
Theorem C45_timeout_refuted :
  forall m s n l d ms, asleep m s -> conv_signal (last_sig s) = None ->
    disp s n = Ours -> time s = TStep :: TSig n :: TStep :: TTime :: l -> to_timeval d = Val ms -> ms <> 0 ->
    exists s', wait_event m (Some d) s = Ret s' false /\ last_sig s' = n.
Proof. exact sleeps_through. Qed.
Print Assumptions C45_timeout_refuted.

Definition ex_ready (l : list tick) : sys := with_disp (fun n => if n =? 28 then Ours else Other n) (ex_sys l).
Example C45_example :
  asleep ex_map (ex_ready []) /\
  wait_event ex_map None (ex_ready [TStep; TSig 28; TStep; TTime; TWin (inr (Size 2 2))]) = Blocked /\
  (match wait_event ex_map None (ex_ready [TStep; TStep; TTime; TSig 28]) with Ret s b => (last_sig s, b) | _ => (0, false) end) = (28, true).
Proof. vm_compute. repeat split; reflexivity. Qed.

(** C46: after [wait_event] has returned [true], [read_event] does not wait for input,
    whatever its timeout: if it does not return, it is because it is handling a signal
    and output does not proceed. *)
Theorem C46_no_wait :
  forall C m t t' s s', handlers_known s -> wait_event m t s = Ret s' true ->
    read_event C m t' s' = Blocked -> exists sig s2, handle_signal C sig s2 = Blocked /\ wr s2 = wr s'.
Proof. exact wait_then_read. Qed.
Print Assumptions C46_no_wait.

(** Its hypothesis holds throughout: only [prepare] installs the handler. *)
Theorem C46_handlers :
  forall C m ops, key_map m -> forall s s' rs, handlers_known s -> rrun C m ops s = Some (s', rs) -> handlers_known s'.
Proof. exact rrun_known. Qed.
Print Assumptions C46_handlers.

Example C46_example : handlers_known (ex_ready [TInput [195]]) /\
  (match rrun ansi_cfg ex_map [RWait None; RRead None] (ex_ready [TInput [195]]) with Some (_, rs) => rs | None => [] end)
  = [YBool true; YEvent None].
Proof. split; [intros n; cbn; destruct (N.eqb_spec n 28) as [E|_]; [rewrite E|]; discriminate|vm_compute; reflexivity]. Qed.

(** C47: the timeout is the duration in milliseconds, rounded down, for every duration of
    less than 9223372036854 seconds ... *)
Theorem C47_exact_partial :
  forall d, nanos d < 1000000000 -> secs d < 9223372036854 ->
    to_timeval d = Val ((secs d * 1000000000 + nanos d) / 1000000).
Proof. exact timeval_small. Qed.
Print Assumptions C47_exact_partial.

(** ... and computing it panics for every longer one: the seconds are capped at
    [i64::MAX / 1000], 1000 times as many as the type they are put into can hold. *)
Theorem C47_overflow_refuted :
  forall d, nanos d < 1000000000 ->
    (to_timeval d = Boom <-> 9223372036854 <= secs d).
Proof. exact timeval_boom. Qed.
Print Assumptions C47_overflow_refuted.

(** Even the sum the library computes for that type overflows for the longest durations,
    exactly for these. *)
Theorem C47_sum_refuted :
  forall d, nanos d < 1000000000 ->
    (duration_ms d = Boom <-> 9223372036854775 <= secs d /\ 808000000 <= nanos d).
Proof. exact duration_boom. Qed.
Print Assumptions C47_sum_refuted.

Example C47_example :
  (to_timeval (Duration 3 141592653), to_timeval (Duration 9223372036853 999999999), to_timeval (Duration 9223372036854 0))
  = (Val 3141, Val 9223372036853999, Boom) /\
  (duration_ms (Duration 18446744073709551615 999999999), duration_ms (Duration 18446744073709551615 807999999))
  = (Boom, Val 9223372036854775807).
Proof. vm_compute. split; reflexivity. Qed.
