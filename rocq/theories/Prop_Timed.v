(** Property theorems for how long a wait with a timeout takes (C139). *)
From Verif Require Import Base M_Utf8 S_Utf8 M_Geom M_Seq S_Seq M_Signal M_Util M_Input S_Input P_Input M_Writer S_Writer S_Emu
  M_Prepare M_Reader S_Prepare S_Reader P_Prepare P_Reader P_Reader2 P_Reader3 S_Timed P_Timed Prop_Input Prop_Prepare Prop_Reader
  Prop_Timeout.
Local Open Scope N_scope.

(** C139: whatever the state, and whatever happens first (signals, interruptions, failing
    calls, input), [wait_event] with a timeout returns when time goes on. *)
Theorem C139_wait_ends :
  forall m d l n s, (2 * length l + 6 <= n)%nat -> wait_event m (Some d) (with_time (l ++ clock n) s) <> Blocked.
Proof. exact wait_in_time. Qed.
Print Assumptions C139_wait_ends.

(** So do [read_event] and [read_raw]: if they do not return, it is because they are
    handling a signal and output does not proceed. *)
Theorem C139_read_ends :
  forall C m d l n s, handlers_known s -> (2 * length l + 6 <= n)%nat ->
    read_event C m (Some d) (with_time (l ++ clock n) s) = Blocked ->
    exists sig s2, handle_signal C sig s2 = Blocked /\ wr s2 = wr s.
Proof. exact read_in_time. Qed.
Print Assumptions C139_read_ends.
Theorem C139_raw_ends :
  forall C m room d l n s, handlers_known s -> (2 * length l + 6 <= n)%nat ->
    read_raw C m room (Some d) (with_time (l ++ clock n) s) = Blocked ->
    exists sig s2, handle_signal C sig s2 = Blocked /\ wr s2 = wr s.
Proof. exact raw_in_time. Qed.
Print Assumptions C139_raw_ends.

(** Nobody types, and two signals and a failed call interrupt the wait. *)
Example C139_example :
  let l := [TSig 2; TFail 4; TStep; TIntr; TStep; TWin (inr (Size 3 3)); TStep; TIntr] in
  handlers_known (ex_ready []) /\ (2 * length l + 6 <= 22)%nat /\
  (match wait_event ex_map (Some ex_half) (with_time (l ++ clock 22) (ex_ready [])) with
   | Ret s b => (length (time s), b) | _ => (0%nat, true) end) = (42%nat, false) /\
  (match read_event ansi_cfg ex_map (Some ex_half) (with_time (l ++ clock 22) (ex_ready [])) with
   | Ret _ e => e | _ => Some (ERaw 0) end) = None /\
  (match read_raw ansi_cfg ex_map 5 (Some ex_half) (with_time (l ++ clock 22) (ex_ready [])) with
   | Ret _ e => e | _ => (Some (ERaw 0), []) end) = (None, []).
Proof.
  cbv zeta. split; [intros n; cbn; destruct (N.eqb_spec n 28) as [E|_]; [rewrite E|]; discriminate|].
  split; [cbn; lia|]. split; [vm_compute; reflexivity|]. split; vm_compute; reflexivity.
Qed.

(** It returns as soon as the timeout is over: if nothing comes that ends the wait, the
    timeout that is over does, and what happens afterwards ([later]) is still to come. *)
Theorem C139_wait_prompt :
  forall m s idle later d ms, asleep m s -> conv_signal (last_sig s) = None -> Forall (quiet_tick s) idle ->
    time s = TStep :: TStep :: idle ++ TTime :: later -> to_timeval d = Val ms -> ms <> 0 ->
    exists w, wait_event m (Some d) s = Ret (with_time later (with_win w s)) false.
Proof. exact wait_prompt. Qed.
Print Assumptions C139_wait_prompt.
Theorem C139_read_prompt :
  forall C m s idle later d ms, asleep m s -> conv_signal (last_sig s) = None -> Forall (quiet_tick s) idle ->
    time s = TStep :: TStep :: TStep :: idle ++ TTime :: later -> to_timeval d = Val ms -> ms <> 0 ->
    exists s', read_event C m (Some d) s = Ret s' None /\ time s' = later /\ inbuf s' = inbuf s.
Proof. exact read_prompt. Qed.
Print Assumptions C139_read_prompt.

(** A timeout of less than a millisecond: it does not wait at all. *)
Theorem C139_zero :
  forall m s later d, asleep m s -> conv_signal (last_sig s) = None ->
    time s = TStep :: TStep :: later -> to_timeval d = Val 0 ->
    wait_event m (Some d) s = Ret (with_time later s) false.
Proof. exact wait_zero. Qed.
Print Assumptions C139_zero.

Example C139_prompt_example :
  let s := ex_ready [TStep; TStep; TStep; TWin (inr (Size 3 3)); TSig 2; TStep; TTime; TInput [97]] in
  asleep ex_map s /\ conv_signal (last_sig s) = None /\ Forall (quiet_tick s) [TWin (inr (Size 3 3)); TSig 2; TStep] /\
  to_timeval ex_half = Val 500 /\ to_timeval (Duration 0 999999) = Val 0.
Proof.
  cbv zeta. split; [vm_compute; repeat split; reflexivity|]. split; [reflexivity|].
  split; [repeat constructor; vm_compute; discriminate|]. split; reflexivity.
Qed.
