(** C144: the example programs examples/input.rs and examples/raw_input.rs on Windows. *)
From Verif Require Import Base M_Utf8 M_Geom M_Attr M_Seq M_Signal M_Util M_Input S_Input M_Buf M_Prepare M_WinReader S_WinReader
  M_ScreenExample S_ScreenExample S_WinScreenExample M_InputExample S_InputExample M_WinInputExample S_WinInputExample P_WinInputExample.
From Verif Require S_Portable P_WinDraw2.
Local Open Scope nat_scope.

(** C144: the same on a Windows console, after [prepare], whose calls do not fail and where no
    signal comes: each round uses one record; the events for them ([es]) are printed in their
    order, and the loop ends exactly at the first record that is a press of [q]. *)
Theorem C144_input_example_console :
  forall E n s, S_Portable.wcalm s ->
  match listen (winput_round E) n s [] with
  | IGoing _ out => exists now later es rd, records s = now ++ later /\ length now = n /\
      tells E (w_rd s) now es rd /\ out = telling es /\ ~ In the_q es
  | IWaiting _ out => exists es rd, tells E (w_rd s) (records s) es rd /\ out = telling es /\ ~ In the_q es
  | IQuit _ out => exists now r later es rd, records s = now ++ r :: later /\ tells E (w_rd s) now es rd /\ ~ In the_q es /\
      key_press_event r = Some (KChar 113%N) /\ out = telling es ++ [the_q]
  | _ => False
  end.
Proof. exact wlisten_prints. Qed.
Print Assumptions C144_input_example_console.

(** C144: whatever else happens, if the program ends without an error, it has just printed [q]
    for the first time; the console mode is the one before the program, with
    ENABLE_EXTENDED_FLAGS, and the control handlers are those before it. *)
Theorem C144_input_ends_console :
  forall E n s0 out s, winput_main (winput_round E) input_config n s0 = IEnded out true s ->
  w_mode s = N.lor (w_mode s0) ENABLE_EXTENDED_FLAGS /\ w_regs s = w_regs s0 /\ exists before, out = before ++ [the_q] /\ ~ In the_q before.
Proof. exact (fun E => winput_ends E input_config). Qed.
Print Assumptions C144_input_ends_console.

(** When reading fails, the program leaves the console without line input and without echo. *)
Theorem C144_input_error_console_refuted :
  forall E n s0 s1 st s2 out, win_prepare input_config s0 = Ret s1 st -> listen (winput_round E) n s1 [] = IFailed s2 out ->
  winput_main (winput_round E) input_config n s0 = IEnded out false s2 /\ N.testbit (w_mode s2) 2 = false /\ N.testbit (w_mode s2) 1 = false.
Proof. exact (fun E => wmain_fails _ _ input_config (winput_same E)). Qed.
Print Assumptions C144_input_error_console_refuted.

(** a pressed and released, q, b; and a failure after a. *)
Definition ex_wsys (l : list wtick) : wsys := WSys (WReader false 0) 0 NO_SIGNAL 0x1f7 0 [] None [] [] l.
Definition ex_wtime : list wtick :=
  [WRec (KeyRec true 0x41 0 97); WRec (KeyRec false 0x41 0 97); WTime; WRec (KeyRec true 0x51 0 113); WStep; WRec (KeyRec true 0x42 0 98)].
Example C144_example_console :
  S_Portable.wcalm (ex_wsys ex_wtime) /\
  (match listen (winput_round P_WinDraw2.wide_env) 9 (ex_wsys ex_wtime) [] with
   | IQuit _ out => out = [EKey (KChar 97); the_q]
   | _ => False
   end) /\
  (match winput_main (winput_round P_WinDraw2.wide_env) input_config 9 (ex_wsys ex_wtime) with
   | IEnded out ok s => ok = true /\ out = [EKey (KChar 97); the_q] /\ w_mode s = 0x1f7%N
   | INotYet => False
   end) /\
  match winput_main (winput_round P_WinDraw2.wide_env) input_config 9 (ex_wsys [WRec (KeyRec true 0x41 0 97); WStep; WStep; WStep; WStep; WStep; WStep; WStep; WStep; WFail 5]) with
  | IEnded out ok s => ok = false /\ out = [EKey (KChar 97)] /\ w_mode s <> 0x1f7%N
  | INotYet => False
  end.
Proof.
  split; [|vm_compute; repeat split; discriminate].
  unfold S_Portable.wcalm. split; [reflexivity|]. split; [reflexivity|]. repeat constructor.
Qed.

(** C144: whatever else happens (signals, failures, mouse, sizes), the code units that
    raw_input.rs prints are those typed, without loss or repetition, up to what is not yet
    read; it ends exactly when a line has the one unit [q]. *)
Theorem C144_raw_example_console :
  forall n s0,
  match listen wraw_round n s0 [] with
  | IQuit s' out => units (records s0) = printed_bytes out ++ units (records s') /\ Forall sound out /\
      exists before, out = before ++ [raw_q] /\ ~ In raw_q before
  | IGoing s' out | IWaiting s' out | IFailed s' out =>
      units (records s0) = printed_bytes out ++ units (records s') /\ Forall sound out /\ ~ In raw_q out
  | IPanicked => False
  end.
Proof. exact (fun n s0 => wraw_told n s0 s0 [] eq_refl (Forall_nil _) (fun x => x)). Qed.
Print Assumptions C144_raw_example_console.
Theorem C144_raw_ends_console :
  forall n s0 out s, winput_main wraw_round raw_config n s0 = IEnded out true s ->
  w_mode s = N.lor (w_mode s0) ENABLE_EXTENDED_FLAGS /\ w_regs s = w_regs s0 /\ exists before, out = before ++ [raw_q] /\ ~ In raw_q before.
Proof. exact wraw_ends. Qed.
Print Assumptions C144_raw_ends_console.
Theorem C144_raw_error_console_refuted :
  forall n s0 s1 st s2 out, win_prepare raw_config s0 = Ret s1 st -> listen wraw_round n s1 [] = IFailed s2 out ->
  winput_main wraw_round raw_config n s0 = IEnded out false s2 /\ N.testbit (w_mode s2) 2 = false /\ N.testbit (w_mode s2) 1 = false.
Proof. exact (wmain_fails _ _ raw_config wraw_same). Qed.
Print Assumptions C144_raw_error_console_refuted.
Example C144_raw_run_console :
  (match winput_main wraw_round raw_config 9 (ex_wsys [WRec (KeyRec true 0x41 0 97); WRec (KeyRec false 0x41 0 97); WStep; WStep; WStep; WStep; WStep; WTime; WStep; WStep; WRec (KeyRec true 0x51 0 113); WStep; WStep; WStep; WStep; WStep; WStep; WRec (KeyRec true 0x42 0 98)]) with
   | IEnded out ok s => ok = true /\ out = [(ERaw 1, [97%N]); raw_q] /\ w_mode s = 0x1f7%N /\ units (records s) = [98%N]
   | INotYet => False
   end) /\
  match winput_main wraw_round raw_config 9 (ex_wsys [WRec (KeyRec true 0x41 0 97); WStep; WStep; WStep; WStep; WStep; WStep; WStep; WStep; WFail 5]) with
  | IEnded out ok s => ok = false /\ out = [(ERaw 1, [97%N])] /\ w_mode s <> 0x1f7%N
  | INotYet => False
  end.
Proof. vm_compute. repeat split; discriminate. Qed.
