(** C144: the example program examples/signals.rs. *)
From Verif Require Import Base M_Utf8 M_Geom M_Attr M_Seq S_Seq M_Signal M_Util M_Input S_Input M_Buf M_Writer M_Prepare M_Reader S_Prepare M_WinReader S_WinReader
  S_UnixScreen S_Poison M_ScreenExample S_ScreenExample M_InputExample P_InputExample M_WinInputExample P_WinInputExample
  S_SignalsExample P_SignalsExample.
From Verif Require S_Emu P_WinDraw2 Prop_Prepare Prop_Typing Prop_WinInputExample.
Local Open Scope nat_scope.

(** C144: whatever happens, if signals.rs ends without an error, it has just printed [q] for the
    first time, and the settings and all signal handlers are as before the program. *)
Theorem C144_signals_ends :
  forall C m, key_map m -> forall n s0 out s, input_main C (input_round C m) signals_config n s0 = IEnded out true s ->
  same_terminal s0 s /\ exists before, out = before ++ [the_q] /\ ~ In the_q before.
Proof. exact (fun C m H => input_ends C m H signals_config). Qed.
Print Assumptions C144_signals_ends.
Theorem C144_signals_ends_console :
  forall E n s0 out s, winput_main (winput_round E) signals_config n s0 = IEnded out true s ->
  w_mode s = N.lor (w_mode s0) ENABLE_EXTENDED_FLAGS /\ w_regs s = w_regs s0 /\ exists before, out = before ++ [the_q] /\ ~ In the_q before.
Proof. exact (fun E => winput_ends E signals_config). Qed.
Print Assumptions C144_signals_ends_console.

(** C144: on Windows, whatever happens after [prepare], the lines are those of the replies [rs] of
    [read_event]; these use each input record once and in order, as the event for it, and tell of
    every Ctrl-C and Ctrl-Break as [told] says: a printed signal is the last one pressed so far,
    and nothing else is printed while one is pending. *)
Theorem C144_signals_example_console :
  forall E n s0 s1 st, win_prepare signals_config s0 = Ret s1 st ->
  match listen (winput_round E) n s1 [] with
  | IGoing s' out | IWaiting s' out | IQuit s' out | IFailed s' out =>
      exists k rs l, fits_all E (repeat (REvent None) k) (w_rd s1) rs (w_rd s') /\ records s1 = concat (map handed rs) ++ records s' /\
        w_time s1 = l ++ w_time s' /\ told (unreported s1) (breaks l) rs (unreported s') /\ out = printed_of rs
  | IPanicked => False
  end.
Proof. exact signals_printed. Qed.
Print Assumptions C144_signals_example_console.

(** After an error it leaves the terminal in raw mode, and on Windows the console without line
    input and echo. *)
Theorem C144_signals_error_refuted :
  forall C m n s0 s1 st s2 out, prepare C signals_config s0 = Ret s1 st -> listen (input_round C m) n s1 [] = IFailed s2 out ->
  match input_main C (input_round C m) signals_config n s0 with
  | IEnded out' ok s => out' = out /\ ok = false /\ still_prepared signals_config s0 s
  | INotYet => True
  end.
Proof. exact (fun C m => input_fails C m signals_config). Qed.
Print Assumptions C144_signals_error_refuted.
Theorem C144_signals_error_console_refuted :
  forall E n s0 s1 st s2 out, win_prepare signals_config s0 = Ret s1 st -> listen (winput_round E) n s1 [] = IFailed s2 out ->
  winput_main (winput_round E) signals_config n s0 = IEnded out false s2 /\ N.testbit (w_mode s2) 2 = false /\ N.testbit (w_mode s2) 1 = false.
Proof. exact (fun E => wmain_fails _ _ signals_config (winput_same E)). Qed.
Print Assumptions C144_signals_error_console_refuted.

(** Ctrl-C, a, q; and Ctrl-Break, q; and failures. *)
Definition ex_interrupted : sys :=
  Prop_Prepare.ex_sys (repeat TStep 31 ++ TSig SIGINT :: repeat TStep 6 ++ TInput [97]%N :: repeat TStep 4 ++ [TInput [113]%N]).
Example C144_signals_example :
  (match input_main S_Emu.ansi_cfg (input_round S_Emu.ansi_cfg Prop_Typing.ex_clear) signals_config 9 ex_interrupted with
   | IEnded out ok s => ok = true /\ out = [ESignal Interrupt; EKey (KChar 97); the_q] /\ tio s = Prop_Prepare.ex_tio /\ disp s SIGINT = disp ex_interrupted SIGINT
   | INotYet => False
   end) /\
  (match winput_main (winput_round P_WinDraw2.wide_env) signals_config 9
     (Prop_WinInputExample.ex_wsys [WStep; WStep; WCtrl 1 true; WStep; WStep; WStep; WStep; WRec (KeyRec true 0x51 0 113)]) with
   | IEnded out ok s => ok = true /\ out = [ESignal Break; the_q] /\ w_mode s = 0x1f7%N /\ w_regs s = 0
   | INotYet => False
   end) /\
  (match input_main S_Emu.ansi_cfg (input_round S_Emu.ansi_cfg Prop_Typing.ex_clear) signals_config 9
     (Prop_Prepare.ex_sys (repeat TStep 31 ++ [TFail 5])) with
   | IEnded out ok s => ok = false /\ tio s <> Prop_Prepare.ex_tio /\ disp s SIGINT = Ours
   | INotYet => False
   end) /\
  match winput_main (winput_round P_WinDraw2.wide_env) signals_config 9 (Prop_WinInputExample.ex_wsys [WStep; WStep; WFail 5]) with
  | IEnded out ok s => ok = false /\ w_mode s <> 0x1f7%N /\ w_regs s = 1
  | INotYet => False
  end.
Proof. vm_compute. repeat split; discriminate. Qed.
