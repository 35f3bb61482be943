(** C144: the signals that the example program examples/signals.rs prints on Unix. *)
From Verif Require Import Base M_Utf8 M_Geom M_Attr M_Seq S_Seq M_Signal M_Util M_Input S_Input M_Buf M_Writer M_Prepare M_Reader S_Prepare
  M_ScreenExample S_ScreenExample M_InputExample S_UnixSignalsExample P_UnixSignalsExample.
From Verif Require S_Emu Prop_Prepare Prop_Typing.
Local Open Scope nat_scope.

(** C144: whatever happens after [prepare], no signal that is the newest is passed over: every call
    leaves it waiting, or the program prints the line for it; and it prints no other lines about
    signals. *)
Theorem C144_signals_example :
  forall C m, key_map m -> forall n s0 s1 st, prepare C signals_config s0 = Ret s1 st ->
  match listen (input_round C m) n s1 [] with
  | IGoing s' out | IWaiting s' out | IQuit s' out => signal_lines s1 (filter tells_signal out) s'
  | IFailed _ out => exists s', signal_lines s1 (filter tells_signal out) s'
  | IPanicked => True
  end.
Proof. exact signals_lines. Qed.
Print Assumptions C144_signals_example.

(** Ctrl-C, the window changes, a, q. *)
Example C144_signals_lines :
  match prepare S_Emu.ansi_cfg signals_config
    (Prop_Prepare.ex_sys (repeat TStep 31 ++ TSig SIGINT :: repeat TStep 6 ++ TSig SIGWINCH :: repeat TStep 6 ++ [TInput [97; 113]%N])) with
  | Ret s1 _ => match listen (input_round S_Emu.ansi_cfg Prop_Typing.ex_clear) 9 s1 [] with
                | IQuit _ out => out = [ESignal Interrupt; EResize (Size 24 80); EKey (KChar 97); the_q]
                | _ => False
                end
  | _ => False
  end.
Proof. vm_compute. reflexivity. Qed.
