(** What the example program examples/signals.rs should print of signals on Unix (C144). *)
From Verif Require Import Base M_Utf8 M_Geom M_Signal M_Util M_Input M_Prepare S_Caught.

(** The line for a signal: the window's size after a change of it (if there is one), otherwise the
    signal. *)
Definition line_for (sig : signal) (w : N + size) : list event :=
  match sig with
  | Resize => match w with inr z => [EResize z] | inl _ => [] end
  | _ => [ESignal sig]
  end.
Definition tells_signal (e : event) : bool := match e with ESignal _ | EResize _ => true | _ => false end.

(** [signal_lines s l s']: on the way from [s] to [s'] the program reads some times; each time the
    newest signal stays waiting and no line tells of a signal, or it is taken and its line
    printed.  [l]: these lines. *)
Inductive signal_lines : sys -> list event -> sys -> Prop :=
| lines_none s : signal_lines s [] s
| lines_waits s s1 x l s2 : newest s s1 x -> waits x s1 -> signal_lines s1 l s2 -> signal_lines s l s2
| lines_told s s1 sig l s2 : newest s s1 (Some sig) -> last_sig s1 = 0%N ->
    signal_lines s1 l s2 -> signal_lines s (line_for sig (win s1) ++ l) s2.
