(** What the example program examples/signals.rs should print on Windows (C144). *)
From Verif Require Import Base M_Input M_WinReader S_WinReader.

(** The control events Ctrl-C (0) and Ctrl-Break (1) in a timeline. *)
Definition breaks (l : list wtick) : list N :=
  flat_map (fun t => match t with WCtrl c _ => if (c <? 2)%N then [c] else [] | _ => [] end) l.
(** The lines for some replies. *)
Definition printed_of (rs : list wreply) : list event :=
  flat_map (fun r => match r with RGot (Some ENoEvent) _ => [] | RGot (Some e) _ => [e] | _ => [] end) rs.
