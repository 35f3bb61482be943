(** Specification of how long a wait with a timeout takes (C139). *)
From Verif Require Import Base M_Utf8 S_Utf8 M_Geom M_Seq S_Seq M_Signal M_Util M_Input S_Input M_Writer M_Prepare M_Reader S_Reader.

(** Time goes on: again and again the library takes a step and the timeout that it then
    waits for runs out. *)
Definition clock (n : nat) : list tick := concat (repeat [TStep; TTime] n).

(** What does not end a wait: steps, a new window size, signals that nobody handles. *)
Definition quiet_tick (s : sys) (t : tick) : Prop :=
  match t with
  | TStep | TWin _ => True
  | TSig n => disp s n <> Ours
  | _ => False
  end.
