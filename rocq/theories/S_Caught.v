(** Specification of what becomes of signals (C44). *)
From Verif Require Import Base M_Utf8 M_Geom M_Seq M_Signal M_Util M_Input M_Writer M_Prepare M_Reader S_Reader.

(** The signals the library's handler caught while [l] happened. *)
Fixpoint caught (d : N -> action) (l : list tick) : list N :=
  match l with
  | [] => []
  | TSig n :: l => match d n with Ours => n :: caught d l | Other _ => caught d l end
  | _ :: l => caught d l
  end.

(** The newest signal: of those caught between [s] and [s'] the last; if there is none,
    the one that was waiting in [s] ([None]: no signal at all). *)
Definition newest (s s' : sys) (x : option signal) : Prop :=
  exists l, time s = l ++ time s' /\ x = conv_signal (last (caught (disp s) l) (last_sig s)).

(** It waits for the next call. *)
Definition waits (x : option signal) (s' : sys) : Prop := conv_signal (last_sig s') = x.

(** An answer that does not tell of a signal. *)
Definition untold (e : option event) : Prop :=
  match e with Some (ESignal _) | Some (EResize _) => False | _ => True end.
