(** Specification vocabulary for what is printed on standard error (C110). *)
From Verif Require Import Base M_Writer M_Screen M_Prepare M_Stderr.

(** Every message can be printed. *)
Definition printable (l : list bool) : Prop := Forall (eq true) l.

(** A result of the models without printing, as one of those with it: the messages are
    printed and everything goes on. *)
Definition same_end {S E A} (r : fate S A) (r' : out S E unit) (answer : option E -> A) : Prop :=
  match r, r' with
  | Goes s l a, Ret s' _ => s = s' /\ printable l /\ a = answer None
  | Goes s l a, Fail s' e => s = s' /\ printable l /\ a = answer (Some e)
  | Ends true, Panic | Ends false, Blocked => True
  | _, _ => False
  end.

(** The terminal is gone: every write fails (and enough of them are foreseen). *)
Definition gone (w : wst) : Prop :=
  Forall (fun r => exists e, r = WErr e) (script w) /\ 8 <= length (script w).

(** A move by nothing: the methods of [Terminal] answer it without locking anything. *)
Definition idle (o : wop) : Prop :=
  match o with OMoveUp 0 | OMoveDown 0 | OMoveLeft 0 | OMoveRight 0 => True | _ => False end.
