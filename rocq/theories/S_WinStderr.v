(** Specification vocabulary for what is printed on standard error on Windows (C110). *)
From Verif Require Import Base M_Writer M_WinWriter M_WinReader M_WinScreen M_WinPoison S_WinScreen M_Stderr S_Stderr M_WinStderr.

(** The console is gone: every call on its output fails, and every call on its input. *)
Definition wgone (t : wterm) : Prop :=
  (Forall (fun r => exists e, r = CFail e) (answers t) /\ 3 <= length (answers t)) /\
  (Forall (fun r => exists e, r = Some e) (w_os (t_in t)) /\ 1 <= length (w_os (t_in t))).

(** Dropping a screen ends as it does without printing (M_WinPoison.v). *)
Definition same_drop (r : fate wterm unit) (r' : kdropped) : Prop :=
  match r, r' with
  | Goes t l _, KGiven t' => t = t' /\ printable l
  | Unwinds t l, KUnwinds t' => t = t' /\ printable l
  | Aborts, KAborts _ => True
  | Ends _, KLost => True
  | _, _ => False
  end.
(** A call on a screen does. *)
Definition same_call (r : fate wpscr (option N)) (r' : option (wpscr * kreply)) : Prop :=
  match r, r' with
  | Goes x l None, Some (x', KOk) => x = x' /\ printable l
  | Goes x l (Some e), Some (x', KErr e') => x = x' /\ printable l /\ e = e'
  | Unwinds x l, Some (x', KPanicked) => x = x' /\ printable l
  | Ends _, None => True
  | _, _ => False
  end.
