(** Specification vocabulary for threads that draw on one screen (C105, C106). *)
From Verif Require Import Base M_Utf8 M_Geom M_Attr M_Buf S_Buf M_Writer S_Tty S_Writer M_Screen S_Screen M_ScreenApi
  S_Canvas M_Locks.

(** What is done through a write guard: a drawing method, or [refresh]. *)
Inductive stroke : Type := Draw (m : smethod) | Show.

(** What a thread does with a [Screen] it shares: it calls a drawing method, or
    [refresh], or acquires the write guard, uses it and drops it. *)
Inductive doing : Type :=
| Alone (m : smethod)
| Redraw
| Together (l : list stroke).

Fixpoint guard_client (l : list stroke) (k : client) : client :=
  match l with
  | [] => Call SWDrop (fun _ => k)
  | Draw m :: l => Call (SWBuf (sforward m)) (fun _ => guard_client l k)
  | Show :: l => Call SWRefresh (fun _ => guard_client l k)
  end.
Definition doing_client (d : doing) (k : client) : client :=
  match d with
  | Alone m => Call (SBuf (sforward m)) (fun _ => k)
  | Redraw => Call SRefresh (fun _ => k)
  | Together l => Call SLockWrite (fun _ => guard_client l k)
  end.
Definition doings_client (l : list doing) : client := fold_right doing_client Finish l.

(** What it means for the picture; a dropped write guard refreshes. *)
Definition strokes (d : doing) : list stroke :=
  match d with
  | Alone m => [Draw m]
  | Redraw => [Show]
  | Together l => l ++ [Show]
  end.

(** The canvas after some strokes. *)
Fixpoint picture (E : env) (l : list stroke) (k : canvas) : canvas :=
  match l with
  | [] => k
  | Draw m :: l => picture E l (draw E m k)
  | Show :: l => picture E l k
  end.
(** The canvas at the last [Show], if there is one. *)
Fixpoint displayed (E : env) (l : list stroke) (k : canvas) (last : option canvas) : option canvas :=
  match l with
  | [] => last
  | Draw m :: l => displayed E l (draw E m k) last
  | Show :: l => displayed E l k (Some k)
  end.

Definition narrow_stroke (E : env) (s : stroke) : Prop :=
  match s with Draw m => no_wide E (method_text m) | Show => True end.
Definition narrow_doing (E : env) (d : doing) : Prop := Forall (narrow_stroke E) (strokes d).

(** No access to the terminal reported an error. *)
Definition no_failure (tr : list event) : Prop := forall i a e, ~ In (EvAct i a (AErr e)) tr.

(** What thread [i] did, of things done by several threads. *)
Definition done_by {A} (i : nat) (l : list (nat * A)) : list A :=
  map snd (filter (fun x => fst x =? i) l).

(** The state of a screen shared by threads. *)
Definition share (s : scr) : wside * dside := (Some (wr s), Some (SData (sb s) (clr s) (real s))).

(** ** Threads with areas of their own *)
Definition area : Type := nat -> nat -> Prop.      (* line, column *)

(** Wherever the pen is and whatever attributes are set: the method changes nothing
    outside the area, and what it leaves there depends only on what was there. *)
Definition stays_in (E : env) (sz : size) (A : area) (m : smethod) : Prop :=
  forall k, ksize k = sz ->
    (forall l c, ~ A l c -> ink (draw E m k) l c = ink k l c) /\
    forall k', ksize k' = sz -> (forall l c, A l c -> ink k l c = ink k' l c) ->
      forall l c, A l c -> ink (draw E m k) l c = ink (draw E m k') l c.

Definition keeps_to (E : env) (sz : size) (A : area) (d : doing) : Prop :=
  forall m, In (Draw m) (strokes d) -> stays_in E sz A m.

(** The last thing a thread does shows the picture. *)
Definition ends_shown (l : list doing) : Prop :=
  exists l' d, l = l' ++ [d] /\ match d with Alone _ => False | _ => True end.

(** [n] positions of a line. *)
Definition span (p : cursor) (n : nat) : area := fun l c => l = line p /\ column p <= c < column p + n.

(** Characters that take one column each. *)
Definition one_column (E : env) (c : N) : Prop :=
  cwidth E c = Some 1 /\ combining E c = false /\ c <> 9%N /\ c <> 10%N /\ c <> 13%N.

(** How a position of the canvas appears. *)
Definition shown_ink (C : tcfg) (x : list N * attrs) : vcell := VC (fst x) (shown_attrs C (snd x)).
