(** Specification vocabulary for threads that draw on one screen with double-width
    characters (C101): the strokes of S_Together on the canvases of S_WideCanvas. *)
From Verif Require Import Base M_Utf8 M_Geom M_Attr M_Buf S_Buf M_Writer S_Tty S_Writer M_Screen S_Screen M_ScreenApi
  S_Canvas S_WideCanvas M_Locks S_Together.

(** The canvas after some strokes. *)
Fixpoint wpicture (E : env) (l : list stroke) (k : wcanvas) : wcanvas :=
  match l with
  | [] => k
  | Draw m :: l => wpicture E l (wdraw E m k)
  | Show :: l => wpicture E l k
  end.
(** The canvas at the last [Show], if there is one. *)
Fixpoint wdisplayed (E : env) (l : list stroke) (k : wcanvas) (last : option wcanvas) : option wcanvas :=
  match l with
  | [] => last
  | Draw m :: l => wdisplayed E l (wdraw E m k) last
  | Show :: l => wdisplayed E l k (Some k)
  end.

(** Every text is easy where it is written, and every picture shown mends the
    one shown before (S_WideCanvas). *)
Fixpoint readily (E : env) (l : list stroke) (k : wcanvas) (last : option shot) : Prop :=
  match l with
  | [] => True
  | Draw m :: l => easy E m k /\ readily E l (wdraw E m k) last
  | Show :: l => (forall h, last = Some h -> mends h k) /\ readily E l k (Some (next_shot last k))
  end.

(** The terminal shows the canvas; its cursor is at the pen (or the last position) unless
    that is a right half. *)
Definition wseen (C : tcfg) (v : view) (k : wcanvas) : Prop :=
  wdisplays C v k /\
  (wink k (line (wpen_goal k)) (column (wpen_goal k)) <> Right -> vcur v = wpen_goal k).
