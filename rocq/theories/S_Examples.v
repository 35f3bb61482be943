(** Specification vocabulary for the example programs (C140). *)
From Verif Require Import Base M_Utf8 M_Geom M_Attr M_Buf M_Writer S_Tty S_Writer M_ScreenApi S_Canvas M_Locks S_Together M_Examples.

(** What a thread has on its line of the screen: the characters and how they look. *)
Definition plain (c : N) : list N * attrs := ([c], Attrs None None 0%N).
Definition bright (color : color) (c : N) : list N * attrs := ([c], Attrs (Some color) None BOLD).
Definition label (d : kid) (value : list N) : list (list N * attrs) :=
  map plain [91%N] ++ map (bright (kcolor d)) (kname d) ++
  map plain ([93; 58; 32; 114; 97; 110; 100; 111; 109; 32; 111; 117; 116; 112; 117; 116; 58; 32]%N ++ value).

(** Its text is of characters that take one column each, and fits on a screen of this size. *)
Definition plain_text (E : env) (d : kid) : Prop :=
  Forall (one_column E) opening /\ Forall (one_column E) closing /\ Forall (one_column E) (kname d) /\
  Forall (Forall (one_column E)) (kvalues d).
Definition has_room (sz : size) (d : kid) : Prop :=
  kline d < lines sz /\ forall x, In x (kvalues d) -> length (label d x) < columns sz.
(** No two threads have the same line. *)
Definition own_lines (kids : list kid) : Prop := NoDup (map kline kids).

(** The last value. *)
Definition latest (d : kid) (x : list N) : Prop := exists before, kvalues d = before ++ [x].
(** A position of the canvas where no thread writes. *)
Definition elsewhere (kids : list kid) (l c : nat) : Prop :=
  forall d x, In d kids -> In x (kvalues d) -> l = kline d -> length (label d x) <= c.

(** The lines of the threads on the canvas [k'], which was [k] at first: every thread that
    wrote something has its last text on its line. *)
Definition shows_latest (kids : list kid) (k' : canvas) : Prop :=
  forall d x, In d kids -> latest d x -> forall j q, nth_error (label d x) j = Some q -> ink k' (kline d) j = q.

(** The console has a glyph for each character of its text. *)
Definition drawable (shown : list N -> option N) (d : kid) : Prop :=
  Forall (fun c => shown [c] <> None) (opening ++ closing ++ kname d ++ concat (kvalues d)).

(** Nobody: a thread that is not there. *)
Definition nobody : kid := Kid [] Black 0 [].
