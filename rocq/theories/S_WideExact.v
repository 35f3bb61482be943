(** The characters that mortal does not put on a screen as the drawing of S_WideCanvas has
    them. *)
From Verif Require Import Base M_Utf8 S_Utf8 M_Geom S_Geom M_Attr M_Buf S_Buf S_Canvas S_WideCanvas.

(** A double-width character at the last column, and a mark behind a double-width
    character. *)
Definition hard_char (E : env) (c : N) (k : wcanvas) : Prop :=
  (wide E c /\ on_canvas (wsize k) (wpen k) = true /\ column (wpen k) + 1 = columns (wsize k)) \/
  (mark E c /\ exists q, before (wsize k) (wpen k) = Some q /\ on_canvas (wsize k) q = true /\ wink k (line q) (column q) = Right).
