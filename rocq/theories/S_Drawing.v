(** Specification vocabulary for what is drawn on a screen. *)
From Verif Require Import Base M_Geom M_Attr M_Buf.

(** The same is drawn: the cells, the size, the cursor and the attributes in force.  (What was
    shown last may differ.) *)
Definition same_drawing (b b' : sbuf) : Prop :=
  buffer b' = buffer b /\ bsize b' = bsize b /\ bcur b' = bcur b /\ battrs b' = battrs b.
