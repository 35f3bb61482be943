(** Property theorems for [Cursor] and [Size] (C11, C12). *)
From Verif Require Import Base M_Geom S_Geom P_Geom.

(** C11: [next] and [previous] are mutually inverse. *)
Theorem C11_next_previous_inverse :
  forall umax sz c d, valid_size umax sz -> in_bounds c sz -> in_bounds d sz ->
    (cursor_next umax c sz = Val (Some d) <-> cursor_previous d sz = Val (Some c)).
Proof. exact next_previous. Qed.
Print Assumptions C11_next_previous_inverse.

(** C11: on a valid size neither panics, both stay in bounds, they end exactly
    at [last(size)] / [first()], and [next] from [first()] visits every cell
    exactly once before ending. *)
Theorem C11_row_major_walk :
  forall umax sz, valid_size umax sz ->
  in_bounds cursor_first sz /\
  (forall c, in_bounds c sz -> cursor_next umax c sz <> Boom /\ cursor_previous c sz <> Boom) /\
  (forall c d, in_bounds c sz -> cursor_next umax c sz = Val (Some d) -> in_bounds d sz) /\
  (forall c d, in_bounds c sz -> cursor_previous c sz = Val (Some d) -> in_bounds d sz) /\
  (forall c, in_bounds c sz -> (cursor_next umax c sz = Val None <-> cursor_last sz = Val c)) /\
  (forall c, in_bounds c sz -> (cursor_previous c sz = Val None <-> c = cursor_first)) /\
  (forall c, in_bounds c sz ->
     exists k, k < total sz /\ iter_next umax sz k cursor_first = Val (Some c) /\
       forall j, iter_next umax sz j cursor_first = Val (Some c) -> j = k) /\
  iter_next umax sz (total sz) cursor_first = Val None.
Proof. exact walk. Qed.
Print Assumptions C11_row_major_walk.

(** C11: the walk is row by row: the k-th cell visited is at line [k / columns],
    column [k mod columns]. *)
Theorem C11_walk_order :
  forall umax sz k, valid_size umax sz ->
    iter_next umax sz k cursor_first =
    if k <? total sz then Val (Some (Cursor (k / columns sz) (k mod columns sz))) else Val None.
Proof. exact (fun umax sz k H => iter_next_spec umax sz k cursor_first H (conj (proj1 H) (proj1 (proj2 H)))). Qed.
Print Assumptions C11_walk_order.

(** C11: [is_out_of_bounds] is the negation of being on the screen, and
    [as_index] is a bijection between on-screen positions and [0..area). *)
Theorem C11_out_of_bounds :
  forall c sz, is_out_of_bounds c sz = false <-> in_bounds c sz.
Proof. exact oob_spec. Qed.
Print Assumptions C11_out_of_bounds.

Theorem C11_index_bijection :
  forall umax sz, valid_size umax sz ->
  (forall c, in_bounds c sz -> exists i, as_index umax c sz = Val i /\ i < total sz) /\
  (forall c d i, in_bounds c sz -> in_bounds d sz ->
     as_index umax c sz = Val i -> as_index umax d sz = Val i -> c = d) /\
  (forall i, i < total sz -> exists c, in_bounds c sz /\ as_index umax c sz = Val i).
Proof. exact index_bijection. Qed.
Print Assumptions C11_index_bijection.

Example C11_example :
  valid_size 1000 (Size 2 3) /\ in_bounds (Cursor 0 2) (Size 2 3) /\
  cursor_next 1000 (Cursor 0 2) (Size 2 3) = Val (Some (Cursor 1 0)) /\
  cursor_previous (Cursor 1 0) (Size 2 3) = Val (Some (Cursor 0 2)).
Proof. unfold valid_size, in_bounds; simpl. repeat split; lia. Qed.

(** C12: [checked_area] and [area] report exactly overflow. *)
Theorem C12_area_overflow :
  forall umax sz,
  (checked_area umax sz = Some (lines sz * columns sz) <-> lines sz * columns sz <= umax) /\
  (checked_area umax sz = None <-> umax < lines sz * columns sz) /\
  (area umax sz = Boom <-> umax < lines sz * columns sz) /\
  (forall n, area umax sz = Val n -> n = lines sz * columns sz).
Proof. exact area_spec. Qed.
Print Assumptions C12_area_overflow.

Example C12_example :
  area 255 (Size 15 17) = Val 255 /\ area 255 (Size 16 16) = Boom.
Proof. split; reflexivity. Qed.
