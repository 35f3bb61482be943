(** Row-major geometry, independent of the model's functions. *)
From Verif Require Import Base M_Geom.

(** "A valid size must not have zero lines or zero columns" (terminal.rs:475);
    the cell count fits in [usize]. *)
Definition valid_size (umax : nat) (sz : size) : Prop :=
  0 < lines sz /\ 0 < columns sz /\ lines sz * columns sz <= umax.

Definition in_bounds (c : cursor) (sz : size) : Prop :=
  line c < lines sz /\ column c < columns sz.

(** Cell number of a position, counting row by row. *)
Definition cell_no (sz : size) (c : cursor) : nat := line c * columns sz + column c.

(** Position of a cell number. *)
Definition cell_pos (sz : size) (i : nat) : cursor :=
  Cursor (i / columns sz) (i mod columns sz).

Definition total (sz : size) : nat := lines sz * columns sz.

(** Following [next] from a cursor, [k] times. *)
Fixpoint iter_next (umax : nat) (sz : size) (k : nat) (c : cursor) : pan (option cursor) :=
  match k with
  | 0 => Val (Some c)
  | S k' => match cursor_next umax c sz with
            | Val (Some c') => iter_next umax sz k' c'
            | r => r
            end
  end.
