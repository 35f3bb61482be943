(** Model of [Cursor] and [Size] in /repo/src/terminal.rs.  [umax] is
    [usize::MAX]. *)
From Verif Require Import Base.

(** [Cursor], terminal.rs:112-118. *)
Record cursor : Type := Cursor { line : nat; column : nat }.

(** [Size], terminal.rs:477-483. *)
Record size : Type := Size { lines : nat; columns : nat }.

(** Derived [PartialEq]. *)
Definition cursor_eqb (a b : cursor) : bool := (line a =? line b) && (column a =? column b).
Definition size_eqb (a b : size) : bool := (lines a =? lines b) && (columns a =? columns b).

(** [Cursor::next], terminal.rs:124-138. *)
Definition cursor_next (umax : nat) (c : cursor) (sz : size) : pan (option cursor) :=
  match uadd umax (column c) 1 with
  | Boom => Boom
  | Val col =>
      match (if columns sz <=? col then
               match uadd umax (line c) 1 with
               | Val l => Val (l, 0)
               | Boom => Boom
               end
             else Val (line c, col)) with
      | Boom => Boom
      | Val (l, col) =>
          if lines sz <=? l then Val None else Val (Some (Cursor l col))
      end
  end.

(** [Cursor::previous], terminal.rs:144-154. *)
Definition cursor_previous (c : cursor) (sz : size) : pan (option cursor) :=
  if column c =? 0 then
    if line c =? 0 then Val None
    else match usub (columns sz) 1 with
         | Val col => Val (Some (Cursor (line c - 1) col))
         | Boom => Boom
         end
  else Val (Some (Cursor (line c) (column c - 1))).

(** [Cursor::first], terminal.rs:158-163. *)
Definition cursor_first : cursor := Cursor 0 0.

(** [Cursor::last], terminal.rs:167-172. *)
Definition cursor_last (sz : size) : pan cursor :=
  match usub (lines sz) 1 with
  | Boom => Boom
  | Val l => match usub (columns sz) 1 with
             | Boom => Boom
             | Val c => Val (Cursor l c)
             end
  end.

(** [Cursor::is_out_of_bounds], terminal.rs:176-178. *)
Definition is_out_of_bounds (c : cursor) (sz : size) : bool :=
  (lines sz <=? line c) || (columns sz <=? column c).

(** [Cursor::as_index], terminal.rs:182-184. *)
Definition as_index (umax : nat) (c : cursor) (sz : size) : pan nat :=
  match umul umax (line c) (columns sz) with
  | Boom => Boom
  | Val n => uadd umax n (column c)
  end.

(** [Size::checked_area], terminal.rs:502-504. *)
Definition checked_area (umax : nat) (sz : size) : option nat :=
  if lines sz * columns sz <=? umax then Some (lines sz * columns sz) else None.

(** [Size::area], terminal.rs:492-495. *)
Definition area (umax : nat) (sz : size) : pan nat :=
  match checked_area umax sz with
  | Some n => Val n
  | None => Boom
  end.
