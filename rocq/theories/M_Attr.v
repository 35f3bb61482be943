(** Model of [Color], [Style] and [Theme] (/repo/src/terminal.rs:20-108). *)
From Verif Require Import Base.

(** [Color], terminal.rs:20-37; the declaration order is the discriminant. *)
Inductive color : Type := Black | Blue | Cyan | Green | Magenta | Red | White | Yellow.

Scheme Equality for color.

Definition ocolor_eqb (a b : option color) : bool :=
  match a, b with
  | None, None => true
  | Some x, Some y => color_beq x y
  | _, _ => false
  end.

(** [Style], terminal.rs:39-54: a [bitflags] set over [u8].  Values are bit sets
    [< 16] (only the four flags can be constructed by the safe API). *)
Definition style := N.
Definition BOLD : style := 1%N.
Definition ITALIC : style := 2%N.
Definition REVERSE : style := 4%N.
Definition UNDERLINE : style := 8%N.
Definition style_empty : style := 0%N.

(** [bitflags] operators: [|], [-], [&], [contains], [is_empty]. *)
Definition style_union (a b : style) : style := N.lor a b.
Definition style_minus (a b : style) : style := N.ldiff a b.
Definition style_inter (a b : style) : style := N.land a b.
Definition style_contains (a b : style) : bool := N.eqb (N.land a b) b.
Definition style_is_empty (a : style) : bool := N.eqb a 0.

(** The three attributes carried by cells, buffers, writers and [Theme]
    (terminal.rs:60-67).  The code keeps [fg], [bg], [style] as three fields; the
    model groups them. *)
Record attrs : Type := Attrs { fg : option color; bg : option color; sty : style }.

Definition no_attrs : attrs := Attrs None None style_empty.

Definition attrs_eqb (a b : attrs) : bool :=
  ocolor_eqb (fg a) (fg b) && ocolor_eqb (bg a) (bg b) && N.eqb (sty a) (sty b).
