(** What the calls of examples/style.rs should show (C141). *)
From Coq Require Import String.
From Verif Require Import Base M_Attr.

Definition style_texts : list (string * attrs) :=
  [("normal text"%string, Attrs None None 0%N); ("bold text"%string, Attrs None None BOLD); ("italic text"%string, Attrs None None ITALIC);
   ("reverse text"%string, Attrs None None REVERSE); ("underlined text"%string, Attrs None None UNDERLINE)].
