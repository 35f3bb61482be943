(** Model of the example program /repo/examples/style.rs: each of its calls (style.rs:10-23)
    without the line feed at the end of the text. *)
From Coq Require Import String.
From Verif Require Import Base M_Utf8 M_Geom M_Attr M_Buf M_Writer M_Api M_Lines.

Definition style_calls : list tmethod :=
  [TWriteStyled None None None (chars "normal text");
   TWriteStyled None None (Some BOLD) (chars "bold text");
   TWriteStyled None None (Some ITALIC) (chars "italic text");
   TWriteStyled None None (Some REVERSE) (chars "reverse text");
   TWriteStyled None None (Some UNDERLINE) (chars "underlined text")].
