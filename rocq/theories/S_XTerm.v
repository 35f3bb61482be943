(** Which terminals are xterms, by the name of their terminfo entry (C69): "xterm", and names
    like "xterm-256color". *)
From Coq Require Import String Ascii.
From Verif Require Import Base M_Utf8.

Definition ascii_of (s : string) : list N := map N_of_ascii (list_ascii_of_string s).
Definition xterm_name (name : bytes) : Prop :=
  name = ascii_of "xterm" \/ exists rest, name = ascii_of "xterm-" ++ rest.
