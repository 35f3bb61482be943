(** What the example program examples/raw_input.rs should print (C144). *)
From Verif Require Import Base M_Input.

(** The bytes that a printed line has. *)
Definition bytes_of (x : event * bytes) : bytes := match fst x with ERaw _ => snd x | _ => [] end.
Definition printed_bytes (l : list (event * bytes)) : bytes := flat_map bytes_of l.
(** The number in a line is that of its bytes. *)
Definition sound (x : event * bytes) : Prop := match fst x with ERaw n => n = length (snd x) | _ => True end.
(** The line that ends the program. *)
Definition raw_q : event * bytes := (ERaw 1, [113%N]).
