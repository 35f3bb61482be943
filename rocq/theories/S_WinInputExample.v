(** What the example program examples/raw_input.rs should print on Windows (C144). *)
From Verif Require Import Base M_WinReader.

(** The code units that some records type: those of the keys pressed that have one. *)
Definition unit_of (r : record) : list N :=
  match r with KeyRec true _ _ u => if (u =? 0)%N then [] else [u] | _ => [] end.
Definition units (rs : list record) : list N := flat_map unit_of rs.
