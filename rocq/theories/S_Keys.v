(** Specification: the keys that the capabilities of a terminfo entry describe. *)
From Coq Require Import String.
From Verif Require Import Base M_Utf8 M_Geom M_Seq S_Seq M_Signal M_Util M_Input.
Local Open Scope N_scope.
Local Open Scope string_scope.

(** From terminfo(5): the capability's name and the key that sends its value ("sent by
    terminal up-arrow key", "next-page key", "F10 function key", ...). *)
Definition described : list (string * key) :=
  [("kcuu1", KUp); ("kcud1", KDown); ("kcub1", KLeft); ("kcuf1", KRight);
   ("khome", KHome); ("kend", KEnd); ("knp", KPageDown); ("kpp", KPageUp);
   ("kdch1", KDelete); ("kich1", KInsert);
   ("kf1", KF 1); ("kf2", KF 2); ("kf3", KF 3); ("kf4", KF 4); ("kf5", KF 5); ("kf6", KF 6);
   ("kf7", KF 7); ("kf8", KF 8); ("kf9", KF 9); ("kf10", KF 10); ("kf11", KF 11); ("kf12", KF 12)].

(** In the entry [db], the value [q] is that of the key [k] and of no other. *)
Definition sends (db : string -> option bytes) (k : key) (q : bytes) : Prop :=
  (exists name, In (name, k) described /\ db name = Some q) /\
  forall name k', In (name, k') described -> db name = Some q -> k' = k.

(** No longer value of a key is at the start of the input. *)
Definition nothing_longer (db : string -> option bytes) (q input : bytes) : Prop :=
  forall name k' q', In (name, k') described -> db name = Some q' -> is_prefix q' input -> (length q' <= length q)%nat.
