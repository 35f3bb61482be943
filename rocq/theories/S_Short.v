(** Specification vocabulary for short writes (C30, C31, C32). *)
From Verif Require Import Base M_Geom M_Attr M_Buf M_Writer.

(** How many bytes of a buffer of [len] bytes the OS took with one answer. *)
Definition took (len : nat) (r : wresp) : nat :=
  match r with WAll => len | WOk n => Nat.min n len | WIntr | WErr _ => 0 end.

(** The answers that end a flush with an error. *)
Definition ending (len : nat) (r : wresp) : option werr :=
  match r with
  | WErr e => Some (EOs e)
  | WOk n => if Nat.min n len =? 0 then Some EWriteZero else None
  | WAll | WIntr => None
  end.

(** How many bytes the OS took with some answers. *)
Fixpoint total (len : nat) (rs : list wresp) : nat :=
  match rs with [] => 0 | r :: rs => took len r + total len rs end.

(** What the device receives if each call is given the same buffer: as much of its
    beginning as the OS took, each time. *)
Definition beginnings (buf : bytes) (rs : list wresp) : bytes :=
  concat (map (fun r => firstn (took (length buf) r) buf) rs).

(** Answers none of which ends the flush, and before each of which the amount taken
    is not yet [len]. *)
Definition goes_on (len : nat) (rs : list wresp) : Prop :=
  (forall r, In r rs -> ending len r = None) /\
  forall k, k < length rs -> total len (firstn k rs) <> len.

(** In how many of the answers the OS took something. *)
Definition times (len : nat) (rs : list wresp) : nat :=
  length (filter (fun r => negb (took len r =? 0)) rs).
