(** Specification vocabulary for drawing that succeeds (C138). *)
From Verif Require Import Base M_Utf8 M_Geom S_Geom M_Attr M_Buf M_Writer M_Screen.
Local Open Scope nat_scope.

(** The capabilities that drawing needs are there, and what it uses can be expanded. *)
Record drawable (C : tcfg) : Prop := {
  dr_clear : exists e, info C ClearScreen = Some e /\ forall k, snd (e k []) = true;
  dr_move : exists e, info C CursorAddress = Some e /\ forall k y x, snd (e k [y; x]) = true;
  dr_home : forall e k, info C CursorHome = Some e -> snd (e k []) = true;
  dr_color : forall c e k n, In c [SetAForeground; SetABackground] -> info C c = Some e -> snd (e k [n]) = true;
  dr_style : forall c e k, In c [ExitAttributeMode; EnterBoldMode; EnterItalicsMode; EnterReverseMode; EnterUnderlineMode;
                                ExitItalicsMode; ExitUnderlineMode] -> info C c = Some e -> snd (e k []) = true
}.

(** How many calls of [write] the OS will answer other than by an interrupt. *)
Definition writes_left (sc : list wresp) : nat :=
  length (filter (fun r => match r with WIntr => false | _ => true end) sc).
(** How many it has answered from [w] to [w'], and how many bytes it has taken. *)
Definition writes_made (w w' : wst) : nat := writes_left (script w) - writes_left (script w').
Definition bytes_taken (w w' : wst) : nat := length (dev w') - length (dev w).

(** The cells that are not as they were last drawn. *)
Definition stale_at (b : sbuf) (i : nat) : bool :=
  match nth_error (buffer b) i, nth_error (back b) i with
  | Some c, Some k => negb (cell_eqb c k)
  | _, _ => false
  end.
Definition stale (b : sbuf) : nat := length (filter (stale_at b) (seq 0 (total (bsize b)))).

(** No cell holds more than [m] bytes of text. *)
Definition short_cells (m : nat) (b : sbuf) : Prop := Forall (fun c => length (utf8s (ctext c)) <= m) (buffer b).
