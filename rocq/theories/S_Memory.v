(** Specification for the memory the library's buffers take (C132). *)
From Verif Require Import Base M_Utf8 M_Geom M_Attr M_Buf M_Writer S_Writer M_Screen.
Local Open Scope nat_scope.

(** How std's [Vec] grows: to twice its capacity, or to what is needed if that is more.
    (There is a least capacity, 8 for bytes; both buffers are larger from the start.) *)
Definition doubling (C : tcfg) : Prop := forall c n, grow C c n = Nat.max (2 * c) n.

(** A program takes guards one after the other and does what it likes with each; all that
    was written is taken by the device, at most [N] bytes with each guard. *)
Inductive guarded (C : tcfg) (N : nat) : wst -> wst -> Prop :=
| GDone w : guarded C N w w
| GSession w ops rs w1 w2 w3 : run_any C ops w = Some (rs, w1) -> guard_drop w1 = Ret w2 tt -> obuf w2 = [] ->
    length (dev w2) <= length (dev w) + N -> guarded C N w2 w3 -> guarded C N w w3.

(** The same method of [Terminal], [n] times; none fails. *)
Fixpoint times (C : tcfg) (n : nat) (o : wop) (w : wst) : wres :=
  match n with
  | O => Ret w tt
  | S n => let! (w, _u) := run_terminal_op C o w in times C n o w
  end.

(** A screen: the program draws what it likes and changes the size, and each refresh
    succeeds and sends at most [N] bytes. *)
Inductive refreshing (E : env) (C : tcfg) (N : nat) : scr -> scr -> Prop :=
| RDone s : refreshing E C N s s
| RDraw s b c r s' : refreshing E C N (Scr b c r (wr s)) s' -> refreshing E C N s s'
| RRefresh s s1 s' : refresh E C s = Ret s1 tt -> length (dev (wr s1)) <= length (dev (wr s)) + N ->
    refreshing E C N s1 s' -> refreshing E C N s s'.
