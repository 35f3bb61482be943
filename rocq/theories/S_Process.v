(** Specifications for programs with several terminals (C87). *)
From Verif Require Import Base M_Geom M_Signal M_Seq M_Input M_Writer M_Prepare M_Reader S_Prepare M_Process.
Local Open Scope N_scope.

(** Properly nested use of the terminals: reading any of them, and pairs of [prepare] and
    [restore] of one of them with such use in between. *)
Inductive nested (C : nat -> tcfg) (m : nat -> seq_map) (on : nat -> nat) : process -> process -> Prop :=
| NDone p : nested C m on p p
| NRead p i l o p1 r p' : reading o -> pstep C m on i l o p = Some (p1, r) -> nested C m on p1 p' -> nested C m on p p'
| NNest p i l cfg p1 st p2 l' p3 p' :
    pstep C m on i l (RPrepare cfg) p = Some (p1, YState st) -> nested C m on p1 p2 ->
    pstep C m on i l' (RRestore st) p2 = Some (p3, YUnit) -> nested C m on p3 p' -> nested C m on p p'.

(** No signal arrives. *)
Definition no_signal (t : tick) : Prop := match t with TSig _ => False | _ => True end.
