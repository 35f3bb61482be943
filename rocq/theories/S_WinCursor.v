(** Specification vocabulary for the cursor of a Windows screen (C115). *)
From Verif Require Import Base M_Geom M_Buf M_Writer M_WinWriter M_WinScreen.
Local Open Scope N_scope.

(** The cursor of each mode: its size in percent of a cell, and whether it is seen. *)
Definition cursor_of (m : cursor_mode) : N * bool :=
  match m with
  | CNormal => (25, true)
  | CInvisible => (1, false)
  | COverwrite => (100, true)
  end.

(** The cursor a program expects: that of the last mode it set, without an error. *)
Fixpoint expects (draw : list N -> N -> view -> view) (E : env) (ops : list wsop) (s : wscr) (i : N * bool) : N * bool :=
  match ops with
  | [] => i
  | o :: ops =>
      match run_wsop draw E o s with
      | Ret s' _ => expects draw E ops s' match o with SCursorMode m => cursor_of m | _ => i end
      | Fail s' _ => expects draw E ops s' i
      | Panic | Blocked => i
      end
  end.
