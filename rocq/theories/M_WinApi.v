(** Model of the public output methods on Windows: those of src/terminal.rs forward as
    in M_Api.v; below them are windows/terminal.rs:163-291 ([Terminal]) and 614-875
    ([TerminalWriteGuard], M_WinWriter.v).  Locking is M_WinLocks.v. *)
From Verif Require Import Base M_Utf8 M_Geom M_Attr M_Buf M_Writer M_Api M_WinWriter.

Section WinApi.
  Variables (draw : list N -> N -> view -> view) (default : N) (E : env).

  (** The method of [TerminalWriteGuard]; [set_theme] is windows/terminal.rs:804-806. *)
  Definition win_guard_method (m : tmethod) : wins -> winres unit := run_win draw default E (forward m).

  (** The method of [Terminal], which takes the lock and does the same; moving by 0 does
      nothing (183-209), a character is written as a string (280-282).  [Terminal] has no
      [flush]; [TFlush] stands for taking the write lock and dropping the guard, which
      has no [Drop]. *)
  Definition win_terminal_op (o : wop) (s : wins) : winres unit :=
    match o with
    | OMoveUp n => if negb (n =? 0) then win_move_up E n s else Ret s tt
    | OMoveDown n => if negb (n =? 0) then win_move_down n s else Ret s tt
    | OMoveLeft n => if negb (n =? 0) then win_move_left E n s else Ret s tt
    | OMoveRight n => if negb (n =? 0) then win_move_right n s else Ret s tt
    | OWriteChar c => win_write_str draw [c] s
    | o => run_win draw default E o s
    end.
  Definition win_terminal_method (m : tmethod) : wins -> winres unit := win_terminal_op (forward m).

  Definition win_api_run1 (c : api_call) : wins -> winres unit :=
    match c with OnGuard m => win_guard_method m | OnTerminal m => win_terminal_method m end.

  (** Calls one after the other, stopping at the first that does not return [Ok]. *)
  Fixpoint win_api_run (cs : list api_call) (s : wins) : option wins :=
    match cs with
    | [] => Some s
    | c :: cs => match win_api_run1 c s with Ret s _ => win_api_run cs s | _ => None end
    end.
End WinApi.
