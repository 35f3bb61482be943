(** Dropping a [Terminal] or [Screen], as far as locks are concerned (C133): the steps of
    M_Locks.v and M_WinLocks.v, followed by [k].

    Simplification: what [exit_screen] does to the terminal is left out (it is modelled in
    M_UnixScreen.v and M_WinScreen.v), as are closing files and reporting errors, which
    take no lock. *)
From Verif Require Import Base M_Geom M_Buf M_Writer M_Locks M_WinLocks.

(** [Drop for Terminal] (unix/terminal.rs:300-310). *)
Definition drop_terminal (k : prog) : prog :=
  with_writer (fun k => Act (AW (WOp (OSetCursorMode CNormal))) k) (fun _ => k).

(** [Drop for Screen] (unix/screen.rs:124-136), whose terminal is dropped next; [state]: the
    screen has prepared the terminal, with the mouse and the keypad or without. *)
Definition drop_screen (state : option (bool * bool)) (k : prog) : prog :=
  let exit := with_writer (fun k => k AOk) (fun _ => drop_terminal k) in
  match state with
  | Some (mouse, keypad) =>
      with_reader (with_writer (fun k => Act (AW (WRestore mouse keypad)) k))
        (fun r => match r with AOk => exit | _ => drop_terminal k end)
  | None => exit
  end.

(** [Drop for Terminal] (windows/terminal.rs:323-336). *)
Definition wdrop_terminal (k : prog) : prog :=
  wwith_writer (fun k => Act (AW (WOp (OSetCursorMode CNormal))) k)
    (fun r => match r with AOk => wwith_writer (fun k => k AOk) (fun _ => k) | _ => k end).

(** [Drop for Screen] (windows/screen.rs:134-147). *)
Definition wdrop_screen (state : option (bool * bool)) (k : prog) : prog :=
  let exit := wwith_writer (fun k => k AOk) (fun _ => wdrop_terminal k) in
  match state with
  | Some (mouse, keypad) =>
      with_reader (wwith_writer (fun k => Act (AW (WRestore mouse keypad)) k))
        (fun r => match r with AOk => exit | _ => wdrop_terminal k end)
  | None => exit
  end.
