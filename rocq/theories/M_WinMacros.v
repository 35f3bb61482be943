(** Model of /repo/src/macros.rs on Windows: the expansion is that of M_Macros.v, and its
    methods are those of windows/terminal.rs (M_WinWriter.v). *)
From Verif Require Import Base M_Attr M_Geom M_Buf M_Writer M_WinWriter M_WinScreen M_Macros.

Section WinMacros.
  Variables (U : Type) (draw : list N -> N -> view -> view) (default : N) (E : env).

  (** The method on a [TerminalWriteGuard]: its argument is evaluated first; [write_fmt]
      formats into a [String], which panics if formatting fails (terminal.rs:1094-1097). *)
  Definition win_term_method (m : method U) (st : U * wins) : out (U * wins) N unit :=
    let '(u, s) := st in
    let run u o := match run_win draw default E o s with
                   | Ret s' _ => Ret (u, s') tt
                   | Fail s' e => Fail (u, s') e
                   | Panic => Panic
                   | Blocked => Blocked
                   end in
    match m with
    | MSetFg _ e => let '(u, c) := e u in run u (OSetFg c)
    | MSetBg _ e => let '(u, c) := e u in run u (OSetBg c)
    | MAddStyle _ e => let '(u, s) := e u in run u (OAddStyle s)
    | MRemoveStyle _ e => let '(u, s) := e u in run u (ORemoveStyle s)
    | MSetStyle _ e => let '(u, s) := e u in run u (OSetStyle s)
    | MClearAttributes _ => run u OClearAttributes
    | MSetTheme _ e => let '(u, t) := e u in run u (OSetAttrs t)
    | MWriteFmt _ e => let '(u, r) := e u in
                       match r with Some s => run u (OWriteStr s) | None => Panic end
    | MWriteStr _ s => run u (OWriteStr s)
    end.

  (** Evaluation with [Chain for io::Result<()>] (macros.rs:323-329). *)
  Fixpoint win_term_eval (e : expr U) (st : U * wins) : out (U * wins) N unit :=
    match e with
    | EInit _ => Ret st tt
    | EChain _ r m => let! (st, _u) := win_term_eval r st in win_term_method m st
    end.

  (** [term_write!] with a [TerminalWriteGuard], which is borrowed (terminal.rs:1100-1102), or a
      [Terminal], of which the lock is taken (terminal.rs:844-846); the guard has no [Drop]
      on Windows. *)
  Definition win_term_write (l : list (tree U)) (st : U * wins) : option (out (U * wins) N unit) :=
    option_map (fun e => win_term_eval e st) (expansion_of U l).

  (** [term_write!] with a [Screen]: a guard is locked (screen.rs:358-360) and dropped at the
      end, which refreshes the screen (windows/screen.rs:264-270; an error is only
      printed). *)
  Definition win_screen_write (l : list (tree U)) (st : U * wscr) : option (out (U * wscr) N unit) :=
    let '(u, s) := st in
    option_map (fun e =>
      match screen_eval U E e (u, g_sb s) with
      | Boom => Panic
      | Val (u', b) => match win_refresh draw E (with_gsb b s) with
                       | Ret s' _ | Fail s' _ => Ret (u', s') tt
                       | Panic => Panic
                       | Blocked => Blocked
                       end
      end) (expansion_of U l).
End WinMacros.
