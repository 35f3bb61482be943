(** What the accesses of M_WinLocks.v do to a console and to a screen: the operations of
    M_WinWriter.v and M_WinScreen.v.

    Simplifications: an error of the console is given as [EOs]; a call that panics or
    hangs leaves its data gone ([None]), as in M_Locks.v; [prepare] and [restore] change
    the input only, which is not behind these locks (windows/terminal.rs:344-395). *)
From Verif Require Import Base M_Utf8 M_Geom M_Attr M_Buf M_Writer M_Locks M_WinWriter M_WinReader M_WinScreen M_WinLocks.

Definition told {S} (r : out S N unit) : option S * ans :=
  match r with
  | Ret s _ => (Some s, AOk)
  | Fail s e => (Some s, AErr (EOs e))
  | Panic | Blocked => (None, AGone)
  end.

Section Share.
  Variables (draw : list N -> N -> view -> view) (E : env).

  (** A [Terminal]: what is behind its writer and the console (windows/terminal.rs:34-40,
      84-91); nothing is behind the other lock. *)
  Definition console_access (default : N) : access (option wins) unit :=
    Access (fun a w => match w with
                       | None => (None, AGone)
                       | Some s => match a with
                                   | WOp o => told (run_win draw default E o s)
                                   | _ => (Some s, AOk)
                                   end
                       end)
           (fun _ d => (d, AOk))
           (fun w d => ((w, d), AOk)).

  (** A [Screen] (windows/screen.rs:19-41): its terminal, and what is behind
      [Screen::writer].  [st], [old]: the rest of it, which no access changes. *)
  Definition screen_access (st : wpstate) (old : N) : access (option wterm) (option sdata) :=
    let whole (t : wterm) (d : sdata) : wscr := WScr (dbuf d) (dclr d) (dreal d) st old t in
    let data (s : wscr) : sdata := SData (g_sb s) (g_clr s) (g_real s) in
    Access (fun a w => match w with
                       | None => (None, AGone)
                       | Some t => match a with
                                   | WOp o => told (on_wins (run_win draw (t_default t) E o) t)
                                   | _ => (Some t, AOk)
                                   end
                       end)
           (fun a d => match d with
                       | None => (None, AGone)
                       | Some d =>
                           match a with
                           | DBuf o => match run_buf_op E (dbuf d) o with
                                       | Val b => (Some (SData b (dclr d) (dreal d)), AOk)
                                       | Boom => (None, AGone)
                                       end
                           | DUpdateSize sz =>
                               match sb_resize E (dbuf d) sz with
                               | Val b => (Some (SData b true (if is_out_of_bounds (dreal d) sz then Cursor (umax E) (umax E) else dreal d)), AOk)
                               | Boom => (None, AGone)
                               end
                           end
                       end)
           (fun w d => match w, d with
                       | Some t, Some d =>
                           match win_refresh draw E (whole t d) with
                           | Ret s _ => ((Some (g_t s), Some (data s)), AOk)
                           | Fail s e => ((Some (g_t s), Some (data s)), AErr (EOs e))
                           | Panic | Blocked => ((None, None), AGone)
                           end
                       | _, _ => ((None, None), AGone)
                       end).
End Share.
