(** What the library prints on Windows, and what happens when that fails: the [Drop]s of
    [ScreenWriteGuard], [Screen] and [Terminal] report errors with [eprintln!], as in
    M_Stderr.v.  ([TerminalWriteGuard] has no [Drop] on Windows.)  M_WinScreen.v and
    M_WinPoison.v leave that out. *)
From Verif Require Import Base M_Geom M_Attr M_Buf M_Writer M_Prepare M_WinWriter M_WinReader M_WinScreen M_WinPoison M_Stderr.

Section WinStderr.
  Variable draw : list N -> N -> view -> view.
  Variable E : env.

  (** [Drop for ScreenWriteGuard], windows/screen.rs:264-270.  When the thread is unwinding
      ([unw], or since the message cannot be printed), the guards of the two mutexes that
      are its fields poison them. *)
  Definition wguard_drop_p (unw : bool) (l : list bool) (x : wpscr) : fate wpscr unit :=
    let fields (unw : bool) s := WPScr s (q_r x) (q_w x || unw) (q_d x || unw) in
    match win_refresh draw E (q_s x) with
    | Ret s _ => Goes (fields unw s) l tt
    | Fail s _ =>
        match eprintln unw l s with
        | Goes s l _ => Goes (fields unw s) l tt
        | Unwinds s l => Unwinds (fields true s) l
        | Aborts => Aborts
        | Ends p => Ends p
        end
    | Panic => Ends true
    | Blocked => Ends false
    end.

  (** [Screen::refresh], windows/screen.rs:96-98, 128-130: with a poisoned mutex [expect]
      panics, and the guard in the error is dropped. *)
  Definition wscreen_refresh_p (l : list bool) (x : wpscr) : fate wpscr (option N) :=
    if q_w x || q_d x then fbind (wguard_drop_p true l x) (fun x l _ => Unwinds x l)
    else match win_refresh draw E (q_s x) with
         | Ret s _ => fbind (wguard_drop_p false l (with_s s x)) (fun x l _ => Goes x l None)
         | Fail s e => fbind (wguard_drop_p false l (with_s s x)) (fun x l _ => Goes x l (Some e))
         | Panic => Ends true
         | Blocked => Ends false
         end.

  (** [Drop for Terminal], windows/terminal.rs:323-336; [poisoned]: the mutex of its
      writer is, and then [set_cursor_mode] panics (windows/terminal.rs:318-320). *)
  Definition wterminal_drop_p (poisoned unw : bool) (l : list bool) (t : wterm) : fate wterm unit :=
    if poisoned then (if unw then Aborts else Unwinds t l)
    else match on_wins (win_set_cursor_mode CNormal) t with
         | Ret t _ => match set_out_mode (t_old t) t with
                      | Ret t _ => Goes t l tt
                      | Fail t _ => eprintln unw l t
                      | Panic => Ends true
                      | Blocked => Ends false
                      end
         | Fail t _ => eprintln unw l t
         | Panic => Ends true
         | Blocked => Ends false
         end.

  (** [Drop for Screen], windows/screen.rs:134-147, and then, also when that panicked, its
      field [term].  [restore] (windows/terminal.rs:226-228, 407-410) locks the reader, then
      the writer; [exit_screen] (windows/terminal.rs:218-220) locks the writer. *)
  Definition wleave_p (l : list bool) (x : wpscr) : fate wterm unit :=
    let t := g_t (q_s x) in
    if q_r x || q_w x then Unwinds t l
    else match on_reader (win_restore (g_state (q_s x))) t with
         | Ret t _ => match win_exit_screen (g_old (q_s x)) t with
                      | Ret t _ => Goes t l tt
                      | Fail t _ => eprintln false l t
                      | Panic => Ends true
                      | Blocked => Ends false
                      end
         | Fail t _ => eprintln false l t
         | Panic => Ends true
         | Blocked => Ends false
         end.
  Definition wscreen_drop_p (l : list bool) (x : wpscr) : fate wterm unit :=
    match wleave_p l x with
    | Goes t l _ => wterminal_drop_p (q_w x) false l t
    | Unwinds t l => fbind (wterminal_drop_p (q_w x) true l t) (fun t l _ => Unwinds t l)
    | Aborts => Aborts
    | Ends p => Ends p
    end.
End WinStderr.
