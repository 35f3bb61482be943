(** What the library prints, and what happens when that fails.  The [Drop]s of
    [TerminalWriteGuard], [ScreenWriteGuard], [Terminal] and [Screen] report errors with
    [eprintln!], which panics when standard error cannot be written; M_Writer.v, M_Screen.v
    and M_UnixScreen.v leave that out. *)
From Verif Require Import Base M_Utf8 M_Geom M_Attr M_Buf M_Seq M_Signal M_Util M_Input M_Writer
  M_Screen M_Prepare M_Reader M_UnixScreen.

(** How a call ends: it returns; it panics, and the thread unwinds; the process is aborted,
    which is what a panic during the unwinding of another one does; or it ends as the models
    without printing say ([Panic]: it panics for another reason, [Blocked]: it waits for
    ever).  [errs]: whether the messages to come can be printed (none left: they can). *)
Inductive fate (S A : Type) : Type :=
| Goes (s : S) (errs : list bool) (a : A)
| Unwinds (s : S) (errs : list bool)
| Aborts
| Ends (panic : bool).
Arguments Goes {S A}. Arguments Unwinds {S A}. Arguments Aborts {S A}. Arguments Ends {S A}.

Definition fbind {S A B} (m : fate S A) (k : S -> list bool -> A -> fate S B) : fate S B :=
  match m with
  | Goes s l a => k s l a
  | Unwinds s l => Unwinds s l
  | Aborts => Aborts
  | Ends p => Ends p
  end.

(** [eprintln!]; [unw]: the thread is unwinding already. *)
Definition eprintln {S} (unw : bool) (l : list bool) (s : S) : fate S unit :=
  match l with
  | false :: l => if unw then Aborts else Unwinds s l
  | true :: l => Goes s l tt
  | [] => Goes s [] tt
  end.

(** The same calls on a larger state. *)
Definition within {S T A} (put : S -> T -> T) (t : T) (r : fate S A) : fate T A :=
  match r with
  | Goes s l a => Goes (put s t) l a
  | Unwinds s l => Unwinds (put s t) l
  | Aborts => Aborts
  | Ends p => Ends p
  end.

Section Stderr.
  Variables (E : env) (C : tcfg).

  (** [Drop for TerminalWriteGuard], unix/terminal.rs:1049-1055. *)
  Definition guard_drop_p (unw : bool) (l : list bool) (w : wst) : fate wst unit :=
    match flush w with
    | Ret w _ => Goes w l tt
    | Fail w _ => eprintln unw l w
    | Panic => Ends true
    | Blocked => Ends false
    end.

  (** A convenience method of [Terminal] (unix/terminal.rs:181-269): the guard is dropped
      after the call; what the call replied is the result, unless that panics. *)
  Definition terminal_op_p (unw : bool) (l : list bool) (o : wop) (w : wst) : fate wst (option werr) :=
    match o with
    | OMoveUp 0 | OMoveDown 0 | OMoveLeft 0 | OMoveRight 0 => Goes w l None
    | _ =>
        match run_wop C o w with
        | Ret w _ => fbind (guard_drop_p unw l w) (fun w l _ => Goes w l None)
        | Fail w e => fbind (guard_drop_p unw l w) (fun w l _ => Goes w l (Some e))
        | Panic => Ends true
        | Blocked => Ends false
        end
    end.

  (** [Drop for Terminal], unix/terminal.rs:300-310. *)
  Definition terminal_drop_p (unw : bool) (l : list bool) (w : wst) : fate wst unit :=
    fbind (terminal_op_p unw l (OSetCursorMode CNormal) w)
      (fun w l r => match r with None => Goes w l tt | Some _ => eprintln unw l w end).

  (** [Drop for ScreenWriteGuard], unix/screen.rs:228-234.  Its fields are dropped after
      that, also when it panicked. *)
  Definition screen_guard_drop_p (unw : bool) (l : list bool) (s : scr) : fate scr unit :=
    let fields unw l s := within M_Screen.with_wr s (guard_drop_p unw l (M_Screen.wr s)) in
    match refresh E C s with
    | Ret s _ => fields unw l s
    | Fail s _ =>
        match eprintln unw l s with
        | Unwinds s l => fbind (fields true l s) (fun s l _ => Unwinds s l)
        | r => fbind r (fun s l _ => fields unw l s)
        end
    | Panic => Ends true
    | Blocked => Ends false
    end.

  (** [Screen::refresh], unix/screen.rs:119-121. *)
  Definition screen_refresh_p (l : list bool) (s : scr) : fate scr (option werr) :=
    match refresh E C s with
    | Ret s _ => fbind (screen_guard_drop_p false l s) (fun s l _ => Goes s l None)
    | Fail s e => fbind (screen_guard_drop_p false l s) (fun s l _ => Goes s l (Some e))
    | Panic => Ends true
    | Blocked => Ends false
    end.

  (** A call with the writer locked ([restore], [exit_screen]), and its guard dropped. *)
  Definition locked_p {A} (f : sys -> rres A) (l : list bool) (s : sys) : fate sys (rerr + A) :=
    let drop s := within M_Prepare.with_wr s (guard_drop_p false l (M_Prepare.wr s)) in
    match f s with
    | Ret s a => fbind (drop s) (fun s l _ => Goes s l (inr a))
    | Fail s e => fbind (drop s) (fun s l _ => Goes s l (inl e))
    | Panic => Ends true
    | Blocked => Ends false
    end.

  (** The [drop] of [Screen], unix/screen.rs:124-136, before its fields. *)
  Definition leave_p (l : list bool) (st : pstate) (s : sys) : fate sys unit :=
    fbind (locked_p (restore_with_lock C st) l s) (fun s l r =>
    match r with
    | inl _ => eprintln false l s
    | inr _ => fbind (locked_p (on_wr (exit_screen C)) l s) (fun s l r =>
               match r with inl _ => eprintln false l s | inr _ => Goes s l tt end)
    end).

  (** Dropping a [Screen]: [drop], and then, also when that panicked, the field [term].  If a
      write guard panicked while it was dropped, then its mutex is poisoned, and dropping the
      terminal panics at [expect] (unix/terminal.rs:295-297): that is told apart by
      [poisoned]. *)
  Definition poisoned (l : list bool) (st : pstate) (s : sys) : bool :=
    match locked_p (restore_with_lock C st) l s with
    | Unwinds _ _ => true
    | Goes s l (inr _) => match locked_p (on_wr (exit_screen C)) l s with Unwinds _ _ => true | _ => false end
    | _ => false
    end.
  Definition screen_drop_p (l : list bool) (u : uscr) : fate sys unit :=
    let term unw l s := within M_Prepare.with_wr s (terminal_drop_p unw l (M_Prepare.wr s)) in
    match leave_p l (u_st u) (u_sys u) with
    | Goes s l _ => term false l s
    | Unwinds s l' => if poisoned l (u_st u) (u_sys u) then Aborts
                      else fbind (term true l' s) (fun s l _ => Unwinds s l)
    | Aborts => Aborts
    | Ends p => Ends p
    end.
End Stderr.
