(** Specification vocabulary for any programs that share a [Screen], whatever text they
    write (C121).  What the programs do: [mark] and [did] of S_Program. *)
From Verif Require Import Base M_Utf8 M_Geom M_Attr M_Buf S_Buf M_Writer S_Tty S_Writer M_Screen S_Screen M_ScreenApi
  S_Canvas S_WideCanvas M_Locks S_CursorMode S_Program.

(** Calls of the methods of [Screen] and its guards. *)
Definition calls_screen (c : call) : Prop :=
  match c with
  | SLockRead | SLockWrite | STryLockRead | STryLockWrite | SWait | SRead | SRefresh | SSetCursorMode _
  | SRDrop | SRWait | SRRead | SWDrop | SWRefresh | SWSetCursorMode _ => True
  | SBuf o | SWBuf o => exists m, o = sforward m
  | _ => False
  end.
Fixpoint uses_screen (p : client) : Prop :=
  match p with
  | Finish => True
  | Call c k => calls_screen c /\ forall r, uses_screen (k r)
  end.

(** One after the other, without threads, locks and guards: [s] becomes [s'].  A screen
    that is shown may be so twice in a row ([Screen::refresh] drops a write guard).
    Dropping a guard of the terminal may come in between: it flushes, ignoring errors. *)
Inductive in_turn (E : env) (C : tcfg) : list mark -> scr -> scr -> Prop :=
| turn_end s : in_turn E C [] s s
| turn_drawn m l s b s' :
    screen_method E m (sb s) = Val b -> in_turn E C l (with_sb b s) s' -> in_turn E C (Drawn m :: l) s s'
| turn_shown l s s1 s' :
    refresh E C s = Ret s1 tt -> in_turn E C l s1 s' -> in_turn E C (Shown :: l) s s'
| turn_shown_twice l s s1 s2 s' :
    refresh E C s = Ret s1 tt -> refresh E C s1 = Ret s2 tt -> in_turn E C l s2 s' -> in_turn E C (Shown :: l) s s'
| turn_asked m l s s1 s' :
    on_writer (set_cursor_mode C m) s = Ret s1 tt -> in_turn E C l s1 s' -> in_turn E C (Asked m :: l) s s'
| turn_fitted sz l s s1 s' :
    update_size E sz s = Val s1 -> in_turn E C l s1 s' -> in_turn E C (Fitted sz :: l) s s'
| turn_guard l s w u s' :
    guard_drop (wr s) = Ret w u -> in_turn E C l (with_wr w s) s' -> in_turn E C l s s'.

(** The canvas after all that, and when it was last shown since the size changed. *)
Fixpoint wmarked (E : env) (l : list mark) (k : wcanvas) : wcanvas :=
  match l with
  | [] => k
  | Drawn m :: l => wmarked E l (wdraw E m k)
  | Fitted sz :: l => wmarked E l (wrefit sz k)
  | _ :: l => wmarked E l k
  end.
Fixpoint wlast_shown (E : env) (l : list mark) (k : wcanvas) (last : option wcanvas) : option wcanvas :=
  match l with
  | [] => last
  | Drawn m :: l => wlast_shown E l (wdraw E m k) last
  | Fitted sz :: l => wlast_shown E l (wrefit sz k) None
  | Shown :: l => wlast_shown E l k (Some k)
  | Asked _ :: l => wlast_shown E l k last
  end.

(** What C101 excludes (see S_WideCanvas) does not happen. *)
Fixpoint gentle (E : env) (l : list mark) (k : wcanvas) (last : option shot) : Prop :=
  match l with
  | [] => True
  | Drawn m :: l => easy E m k /\ gentle E l (wdraw E m k) last
  | Fitted sz :: l => cuts_nothing sz k /\ gentle E l (wrefit sz k) None
  | Shown :: l => (forall h, last = Some h -> mends h k) /\ gentle E l k (Some (next_shot last k))
  | Asked _ :: l => gentle E l k last
  end.
