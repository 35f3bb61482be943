(** Specification vocabulary for any programs that share a [Screen] (C116). *)
From Verif Require Import Base M_Utf8 M_Geom M_Attr M_Buf S_Buf M_Writer S_Tty S_Writer M_Screen S_Screen M_ScreenApi
  S_Canvas M_Locks S_CursorMode.

(** A call of a method of [Screen] or one of its guards that draws no double-width text. *)
Definition screen_call (E : env) (c : call) : Prop :=
  match c with
  | SLockRead | SLockWrite | STryLockRead | STryLockWrite | SWait | SRead | SRefresh | SSetCursorMode _
  | SRDrop | SRWait | SRRead | SWDrop | SWRefresh | SWSetCursorMode _ => True
  | SBuf o | SWBuf o => exists m, o = sforward m /\ no_wide E (method_text m)
  | _ => False
  end.
Fixpoint screen_program (E : env) (p : client) : Prop :=
  match p with
  | Finish => True
  | Call c k => screen_call E c /\ forall r, screen_program E (k r)
  end.

(** What can happen to a screen. *)
Inductive mark : Type := Drawn (m : smethod) | Shown | Asked (m : cursor_mode) | Fitted (sz : size).

(** Methods of [Screen], and of its write guard. *)
Inductive alone : call -> mark -> Prop :=
| alone_draw m : alone (SBuf (sforward m)) (Drawn m)
| alone_show : alone SRefresh Shown
| alone_mode m : alone (SSetCursorMode m) (Asked m).
Inductive through : call -> mark -> Prop :=
| through_draw m : through (SWBuf (sforward m)) (Drawn m)
| through_show : through SWRefresh Shown
| through_mode m : through (SWSetCursorMode m) (Asked m).

Definition reads (c : call) : Prop := c = SRead \/ c = SRRead.
(** What calls that concern only the input may answer, other than with a new size. *)
Definition input_answer (c : call) (r : ans) : Prop :=
  match c with
  | SLockRead | SRDrop => r = AOk
  | STryLockRead => r = AOk \/ r = AWouldBlock
  | SWait | SRWait => r = AOk \/ exists n, r = AOther n
  | SRead | SRRead => (exists n, r = AOther n) \/ exists e, r = AErr e
  | _ => False
  end.

(** What a program may have done, in pieces that nothing interrupts: [g] is what it has done
    so far through the write guard, if it holds one.  Dropping the guard shows the screen. *)
Inductive did : option (list mark) -> client -> list (list mark) -> Prop :=
| did_end : did None Finish []
| did_alone c k x l : alone c x -> did None (k AOk) l -> did None (Call c k) ([x] :: l)
| did_lock c k l : c = SLockWrite \/ c = STryLockWrite -> did (Some []) (k AOk) l -> did None (Call c k) l
| did_locked k l : did None (k AWouldBlock) l -> did None (Call STryLockWrite k) l
| did_through c k x g l : through c x -> did (Some (g ++ [x])) (k AOk) l -> did (Some g) (Call c k) l
| did_drop k g l : did None (k AOk) l -> did (Some g) (Call SWDrop k) ((g ++ [Shown]) :: l)
| did_told c k sz l : reads c -> did None (k (AResized sz)) l -> did None (Call c k) ([Fitted sz] :: l)
| did_input g c k r l : input_answer c r -> did g (k r) l -> did g (Call c k) l.

(** The canvas after all that. *)
Fixpoint marked (E : env) (l : list mark) (k : canvas) : canvas :=
  match l with
  | [] => k
  | Drawn m :: l => marked E l (draw E m k)
  | Fitted sz :: l => marked E l (refit sz k)
  | _ :: l => marked E l k
  end.
(** The canvas when it was last shown. *)
Fixpoint last_shown (E : env) (l : list mark) (k : canvas) (last : option canvas) : option canvas :=
  match l with
  | [] => last
  | Drawn m :: l => last_shown E l (draw E m k) last
  | Fitted sz :: l => last_shown E l (refit sz k) last
  | Shown :: l => last_shown E l k (Some k)
  | Asked _ :: l => last_shown E l k last
  end.
(** Whether the cursor should be visible, and whether nothing was asked since it was shown. *)
Fixpoint asked (l : list mark) (b : bool) : bool :=
  match l with
  | [] => b
  | Asked m :: l => asked l (visible_in m)
  | _ :: l => asked l b
  end.
Fixpoint sent_all (l : list mark) (b : bool) : bool :=
  match l with
  | [] => b
  | Asked _ :: l => sent_all l false
  | Shown :: l => sent_all l true
  | _ :: l => sent_all l b
  end.

(** The same size all the time. *)
Definition one_size (l : list mark) : Prop := forall sz, ~ In (Fitted sz) l.
