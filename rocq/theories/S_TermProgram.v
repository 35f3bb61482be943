(** Specification vocabulary for any programs that share a [Terminal] (C118). *)
From Verif Require Import Base M_Utf8 M_Geom M_Attr M_Buf M_Writer M_Api M_Locks.

(** A call of a method of [Terminal] or one of its guards.  Output methods get arguments that
    satisfy [T]; mouse reports are turned off only if [X] (which says that they can be turned
    on). *)
Definition terminal_call (X : Prop) (T : tmethod -> Prop) (c : call) : Prop :=
  match c with
  | TLockRead | TLockWrite | TTryLockRead | TTryLockWrite | TSize | TWait | TRead | TPrepare _ _ _
  | RDrop | RWait | RRead | RPrepare _ _ _ | RPrepareWithLock _ _ _ | WDrop => True
  | TRestore mouse _ | RRestore mouse _ | RRestoreWithLock mouse _ => mouse = true -> X
  | TWrite o | WDo o => exists m, o = forward m /\ T m
  | _ => False
  end.
Fixpoint terminal_program (X : Prop) (T : tmethod -> Prop) (p : client) : Prop :=
  match p with
  | Finish => True
  | Call c k => terminal_call X T c /\ forall r, terminal_program X T (k r)
  end.

(** Moving by nothing. *)
Definition idle (m : tmethod) : Prop :=
  m = TMoveUp 0 \/ m = TMoveDown 0 \/ m = TMoveLeft 0 \/ m = TMoveRight 0.

(** What the calls that show nothing may answer. *)
Definition quiet_answer (c : call) (r : ans) : Prop :=
  match c with
  | TLockRead | RDrop | TPrepare _ _ _ | TRestore _ _ | RPrepare _ _ _ | RRestore _ _
  | RPrepareWithLock _ _ _ | RRestoreWithLock _ _ => r = AOk
  | TTryLockRead => r = AOk \/ r = AWouldBlock
  | TSize | TWait | RWait | TRead | RRead => r <> AWouldBlock /\ r <> AGone
  | _ => False
  end.

(** What a program may have written, in pieces that nothing interrupts: [g] is what it has
    written so far through the write guard, if it holds one. *)
Inductive wrote : option (list tmethod) -> client -> list (list tmethod) -> Prop :=
| wrote_end : wrote None Finish []
| wrote_alone m k l : wrote None (k AOk) l -> wrote None (Call (TWrite (forward m)) k) ([m] :: l)
| wrote_idle m k l : idle m -> wrote None (k AOk) l -> wrote None (Call (TWrite (forward m)) k) l
| wrote_lock c k l : c = TLockWrite \/ c = TTryLockWrite -> wrote (Some []) (k AOk) l -> wrote None (Call c k) l
| wrote_locked k l : wrote None (k AWouldBlock) l -> wrote None (Call TTryLockWrite k) l
| wrote_through m k g l : wrote (Some (g ++ [m])) (k AOk) l -> wrote (Some g) (Call (WDo (forward m)) k) l
| wrote_drop k g l : wrote None (k AOk) l -> wrote (Some g) (Call WDrop k) (g :: l)
| wrote_quiet g c k r l : quiet_answer c r -> wrote g (k r) l -> wrote g (Call c k) l.
