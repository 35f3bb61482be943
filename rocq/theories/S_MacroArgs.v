(** [term_write!] whose expressions call methods of the terminal or screen it writes to
    (C120). *)
From Verif Require Import Base M_Geom M_Buf M_Writer M_Locks S_Locks.

(** An element: what its expressions call, in order, and then what it does. *)
Definition calling (cs : list call) (k : client) : client := fold_right (fun c k => Call c (fun _ => k)) k cs.

(** What the documentation gives as equivalent (macros.rs:17-44): a method of the terminal
    for each element, with the expressions as arguments, up to the first error. *)
Fixpoint term_methods (els : list (list call * wop)) (k : ans -> client) : client :=
  match els with
  | [] => k AOk
  | (cs, o) :: els =>
      calling cs (Call (TWrite o) (fun r => match r with AOk => term_methods els k | _ => k r end))
  end.
Fixpoint screen_methods (els : list (list call * buf_op)) (k : client) : client :=
  match els with
  | [] => k
  | (cs, o) :: els => calling cs (Call (SBuf o) (fun _ => screen_methods els k))
  end.

(** What the macros do (macros.rs:77-115, 323-340; terminal.rs:844-846, screen.rs:358-360):
    the expressions are evaluated with the guard held. *)
Fixpoint term_guard (els : list (list call * wop)) (k : ans -> client) : client :=
  match els with
  | [] => Call WDrop (fun _ => k AOk)
  | (cs, o) :: els =>
      calling cs (Call (WDo o) (fun r => match r with AOk => term_guard els k | _ => Call WDrop (fun _ => k r) end))
  end.
Definition term_macro (els : list (list call * wop)) (k : ans -> client) : client :=
  Call TLockWrite (fun _ => term_guard els k).
Fixpoint screen_guard (els : list (list call * buf_op)) (k : client) : client :=
  match els with
  | [] => Call SWDrop (fun _ => k)
  | (cs, o) :: els => calling cs (Call (SWBuf o) (fun _ => screen_guard els k))
  end.
Definition screen_macro (els : list (list call * buf_op)) (k : client) : client :=
  Call SLockWrite (fun _ => screen_guard els k).

(** Methods of [Terminal] and of [Screen] that an expression may call: any but those that
    hand out guards. *)
Definition term_call (c : call) : Prop :=
  match c with TSize | TWait | TRead | TPrepare _ _ _ | TRestore _ _ | TWrite _ => True | _ => False end.
Definition screen_call (c : call) : Prop :=
  match c with SWait | SRead | SRefresh | SSetCursorMode _ | SBuf _ => True | _ => False end.

(** Methods that begin by locking what [term_write!] has locked: [size], everything that
    writes, [refresh], everything that draws. *)
Definition writes (c : call) : Prop :=
  match c with
  | TSize => True
  | TWrite (OMoveUp 0) | TWrite (OMoveDown 0) | TWrite (OMoveLeft 0) | TWrite (OMoveRight 0) => False
  | TWrite _ => True
  | _ => False
  end.
Definition draws (c : call) : Prop :=
  match c with SRefresh | SSetCursorMode _ | SBuf _ => True | _ => False end.
