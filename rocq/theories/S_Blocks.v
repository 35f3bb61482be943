(** Specification vocabulary for what threads write together (C92). *)
From Verif Require Import Base M_Utf8 M_Geom M_Buf M_Writer S_Writer M_Locks S_Locks.

(** What an access with answer [r] may have added to what was handed to the terminal
    ([contributes], S_Writer.v, says it for the methods of a write guard); preparing,
    restoring and refreshing may send anything. *)
Definition gives (a : act) (r : ans) (x : bytes) : Prop :=
  match a with
  | AW (WOp o) =>
      match r with
      | AOk => contributes o None x
      | AErr e => contributes o (Some e) x
      | _ => False
      end
  | AW WGuardDrop | AD _ => x = []
  | AW (WPrepare _ _ _) | AW (WRestore _ _) | ARefresh => True
  end.

(** The bytes of a session: those of its accesses, in order, and nothing else. *)
Inductive piece : list (act * ans) -> bytes -> Prop :=
| piece_nil : piece [] []
| piece_cons a r l x y : gives a r x -> piece l y -> piece ((a, r) :: l) (x ++ y).

(** [term_write!(terminal, ...)] as a client: one write guard for all the elements, in
    order, up to the first error (macros.rs:77-115, 323-329; C55). *)
Fixpoint macro_body (ops : list wop) (k : client) : client :=
  match ops with
  | [] => Call WDrop (fun _ => k)
  | o :: ops => Call (WDo o) (fun r => match r with AOk => macro_body ops k | _ => Call WDrop (fun _ => k) end)
  end.
Definition macro_client (ops : list wop) (k : client) : client :=
  Call TLockWrite (fun _ => macro_body ops k).
(** A thread that makes several such calls. *)
Definition macros_client (l : list (list wop)) : client := fold_right macro_client Finish l.

(** What one of them sends: what its elements contribute, up to the first error. *)
Inductive macro_bytes : list wop -> bytes -> Prop :=
| mb_end : macro_bytes [] []
| mb_next o ops x y : contributes o None x -> macro_bytes ops y -> macro_bytes (o :: ops) (x ++ y)
| mb_error o ops e x : contributes o (Some e) x -> macro_bytes (o :: ops) x.

(** What thread [i] wrote, of pieces of output marked with their threads. *)
Definition of_thread (i : nat) (l : list (nat * bytes)) : list bytes :=
  map snd (filter (fun b => fst b =? i) l).
