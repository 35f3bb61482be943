(** Specification of who has which descriptor (C88): a ledger kept from the outside. *)
From Verif Require Import Base M_Fds.
Local Open Scope N_scope.

(** What the rest of the program has open, and what each living terminal from
    [Terminal::open] has: its descriptor and what was opened. *)
Record ledger : Type := Ledger { others : N -> option N; opened : nat -> option (N * N) }.
Definition note (o : fop) (r : freply) (l : ledger) : ledger :=
  match o, r with
  | FOpen h (Some x) _, ROk => Ledger (others l) (fun k => if (k =? h)%nat then Some x else opened l k)
  | FDrop h, _ => Ledger (others l) (fun k => if (k =? h)%nat then None else opened l k)
  | FOtherOpen fd f, _ => Ledger (fun n => if n =? fd then Some f else others l n) (opened l)
  | FOtherClose fd, _ => Ledger (fun n => if n =? fd then None else others l n) (opened l)
  | _, _ => l
  end.
(** The rest of the program closes only what it has open. *)
Definition lawful (l : ledger) (o : fop) : Prop :=
  match o with FOtherClose fd => others l fd <> None | _ => True end.

(** Histories from a program without terminals; [bad]: a terminal was dropped after a
    panic with its write guard. *)
Inductive history : ftable -> ledger -> bool -> Prop :=
| HStart f : history (FTable f (fun _ => None)) (Ledger f (fun _ => None)) false
| HStep s l bad o s' r : history s l bad -> lawful l o -> fstep o s = Some (s', r) ->
    history s' (note o r l) (bad || match o, r with FDrop _, RPanic => true | _, _ => false end).

(** Steps one after the other. *)
Fixpoint fruns (ops : list fop) (s : ftable) : option ftable :=
  match ops with
  | [] => Some s
  | o :: ops => match fstep o s with Some (s, _) => fruns ops s | None => None end
  end.
(** The descriptor a terminal on a standard stream writes to. *)
Definition standard (o : fop) : option (nat * N) :=
  match o with FStdout h _ => Some (h, 1) | FStderr h _ => Some (h, 2) | _ => None end.
