(** Model of the file descriptors of Unix terminals (/repo/src/unix/terminal.rs:66-74,
    100-139, 299-310, 466-486, 1134-1147).  Only descriptors are modelled here: who opens
    and closes them, and what they refer to. *)
From Verif Require Import Base.
Local Open Scope N_scope.

(** The descriptors of a [Terminal] (66-74), and whether its write lock is poisoned. *)
Record tdesc : Type := TDesc { in_fd : N; out_fd : N; owned_fd : bool; wpoisoned : bool }.

(** The process: what its open descriptors refer to (the kernel's table), and its
    terminals. *)
Record ftable : Type := FTable { files : N -> option N; terms : nat -> option tdesc }.
Definition with_files (f : N -> option N) (s : ftable) : ftable := FTable f (terms s).
Definition with_terms (t : nat -> option tdesc) (s : ftable) : ftable := FTable (files s) t.
Definition setf {A} (k : N) (x : A) (f : N -> A) : N -> A := fun n => if n =? k then x else f n.
Definition seth {A} (k : nat) (x : A) (f : nat -> A) : nat -> A := fun n => if (n =? k)%nat then x else f n.

(** [close_fd] (1134-1136). *)
Definition close_fd (fd : N) (s : ftable) : ftable := with_files (setf fd None (files s)) s.

(** Calls, and what others do.  [h] names the terminal; [fd], [f] are the kernel's choice:
    the new descriptor and what it refers to ([None]: opening fails); [info] is whether
    [Database::from_env] succeeds. *)
Inductive fop : Type :=
| FOpen (h : nat) (k : option (N * N)) (info : bool)
| FStdout (h : nat) (info : bool)
| FStderr (h : nat) (info : bool)
| FDrop (h : nat)
| FWait (h : nat)
| FGuardPanic (h : nat)
| FOtherOpen (fd f : N)
| FOtherClose (fd : N).
Inductive freply : Type := ROk | RErr | RPanic.

(** [Terminal::new] (101-119). *)
Definition new_term (h : nat) (i o : N) (owned info : bool) (s : ftable) : ftable * freply :=
  if info then (with_terms (seth h (Some (TDesc i o owned false)) (terms s)) s, ROk) else (s, RErr).

Definition FD_SETSIZE : N := 1024.

(** [None]: cannot happen (a name in use or not in use; a kernel that hands out a
    descriptor that is open). *)
Definition fstep (o : fop) (s : ftable) : option (ftable * freply) :=
  match o with
  (* [Terminal::open] (121-131), [open_rw] (1138-1147) *)
  | FOpen h None _ => Some (s, RErr)
  | FOpen h (Some (fd, f)) info =>
      match files s fd, terms s h with
      | None, None =>
          let s := with_files (setf fd (Some f) (files s)) s in
          let '(s, r) := new_term h fd fd true info s in
          match r with
          | RErr => Some (close_fd fd s, r)
          | _ => Some (s, r)
          end
      | _, _ => None
      end
  (* [Terminal::stdout], [Terminal::stderr] (133-139) *)
  | FStdout h info => match terms s h with None => Some (new_term h 0 1 false info s) | Some _ => None end
  | FStderr h info => match terms s h with None => Some (new_term h 0 2 false info s) | Some _ => None end
  (* [drop] (299-310): [set_cursor_mode] takes the write lock with [expect] (292-296);
     whether it fails otherwise makes no difference here *)
  | FDrop h =>
      match terms s h with
      | None => None
      | Some d =>
          let s := with_terms (seth h None (terms s)) s in
          if wpoisoned d then Some (s, RPanic)
          else Some (if owned_fd d then close_fd (out_fd d) s else s, ROk)
      end
  (* [wait_event] with nothing there yet (466-486): [FdSet::insert] of nix 0.26 panics for
     descriptors from [FD_SETSIZE] on (an assertion of that crate, not in /repo) *)
  | FWait h => match terms s h with
               | None => None
               | Some d => Some (s, if in_fd d <? FD_SETSIZE then ROk else RPanic)
               end
  (* a panic with a write guard in scope *)
  | FGuardPanic h =>
      match terms s h with
      | None => None
      | Some d => Some (with_terms (seth h (Some (TDesc (in_fd d) (out_fd d) (owned_fd d) true)) (terms s)) s, RPanic)
      end
  (* the rest of the program *)
  | FOtherOpen fd f => match files s fd with None => Some (with_files (setf fd (Some f) (files s)) s, ROk) | Some _ => None end
  | FOtherClose fd => Some (close_fd fd s, ROk)
  end.
