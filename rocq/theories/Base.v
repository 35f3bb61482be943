(** Common vocabulary of the model. *)
From Coq Require Export List Arith NArith ZArith Lia Bool.
From Coq Require Export ZifyBool ZifyNat ZifyN.
Export ListNotations.

(** Bytes and code points are [N]; a [&str] seen as bytes is a list of bytes. *)
Notation byte := N (only parsing).
Notation bytes := (list N) (only parsing).

(** Outcome of a method taking [&mut self] (state [S]), returning
    [Result<A, E>]:
    - [Ret s a]:  returned [Ok(a)], the new state is [s];
    - [Fail s e]: returned [Err(e)]; [s] includes the mutations made before;
    - [Panic]:    the call panicked;
    - [Blocked]:  the scripted OS responses ran out before the call returned. *)
Inductive out (S E A : Type) : Type :=
| Ret (s : S) (a : A)
| Fail (s : S) (e : E)
| Panic
| Blocked.
Arguments Ret {S E A} s a.
Arguments Fail {S E A} s e.
Arguments Panic {S E A}.
Arguments Blocked {S E A}.

(** Sequencing with the [?] operator. *)
Definition obind {S E A B} (m : out S E A) (k : S -> A -> out S E B) : out S E B :=
  match m with
  | Ret s a => k s a
  | Fail s e => Fail s e
  | Panic => Panic
  | Blocked => Blocked
  end.

Notation "'let!' ( s , a ) ':=' m 'in' k" :=
  (obind m (fun s a => k)) (at level 200, s name, a name, right associativity).

(** [Vec] primitives; [None] is an index panic. *)
Definition vec_insert {A} (i : nat) (x : A) (l : list A) : option (list A) :=
  if i <=? length l then Some (firstn i l ++ x :: skipn i l) else None.

Definition vec_remove {A} (i : nat) (l : list A) : option (A * list A) :=
  match nth_error l i with
  | Some x => Some (x, firstn i l ++ skipn (S i) l)
  | None => None
  end.

Definition vec_set {A} (i : nat) (x : A) (l : list A) : option (list A) :=
  if i <? length l then Some (firstn i l ++ x :: skipn (S i) l) else None.

(** Result of a pure Rust expression that may panic. *)
Inductive pan (A : Type) : Type :=
| Val (a : A)
| Boom.
Arguments Val {A} a.
Arguments Boom {A}.

(** [usize] arithmetic with overflow checks (debug semantics); [umax] is
    [usize::MAX]. *)
Definition uadd (umax a b : nat) : pan nat := if a + b <=? umax then Val (a + b) else Boom.
Definition usub (a b : nat) : pan nat := if b <=? a then Val (a - b) else Boom.
Definition umul (umax a b : nat) : pan nat := if a * b <=? umax then Val (a * b) else Boom.
