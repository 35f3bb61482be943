(** Specification: a [SignalSet] is a set of signals, given by its
    characteristic predicate. *)
From Coq Require Import String.
From Verif Require Import Base M_Signal.

Fixpoint denotes (e : ss_expr) (s : signal) : Prop :=
  match e with
  | XNew => False
  | XAll => True
  | XFrom t => s = t
  | XSigOr t u => s = t \/ s = u
  | XSigNot t => s <> t
  | XInsert e t => s = t \/ denotes e s
  | XRemove e t => s <> t /\ denotes e s
  | XSet e t b => if b then s = t \/ denotes e s else s <> t /\ denotes e s
  | XDiff e f => denotes e s /\ ~ denotes f s
  | XSym e f => (denotes e s /\ ~ denotes f s) \/ (denotes f s /\ ~ denotes e s)
  | XInter e f => denotes e s /\ denotes f s
  | XUnion e f => denotes e s \/ denotes f s
  | XInverse e => ~ denotes e s
  | XExtend e l => In s l \/ denotes e s
  | XFromIter l => In s l
  end.

(** Names joined by " | ". *)
Definition joined (names : list string) : string := String.concat " | " names.

(** All signals with their printed names, in declaration order. *)
Definition names : list (signal * string) :=
  [(Break, "Break"); (Continue, "Continue"); (Interrupt, "Interrupt");
   (Resize, "Resize"); (Suspend, "Suspend"); (Quit, "Quit")]%string.
