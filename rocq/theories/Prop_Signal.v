(** Property theorems for [SignalSet] (C06, C07). *)
From Coq Require Import String.
From Verif Require Import Base M_Signal S_Signal P_Signal.

(** C06: every set built through the API contains exactly the signals the set
    algebra says. *)
Theorem C06_contains_is_membership :
  forall (e : ss_expr) (s : signal), ss_contains (ss_eval e) s = true <-> denotes e s.
Proof. exact (fun e => proj2 (eval_facts e)). Qed.
Print Assumptions C06_contains_is_membership.

(** C06: subset, intersection and emptiness tests, and [==], are extensional. *)
Theorem C06_queries_are_extensional :
  forall e f : ss_expr,
  (ss_contains_all (ss_eval e) (ss_eval f) = true <-> forall s, denotes f s -> denotes e s) /\
  (ss_intersects (ss_eval e) (ss_eval f) = true <-> exists s, denotes f s /\ denotes e s) /\
  (ss_is_empty (ss_eval e) = true <-> forall s, ~ denotes e s) /\
  (ss_eq (ss_eval e) (ss_eval f) = true <-> forall s, denotes e s <-> denotes f s).
Proof. exact query_facts. Qed.
Print Assumptions C06_queries_are_extensional.

Example C06_example :
  let e := XInverse (XInsert (XSym (XSigOr Break Quit) (XFrom Quit)) Resize) in
  map (ss_contains (ss_eval e)) SIGNALS = [false; true; true; false; true; true] /\
  ss_eq (ss_eval e) (ss_eval (XFromIter [Quit; Interrupt; Suspend; Continue; Quit])) = true.
Proof. split; vm_compute; reflexivity. Qed.

(** C07: [{:?}] prints exactly the contained signals in declaration order. *)
Theorem C07_debug_lists_members :
  forall e : ss_expr,
  ss_debug (ss_eval e) =
  ("SignalSet(" ++ joined (map snd (filter (fun p => ss_contains (ss_eval e) (fst p)) names)) ++ ")")%string.
Proof. exact debug_facts. Qed.
Print Assumptions C07_debug_lists_members.

(** C07: [extend] is union with the collected signals; [collect] ignores order
    and multiplicity (membership itself is C06). *)
Theorem C07_extend_and_collect :
  forall (e : ss_expr) (l : list signal),
  ss_eq (ss_eval (XExtend e l)) (ss_eval (XUnion e (XFromIter l))) = true /\
  (forall l', (forall s, In s l <-> In s l') -> ss_eq (ss_eval (XFromIter l)) (ss_eval (XFromIter l')) = true).
Proof. exact iter_facts. Qed.
Print Assumptions C07_extend_and_collect.

Example C07_example :
  ss_debug (ss_eval (XFromIter [Quit; Break; Quit])) = "SignalSet(Break | Quit)"%string.
Proof. vm_compute. reflexivity. Qed.
