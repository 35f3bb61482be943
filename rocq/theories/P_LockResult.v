(** Proofs about the lock results. *)
From Verif Require Import Base M_LockResult S_LockResult.

Lemma both_facts :
  forall (T U R : Type) (x : lock_result T) (y : lock_result U) (f : T -> U -> R) (a : T) (b : U),
  (x = LOk a \/ x = LPoisoned a) -> (y = LOk b \/ y = LPoisoned b) ->
  (map2_lock_result x y f = LOk (f a b) <-> x = LOk a /\ y = LOk b) /\
  (map2_lock_result x y f = LOk (f a b) \/ map2_lock_result x y f = LPoisoned (f a b)) /\
  (map2_lock_result x y f <> LPoisoned (f a b) -> x = LOk a /\ y = LOk b).
Proof.
  intros T U R x y f a b [->| ->] [->| ->]; cbn;
    (split; [split; [try discriminate|intros [? ?]; try discriminate] |split]); auto;
    try (intros H; contradict H; reflexivity).
Qed.

Lemma tries_facts :
  forall (T U R : Type) (x : try_result T) (y : try_result U) (f : T -> U -> R),
  (map2_try_lock_result x y f = TWouldBlock <-> x = TWouldBlock \/ y = TWouldBlock) /\
  (forall r, map2_try_lock_result x y f = TOk r <-> exists a b, x = TOk a /\ y = TOk b /\ r = f a b) /\
  (forall r, map2_try_lock_result x y f = TPoisoned r <->
     exists a b, (x = TPoisoned a /\ (y = TOk b \/ y = TPoisoned b) \/ x = TOk a /\ y = TPoisoned b) /\
                 r = f a b).
Proof.
  intros T U R x y f.
  destruct x as [a|a|]; destruct y as [b|b|]; cbn; repeat split; intros; try discriminate; auto;
    try (match goal with H : _ \/ _ |- _ => destruct H; discriminate end);
    try (match goal with H : TOk _ = TOk _ |- _ => injection H as <- end);
    try (match goal with H : TPoisoned _ = TPoisoned _ |- _ => injection H as <- end);
    eauto 8;
    try (match goal with H : exists _ _, _ |- _ => destruct H as (a' & b' & H1 & H2) end).
  all: try (destruct H2 as [H2 H3]; injection H1 as <-; injection H2 as <-; now subst).
  all: try (destruct H2 as [H2 H3]; discriminate).
  all: destruct H1 as [[H1 H3]|[H1 H3]]; try destruct H3 as [H3|H3];
    try discriminate; try (injection H1 as <-); try (injection H3 as <-); now subst.
Qed.

Lemma methods_facts :
  forall m : mutexes,
  terminal_try_lock_read m = try_answer [reader_m m] (GPublic (GTerminalRead GReader)) /\
  terminal_try_lock_write m = try_answer [writer_m m] (GPublic (GTerminalWrite GWriter)) /\
  screen_try_lock_read m = try_answer [reader_m m] (GPublic (GScreenRead (GTerminalRead GReader))) /\
  screen_try_lock_write m =
    try_answer [writer_m m; data_m m] (GPublic (GScreenWrite (GTerminalWrite GWriter) GData)) /\
  terminal_lock_read m = lock_answer [reader_m m] (GPublic (GTerminalRead GReader)) /\
  terminal_lock_write m = lock_answer [writer_m m] (GPublic (GTerminalWrite GWriter)) /\
  screen_lock_read m = lock_answer [reader_m m] (GPublic (GScreenRead (GTerminalRead GReader))) /\
  screen_lock_write m =
    lock_answer [writer_m m; data_m m] (GPublic (GScreenWrite (GTerminalWrite GWriter) GData)).
Proof.
  intros [[[|] [|]] [[|] [|]] [[|] [|]]]; cbn; repeat split.
Qed.
