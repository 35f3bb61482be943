From Coq Require Import String.
From Verif Require Import Base M_Signal S_Signal.
Local Open Scope N_scope.

(** Representation invariant: only the six signal bits. *)
Definition canon (x : sigset) : Prop := x < 64.

Definition all64 : list N := map N.of_nat (seq 0 64).

Lemma all64_in x : canon x <-> In x all64.
Proof.
  unfold canon, all64. rewrite in_map_iff. split.
  - intros H. exists (N.to_nat x). split; [lia|]. apply in_seq. lia.
  - intros (n & <- & Hn). apply in_seq in Hn. lia.
Qed.

Definition sig_eqb (s t : signal) : bool := sig_disc s =? sig_disc t.

Lemma sig_eqb_spec s t : sig_eqb s t = true <-> s = t.
Proof. destruct s, t; unfold sig_eqb; simpl; split; congruence. Qed.

Definition canonb (x : N) : bool := x <? 64.
Lemma canonb_spec x : canonb x = true <-> canon x.
Proof. unfold canonb, canon. lia. Qed.

Definition all_sigs : list signal := [Break; Continue; Interrupt; Resize; Suspend; Quit].
Lemma all_sigs_in s : In s all_sigs.
Proof. destruct s; simpl; auto 10. Qed.

(** One finite sweep over all pairs of canonical representations. *)
Definition binop_ok (x y : N) (s : signal) : bool :=
  let c := ss_contains in
  canonb (ss_difference x y) && canonb (ss_symmetric_difference x y)
  && canonb (ss_intersection x y) && canonb (ss_union x y)
  && Bool.eqb (c (ss_difference x y) s) (c x s && negb (c y s))
  && Bool.eqb (c (ss_symmetric_difference x y) s) (xorb (c x s) (c y s))
  && Bool.eqb (c (ss_intersection x y) s) (c x s && c y s)
  && Bool.eqb (c (ss_union x y) s) (c x s || c y s).

Definition unop_ok (x : N) (s t : signal) : bool :=
  let c := ss_contains in
  canonb (ss_insert x t) && canonb (ss_remove x t) && canonb (ss_inverse x)
  && Bool.eqb (c (ss_insert x t) s) (sig_eqb s t || c x s)
  && Bool.eqb (c (ss_remove x t) s) (negb (sig_eqb s t) && c x s)
  && Bool.eqb (c (ss_inverse x) s) (negb (c x s)).

Definition query_ok (x y : N) : bool :=
  Bool.eqb (ss_contains_all x y) (forallb (fun s => implb (ss_contains y s) (ss_contains x s)) all_sigs)
  && Bool.eqb (ss_intersects x y) (existsb (fun s => ss_contains y s && ss_contains x s) all_sigs)
  && Bool.eqb (ss_is_empty x) (forallb (fun s => negb (ss_contains x s)) all_sigs)
  && Bool.eqb (ss_eq x y) (forallb (fun s => Bool.eqb (ss_contains x s) (ss_contains y s)) all_sigs).

Lemma sweep2 (P : N -> N -> bool) :
  forallb (fun x => forallb (P x) all64) all64 = true ->
  forall x y, canon x -> canon y -> P x y = true.
Proof.
  intros H x y Hx Hy. apply all64_in in Hx, Hy.
  rewrite forallb_forall in H. specialize (H x Hx). rewrite forallb_forall in H. auto.
Qed.

Lemma binop_sweep x y s : canon x -> canon y -> binop_ok x y s = true.
Proof.
  intros Hx Hy. apply (sweep2 (fun x y => binop_ok x y s)); auto.
  destruct s; vm_compute; reflexivity.
Qed.

Lemma unop_sweep x s t : canon x -> unop_ok x s t = true.
Proof.
  intros Hx. apply all64_in in Hx.
  assert (H : forallb (fun x => unop_ok x s t) all64 = true)
    by (destruct s, t; vm_compute; reflexivity).
  rewrite forallb_forall in H. auto.
Qed.

Lemma query_sweep x y : canon x -> canon y -> query_ok x y = true.
Proof. apply sweep2. vm_compute. reflexivity. Qed.

Ltac split_andb H := repeat (apply andb_true_iff in H; destruct H as [H ?]).

Lemma binop_facts x y s : canon x -> canon y ->
  canon (ss_difference x y) /\ canon (ss_symmetric_difference x y) /\
  canon (ss_intersection x y) /\ canon (ss_union x y) /\
  ss_contains (ss_difference x y) s = (ss_contains x s && negb (ss_contains y s))%bool /\
  ss_contains (ss_symmetric_difference x y) s = xorb (ss_contains x s) (ss_contains y s) /\
  ss_contains (ss_intersection x y) s = (ss_contains x s && ss_contains y s)%bool /\
  ss_contains (ss_union x y) s = (ss_contains x s || ss_contains y s)%bool.
Proof.
  intros Hx Hy. pose proof (binop_sweep x y s Hx Hy) as H. unfold binop_ok in H. cbv zeta in H.
  split_andb H. repeat split; try (apply canonb_spec; assumption); now apply Bool.eqb_prop.
Qed.

Lemma unop_facts x s t : canon x ->
  canon (ss_insert x t) /\ canon (ss_remove x t) /\ canon (ss_inverse x) /\
  ss_contains (ss_insert x t) s = (sig_eqb s t || ss_contains x s)%bool /\
  ss_contains (ss_remove x t) s = (negb (sig_eqb s t) && ss_contains x s)%bool /\
  ss_contains (ss_inverse x) s = negb (ss_contains x s).
Proof.
  intros Hx. pose proof (unop_sweep x s t Hx) as H. unfold unop_ok in H. cbv zeta in H.
  split_andb H. repeat split; try (apply canonb_spec; assumption); now apply Bool.eqb_prop.
Qed.

Lemma new_facts : canon ss_new /\ forall s, ss_contains ss_new s = false.
Proof. split; [reflexivity|]. intros []; reflexivity. Qed.

Lemma all_facts : canon ss_all /\ forall s, ss_contains ss_all s = true.
Proof. split; [reflexivity|]. intros []; reflexivity. Qed.

Lemma extend_facts l : forall x, canon x ->
  canon (ss_extend x l) /\
  forall s, ss_contains (ss_extend x l) s = true <-> In s l \/ ss_contains x s = true.
Proof.
  induction l as [|t l IH]; intros x Hx.
  - unfold ss_extend; simpl. split; [assumption|]. tauto.
  - assert (Hc : canon (ss_insert x t)) by apply (unop_facts x t t Hx).
    destruct (IH _ Hc) as [H1 H2]. unfold ss_extend in *. simpl. split; [assumption|].
    intros s. rewrite H2. destruct (unop_facts x s t Hx) as (_ & _ & _ & -> & _).
    rewrite orb_true_iff, sig_eqb_spec. split; intuition congruence.
Qed.

Lemma eval_facts e : canon (ss_eval e) /\ forall s, ss_contains (ss_eval e) s = true <-> denotes e s.
Proof.
  induction e; simpl.
  - destruct new_facts as [H1 H2]. split; [assumption|]. intros s. rewrite H2. intuition congruence.
  - destruct all_facts as [H1 H2]. split; [assumption|]. intros s. rewrite H2. intuition congruence.
  - split; [destruct s; reflexivity|]. intros s'. destruct s, s'; vm_compute; intuition congruence.
  - split; [destruct s, t; reflexivity|]. intros s'. destruct s, t, s'; vm_compute; intuition congruence.
  - split; [destruct s; reflexivity|]. intros s'. destruct s, s'; vm_compute; intuition congruence.
  - destruct IHe as [Hc Hd]. split; [apply (unop_facts _ s s Hc)|]. intros s'.
    destruct (unop_facts _ s' s Hc) as (_ & _ & _ & -> & _ & _).
    rewrite orb_true_iff, sig_eqb_spec, Hd. tauto.
  - destruct IHe as [Hc Hd]. split; [apply (unop_facts _ s s Hc)|]. intros s'.
    destruct (unop_facts _ s' s Hc) as (_ & _ & _ & _ & -> & _).
    rewrite andb_true_iff, negb_true_iff, <- not_true_iff_false, sig_eqb_spec, Hd. tauto.
  - destruct IHe as [Hc Hd]. unfold ss_set. destruct b.
    + split; [apply (unop_facts _ s s Hc)|]. intros s'.
      destruct (unop_facts _ s' s Hc) as (_ & _ & _ & -> & _ & _).
      rewrite orb_true_iff, sig_eqb_spec, Hd. tauto.
    + split; [apply (unop_facts _ s s Hc)|]. intros s'.
      destruct (unop_facts _ s' s Hc) as (_ & _ & _ & _ & -> & _).
      rewrite andb_true_iff, negb_true_iff, <- not_true_iff_false, sig_eqb_spec, Hd. tauto.
  - destruct IHe1 as [Hc1 Hd1], IHe2 as [Hc2 Hd2]. split; [apply (binop_facts _ _ Break Hc1 Hc2)|].
    intros s. destruct (binop_facts _ _ s Hc1 Hc2) as (_ & _ & _ & _ & -> & _).
    rewrite <- Hd1, <- Hd2, andb_true_iff, negb_true_iff, <- not_true_iff_false. tauto.
  - destruct IHe1 as [Hc1 Hd1], IHe2 as [Hc2 Hd2]. split; [apply (binop_facts _ _ Break Hc1 Hc2)|].
    intros s. destruct (binop_facts _ _ s Hc1 Hc2) as (_ & _ & _ & _ & _ & -> & _).
    rewrite <- Hd1, <- Hd2. destruct (ss_contains _ s), (ss_contains _ s); simpl; intuition congruence.
  - destruct IHe1 as [Hc1 Hd1], IHe2 as [Hc2 Hd2]. split; [apply (binop_facts _ _ Break Hc1 Hc2)|].
    intros s. destruct (binop_facts _ _ s Hc1 Hc2) as (_ & _ & _ & _ & _ & _ & -> & _).
    rewrite <- Hd1, <- Hd2, andb_true_iff. tauto.
  - destruct IHe1 as [Hc1 Hd1], IHe2 as [Hc2 Hd2]. split; [apply (binop_facts _ _ Break Hc1 Hc2)|].
    intros s. destruct (binop_facts _ _ s Hc1 Hc2) as (_ & _ & _ & _ & _ & _ & _ & ->).
    rewrite <- Hd1, <- Hd2, orb_true_iff. tauto.
  - destruct IHe as [Hc Hd]. split; [apply (unop_facts _ Break Break Hc)|]. intros s.
    destruct (unop_facts _ s s Hc) as (_ & _ & _ & _ & _ & ->).
    rewrite <- Hd, negb_true_iff, <- not_true_iff_false. tauto.
  - destruct IHe as [Hc Hd]. destruct (extend_facts l _ Hc) as [H1 H2]. split; [assumption|].
    intros s. rewrite H2, Hd. tauto.
  - destruct (extend_facts l _ (proj1 new_facts)) as [H1 H2]. split; [assumption|].
    intros s. unfold ss_from_iter. rewrite H2, (proj2 new_facts). intuition congruence.
Qed.

Lemma query_facts e f :
  (ss_contains_all (ss_eval e) (ss_eval f) = true <-> forall s, denotes f s -> denotes e s) /\
  (ss_intersects (ss_eval e) (ss_eval f) = true <-> exists s, denotes f s /\ denotes e s) /\
  (ss_is_empty (ss_eval e) = true <-> forall s, ~ denotes e s) /\
  (ss_eq (ss_eval e) (ss_eval f) = true <-> forall s, denotes e s <-> denotes f s).
Proof.
  destruct (eval_facts e) as [Hc1 Hd1], (eval_facts f) as [Hc2 Hd2].
  pose proof (query_sweep _ _ Hc1 Hc2) as H. unfold query_ok in H.
  apply andb_true_iff in H as [H H4]. apply andb_true_iff in H as [H H3].
  apply andb_true_iff in H as [H1 H2].
  apply Bool.eqb_prop in H1, H2, H3, H4. rewrite H1, H2, H3, H4.
  split; [|split; [|split]].
  - rewrite forallb_forall. split.
    + intros Ha s. rewrite <- Hd1, <- Hd2. specialize (Ha s (all_sigs_in s)).
      destruct (ss_contains (ss_eval f) s), (ss_contains (ss_eval e) s); simpl in *; congruence.
    + intros Ha s _. specialize (Ha s). rewrite <- Hd1, <- Hd2 in Ha.
      destruct (ss_contains (ss_eval f) s), (ss_contains (ss_eval e) s); simpl in *; intuition congruence.
  - rewrite existsb_exists. split.
    + intros (s & _ & Ha). exists s. rewrite <- Hd1, <- Hd2. now apply andb_true_iff.
    + intros (s & Ha). exists s. split; [apply all_sigs_in|].
      rewrite <- Hd1, <- Hd2 in Ha. now apply andb_true_iff.
  - rewrite forallb_forall. split.
    + intros Ha s. rewrite <- Hd1. specialize (Ha s (all_sigs_in s)).
      destruct (ss_contains (ss_eval e) s); simpl in *; congruence.
    + intros Ha s _. specialize (Ha s). rewrite <- Hd1 in Ha.
      destruct (ss_contains (ss_eval e) s); simpl in *; intuition congruence.
  - rewrite forallb_forall. split.
    + intros Ha s. specialize (Ha s (all_sigs_in s)). rewrite <- Hd1, <- Hd2.
      apply Bool.eqb_prop in Ha. rewrite Ha. tauto.
    + intros Ha s _. specialize (Ha s). rewrite <- Hd1, <- Hd2 in Ha.
      destruct (ss_contains (ss_eval f) s), (ss_contains (ss_eval e) s); simpl in *; intuition congruence.
Qed.

Lemma debug_facts e :
  ss_debug (ss_eval e) =
  ("SignalSet(" ++ joined (map snd (filter (fun p => ss_contains (ss_eval e) (fst p)) names)) ++ ")")%string.
Proof.
  destruct (eval_facts e) as [Hc _]. apply all64_in in Hc.
  assert (H : forallb (fun x => String.eqb (ss_debug x)
     ("SignalSet(" ++ joined (map snd (filter (fun p => ss_contains x (fst p)) names)) ++ ")")) all64 = true)
    by (vm_compute; reflexivity).
  rewrite forallb_forall in H. apply String.eqb_eq. apply (H _ Hc).
Qed.

Lemma iter_facts e l :
  ss_eq (ss_eval (XExtend e l)) (ss_eval (XUnion e (XFromIter l))) = true /\
  (forall l', (forall s, In s l <-> In s l') -> ss_eq (ss_eval (XFromIter l)) (ss_eval (XFromIter l')) = true).
Proof.
  split.
  - apply query_facts. intros s. simpl. tauto.
  - intros l' Hl. apply query_facts. exact Hl.
Qed.
