(** Computing schedules on Windows, for the examples (C111, C112). *)
From Verif Require Import Base M_Locks S_Locks S_Together P_Sched M_WinLocks S_WinLocks.

Section Sched.
  Context {Wd Dd : Type}.
  Variable M : access Wd Dd.

  (** The next step of thread [i], if it can take one without an answer of the environment. *)
  Definition wsstep (i : nat) (c : wconfig Wd Dd) : option (event * wconfig Wd Dd) :=
    let '(WConfig t o s) := c in
    match t i with
    | Acq l k => match o l with
                 | None => Some (EvAcq i l, WConfig (set_thread i k t) (set_owner l (Some i) o) s)
                 | Some _ => None
                 end
    | Rel l k => match o l with
                 | Some j => if j =? i then Some (EvRel i l, WConfig (set_thread i k t) (set_owner l None o) s) else None
                 | None => None
                 end
    | Act a k => let '(s', r) := wmeans M a s in Some (EvAct i a r, WConfig (set_thread i (k r) t) o s')
    | _ => None
    end.
  Lemma wsstep_ok i c e c' : wsstep i c = Some (e, c') -> M_WinLocks.wstep M c e c'.
  Proof.
    destruct c as [t o s]. cbn [wsstep]. destruct (t i) as [|l k|l k k'|l k|a k|k] eqn:Et; try discriminate.
    - destruct (o l) eqn:Eo; [discriminate|]. intros H. injection H as <- <-. now constructor.
    - destruct (o l) as [j|] eqn:Eo; [|discriminate]. destruct (Nat.eqb_spec j i) as [->|]; [|discriminate].
      intros H. injection H as <- <-. now constructor.
    - destruct (wmeans M a s) as [s' r] eqn:Em. intros H. injection H as <- <-. now constructor.
  Qed.

  Fixpoint wsrun (l : list nat) (tr : list event) (c : wconfig Wd Dd) : option (list event * wconfig Wd Dd) :=
    match l with
    | [] => Some (tr, c)
    | i :: l => match wsstep i c with Some (e, c) => wsrun l (tr ++ [e]) c | None => None end
    end.
  Lemma wsrun_ok l : forall tr c0 c tr' c', wrun M c0 tr c -> wsrun l tr c = Some (tr', c') -> wrun M c0 tr' c'.
  Proof.
    induction l as [|i l IH]; intros tr c0 c tr' c' R H; cbn in H.
    - now injection H as <- <-.
    - destruct (wsstep i c) as [[e c1]|] eqn:Es; [|discriminate]. refine (IH _ _ _ _ _ _ H).
      eapply wrun_snoc; [exact R|exact (wsstep_ok _ _ _ _ Es)].
  Qed.

  Lemma wthread_past (l : list client) s tr c i : wrun M (wstart l s) tr c -> length l <= i -> wthreads c i = Done.
  Proof.
    intros R Hi. remember (wstart l s) as c0 eqn:Ec. induction R as [|tr c1 e c2 R IH St].
    - subst. cbn. now rewrite nth_overflow.
    - destruct St as [j l' k t o d Ht Ho|j l' k k' t o d Ht Ho|j l' k k' j' t o d Ht Ho
                   |j l' k t o d Ht Ho|j a k t o d d' r Ht Ho|j k x t o d Ht]; cbn [wthreads] in *;
      unfold set_thread; destruct (Nat.eqb_spec i j) as [->|]; auto; congruence.
  Qed.

  (** The clients run to their ends with the schedule and no access fails; test the shared
      data. *)
  Definition wends (l : list client) (s : Wd * Dd) (sch : list nat) (P : Wd -> Dd -> bool) : bool :=
    match wsrun sch [] (wstart l s) with
    | Some (tr, c) =>
        forallb (fun i => is_done (wthreads c i)) (seq 0 (length l)) && negb (existsb is_fail tr) &&
        P (fst (wshared c)) (snd (wshared c))
    | None => false
    end.
  Lemma wends_ok l s sch P : wends l s sch P = true ->
    exists tr c, wrun M (wstart l s) tr c /\ wfinished c /\ no_failure tr /\ P (fst (wshared c)) (snd (wshared c)) = true.
  Proof.
    unfold wends. destruct (wsrun sch [] (wstart l s)) as [[tr c]|] eqn:Er; [|discriminate]. intros H.
    apply andb_prop in H. destruct H as [H H3]. apply andb_prop in H. destruct H as [H1 H2].
    assert (R := wsrun_ok sch [] _ _ tr c (wrun_nil _ _) Er).
    exists tr, c. split; [exact R|]. split; [|split; [|exact H3]].
    - intros i. destruct (Nat.lt_ge_cases i (length l)) as [Hi|Hi]; [|exact (wthread_past _ _ _ _ _ R Hi)].
      rewrite forallb_forall in H1. specialize (H1 i). rewrite in_seq in H1. specialize (H1 ltac:(lia)).
      destruct (wthreads c i); try discriminate. reflexivity.
    - apply no_fail_ok. now destruct (existsb is_fail tr).
  Qed.
End Sched.
