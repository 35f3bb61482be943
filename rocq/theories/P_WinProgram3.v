(** Computing schedules of any programs on Windows, for the example (C117). *)
From Verif Require Import Base M_Locks S_Locks S_Together P_Sched M_WinLocks S_WinLocks P_WinSched S_WinProgram.

Section Sched.
  Context {Wd Dd : Type}.
  Variable M : access Wd Dd.
  Definition wlstep (i : nat) (a : choice) (c : wconfig Wd Dd) : option (event * wconfig Wd Dd) :=
    match wthreads c i with
    | Env k => Some (EvOther i, WConfig (set_thread i (k a) (wthreads c)) (wowner c) (wshared c))
    | TryAcq l k k' => match wowner c l with
                       | None => Some (EvAcq i l, WConfig (set_thread i k (wthreads c)) (set_owner l (Some i) (wowner c)) (wshared c))
                       | Some _ => Some (EvOther i, WConfig (set_thread i k' (wthreads c)) (wowner c) (wshared c))
                       end
    | _ => wsstep M i c
    end.
  Lemma wlstep_ok i a c e c' : wlstep i a c = Some (e, c') -> M_WinLocks.wstep M c e c'.
  Proof.
    unfold wlstep. destruct (wthreads c i) as [|l k|l k k'|l k|b k|k] eqn:Et; try apply wsstep_ok; destruct c as [t o s]; cbn in Et |- *.
    - destruct (o l) as [j|] eqn:Eo; intros H; injection H as <- <-.
      + exact (wstep_try_no M _ _ _ _ _ _ _ _ Et Eo).
      + exact (wstep_try_yes M _ _ _ _ _ _ _ Et Eo).
    - intros H. injection H as <- <-. exact (wstep_env M _ _ _ _ _ _ Et).
  Qed.
  Fixpoint wlrun (l : list (nat * choice)) (tr : list event) (c : wconfig Wd Dd) : option (list event * wconfig Wd Dd) :=
    match l with
    | [] => Some (tr, c)
    | (i, a) :: l => match wlstep i a c with Some (e, c) => wlrun l (tr ++ [e]) c | None => None end
    end.
  Lemma wlrun_ok l : forall tr c0 c tr' c', wrun M c0 tr c -> wlrun l tr c = Some (tr', c') -> wrun M c0 tr' c'.
  Proof.
    induction l as [|[i a] l IH]; intros tr c0 c tr' c' R H; cbn in H.
    - now injection H as <- <-.
    - destruct (wlstep i a c) as [[e c1]|] eqn:Es; [|discriminate]. refine (IH _ _ _ _ _ _ H).
      eapply wrun_snoc; [exact R|exact (wlstep_ok _ _ _ _ _ Es)].
  Qed.

  Definition is_new_size (e : event) : bool := match e with EvAct _ (AD (DUpdateSize _)) _ => true | _ => false end.
  Lemma no_new_size_ok tr : existsb is_new_size tr = false -> no_new_size tr.
  Proof.
    intros H i sz r Hi. assert (X : existsb is_new_size tr = true); [|congruence].
    apply existsb_exists. exists (EvAct i (AD (DUpdateSize sz)) r). auto.
  Qed.

  (** The clients run to their ends with the schedule; no access fails and no new size is
      read; test the shared data. *)
  Definition wlends (l : list client) (s : Wd * Dd) (sch : list (nat * choice)) (P : Wd -> Dd -> bool) : bool :=
    match wlrun sch [] (wstart l s) with
    | Some (tr, c) =>
        forallb (fun i => is_done (wthreads c i)) (seq 0 (length l)) && negb (existsb is_fail tr) && negb (existsb is_new_size tr) &&
        P (fst (wshared c)) (snd (wshared c))
    | None => false
    end.
  Lemma wlends_ok l s sch P : wlends l s sch P = true ->
    exists tr c, wrun M (wstart l s) tr c /\ wfinished c /\ no_failure tr /\ no_new_size tr /\ P (fst (wshared c)) (snd (wshared c)) = true.
  Proof.
    unfold wlends. destruct (wlrun sch [] (wstart l s)) as [[tr c]|] eqn:Er; [|discriminate]. intros H.
    apply andb_prop in H. destruct H as [H H4]. apply andb_prop in H. destruct H as [H H3]. apply andb_prop in H. destruct H as [H1 H2].
    assert (R := wlrun_ok sch [] _ _ tr c (wrun_nil _ _) Er).
    exists tr, c. split; [exact R|]. split; [|split; [|split; [|exact H4]]].
    - intros i. destruct (Nat.lt_ge_cases i (length l)) as [Hi|Hi]; [|exact (wthread_past M _ _ _ _ _ R Hi)].
      rewrite forallb_forall in H1. specialize (H1 i). rewrite in_seq in H1. specialize (H1 ltac:(lia)).
      destruct (wthreads c i); try discriminate. reflexivity.
    - apply no_fail_ok. now destruct (existsb is_fail tr).
    - apply no_new_size_ok. now destruct (existsb is_new_size tr).
  Qed.
End Sched.
