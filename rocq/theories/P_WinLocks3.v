(** Proofs about locking on Windows: threads that wait for themselves, and programs
    that behave differently on Windows and on Unix (C89, C91). *)
From Verif Require Import Base M_Geom M_Buf M_Writer M_Locks S_Locks P_Locks M_WinLocks S_WinLocks P_WinLocks.

Lemma no_screen_follows p : forall r w, no_screen p -> follows false r w p -> wfollows true r w p.
Proof.
  induction p as [|c k IH]; intros r w Hn H; [exact H|].
  destruct Hn as [Hc Hn], H as [Ha H]. split; [|intros a; apply IH; auto].
  split; [exact Ha|]. intros ->. discriminate Hc.
Qed.

Lemma careful_follows p : forall r w, follows true r w p -> wfollows true r w p.
Proof.
  induction p as [|c k IH]; intros r w H; [exact H|].
  destruct H as [Ha H]. split; [|intros a; apply IH; auto].
  split.
  - destruct c; cbn in *; try exact Ha; (split; [apply Ha|intros E; discriminate E]).
  - intros ->. left. destruct Ha as [_ Ha]. now apply Ha.
Qed.

Section Win.
Context {Wd Dd : Type}.
Variable M : access Wd Dd.

Lemma terminals_finish l s :
  Forall no_screen l -> Forall (follows false None None) l ->
  Acc (wnext M) (wstart l s) /\
  forall tr c, wrun M (wstart l s) tr c ->
    (wfinished c \/ exists e c', wstep M c e c') /\
    (exists tr' c', wrun M c tr' c' /\ wfinished c') /\
    (wfinished c -> wall_unlocked c).
Proof.
  intros Hn H. apply wall_finish. rewrite Forall_forall in *. intros p Hp.
  apply no_screen_follows; auto.
Qed.

Lemma screen_reads_for_ever c i k :
  wthreads c i = wcompile (Call SRRead k) -> wowner c LData = Some i ->
  forall sz : size, exists c1, wstep M c (EvOther i) c1 /\
    forall tr c2, wrun M c1 tr c2 -> wthreads c2 i = wthreads c1 i /\ wthreads c2 i <> Done.
Proof.
  intros Ht Ho sz. destruct c as [t o s]. cbn in Ht, Ho.
  assert (exists k', t i = Env k' /\ exists k'', k' (CResize (inr sz)) = Acq LData k'') as (k' & Hk & k'' & Hk').
  { eexists; (split; [exact Ht|]); eexists; reflexivity. }
  eexists. split; [apply wstep_env with (c := CResize (inr sz)); exact Hk|].
  intros tr c2 R. cbn.
  pose proof (wwaits_for_itself M _ tr c2 i LData k'' R) as W. cbn in W.
  rewrite set_thread_same in W |- *. specialize (W Hk' Ho). destruct W as [W _].
  rewrite W, Hk'. split; [reflexivity|discriminate].
Qed.

Lemma screen_reader_waits_for_itself s (sz : size) :
  exists p, wfollows false None None p /\
  exists tr c, wrun M (wstart [p] s) tr c /\ ~ wfinished c /\
    forall tr' c', wrun M c tr' c' -> c' = c /\ tr' = [].
Proof.
  exists (stuck_client SLockRead SLockWrite SRRead SWDrop SRDrop).
  split; [cbn; unfold wallowed; cbn; intuition discriminate|].
  assert (R : exists tr c k, wrun M (wstart [stuck_client SLockRead SLockWrite SRRead SWDrop SRDrop] s) tr c /\
    wthreads c 0 = Acq LData k /\ wowner c LData = Some 0 /\ forall i, wthreads c (S i) = Done).
  { do 3 eexists. split.
    - eapply wrun_snoc. 1: eapply wrun_snoc. 1: eapply wrun_snoc. 1: eapply wrun_snoc. 1: apply wrun_nil.
      + eapply (wstep_acq _ 0 LReader); reflexivity.
      + eapply (wstep_acq _ 0 LWriter); reflexivity.
      + eapply (wstep_acq _ 0 LData); reflexivity.
      + eapply (wstep_env _ 0 _ (CResize (inr sz))). reflexivity.
    - cbn. split; [reflexivity|]. split; [reflexivity|]. intros [|i]; reflexivity. }
  destruct R as (tr & c & k & R & Ht & Ho & Hd). exists tr, c. split; [exact R|].
  split; [intros F; rewrite (F 0) in Ht; discriminate Ht|].
  intros tr' c' R'. induction R' as [|tr' c1 e c2 R' [-> ->] St]; [auto|exfalso].
  destruct St as [i l k' t o s' Ht' Ho'|i l k' k'' t o s' Ht' Ho'|i l k' k'' j' t o s' Ht' Ho'
                 |i l k' t o s' Ht' Ho'|i a k' t o s' s'' r Ht' Ho'|i k' x t o s' Ht'];
    cbn in *; (destruct i as [|i]; [|rewrite Hd in Ht'; discriminate Ht']); rewrite Ht in Ht';
    try discriminate Ht'. injection Ht' as <- <-. congruence.
Qed.

(** [prepare] and [restore] of the read guard while holding the write guard. *)
Lemma wprepare_stuck c i k x :
  (exists mouse track keypad, x = RPrepare mouse track keypad) \/ (exists mouse keypad, x = RRestore mouse keypad) ->
  wthreads c i = wcompile (Call x k) -> wowner c LWriter = Some i ->
  forall tr c', wrun M c tr c' -> wthreads c' i = wthreads c i /\ wthreads c' i <> Done.
Proof.
  intros Hx Ht Ho tr c' R.
  assert (exists k', wthreads c i = Acq LWriter k') as [k' Hk].
  { destruct Hx as [(? & ? & ? & ->)|(? & ? & ->)]; rewrite Ht; cbn; eexists; reflexivity. }
  destruct (wwaits_for_itself M c tr c' i LWriter k' R Hk Ho) as [W _].
  rewrite W, Hk. split; [reflexivity|discriminate].
Qed.

Lemma portable_finish E C l (s : Wd * Dd) s' :
  Forall (follows true None None) l ->
  (forall tr c, wrun M (wstart l s) tr c -> exists tr' c', wrun M c tr' c' /\ wfinished c') /\
  (forall tr c, run E C (start l s') tr c -> exists tr' c', run E C c tr' c' /\ finished c').
Proof.
  intros H. split; intros tr c R.
  - refine (proj1 (proj2 (proj2 (wall_finish M l s _) tr c R))).
    eapply Forall_impl; [|exact H]. intros p. apply careful_follows.
  - exact (proj1 (proj2 (proj2 (all_finish E C l s' H) tr c R))).
Qed.
End Win.

Lemma prepare_stuck E C c i k x :
  (exists mouse track keypad, x = RPrepare mouse track keypad) \/ (exists mouse keypad, x = RRestore mouse keypad) ->
  threads c i = compile (Call x k) -> owner c LWriter = Some i ->
  forall tr c', run E C c tr c' -> threads c' i = threads c i /\ threads c' i <> Done.
Proof.
  intros Hx Ht Ho tr c' R.
  assert (exists k', threads c i = Acq LWriter k') as [k' Hk].
  { destruct Hx as [(? & ? & ? & ->)|(? & ? & ->)]; rewrite Ht; cbn; eexists; reflexivity. }
  destruct (waits_for_itself E C c tr c' i LWriter k' R Hk Ho) as [W _].
  rewrite W, Hk. split; [reflexivity|discriminate].
Qed.

(** Never stuck on Windows, stuck on Unix. *)
Lemma not_portable E C s (sz : size) :
  exists p, follows false None None p /\ no_screen p /\
  (forall Wd Dd (M : access Wd Dd) s' tr c, wrun M (wstart [p] s') tr c ->
     exists tr' c', wrun M c tr' c' /\ wfinished c') /\
  exists tr c, run E C (start [p] s) tr c /\ ~ finished c /\
    forall tr' c', run E C c tr' c' -> c' = c /\ tr' = [].
Proof.
  set (p := stuck_client TLockRead TLockWrite RRead WDrop RDrop).
  assert (F : follows false None None p) by (cbn; intuition discriminate).
  assert (N : no_screen p) by (cbn; intuition).
  exists p. split; [exact F|]. split; [exact N|]. split.
  - intros Wd Dd M s' tr c R.
    exact (proj1 (proj2 (proj2 (terminals_finish M [p] s' (Forall_cons _ N (Forall_nil _)) (Forall_cons _ F (Forall_nil _))) tr c R))).
  - assert (R : exists tr c k, run E C (start [p] s) tr c /\
      threads c 0 = Acq LWriter k /\ owner c LWriter = Some 0 /\ forall i, threads c (S i) = Done).
    { do 3 eexists. split.
      - eapply run_snoc. 1: eapply run_snoc. 1: eapply run_snoc. 1: apply run_nil.
        + eapply (step_acq _ _ 0 LReader); reflexivity.
        + eapply (step_acq _ _ 0 LWriter); reflexivity.
        + eapply (step_env _ _ 0 _ (CResize (inr sz))). reflexivity.
      - cbn. split; [reflexivity|]. split; [reflexivity|]. intros [|i]; reflexivity. }
    destruct R as (tr & c & k & R & Ht & Ho & Hd). exists tr, c. split; [exact R|].
    split; [intros X; rewrite (X 0) in Ht; discriminate Ht|].
    intros tr' c' R'. induction R' as [|tr' c1 e c2 R' [-> ->] St]; [auto|exfalso].
    destruct St as [i l k' t o s' Ht' Ho'|i l k' k'' t o s' Ht' Ho'|i l k' k'' j' t o s' Ht' Ho'
                   |i l k' t o s' Ht' Ho'|i a k' t o s' s'' r Ht' Ho'|i k' x t o s' Ht'];
      cbn in *; (destruct i as [|i]; [|rewrite Hd in Ht'; discriminate Ht']); rewrite Ht in Ht';
      try discriminate Ht'. injection Ht' as <- <-. congruence.
Qed.
