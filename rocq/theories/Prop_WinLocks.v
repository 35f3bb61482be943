(** Property theorems for locking on Windows (C89, C90, C91). *)
From Verif Require Import Base M_Geom M_Attr M_Buf S_Buf M_Writer S_Tty S_Writer S_Emu M_Screen M_Locks S_Locks Prop_Locks
  M_WinLocks S_WinLocks P_WinLocks P_WinLocks2 P_WinLocks3.

(** C89, terminals: any number of threads sharing a terminal on Windows, whose programs
    use no screen and follow the documented rules, whatever their calls answer, whatever
    the accesses do and however the threads are scheduled: no schedule goes on for ever;
    as long as a thread has not finished, some thread can go on; every schedule can be
    completed, and then every lock is free. *)
Theorem C89_terminals :
  forall Wd Dd (M : access Wd Dd) l s,
  Forall no_screen l -> Forall (follows false None None) l ->
  Acc (wnext M) (wstart l s) /\
  forall tr c, wrun M (wstart l s) tr c ->
    (wfinished c \/ exists e c', wstep M c e c') /\
    (exists tr' c', wrun M c tr' c' /\ wfinished c') /\
    (wfinished c -> wall_unlocked c).
Proof. exact @terminals_finish. Qed.
Print Assumptions C89_terminals.

(** C89, what holds of screens: the same of threads sharing a screen or a terminal, if
    they do not read through the read guard of the screen while they hold its write
    guard. *)
Theorem C89_no_deadlock_partial :
  forall Wd Dd (M : access Wd Dd) l s,
  Forall (wfollows true None None) l ->
  Acc (wnext M) (wstart l s) /\
  forall tr c, wrun M (wstart l s) tr c ->
    (wfinished c \/ exists e c', wstep M c e c') /\
    (exists tr' c', wrun M c tr' c' /\ wfinished c') /\
    (wfinished c -> wall_unlocked c).
Proof. exact @wall_finish. Qed.
Print Assumptions C89_no_deadlock_partial.

(** C89 (does not hold of screens without the additional rule): a single thread that
    acquires the read lock of a screen, then its write lock, and then reads an event
    through the read guard follows every documented rule.  If the event is a resize,
    it waits for itself: nothing can ever happen again. *)
Theorem C89_screen_refuted :
  forall Wd Dd (M : access Wd Dd) s (sz : size),
  exists p, wfollows false None None p /\
  exists tr c, wrun M (wstart [p] s) tr c /\ ~ wfinished c /\
    forall tr' c', wrun M c tr' c' -> c' = c /\ tr' = [].
Proof. exact @screen_reader_waits_for_itself. Qed.
Print Assumptions C89_screen_refuted.

(** The same from any state in which a thread holding the screen's write guard is about
    to read through its read guard, whatever the other threads do. *)
Theorem C89_reader_stays_stuck_refuted :
  forall Wd Dd (M : access Wd Dd) c i k,
  wthreads c i = wcompile (Call SRRead k) -> wowner c LData = Some i ->
  forall sz : size, exists c1, wstep M c (EvOther i) c1 /\
    forall tr c2, wrun M c1 tr c2 -> wthreads c2 i = wthreads c1 i /\ wthreads c2 i <> Done.
Proof. exact @screen_reads_for_ever. Qed.
Print Assumptions C89_reader_stays_stuck_refuted.

(** Reading through the read guard while writing. *)
Definition demo_echo : client :=
  Call TLockRead (fun _ => Call TLockWrite (fun _ => Call RRead (fun a =>
    match a with
    | AResized _ => Call (WDo (OWriteChar 114)) (fun _ => Call WDrop (fun _ => Call RDrop (fun _ => Finish)))
    | _ => Call RDrop (fun _ => Call WDrop (fun _ => Finish))
    end))).

Example C89_example :
  Forall no_screen [demo_echo; demo_preparer; demo_echo] /\
  Forall (follows false None None) [demo_echo; demo_preparer; demo_echo] /\
  Forall (wfollows true None None) [demo_reader; demo_drawer; demo_preparer; demo_drawer].
Proof.
  assert (N : forall p r w, follows true r w p -> wfollows true r w p) by exact careful_follows.
  split; [|split].
  - assert (A : no_screen demo_echo) by
      (cbn; repeat (split; [reflexivity|intros ?]); match goal with a : ans |- no_screen match ?b with _ => _ end => destruct b end;
       cbn; auto).
    assert (B : no_screen demo_preparer) by (cbn; auto 20).
    auto.
  - repeat constructor; unfold demo_preparer, demo_echo; cbn;
      repeat match goal with
             | |- forall _ : ans, _ => intros [| | | | |]; cbn
             | |- _ /\ _ => split
             end; auto; intros H; discriminate H.
  - eapply Forall_impl; [|exact C52_example]. intros p. apply N.
Qed.

(** C90: for every schedule of any number of threads following the documented rules on
    Windows, up to a point where nobody holds the output, there is an order of all
    sessions (what a thread did between acquiring the output and having released it),
    in which each thread's sessions come in the order it made them, such that doing
    the accesses of the sessions one session after the other, from the same start,
    gives every access the same answer and leaves the same console and screen. *)
Theorem C90_sessions_do_not_interleave :
  forall Wd Dd (M : access Wd Dd) l s0 tr c,
  Forall (wfollows false None None) l -> wrun M (wstart l s0) tr c ->
  wowner c LWriter = None -> wowner c LData = None ->
  exists order : list (nat * list (act * ans)),
    (forall i, map snd (filter (fun x => fst x =? i) order) = sessions i tr) /\
    wreplays M (concat (map snd order)) s0 (wshared c).
Proof. exact @wsessions_atomic. Qed.
Print Assumptions C90_sessions_do_not_interleave.

(** A console that shows the characters written to it, and a screen that counts the
    operations on its buffer. *)
Definition demo_access : access (list N) nat :=
  Access (fun a w => match a with WOp (OWriteChar x) => (w ++ [x], AOk) | _ => (w, AOk) end)
         (fun _ d => (S d, AOk))
         (fun w d => ((w ++ [N.of_nat d], 0), AOk)).

Example C90_example :
  let ok := fun x : act => (x, AOk) in
  let l := [demo_writer 97 98; demo_both 99] in
  Forall (wfollows false None None) l /\
  exists tr c, wrun demo_access (wstart l ([], 0)) tr c /\ wall_unlocked c /\
    sessions 0 tr = [map ok [AW (WOp (OWriteChar 97)); AW (WOp (OWriteChar 98))]] /\
    sessions 1 tr = [map ok [AD (DBuf (BWriteStr [99]%N))];
                     map ok [AW (WOp (OWriteChar 99))]] /\
    wshared c = ([97; 98; 99]%N, 1).
Proof.
  cbv zeta. split.
  { repeat constructor; unfold wallowed; cbn; intuition discriminate. }
  do 2 eexists. split.
  - eapply wrun_snoc.
    1: eapply wrun_snoc.
    1: eapply wrun_snoc.
    1: eapply wrun_snoc.
    1: eapply wrun_snoc.
    1: eapply wrun_snoc.
    1: eapply wrun_snoc.
    1: eapply wrun_snoc.
    1: eapply wrun_snoc.
    1: eapply wrun_snoc.
    1: apply wrun_nil.
    + eapply (wstep_acq _ 0 LWriter); reflexivity.
    + eapply (wstep_acq _ 1 LData); reflexivity.
    + eapply (wstep_act _ 0); reflexivity.
    + eapply (wstep_act _ 1); reflexivity.
    + eapply (wstep_act _ 0); reflexivity.
    + eapply (wstep_rel _ 1 LData); reflexivity.
    + eapply (wstep_rel _ 0 LWriter); reflexivity.
    + eapply (wstep_acq _ 1 LWriter); reflexivity.
    + eapply (wstep_act _ 1); reflexivity.
    + eapply (wstep_rel _ 1 LWriter); reflexivity.
  - split; [intros [| |]; reflexivity|]. split; [reflexivity|]. split; reflexivity.
Qed.

(** C91, what holds: threads that follow the documented rules and do not read through
    the read guard while they hold the write guard can be run to their ends on Windows
    and on Unix, from any point of any schedule. *)
Theorem C91_portable_partial :
  forall Wd Dd (M : access Wd Dd) E C l (s : Wd * Dd) s',
  Forall (follows true None None) l ->
  (forall tr c, wrun M (wstart l s) tr c -> exists tr' c', wrun M c tr' c' /\ wfinished c') /\
  (forall tr c, run E C (start l s') tr c -> exists tr' c', run E C c tr' c' /\ finished c').
Proof. exact @portable_finish. Qed.
Print Assumptions C91_portable_partial.

(** C91, what the additional locking is there for: a thread holding the write guard that
    calls [prepare] or [restore] of the read guard waits for itself for ever on Unix,
    and also on Windows, whatever other threads do. *)
Theorem C91_prepare_stuck_on_unix :
  forall E C c i k x,
  (exists mouse track keypad, x = RPrepare mouse track keypad) \/ (exists mouse keypad, x = RRestore mouse keypad) ->
  threads c i = compile (Call x k) -> owner c LWriter = Some i ->
  forall tr c', run E C c tr c' -> threads c' i = threads c i /\ threads c' i <> Done.
Proof. exact prepare_stuck. Qed.
Print Assumptions C91_prepare_stuck_on_unix.

Theorem C91_prepare_stuck_on_windows :
  forall Wd Dd (M : access Wd Dd) c i k x,
  (exists mouse track keypad, x = RPrepare mouse track keypad) \/ (exists mouse keypad, x = RRestore mouse keypad) ->
  wthreads c i = wcompile (Call x k) -> wowner c LWriter = Some i ->
  forall tr c', wrun M c tr c' -> wthreads c' i = wthreads c i /\ wthreads c' i <> Done.
Proof. exact @wprepare_stuck. Qed.
Print Assumptions C91_prepare_stuck_on_windows.

(** C91 (does not hold of reading): there is a program, following the documented rules
    and using one terminal only, whose every schedule on Windows can be completed,
    whatever happens; on Unix it waits for itself for ever when the terminal is
    resized. *)
Theorem C91_reading_refuted :
  forall E C s (sz : size),
  exists p, follows false None None p /\ no_screen p /\
  (forall Wd Dd (M : access Wd Dd) s' tr c, wrun M (wstart [p] s') tr c ->
     exists tr' c', wrun M c tr' c' /\ wfinished c') /\
  exists tr c, run E C (start [p] s) tr c /\ ~ finished c /\
    forall tr' c', run E C c tr' c' -> c' = c /\ tr' = [].
Proof. exact not_portable. Qed.
Print Assumptions C91_reading_refuted.

(** The state in which [prepare] gets stuck is reached. *)
Example C91_example :
  let p := Call TLockRead (fun _ => Call TLockWrite (fun _ => Call (RPrepare true false true) (fun _ => Finish))) in
  exists tr c k, wrun demo_access (wstart [p] ([], 0)) tr c /\
    wthreads c 0 = wcompile (Call (RPrepare true false true) k) /\ wowner c LWriter = Some 0.
Proof.
  cbv zeta. do 2 eexists. exists (fun _ => Finish). split.
  - eapply wrun_snoc.
    1: eapply wrun_snoc.
    1: apply wrun_nil.
    + eapply (wstep_acq _ 0 LReader); reflexivity.
    + eapply (wstep_acq _ 0 LWriter); reflexivity.
  - split; reflexivity.
Qed.
