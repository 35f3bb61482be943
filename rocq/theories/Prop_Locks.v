(** Property theorems for locking (C52, C53). *)
From Verif Require Import Base M_Geom M_Attr M_Buf S_Buf M_Writer S_Tty S_Writer S_Emu M_Screen M_Locks S_Locks P_Locks P_Locks2.

(** C52, what holds: any number of threads whose programs follow the documented
    rules, and do not read events through the read guard while they hold the write
    guard, whatever their calls answer and however they are scheduled: no schedule
    goes on for ever; as long as a thread has not finished, some thread can go on;
    every schedule can be completed, and then every lock is free. *)
Theorem C52_no_deadlock_partial :
  forall E C l s,
  Forall (follows true None None) l ->
  Acc (next E C) (start l s) /\
  forall tr c, run E C (start l s) tr c ->
    (finished c \/ exists e c', step E C c e c') /\
    (exists tr' c', run E C c tr' c' /\ finished c') /\
    (finished c -> all_unlocked c).
Proof. exact all_finish. Qed.
Print Assumptions C52_no_deadlock_partial.

(** C52 (does not hold without the additional rule): a single thread that acquires
    the read lock, then the write lock, and then reads an event through the read
    guard follows every documented rule.  If the event is a resize, it waits for
    itself: nothing can ever happen again. *)
Theorem C52_reading_while_writing_refuted :
  forall E C s (sz : size),
  exists p, follows false None None p /\
  exists tr c, run E C (start [p] s) tr c /\ ~ finished c /\
    forall tr' c', run E C c tr' c' -> c' = c /\ tr' = [].
Proof. exact reader_waits_for_itself. Qed.
Print Assumptions C52_reading_while_writing_refuted.

(** The same from any state in which a thread holding the write guard is about to
    read through the read guard, whatever the other threads do. *)
Theorem C52_reader_stays_stuck_refuted :
  forall E C c i k x, x = RRead \/ x = SRRead ->
  threads c i = compile (Call x k) -> owner c LWriter = Some i ->
  forall sz : size, exists c1, step E C c (EvOther i) c1 /\
    forall tr c2, run E C c1 tr c2 -> threads c2 i = threads c1 i /\ threads c2 i <> Done.
Proof. exact reads_for_ever. Qed.
Print Assumptions C52_reader_stays_stuck_refuted.

(** Three threads using a screen: one reads and redraws on a resize, one draws through
    a guard acquired with [try_lock_write] if it can, one prepares the terminal. *)
Definition demo_reader : client :=
  Call SLockRead (fun _ => Call SRRead (fun a =>
    match a with
    | AResized _ => Call SRefresh (fun _ => Call SRDrop (fun _ => Finish))
    | _ => Call SLockWrite (fun _ => Call (SWBuf (BWriteStr [97]%N)) (fun _ =>
             Call SRDrop (fun _ => Call SWDrop (fun _ => Finish))))
    end)).
Definition demo_drawer : client :=
  Call STryLockWrite (fun a =>
    match a with
    | AOk => Call (SWBuf (BWriteStr [98]%N)) (fun _ => Call SWRefresh (fun _ => Call SWDrop (fun _ => Finish)))
    | _ => Call (SBuf (BWriteStr [99]%N)) (fun _ => Finish)
    end).
Definition demo_preparer : client :=
  Call TLockRead (fun _ => Call TLockWrite (fun _ => Call (RPrepareWithLock true false true) (fun _ =>
    Call WDrop (fun _ => Call (RRestore true true) (fun _ => Call RDrop (fun _ => Finish)))))).

Example C52_example :
  Forall (follows true None None) [demo_reader; demo_drawer; demo_preparer; demo_drawer].
Proof.
  repeat constructor; unfold demo_reader, demo_drawer, demo_preparer; cbn;
    repeat match goal with
           | |- forall _ : ans, _ => intros [| | | | | ]; cbn
           | |- _ /\ _ => split
           end; auto.
Qed.

(** C53: for every schedule of any number of threads following the documented rules,
    up to a point where nobody holds the output, there is an order of all sessions
    (what a thread did between acquiring the output and having released it), in which
    each thread's sessions come in the order it made them, such that doing the
    accesses of the sessions one session after the other, from the same start, gives
    every access the same answer and leaves the same terminal output, buffers and
    screen. *)
Theorem C53_sessions_do_not_interleave :
  forall E C l s0 tr c,
  Forall (follows false None None) l -> run E C (start l s0) tr c ->
  owner c LWriter = None -> owner c LData = None ->
  exists order : list (nat * list (act * ans)),
    (forall i, map snd (filter (fun x => fst x =? i) order) = sessions i tr) /\
    replays E C (concat (map snd order)) s0 (shared c).
Proof. exact sessions_atomic. Qed.
Print Assumptions C53_sessions_do_not_interleave.

(** Two threads: one writes twice in one session; the other comes in between on the
    screen's data, then waits for the output. *)
Definition demo_writer (x y : N) : client :=
  Call TLockWrite (fun _ => Call (WDo (OWriteChar x)) (fun _ => Call (WDo (OWriteChar y)) (fun _ =>
    Call WDrop (fun _ => Finish)))).
Definition demo_both (x : N) : client :=
  Call (SBuf (BWriteStr [x])) (fun _ => Call (TWrite (OWriteChar x)) (fun _ => Finish)).

Example C53_example :
  let E := demo_env 1000 in
  let ok := fun x : act => (x, AOk) in
  let l := [demo_writer 97 98; demo_both 99] in
  exists b, sb_new E (Size 2 3) = Val b /\
  let s0 := (Some (writer_new 16 [WAll; WAll]), Some (SData b true (Cursor 0 0))) in
  Forall (follows false None None) l /\
  exists tr c, run E ansi_cfg (start l s0) tr c /\ all_unlocked c /\
    sessions 0 tr = [map ok [AW (WOp (OWriteChar 97)); AW (WOp (OWriteChar 98)); AW WGuardDrop]] /\
    sessions 1 tr = [map ok [AD (DBuf (BWriteStr [99]%N))];
                     map ok [AW (WOp (OWriteChar 99)); AW WGuardDrop]] /\
    match fst (shared c) with Some w => dev w = [97; 98; 99]%N | None => False end.
Proof.
  cbv zeta. eexists. split; [reflexivity|]. split; [repeat constructor; cbn; intuition discriminate|]. do 2 eexists. split.
  - eapply run_snoc.
    1: eapply run_snoc.
    1: eapply run_snoc.
    1: eapply run_snoc.
    1: eapply run_snoc.
    1: eapply run_snoc.
    1: eapply run_snoc.
    1: eapply run_snoc.
    1: eapply run_snoc.
    1: eapply run_snoc.
    1: eapply run_snoc.
    1: eapply run_snoc.
    1: apply run_nil.
    + eapply (step_acq _ _ 0 LWriter); reflexivity.
    + eapply (step_acq _ _ 1 LData); reflexivity.
    + eapply (step_act _ _ 0); reflexivity.
    + eapply (step_act _ _ 1); reflexivity.
    + eapply (step_act _ _ 0); reflexivity.
    + eapply (step_rel _ _ 1 LData); reflexivity.
    + eapply (step_act _ _ 0); reflexivity.
    + eapply (step_rel _ _ 0 LWriter); reflexivity.
    + eapply (step_acq _ _ 1 LWriter); reflexivity.
    + eapply (step_act _ _ 1); reflexivity.
    + eapply (step_act _ _ 1); reflexivity.
    + eapply (step_rel _ _ 1 LWriter); reflexivity.
  - split; [intros [| |]; reflexivity|]. split; [reflexivity|]. split; reflexivity.
Qed.
