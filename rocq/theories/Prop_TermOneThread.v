(** Property theorems for any programs that share a [Terminal], at any time, also when accesses
    to it fail and when the process is stopped and continued (C124). *)
From Verif Require Import Base M_Utf8 M_Geom M_Attr M_Buf S_Buf M_Writer S_Writer S_Emu P_Screen5 M_Api M_Locks S_Locks S_Together P_Sched
  M_WinWriter S_WinScreen M_WinLocks M_WinShare S_TermProgram S_OneThread S_TermOneThread P_TermOneThread.

(** C124: any number of threads share a terminal, each running any program of calls of the
    methods of [Terminal] and its guards that follows the rules for the guards (C52), and that
    may go on as it likes depending on the answers.  However they are scheduled, and whichever
    accesses to the terminal fail: whenever no thread holds the write guard or is inside a
    method that needs it, even if some threads never finish, there is an order of all that
    was written, prepared and restored, in pieces that are not mixed, such that doing it in
    that order in a single thread gives each access the answer it had, and leads to the same
    output, attributes and buffered text.  The pieces of each thread are the first of those
    its program performs when it gets these answers; all of them, if it has finished. *)
Theorem C124_terminal_as_one_thread : forall E C (progs : list client) w d tr c w' d',
  Forall (fun p => follows true None None p /\ uses_terminal p) progs ->
  run E C (start progs (Some w, d)) tr c -> owner c LWriter = None -> shared c = (Some w', d') ->
  exists order : list (nat * list tdeed),
    (forall i, exists rest, tdid true None (nth i progs Finish) (done_by i order ++ rest) /\ (threads c i = Done -> rest = [])) /\
    tperformed C (concat (map snd order)) w w'.
Proof. exact tone_after_another. Qed.
Print Assumptions C124_terminal_as_one_thread.

(** C124, Windows: the same of a console; a thread may also read while it holds the write
    guard. *)
Theorem C124_console_as_one_thread : forall draw default E (progs : list client) s tr c s',
  Forall (fun p => follows false None None p /\ uses_terminal p) progs ->
  wrun (console_access draw E default) (wstart progs (Some s, tt)) tr c -> wowner c LWriter = None -> wshared c = (Some s', tt) ->
  exists order : list (nat * list tdeed),
    (forall i, exists rest, tdid false None (nth i progs Finish) (done_by i order ++ rest) /\ (wthreads c i = Done -> rest = [])) /\
    wtperformed draw default E (concat (map snd order)) s s'.
Proof. exact wtone_after_another. Qed.
Print Assumptions C124_console_as_one_thread.

(** One thread writes through the write guard; another prepares the terminal and reads twice;
    a third writes, and tries again when that fails. *)
Definition writing : client :=
  Call TLockWrite (fun _ => Call (WDo (forward TBold)) (fun _ => Call (WDo (forward (TWriteStr [97; 98]%N))) (fun _ => Call WDrop (fun _ => Finish)))).
Definition reading : client :=
  Call (TPrepare true false true) (fun _ => Call TRead (fun _ => Call TRead (fun _ => Call (TRestore true true) (fun _ => Finish)))).
Definition retrying : client :=
  Call (TWrite (forward (TWriteStr (repeat 99%N 70)))) (fun r => match r with AErr _ => Call (TWrite (forward (TWriteChar 100%N))) (fun _ => Finish) | _ => Finish end).
Lemma three_ok b : Forall (fun p => follows b None None p /\ uses_terminal p) [writing; reading; retrying].
Proof.
  repeat (apply Forall_cons); [| | |constructor]; (split; cbn; repeat (split; [repeat split; auto; try (eexists; split; [reflexivity|exact I])|intros ?]); auto).
  all: try (exists TBold; auto; fail); try (now exists (TWriteStr [97; 98]%N)); try (now exists (TWriteStr (repeat 99%N 70))).
  all: match goal with |- context [match ?r with AErr _ => _ | _ => _ end] => destruct r end; cbn; repeat (split; [repeat split; auto|intros ?]); auto.
  now exists (TWriteChar 100%N).
Qed.

Example C124_example :
  let E := demo_env 1000 in
  let w := writer_new 64 (WAll :: WAll :: WErr 5%N :: alls 20) in
  Forall (fun p => follows true None None p /\ uses_terminal p) [writing; reading; retrying] /\
  exists tr c w' d', run E ansi_cfg (start [writing; reading; retrying] (Some w, None)) tr c /\ owner c LWriter = None /\ shared c = (Some w', d') /\
    (exists i a e, In (EvAct i a (AErr e)) tr) /\ (exists i mo tk kp, In (EvAct i (AW (WPrepare mo tk kp)) AOk) tr) /\ threads c 1 <> Done.
Proof.
  cbv zeta. split; [apply three_ok|].
  apply (tstuck_ok (demo_env 1000) ansi_cfg _ _ (map (fun i => (i, CContinue true false true)) (repeat 1 13 ++ repeat 2 4 ++ repeat 0 5 ++ repeat 2 4 ++ [1]))).
  vm_compute. reflexivity.
Qed.
Example C124_console_example :
  let E := demo_env (Z.to_nat 65536) in
  let s := Wins no_attrs (Con (View (Coord 8 1) (Coord 0 0) (Rect 0 0 0 7) (fun _ _ => (32, 7)%N)) 7 [] (25%N, true) (CFail 6%N :: repeat (CTake 9) 5)) in
  Forall (fun p => follows false None None p /\ uses_terminal p) [writing; reading; retrying] /\
  exists tr c s', wrun (console_access demo_draw E 7) (wstart [writing; reading; retrying] (Some s, tt)) tr c /\ wowner c LWriter = None /\ wshared c = (Some s', tt) /\
    (exists i a e, In (EvAct i a (AErr e)) tr) /\ wthreads c 1 <> Done.
Proof.
  cbv zeta. split; [apply three_ok|].
  apply (wtstuck_ok demo_draw (demo_env (Z.to_nat 65536)) 7 _ _ (map (fun i => (i, COther 113%N)) (repeat 1 8 ++ repeat 2 3 ++ repeat 0 4 ++ repeat 2 3 ++ [1]))).
  vm_compute. reflexivity.
Qed.
