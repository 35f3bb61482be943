(** Property theorem for any programs that share a [Screen] on Windows, at any time, also
    when accesses to the console fail (C123). *)
From Verif Require Import Base M_Utf8 S_Utf8 M_Geom S_Geom M_Attr M_Buf S_Buf M_Writer M_ScreenApi
  M_WinWriter M_WinReader M_WinScreen M_Locks S_Locks S_Together S_Program M_WinLocks S_WinLocks M_WinShare S_WinTogether
  S_WinWriter S_WinScreen P_WinDraw2 S_WideProgram S_OneThread Prop_OneThread S_WinOneThread P_WinOneThread.

(** C123: any number of threads share a screen on Windows, each running any program of calls
    of the methods of [Screen] and its guards that follows the rules for the guards (C89),
    and that may go on as it likes depending on the answers.  However they are scheduled, and
    whichever accesses to the console fail: whenever no thread holds a write guard or is
    inside a method that changes something, even if some threads never finish, there is an
    order of all that was drawn, shown, asked of the cursor and read about the size, in
    pieces that are not mixed, such that doing it in that order in a single thread gives each
    access the answer it had, and leads to the same screen and the same console.  The pieces
    of each thread are the first of those its program performs when it gets these answers;
    all of them, if it has finished. *)
Theorem C123_as_one_thread_at_any_time : forall draw E (progs : list client) s tr c t' d',
  Forall (fun p => wfollows true None None p /\ uses_screen p) progs ->
  wrun (screen_access draw E (g_state s) (g_old s)) (wstart progs (wshare s)) tr c ->
  wowner c LWriter = None -> wowner c LData = None -> wshared c = (Some t', Some d') ->
  exists order : list (nat * list deed),
    (forall i, exists rest, wdid_so None (nth i progs Finish) (done_by i order ++ rest) /\ (wthreads c i = Done -> rest = [])) /\
    exists s', wperformed draw E (concat (map snd order)) s s' /\ wshare s' = (Some t', Some d').
Proof. exact wone_after_another. Qed.
Print Assumptions C123_as_one_thread_at_any_time.

(** C122's threads, on a console that refuses the second access. *)
Definition ex_refused : wscr := some_screen (some_view 6 2 0 1 SPACE) (repeat (CTake 9) 8 ++ [CFail 5%N]).
Example C123_example :
  Forall (fun p => wfollows true None None p /\ uses_screen p) [artist; stubborn; reader] /\
  exists tr c t' d', wrun (screen_access demo_draw wide_env (g_state ex_refused) (g_old ex_refused))
      (wstart [artist; stubborn; reader] (wshare ex_refused)) tr c /\
    wowner c LWriter = None /\ wowner c LData = None /\ wshared c = (Some t', Some d') /\
    (exists i a e, In (EvAct i a (AErr e)) tr) /\
    (exists i sz r, In (EvAct i (AD (DUpdateSize sz)) r) tr) /\ wthreads c 2 <> Done.
Proof.
  split.
  - repeat (apply Forall_cons); [| | |constructor]; (split; cbn; repeat (split; [repeat split; auto; try (eexists; reflexivity); try discriminate|intros ?]); auto).
    all: try (now exists (SWriteStr [65345; 97]%N)); try (now exists (SWriteAt (Pair 1 0) [98]%N)).
    all: match goal with |- context [match ?r with AErr _ => _ | _ => _ end] => destruct r end; cbn; repeat (split; [repeat split; auto; try discriminate|intros ?]); auto.
  - apply (wstuck_ok (screen_access demo_draw wide_env (g_state ex_refused) (g_old ex_refused)) [artist; stubborn; reader] (wshare ex_refused)
      (map (fun i => (i, CResize (inr (Size 2 5)))) (repeat 2 6 ++ repeat 1 3 ++ repeat 1 12 ++ repeat 0 6 ++ [2]))).
    vm_compute. reflexivity.
Qed.
