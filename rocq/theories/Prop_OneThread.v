(** Property theorem for any programs that share a [Screen], at any time, also when accesses
    to the terminal fail and when the process is stopped and continued (C122). *)
From Verif Require Import Base M_Utf8 M_Geom S_Geom M_Attr M_Buf S_Buf P_Buf3 M_Writer S_Tty S_Writer S_Emu P_Emu M_Screen S_Screen P_Screen5
  M_ScreenApi S_Canvas M_Locks S_Locks S_Together P_Sched S_Loop S_CursorMode S_Program S_WideProgram S_OneThread P_OneThread.

(** C122: any number of threads share a screen, each running any program of calls of the
    methods of [Screen] and its guards that follows the rules for the guards (C52), and that
    may go on as it likes depending on the answers.  However they are scheduled, and whichever
    accesses to the terminal fail: whenever no thread holds a write guard or is inside a
    method that changes something, even if some threads never finish, there is an order of
    all that was drawn, shown, asked of the cursor, read about the size and sent to the
    terminal to resume, in pieces that are not mixed, such that doing it in that order in a
    single thread gives each access the answer it had, and leads to the same screen and to
    the same output.  The pieces of each thread are the first of those its program performs
    when it gets these answers; all of them, if it has finished. *)
Theorem C122_as_one_thread_at_any_time : forall E C (progs : list client) s tr c w' d',
  Forall (fun p => follows true None None p /\ uses_screen p) progs ->
  run E C (start progs (share s)) tr c -> owner c LWriter = None -> owner c LData = None ->
  shared c = (Some w', Some d') ->
  exists order : list (nat * list deed),
    (forall i, exists rest, did_so None (nth i progs Finish) (done_by i order ++ rest) /\ (threads c i = Done -> rest = [])) /\
    exists s', performed E C (concat (map snd order)) s s' /\ share s' = (Some w', Some d').
Proof. exact one_after_another. Qed.
Print Assumptions C122_as_one_thread_at_any_time.

(** One thread draws through the write guard, another shows the screen and tries again when
    that fails, a third reads twice. *)
Definition artist : client :=
  Call SLockWrite (fun _ => Call (SWBuf (sforward (SWriteStr [65345; 97]%N))) (fun _ => Call SWDrop (fun _ => Finish))).
Definition stubborn : client :=
  Call (SBuf (sforward (SWriteAt (Pair 1 0) [98]%N))) (fun _ =>
  Call SRefresh (fun r => match r with AErr _ => Call SRefresh (fun _ => Finish) | _ => Finish end)).
Definition reader : client := Call SRead (fun _ => Call SRead (fun _ => Finish)).

Example C122_example :
  let E := demo_env 1000 in
  Forall (fun p => follows true None None p /\ uses_screen p) [artist; stubborn; reader] /\
  exists s tr c w' d', run E ansi_cfg (start [artist; stubborn; reader] (share s)) tr c /\
    owner c LWriter = None /\ owner c LData = None /\ shared c = (Some w', Some d') /\
    (exists i a e, In (EvAct i a (AErr e)) tr) /\
    (exists i mo tk kp, In (EvAct i (AW (WPrepare mo tk kp)) AOk) tr) /\ is_done (threads c 2) = false.
Proof.
  cbv zeta. split.
  - repeat (apply Forall_cons); [| | |constructor]; (split; cbn; repeat (split; [repeat split; auto; try (eexists; reflexivity)|intros ?]); auto).
    all: try (now exists (SWriteStr [65345; 97]%N)); try (now exists (SWriteAt (Pair 1 0) [98]%N)).
    all: match goal with |- context [match ?r with AErr _ => _ | _ => _ end] => destruct r end; cbn; repeat (split; [repeat split; auto|intros ?]); auto.
  - assert (G := stuck_sharing_ok (demo_env 1000) ansi_cfg (Size 3 6) (WAll :: WAll :: WErr 5%N :: alls 20) [artist; stubborn; reader]
      (map (fun i => (i, CContinue true false true)) (repeat 2 7 ++ repeat 1 3 ++ repeat 1 14 ++ repeat 0 7 ++ [2])) (fun p => negb (is_done p))).
    destruct G as (s & tr & c & w' & d' & G1 & G2 & G3 & G4 & G5 & G6 & G7); [vm_compute; reflexivity|].
    exists s, tr, c, w', d'. repeat (split; [assumption|]). now destruct (is_done (threads c 2)).
Qed.
