(** Property theorems for threads that draw on a screen while others read its events (C113). *)
From Verif Require Import Base M_Utf8 M_Geom S_Geom M_Attr M_Buf S_Buf P_Buf3 M_Writer S_Tty S_Writer S_Emu P_Emu M_Screen S_Screen P_Screen5
  M_ScreenApi S_Canvas M_Locks S_Locks S_Together P_Sched S_Loop P_Loop.

(** C113: any number of threads share a screen in use (whose canvas is [k]).  Each draws,
    refreshes, draws through write guards, waits for events and reads events, and what it
    does next may depend on the events it has read; some may read that the window has a
    new size.  However they are scheduled and whatever is read: once all have finished,
    and no access to the terminal has failed, there is an order of all drawing and all
    changes of the size, in which each thread's come in an order its program allows, such
    that the screen holds the canvas that results from them in that order.  Everything
    after the last change of the size is drawn for the new size: a terminal of that size,
    whatever it showed before (without a change: the terminal as it was), shows the canvas
    of the last refresh or dropped guard, if there is one since then, and is sent nothing
    otherwise. *)
Theorem C113_draw_and_read : forall E C K, env_ok E -> env_chars E -> caps_coherent C -> implements E C K ->
  forall (tasks : list task) s t k tr c w' d', painted E C K s t k -> wat (wr s) = no_attrs ->
  Forall (narrow_task E) tasks ->
  run E C (start (map task_client tasks) (share s)) tr c -> finished c -> no_failure tr -> not_continued tr ->
  usable_sizes tr -> shared c = (Some w', Some d') ->
  exists order : list (nat * deed), (forall i, does (nth i tasks End) (done_by i order)) /\
    let l := concat (map changes (map snd order)) in
    holds (dbuf d') (evolved E l k) /\
    exists pre post x y, l = pre ++ map Stroke post /\ (pre = [] \/ exists p sz, pre = p ++ [Fit sz]) /\
      stream w' = stream (wr s) ++ x ++ y /\ (pre = [] -> x = []) /\
      forall t', (pre = [] -> t' = t) -> (pre <> [] -> of_size K (ksize (evolved E pre k)) t') ->
        match displayed E post (evolved E pre k) None with
        | Some k' => obuf w' = [] /\ exists v, look K (feed K t' y) = Some v /\ displays C v k' /\ vcur v = pen_goal k'
        | None => y = []
        end.
Proof. exact draw_and_read. Qed.
Print Assumptions C113_draw_and_read.

(** A thread with an event loop reads events until there is none, and redraws when the size
    has changed; another writes "ab" on a screen of 2 lines of 6 columns, and, once the
    window has 3 lines of 4 columns, "c" on the third. *)
Definition event_loop : task :=
  Next (fun r => match r with
                 | AResized _ => Do Redraw (Poll (fun _ => End))
                 | _ => End
                 end).
Definition drawer : task :=
  Do (Together [Draw (SWriteAt (Pair 0 1) [97; 98]%N)]) (Do (Alone (SWriteAt (Pair 2 3) [99]%N)) End).
Example C113_example :
  let E := demo_env 1000 in
  Forall (narrow_task E) [event_loop; drawer] /\
  exists s t tr c w' d' x y v, painted E ansi_cfg (ansi_tty E) s t (blank_canvas (Size 2 6)) /\ wat (wr s) = no_attrs /\
    run E ansi_cfg (start (map task_client [event_loop; drawer]) (share s)) tr c /\ finished c /\ no_failure tr /\
    not_continued tr /\ usable_sizes tr /\ shared c = (Some w', Some d') /\ stream w' = x ++ y /\
    of_size (ansi_tty E) (Size 3 4) (emu_new (Size 3 4)) /\
    look (ansi_tty E) (feed (ansi_tty E) (emu_new (Size 3 4)) y) = Some v /\
    match vcells v with
    | [_; VC a _; VC b _; _; _; _; _; _; _; _; _; VC c _] => bytes_eqb (a ++ b ++ c) [97; 98; 99]%N
    | _ => false
    end = true.
Proof.
  cbv zeta. split.
  { repeat (apply Forall_cons); [| |constructor].
    - intros [| | | | | ]; cbn; auto. repeat split. repeat constructor.
    - cbn. repeat split; repeat (apply Forall_cons; [cbn; repeat (apply Forall_cons; [intros (_ & H); discriminate|]); try constructor; auto|]); constructor. }
  apply (looping_ok (demo_env 1000) (demo_env_ok 1000) (Size 2 6) (alls 9) [event_loop; drawer]
    (map (fun i => (i, CResize (inr (Size 3 4)))) ([1; 1; 0; 0] ++ repeat 1 5 ++ repeat 0 6))
    (map (fun i => (i, COther 0%N)) (repeat 1 3 ++ repeat 0 11)) (Size 3 4) (fun v =>
    match vcells v with
    | [_; VC a _; VC b _; _; _; _; _; _; _; _; _; VC c _] => bytes_eqb (a ++ b ++ c) [97; 98; 99]%N
    | _ => false
    end)).
  - small.
  - repeat (apply Forall_cons; [constructor|]). apply Forall_forall. intros r [].
  - vm_compute. reflexivity.
Qed.
