(** Property theorems for any programs that share a [Screen], whatever text they write (C121). *)
From Verif Require Import Base M_Utf8 M_Geom S_Geom M_Attr M_Buf S_Buf P_Buf3 M_Writer S_Tty S_Writer S_Emu P_Emu M_Screen S_Screen P_Screen5
  M_ScreenApi S_Canvas S_WideCanvas P_WideCanvas2 M_Locks S_Locks S_Together P_Sched S_Loop S_CursorMode S_Program S_WideProgram P_WideProgram P_WideProgram2 P_WideProgram3.

(** C121: any number of threads share a screen, each running any program of calls of the
    methods of [Screen] and its guards that follows the rules for the guards (C52).  However
    they are scheduled: once all have finished, and no access to the terminal has failed,
    there is an order of all that was drawn, shown, asked of the cursor and read about the
    size, in pieces that are not mixed, in which the pieces of each thread are what its
    program does, such that the screen and all that was sent to the terminal are as if it
    had been done in that order by a single thread.  The sizes are those that were read. *)
Theorem C121_as_one_thread : forall E C (progs : list client) s tr c w' d',
  Forall (fun p => follows true None None p /\ uses_screen p) progs ->
  run E C (start progs (share s)) tr c -> finished c -> no_failure tr -> not_continued tr ->
  shared c = (Some w', Some d') ->
  exists order : list (nat * list mark), (forall i, did None (nth i progs Finish) (done_by i order)) /\
    (forall sz, In (Fitted sz) (concat (map snd order)) <-> exists i r, In (EvAct i (AD (DUpdateSize sz)) r) tr) /\
    exists s', in_turn E C (concat (map snd order)) s s' /\ share s' = (Some w', Some d').
Proof. exact as_one_thread. Qed.
Print Assumptions C121_as_one_thread.

(** Moreover, if the canvas of the screen was [k] (C101): as long as, in that order, nothing
    happens that C101 excludes, the screen holds the canvas that results.  Since the last
    change of the size (or since the beginning, if there is none), the terminal (any terminal
    of the new size) was sent what makes it show the canvas of the last refresh or dropped
    guard, double-width characters included, with the cursor visible or not as asked last,
    and at the pen unless that is a right half.  It has received all of it if the last
    refresh or dropped guard came after the last [set_cursor_mode]. *)
Theorem C121_share_screen : forall E C K, env_ok E -> env_chars E -> caps_coherent C -> implements E C K ->
  forall (progs : list client) s t k last tr c w' d', wpainted E C K s t k last -> wat (wr s) = no_attrs ->
  Forall (fun p => follows true None None p /\ uses_screen p) progs ->
  run E C (start progs (share s)) tr c -> finished c -> no_failure tr -> not_continued tr ->
  usable_sizes tr -> shared c = (Some w', Some d') ->
  exists order : list (nat * list mark), (forall i, did None (nth i progs Finish) (done_by i order)) /\
    let l := concat (map snd order) in
    (exists s', in_turn E C l s s' /\ share s' = (Some w', Some d')) /\
    (gentle E l k last ->
     wholds (dbuf d') (wmarked E l k) /\
     exists pre post x y, l = pre ++ post /\ one_size post /\ (pre = [] \/ exists p sz, pre = p ++ [Fitted sz]) /\
       stream w' = stream (wr s) ++ x ++ y /\ (pre = [] -> x = []) /\ (sent_all post false = true -> obuf w' = []) /\
       forall t' v0, (pre = [] -> t' = t) -> (pre <> [] -> of_size K (wsize (wmarked E pre k)) t') -> look K t' = Some v0 ->
         exists v, look K (feed K t' y) = Some v /\
           (has C CursorNormal = true -> has C CursorInvisible = true -> vvis v = asked post (vvis v0)) /\
           match wlast_shown E post (wmarked E pre k) None with
           | Some k' => wdisplays C v k' /\
               (wink k' (line (wpen_goal k')) (column (wpen_goal k')) <> Right -> vcur v = wpen_goal k')
           | None => vcells v = vcells v0 /\ vcur v = vcur v0
           end).
Proof. exact share_wide. Qed.
Print Assumptions C121_share_screen.

(** One thread draws a double-width character through the write guard; another writes
    another one on another line, and shows the screen; a third reads a new size. *)
Definition guarded : client :=
  Call SLockWrite (fun _ => Call (SWBuf (sforward (SWriteAt (Pair 0 1) [65345]%N))) (fun _ =>
  Call (SWBuf (sforward (SWriteStr [97; 769]%N))) (fun _ => Call SWDrop (fun _ => Finish)))).
Definition unguarded : client :=
  Call (SBuf (sforward (SWriteStyledAt (Pair 1 0) (Some Red) None None [65346]%N))) (fun _ => Call SRefresh (fun _ => Finish)).
Definition watcher : client := Call SRead (fun _ => Finish).

Example C121_example :
  let E := demo_env 1000 in
  let progs := [guarded; unguarded; watcher] in
  let order := [(2, [Fitted (Size 2 5)]); (1, [Drawn (SWriteStyledAt (Pair 1 0) (Some Red) None None [65346]%N)]);
    (0, [Drawn (SWriteAt (Pair 0 1) [65345]%N); Drawn (SWriteStr [97; 769]%N); Shown]); (1, [Shown])] in
  Forall (fun p => follows true None None p /\ uses_screen p) progs /\
  (forall i, did None (nth i progs Finish) (done_by i order)) /\
  gentle E (concat (map snd order)) (wblank (Size 3 6)) (Some (first_shot (wblank (Size 3 6)))) /\
  exists s t tr c w' d' x y v, wpainted E ansi_cfg (ansi_tty E) s t (wblank (Size 3 6)) (Some (first_shot (wblank (Size 3 6)))) /\ wat (wr s) = no_attrs /\
    run E ansi_cfg (start progs (share s)) tr c /\ finished c /\ no_failure tr /\
    not_continued tr /\ usable_sizes tr /\ shared c = (Some w', Some d') /\ stream w' = x ++ y /\
    of_size (ansi_tty E) (Size 2 5) (emu_new (Size 2 5)) /\
    look (ansi_tty E) (feed (ansi_tty E) (emu_new (Size 2 5)) y) = Some v /\
    vcell_is [65345]%N no_attrs (nth_error (vcells v) 1) && is_trail (nth_error (vcells v) 2) &&
    vcell_is [97; 769]%N no_attrs (nth_error (vcells v) 3) &&
    vcell_is [65346]%N (Attrs (Some Red) None 0%N) (nth_error (vcells v) 5) && is_trail (nth_error (vcells v) 6) = true.
Proof.
  cbv zeta. split; [|split; [|split]].
  - repeat (apply Forall_cons); [| | |constructor]; split; cbn; repeat (split; [repeat split; auto; try (eexists; reflexivity)|intros ?]); auto.
    + now exists (SWriteAt (Pair 0 1) [65345]%N).
    + now exists (SWriteStr [97; 769]%N).
    + now exists (SWriteStyledAt (Pair 1 0) (Some Red) None None [65346]%N).
  - intros [|[|[|i]]]; cbn.
    + apply did_lock; [now left|]. apply (did_through _ _ (Drawn (SWriteAt (Pair 0 1) [65345]%N))); [constructor|].
      apply (did_through _ _ (Drawn (SWriteStr [97; 769]%N))); [constructor|].
      apply did_drop. constructor.
    + apply (did_alone _ _ (Drawn (SWriteStyledAt (Pair 1 0) (Some Red) None None [65346]%N))); [constructor|]. apply (did_alone _ _ Shown); [constructor|]. constructor.
    + apply did_told; [now left|]. constructor.
    + destruct i; constructor.
  - apply gentleb_ok. vm_compute. reflexivity.
  - apply (sharing_wide_ok (demo_env 1000) (demo_env_ok 1000) (Size 3 6) (alls 20) [guarded; unguarded; watcher]
      (map (fun i => (i, CResize (inr (Size 2 5)))) (repeat 2 9))
      (map (fun i => (i, COther 113%N)) (repeat 1 3 ++ repeat 0 8 ++ repeat 1 7)) (Size 2 5) (fun v =>
      vcell_is [65345]%N no_attrs (nth_error (vcells v) 1) && is_trail (nth_error (vcells v) 2) &&
      vcell_is [97; 769]%N no_attrs (nth_error (vcells v) 3) &&
      vcell_is [65346]%N (Attrs (Some Red) None 0%N) (nth_error (vcells v) 5) && is_trail (nth_error (vcells v) 6))).
    + small.
    + repeat (apply Forall_cons; [constructor|]). apply Forall_forall. intros r [].
    + vm_compute. reflexivity.
Qed.
