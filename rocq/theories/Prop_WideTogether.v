(** Property theorems for threads that draw on one screen with double-width characters (C101). *)
From Verif Require Import Base M_Utf8 M_Geom S_Geom M_Attr M_Buf S_Buf P_Buf3 M_Writer S_Tty S_Writer S_Emu P_Emu M_Screen S_Screen P_Screen5
  M_ScreenApi S_Canvas S_WideCanvas P_WideCanvas2 M_Locks S_Locks S_Together P_Together P_Sched S_WideTogether P_WideTogether.

(** C101: any number of threads share a screen in use, as in C105, with text of any width.
    However they are scheduled: once all have finished and no access to the terminal has
    failed, there is an order of everything they did, in which each thread's doings come in
    its order and nothing comes between the strokes of a guard.  If in that order no
    double-width character meets a single remaining column, no mark follows one, and every
    picture shown mends the one before (S_WideCanvas), then the screen holds
    the canvas drawn in that order, and the terminal shows the canvas of the last refresh or
    dropped guard (and has received nothing if there is none). *)
Theorem C101_threads_draw_the_canvas_partial : forall E C K, env_ok E -> env_chars E -> caps_coherent C -> implements E C K ->
  forall (progs : list (list doing)) s t k last tr c w' d', wpainted E C K s t k last ->
  run E C (start (map doings_client progs) (share s)) tr c -> finished c -> no_failure tr ->
  shared c = (Some w', Some d') ->
  exists order : list (nat * doing), (forall i, done_by i order = nth i progs []) /\
    let l := concat (map strokes (map snd order)) in
    (readily E l k last ->
     wholds (dbuf d') (wpicture E l k) /\
     exists x, stream w' = stream (wr s) ++ x /\
     match wdisplayed E l k None with
     | Some k' => obuf w' = [] /\ exists v, look K (feed K t x) = Some v /\ wseen C v k'
     | None => x = []
     end).
Proof. exact wthreads_draw. Qed.
Print Assumptions C101_threads_draw_the_canvas_partial.

(** Two threads on 2 lines of 6 columns, each with a guard: one writes a red double-width
    character and "a" on the first line, the other a bold double-width character, shows it,
    and covers it by another.  In either order all is easy; here the second comes first. *)
Definition wide_guards : list (list doing) :=
  [[Together [Draw (SWriteStyledAt (Pair 0 1) (Some Red) None None [65345; 97]%N)]];
   [Together [Draw SBold; Draw (SWriteAt (Pair 1 2) [65346]%N); Show; Draw (SWriteAt (Pair 1 2) [65347; 98]%N)]]].

Example C101_threads_example :
  let E := demo_env 1000 in
  (forall order, (forall i, done_by i order = nth i wide_guards []) ->
     readily E (concat (map strokes (map snd order))) (wblank (Size 2 6)) (Some (first_shot (wblank (Size 2 6))))) /\
  exists s t tr c w' d' x v, wpainted E ansi_cfg (ansi_tty E) s t (wblank (Size 2 6)) (Some (first_shot (wblank (Size 2 6)))) /\
    run E ansi_cfg (start (map doings_client wide_guards) (share s)) tr c /\ finished c /\ no_failure tr /\
    shared c = (Some w', Some d') /\ stream w' = stream (wr s) ++ x /\
    look (ansi_tty E) (feed (ansi_tty E) t x) = Some v /\
    vcell_is [65345]%N (Attrs (Some Red) None 0%N) (nth_error (vcells v) 1) && is_trail (nth_error (vcells v) 2) &&
    vcell_is [97]%N (Attrs (Some Red) None 0%N) (nth_error (vcells v) 3) &&
    vcell_is [65347]%N (Attrs None None BOLD) (nth_error (vcells v) 8) && is_trail (nth_error (vcells v) 9) &&
    vcell_is [98]%N (Attrs None None BOLD) (nth_error (vcells v) 10) = true.
Proof.
  cbv zeta. split.
  { intros order H. destruct (two_orders _ _ order H) as [-> | ->]; apply readilyb_ok; vm_compute; reflexivity. }
  apply (wtogether_ok (demo_env 1000) (demo_env_ok 1000) (Size 2 6) (WAll :: WIntr :: alls 9) wide_guards
    (repeat 1 10 ++ repeat 0 7) (fun v =>
    vcell_is [65345]%N (Attrs (Some Red) None 0%N) (nth_error (vcells v) 1) && is_trail (nth_error (vcells v) 2) &&
    vcell_is [97]%N (Attrs (Some Red) None 0%N) (nth_error (vcells v) 3) &&
    vcell_is [65347]%N (Attrs None None BOLD) (nth_error (vcells v) 8) && is_trail (nth_error (vcells v) 9) &&
    vcell_is [98]%N (Attrs None None BOLD) (nth_error (vcells v) 10))).
  - small.
  - repeat (apply Forall_cons; [constructor|]). apply Forall_forall. intros r [].
  - vm_compute. reflexivity.
Qed.
