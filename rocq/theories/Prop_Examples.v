(** Property theorems for the example programs in which threads share a terminal or a screen (C140). *)
From Verif Require Import Base M_Utf8 S_Utf8 M_Geom S_Geom M_Attr M_Buf S_Buf P_Buf3 M_Writer S_Tty S_Writer S_Emu P_Emu M_Screen S_Screen P_Screen5 M_Api S_Api
  M_ScreenApi S_Canvas M_Locks S_Locks S_Together P_Sched S_Loop S_CursorMode S_Program S_WinProgram S_TermProgram P_TermProgram4 M_Examples S_Examples P_Examples3 P_Examples5.

(** C140: examples/screen_threads.rs, with any number of threads, each with a line of its own,
    any names, colours and numbers of rounds, on a screen on which nothing but plain text has
    been drawn.  The text takes one column per character and fits on the screen, which keeps
    a size for which this is so.  However the threads are scheduled: once all have finished,
    if no access to the terminal has failed, the screen holds, on the line of each thread
    that wrote something, its last text: "[", its name in bold and in its colour, and
    "]: random output: " and its last number.  Elsewhere the screen is as before (or empty,
    where a change of size has cut it).  If the size did not change, the terminal has received
    all that makes it show this, with the cursor in the upper left corner. *)
Theorem C140_screen_threads : forall E C K, env_ok E -> env_chars E -> caps_coherent C -> implements E C K ->
  forall kids n s t k tr c w' d', painted E C K s t k -> wat (wr s) = no_attrs -> brush k = no_attrs ->
  Forall (plain_text E) kids -> own_lines kids -> Forall (has_room (ksize k)) kids ->
  (forall i sz r, In (EvAct i (AD (DUpdateSize sz)) r) tr -> screen_size sz /\ Forall (has_room sz) kids) ->
  run E C (start (main_task n :: map draw_task kids) (share s)) tr c -> finished c -> no_failure tr -> not_continued tr ->
  shared c = (Some w', Some d') ->
  exists k', holds (dbuf d') k' /\ shows_latest kids k' /\
    (forall l c, elsewhere kids l c -> ink k' l c = ink k l c \/ ink k' l c = empty_ink) /\
    (no_new_size tr -> ksize k' = ksize k /\ (forall l c, elsewhere kids l c -> ink k' l c = ink k l c) /\
      ((exists d, In d kids /\ kvalues d <> []) -> exists y v, stream w' = stream (wr s) ++ y /\ obuf w' = [] /\
        look K (feed K t y) = Some v /\ displays C v k' /\ vcur v = Cursor 0 0)).
Proof. exact example_screen. Qed.
Print Assumptions C140_screen_threads.

(** C140: examples/threads.rs, with any number of threads, any names, colours and numbers of
    rounds, on a terminal that shows [v].  However the threads are scheduled: once all have
    finished, if no access to the terminal has failed, the terminal shows (once the output
    has reached it, which it has if the device takes everything) what results from writing
    whole lines one after the other, in some order in which the lines of each thread are its
    own, with its numbers in the order of its rounds. *)
Theorem C140_threads : forall E C K t0, implements E C K -> full_caps C ->
  forall kids w d v tr c w', (forall e x, In e kids -> In x (kvalues e) -> Forall (sensible E) (line_calls e x)) ->
  whole_writes (script w) -> style_ok (sty (wat w)) -> look K (feed K t0 (stream w)) = Some v -> vattrs v = wat w ->
  run E C (start (map say_task kids) (Some w, d)) tr c -> finished c -> no_failure tr -> fst (shared c) = Some w' ->
  exists lines : list (nat * list N), (forall i, done_by i lines = kvalues (nth i kids nobody)) /\
    (perfect (script w) -> obuf w = [] -> obuf w' = []) /\
    exists v', look K (feed K t0 (stream w')) = Some v' /\ vattrs v' = wat w' /\
      effects E (map OnGuard (concat (map (fun x => line_calls (nth (fst x) kids nobody) (snd x)) lines))) v v'.
Proof. exact example_terminal. Qed.
Print Assumptions C140_threads.

(** Two threads, "a" (red) and "bc" (blue), on the lines 0 and 1 of a screen of 2 lines and 26
    columns: the first writes " 12" and then "100", the second "  7" between them. *)
Definition ex_kids : list kid :=
  [Kid [97]%N Red 0 [[32; 49; 50]; [49; 48; 48]]%N; Kid [98; 99]%N Blue 1 [[32; 32; 55]]%N].
Definition cell_is (x : vcell) (y : list N * attrs) : bool :=
  match x with VC s b => bytes_eqb s (fst y) && attrs_eqb b (snd y) | _ => false end.
Fixpoint cells_are (l : list vcell) (r : list (list N * attrs)) : bool :=
  match l, r with
  | _, [] => true
  | x :: l, y :: r => cell_is x y && cells_are l r
  | [], _ => false
  end.
Definition ex_lines (v : view) : bool :=
  cells_are (vcells v) (label (Kid [97]%N Red 0 []) [49; 48; 48]%N) &&
  cells_are (skipn 26 (vcells v)) (label (Kid [98; 99]%N Blue 1 []) [32; 32; 55]%N).

Lemma plain_one c : ((32 <=? c) && (c <? 127))%N = true -> one_column (demo_env 1000) c.
Proof.
  intros Hc. unfold one_column. cbn [demo_env combining cwidth]. unfold demo_width, is_scalar. destruct (_ || _) eqn:Eq; [exfalso; lia|].
  replace ((768 <=? c) && (c <=? 879))%N with false by lia. replace ((65281 <=? c) && (c <=? 65376))%N with false by lia.
  repeat split; lia.
Qed.
Lemma plain_all s : forallb (fun c => (32 <=? c) && (c <? 127))%N s = true -> Forall (one_column (demo_env 1000)) s.
Proof. rewrite forallb_forall, Forall_forall. intros H c Hc. apply plain_one. now apply H. Qed.
Lemma plain_kid d : forallb (forallb (fun c => (32 <=? c) && (c <? 127))%N) (kname d :: kvalues d) = true -> plain_text (demo_env 1000) d.
Proof.
  rewrite forallb_forall. intros H. split; [apply plain_all; reflexivity|]. split; [apply plain_all; reflexivity|].
  split; [apply plain_all, H; now left|]. apply Forall_forall. intros x Hx. apply plain_all, H. now right.
Qed.

Example C140_screen_example :
  let E := demo_env 1000 in
  env_ok E /\ env_chars E /\ caps_coherent ansi_cfg /\ implements E ansi_cfg (ansi_tty E) /\
  Forall (plain_text E) ex_kids /\ own_lines ex_kids /\ Forall (has_room (Size 2 26)) ex_kids /\
  exists s t tr c w' d' v, painted E ansi_cfg (ansi_tty E) s t (blank_canvas (Size 2 26)) /\ wat (wr s) = no_attrs /\
    run E ansi_cfg (start (main_task 3 :: map draw_task ex_kids) (share s)) tr c /\ finished c /\ no_failure tr /\ not_continued tr /\
    no_new_size tr /\ shared c = (Some w', Some d') /\
    look (ansi_tty E) (feed (ansi_tty E) (emu_new (Size 2 26)) (stream w')) = Some v /\ ex_lines v = true.
Proof.
  cbv zeta. split; [apply demo_env_ok|]. split; [apply demo_chars|]. split; [apply ansi_coherent|]. split; [apply ansi_implements, demo_env_ok|].
  split; [|split; [|split]].
  - apply Forall_cons; [|apply Forall_cons; [|apply Forall_nil]]; apply plain_kid; reflexivity.
  - repeat constructor; cbn; intuition discriminate.
  - repeat (apply Forall_cons; [split; [cbn; lia|]|]); try apply Forall_nil; intros x Hx; cbn in Hx; intuition subst; cbn; lia.
  - apply (drawing_run_ok (demo_env 1000) (demo_env_ok 1000) (Size 2 26) (alls 20) (main_task 3 :: map draw_task ex_kids)
      (map (fun i => (i, COther 113%N)) ([0] ++ repeat 1 14 ++ [1] ++ repeat 2 15 ++ [0] ++ repeat 1 15 ++ [0])) ex_lines).
    + small.
    + repeat (apply Forall_cons; [constructor|]). apply Forall_forall. intros r [].
    + vm_compute. reflexivity.
Qed.

(** The same threads on a terminal of 4 lines and 80 columns.  This one keeps the column at a line
    feed (the translation of line feeds is that of the terminal's driver), so the lines
    begin in columns 0, 23 and 47. *)
Definition ex_three (v : view) : bool :=
  cells_are (vcells v) (label (Kid [97]%N Red 0 []) [32; 49; 50]%N) &&
  cells_are (skipn (80 + 23) (vcells v)) (label (Kid [98; 99]%N Blue 1 []) [32; 32; 55]%N) &&
  cells_are (skipn (80 + 80 + 47) (vcells v)) (label (Kid [97]%N Red 0 []) [49; 48; 48]%N).
Example C140_threads_example :
  let E := demo_env 1000 in
  let w := writer_new 64 (alls 20) in
  implements E ansi_cfg (ansi_tty E) /\ full_caps ansi_cfg /\
  (forall e x, In e ex_kids -> In x (kvalues e) -> Forall (sensible E) (line_calls e x)) /\
  perfect (script w) /\ whole_writes (script w) /\ style_ok (sty (wat w)) /\ obuf w = [] /\
  (exists v0, look (ansi_tty E) (feed (ansi_tty E) (emu_new (Size 4 80)) (stream w)) = Some v0 /\ vattrs v0 = wat w) /\
  exists tr c w' v, run E ansi_cfg (start (map say_task ex_kids) (Some w, None)) tr c /\ finished c /\ no_failure tr /\
    fst (shared c) = Some w' /\ look (ansi_tty E) (feed (ansi_tty E) (emu_new (Size 4 80)) (stream w')) = Some v /\ ex_three v = true.
Proof.
  cbv zeta. split; [apply ansi_implements, demo_env_ok|].
  split; [split; [apply ansi_all_caps|split; reflexivity]|].
  split.
  { assert (T : forall c, ((32 <=? c) && (c <? 127))%N = true -> texty (demo_env 1000) c).
    { intros c Hc. destruct (plain_one c Hc) as (W & Cb & N9 & N10 & N13). split; [unfold scalar, is_scalar; lia|]. left. unfold printable. intuition (lia || congruence). }
    assert (TA : forall s, forallb (fun c => (32 <=? c) && (c <? 127))%N s = true -> Forall (texty (demo_env 1000)) s).
    { intros s H. rewrite forallb_forall in H. apply Forall_forall. intros c Hc. apply T. now apply H. }
    intros e x He Hx.
    assert (H : forallb (fun c => (32 <=? c) && (c <? 127))%N x = true /\ forallb (fun c => (32 <=? c) && (c <? 127))%N (kname e) = true).
    { cbn in He. destruct He as [<-|[<-|[]]]; cbn in Hx; intuition subst; reflexivity. }
    destruct H as [H1 H2]. unfold line_calls. do 6 (apply Forall_cons; [cbn [sensible]; try exact Logic.I; try (apply TA; assumption || reflexivity)|]); try apply Forall_nil.
    apply Forall_cons; [apply TA; reflexivity|]. apply Forall_cons; [apply TA, H1|]. apply Forall_cons; [|apply Forall_nil].
    apply Forall_cons; [|apply Forall_nil]. split; [reflexivity|]. right. right. right. now left. }
  split; [repeat (constructor; [left; reflexivity|]); constructor|].
  split; [repeat (apply Forall_cons; [constructor|]); apply Forall_nil|]. split; [reflexivity|]. split; [reflexivity|].
  split; [eexists; split; vm_compute; reflexivity|].
  apply (terminal_shows_ok (demo_env 1000) (map say_task ex_kids) (writer_new 64 (alls 20))
    (map (fun i => (i, COther 113%N)) (repeat 0 9 ++ repeat 1 9 ++ repeat 0 9)) (emu_new (Size 4 80)) ex_three).
  vm_compute. reflexivity.
Qed.
