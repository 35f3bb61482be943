(** Property theorems for threads that draw on one screen (C105, C106). *)
From Verif Require Import Base M_Utf8 M_Geom S_Geom M_Attr M_Buf S_Buf P_Buf3 M_Writer S_Tty S_Writer S_Emu P_Emu M_Screen S_Screen P_Screen5
  M_ScreenApi S_Canvas M_Locks S_Locks S_Together P_Together P_Together2 P_Sched.

(** C105: any number of threads share a screen in use (whose canvas is [k]); each calls
    drawing methods and [refresh], and draws and refreshes through write guards, with
    single-width text.  However they are scheduled: once all have finished and no access to
    the terminal has failed, there is an order of everything they did, in which each
    thread's doings come in its order and nothing comes between the strokes of a guard, such
    that the screen holds the canvas drawn in that order, and the terminal shows the canvas
    of the last refresh or dropped guard in that order (and has received nothing if there
    is none). *)
Theorem C105_one_picture : forall E C K, env_ok E -> env_chars E -> caps_coherent C -> implements E C K ->
  forall (progs : list (list doing)) s t k tr c w' d', painted E C K s t k ->
  Forall (Forall (narrow_doing E)) progs ->
  run E C (start (map doings_client progs) (share s)) tr c -> finished c -> no_failure tr ->
  shared c = (Some w', Some d') ->
  exists order : list (nat * doing), (forall i, done_by i order = nth i progs []) /\
    let l := concat (map strokes (map snd order)) in
    holds (dbuf d') (picture E l k) /\
    exists x, stream w' = stream (wr s) ++ x /\
    match displayed E l k None with
    | Some k' => obuf w' = [] /\ exists v, look K (feed K t x) = Some v /\ displays C v k' /\ vcur v = pen_goal k'
    | None => x = []
    end.
Proof. exact threads_draw. Qed.
Print Assumptions C105_one_picture.

(** Two threads on 2 lines of 6 columns: one writes "ab" and then, bold, "c" through a guard; the
    other sets red, writes "x" and refreshes.  The second thread comes in between. *)
Definition demo_doings : list (list doing) :=
  [[Together [Draw (SWriteAt (Pair 0 0) [97; 98]%N); Draw SBold; Draw (SWriteStr [99]%N)]];
   [Alone (SSetFg (Some Red)); Alone (SWriteStr [120]%N); Redraw]].

Example C105_example :
  let E := demo_env 1000 in
  env_ok E /\ env_chars E /\ caps_coherent ansi_cfg /\ implements E ansi_cfg (ansi_tty E) /\
  Forall (Forall (narrow_doing E)) demo_doings /\
  exists s t tr c w' d' x v, painted E ansi_cfg (ansi_tty E) s t (blank_canvas (Size 2 6)) /\
    run E ansi_cfg (start (map doings_client demo_doings) (share s)) tr c /\ finished c /\ no_failure tr /\
    shared c = (Some w', Some d') /\ stream w' = stream (wr s) ++ x /\
    look (ansi_tty E) (feed (ansi_tty E) t x) = Some v /\
    match firstn 4 (vcells v) with
    | [VC a1 a2; VC b1 b2; VC c1 c2; VC x1 x2] =>
        bytes_eqb (a1 ++ b1 ++ c1 ++ x1) [97; 98; 99; 120]%N && attrs_eqb a2 (Attrs (Some Red) None 0%N) &&
        attrs_eqb c2 (Attrs (Some Red) None BOLD) && attrs_eqb x2 (Attrs (Some Red) None BOLD)
    | _ => false
    end = true.
Proof.
  cbv zeta. split; [apply demo_env_ok|]. split; [apply demo_chars|]. split; [apply ansi_coherent|].
  split; [apply ansi_implements, demo_env_ok|]. split.
  { repeat (apply Forall_cons; [unfold narrow_doing; cbn; repeat (apply Forall_cons; [cbn;
      repeat (apply Forall_cons; [try exact I; try (intros (_ & H); discriminate)|]); try constructor|]); try constructor|]). constructor. }
  apply (together_ok (demo_env 1000) (demo_env_ok 1000) (Size 2 6) (WAll :: WIntr :: alls 9) demo_doings
    ([1; 1; 1] ++ [0; 0; 0; 0; 0] ++ [0; 0] ++ [0; 0] ++ [1; 1; 1] ++ repeat 1 7) (fun v =>
    match firstn 4 (vcells v) with
    | [VC a1 a2; VC b1 b2; VC c1 c2; VC x1 x2] =>
        bytes_eqb (a1 ++ b1 ++ c1 ++ x1) [97; 98; 99; 120]%N && attrs_eqb a2 (Attrs (Some Red) None 0%N) &&
        attrs_eqb c2 (Attrs (Some Red) None BOLD) && attrs_eqb x2 (Attrs (Some Red) None BOLD)
    | _ => false
    end)).
  - small.
  - repeat (apply Forall_cons; [constructor|]). apply Forall_forall. intros r [].
  - vm_compute. reflexivity.
Qed.

(** C106: if each thread draws in an area of its own and ends with a refresh or a dropped
    guard, the schedule does not matter: in each area the terminal shows what its thread
    alone would have drawn, and the rest is as before. *)
Theorem C106_own_areas : forall E C K, env_ok E -> env_chars E -> caps_coherent C -> implements E C K ->
  forall (areas : nat -> area) (progs : list (list doing)) s t k tr c w' d', painted E C K s t k ->
  (forall i j l c, i <> j -> areas i l c -> ~ areas j l c) ->
  (forall i d, In d (nth i progs []) -> keeps_to E (ksize k) (areas i) d) ->
  Forall (Forall (narrow_doing E)) progs -> progs <> [] -> Forall ends_shown progs ->
  run E C (start (map doings_client progs) (share s)) tr c -> finished c -> no_failure tr ->
  shared c = (Some w', Some d') ->
  exists x v, stream w' = stream (wr s) ++ x /\ obuf w' = [] /\ look K (feed K t x) = Some v /\ vsize v = ksize k /\
    forall p, in_bounds p (ksize k) ->
      (forall i, areas i (line p) (column p) ->
         nth_error (vcells v) (cell_no (ksize k) p) =
         Some (shown_ink C (ink (picture E (concat (map strokes (nth i progs []))) k) (line p) (column p)))) /\
      ((forall i, ~ areas i (line p) (column p)) ->
         nth_error (vcells v) (cell_no (ksize k) p) =
         Some (shown_ink C (ink k (line p) (column p)))).
Proof. exact own_areas. Qed.
Print Assumptions C106_own_areas.

(** Such drawing: [write_styled_at] with text of single columns that fits on the line stays
    in the positions of the text. *)
Theorem C106_styled_text_stays : forall E sz p f b st s, Forall (one_column E) s -> line (where_ p) < lines sz ->
  column (where_ p) + length s <= columns sz ->
  stays_in E sz (span (where_ p) (length s)) (SWriteStyledAt p f b st s).
Proof. exact styled_at_stays. Qed.
Print Assumptions C106_styled_text_stays.

(** Two threads, each with one line: the first writes "ab" in red, shows it, and writes "c"
    over the "a"; the second writes "x" in bold, each with a guard. *)
Definition demo_lines : list (list doing) :=
  [[Together [Draw (SWriteStyledAt (Pair 0 1) (Some Red) None None [97; 98]%N)];
    Together [Draw (SWriteStyledAt (Pair 0 1) None None None [99]%N)]];
   [Alone (SWriteStyledAt (Pair 1 0) None None (Some BOLD) [120]%N); Redraw]].
Definition own_line (i : nat) : area := fun l _ => l = i.

Lemma demo_lines_keep : forall i d, In d (nth i demo_lines []) -> keeps_to (demo_env 1000) (Size 2 6) (own_line i) d.
Proof.
  assert (G : forall i p f b st s, Forall (one_column (demo_env 1000)) s -> line (where_ p) = i -> i < 2 ->
    column (where_ p) + length s <= 6 -> stays_in (demo_env 1000) (Size 2 6) (own_line i) (SWriteStyledAt p f b st s)).
  { intros i p f b st s Hs Hl Hi Hc. apply (stays_wider _ _ (span (where_ p) (length s))).
    - apply styled_at_stays; cbn; [assumption|lia|lia].
    - intros l c [-> _]. exact Hl.
    - intros l c. unfold span. lia. }
  intros i d Hd m Hm. destruct i as [|[|i]]; [| |cbn in Hd; destruct i; destruct Hd].
  - cbn in Hd. destruct Hd as [<-|[<-|[]]]; cbn in Hm; destruct Hm as [Hm|[Hm|[]]]; try discriminate Hm; injection Hm as <-;
      apply G; cbn; try lia; repeat (apply Forall_cons; [repeat split; discriminate|]); constructor.
  - cbn in Hd. destruct Hd as [<-|[<-|[]]]; cbn in Hm; destruct Hm as [Hm|[]]; try discriminate Hm; injection Hm as <-;
      apply G; cbn; try lia; repeat (apply Forall_cons; [repeat split; discriminate|]); constructor.
Qed.

Example C106_example :
  let E := demo_env 1000 in
  (forall i j l c : nat, i <> j -> own_line i l c -> ~ own_line j l c) /\
  (forall i d, In d (nth i demo_lines []) -> keeps_to E (Size 2 6) (own_line i) d) /\
  Forall (Forall (narrow_doing E)) demo_lines /\ Forall ends_shown demo_lines /\
  exists s t tr c w' d' x v, painted E ansi_cfg (ansi_tty E) s t (blank_canvas (Size 2 6)) /\
    run E ansi_cfg (start (map doings_client demo_lines) (share s)) tr c /\ finished c /\ no_failure tr /\
    shared c = (Some w', Some d') /\ stream w' = stream (wr s) ++ x /\
    look (ansi_tty E) (feed (ansi_tty E) t x) = Some v /\
    match firstn 7 (vcells v) with
    | [_; VC a1 a2; VC b1 b2; _; _; _; VC x1 x2] =>
        bytes_eqb (a1 ++ b1 ++ x1) [99; 98; 120]%N && attrs_eqb a2 no_attrs &&
        attrs_eqb b2 (Attrs (Some Red) None 0%N) && attrs_eqb x2 (Attrs None None BOLD)
    | _ => false
    end = true.
Proof.
  cbv zeta. split; [unfold own_line; congruence|]. split; [exact demo_lines_keep|]. split.
  { repeat (apply Forall_cons; [unfold narrow_doing; cbn; repeat (apply Forall_cons; [cbn;
      repeat (apply Forall_cons; [try exact I; try (intros (_ & H); discriminate)|]); try constructor|]); try constructor|]). constructor. }
  split.
  { repeat constructor.
    - exists [Together [Draw (SWriteStyledAt (Pair 0 1) (Some Red) None None [97; 98]%N)]]. eexists. split; [reflexivity|exact I].
    - exists [Alone (SWriteStyledAt (Pair 1 0) None None (Some BOLD) [120]%N)]. eexists. split; [reflexivity|exact I]. }
  apply (together_ok (demo_env 1000) (demo_env_ok 1000) (Size 2 6) (WAll :: WIntr :: alls 9) demo_lines
    (repeat 0 7 ++ [1; 1; 1] ++ repeat 0 7 ++ repeat 1 7) (fun v =>
    match firstn 7 (vcells v) with
    | [_; VC a1 a2; VC b1 b2; _; _; _; VC x1 x2] =>
        bytes_eqb (a1 ++ b1 ++ x1) [99; 98; 120]%N && attrs_eqb a2 no_attrs &&
        attrs_eqb b2 (Attrs (Some Red) None 0%N) && attrs_eqb x2 (Attrs None None BOLD)
    | _ => false
    end)).
  - small.
  - repeat (apply Forall_cons; [constructor|]). apply Forall_forall. intros r [].
  - vm_compute. reflexivity.
Qed.
