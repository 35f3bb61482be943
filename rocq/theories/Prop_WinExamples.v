(** Property theorems for the example programs in which threads share a terminal or a screen
    (C140): Windows. *)
From Verif Require Import Base M_Utf8 S_Utf8 M_Geom S_Geom M_Attr M_Buf S_Buf M_Writer M_Api S_Api M_ScreenApi M_Locks S_Locks S_Together P_Together2
  M_WinWriter S_WinWriter M_WinReader M_WinScreen S_WinScreen P_WinDraw2 S_WinCanvas M_WinApi S_WinApi Prop_WinApi
  M_WinLocks S_WinLocks M_WinShare S_WinTogether S_WinCursor P_WinTogether P_WinSched P_WinProgram3 S_Program S_WinProgram S_TermProgram
  M_Examples S_Examples P_Examples4 Prop_Examples.
From Verif Require S_Canvas P_WinWriter M_Prepare Prop_WinTogether.
Import S_Canvas.

(** C140 on Windows: examples/screen_threads.rs, as in C140_screen_threads; the characters are
    among those the console shows, and the size does not change. *)
Theorem C140_screen_threads_console : forall draw shown E, places draw shown -> env_ok E -> (32767 <= Z.of_nat (umax E))%Z ->
  forall kids n s k r tr c t' d', wpainted draw shown E s k r -> (r = true -> covers (sees s)) -> brush k = no_attrs ->
  Forall (plain_text E) kids -> Forall (drawable shown) kids -> own_lines kids -> Forall (has_room (ksize k)) kids ->
  wrun (screen_access draw E (g_state s) (g_old s)) (wstart (main_task n :: map draw_task kids) (wshare s)) tr c ->
  wfinished c -> S_Together.no_failure tr -> no_new_size tr -> wshared c = (Some t', Some d') ->
  (exists d, In d kids /\ kvalues d <> []) ->
  exists k', holds (dbuf d') k' /\ shows_latest kids k' /\ ksize k' = ksize k /\
    (forall l c, elsewhere kids l c -> ink k' l c = ink k l c) /\
    wdisplays shown (t_default (g_t s)) (c_view (w_con (t_w t'))) k' /\ v_cur (c_view (w_con (t_w t'))) = Coord 0 0.
Proof. exact example_console. Qed.
Print Assumptions C140_screen_threads_console.

(** C140 on Windows: examples/threads.rs, as in C140_threads. *)
Theorem C140_threads_console : forall draw default E, S_WinApi.draws draw -> (default < 65536)%N -> (65536 <= Z.of_nat (umax E))%Z ->
  forall kids s F tr c s', (forall e x, In e kids -> In x (kvalues e) -> Forall scalar_text (line_calls e x)) ->
  faces default (w_con s) F -> f_attrs F = w_at s -> view_ok (f_view F) ->
  wrun (console_access draw E default) (wstart (map say_task kids) (Some s, tt)) tr c -> wfinished c -> S_Together.no_failure tr ->
  wshared c = (Some s', tt) ->
  exists (lines : list (nat * list N)) F', (forall i, done_by i lines = kvalues (nth i kids nobody)) /\
    win_effects draw default (map OnGuard (concat (map (fun x => line_calls (nth (fst x) kids nobody) (snd x)) lines))) F F' /\
    faces default (w_con s') F'.
Proof. exact example_console_terminal. Qed.
Print Assumptions C140_threads_console.

(** The threads of C140's example, on a console of 2 lines and 26 columns; the names are in
    bright red and bright blue. *)
Definition ex_wide : wscr := some_screen (some_view 26 2 0 1 SPACE) [].
Lemma ex_wide_painted : wpainted demo_draw demo_shown wide_env ex_wide (blank_canvas (Size 2 26)) false.
Proof.
  assert (H : is_ret (win_screen_new wide_env M_Prepare.default_config (some_term (some_view 26 2 0 1 SPACE) [])) = true)
    by (vm_compute; reflexivity).
  apply made_ok in H. destruct H as (t1 & H).
  refine (WP_new demo_draw demo_shown wide_env M_Prepare.default_config (some_term (some_view 26 2 0 1 SPACE) []) t1 _ _ _ _ _ _ H).
  - split; [reflexivity|]. intros [].
  - unfold view_ok; cbn; lia.
  - reflexivity.
  - reflexivity.
  - reflexivity.
Qed.
Lemma wplain_one c : ((32 <=? c) && (c <? 127))%N = true -> one_column wide_env c.
Proof.
  intros Hc. unfold one_column, wide_env. cbn [demo_env combining cwidth]. unfold demo_width, is_scalar. destruct (_ || _) eqn:Eq; [exfalso; lia|].
  replace ((768 <=? c) && (c <=? 879))%N with false by lia. replace ((65281 <=? c) && (c <=? 65376))%N with false by lia.
  repeat split; lia.
Qed.
Lemma wplain_all s : forallb (fun c => (32 <=? c) && (c <? 127))%N s = true -> Forall (one_column wide_env) s.
Proof. rewrite forallb_forall, Forall_forall. intros H c Hc. apply wplain_one. now apply H. Qed.
Lemma wplain_kid d : forallb (forallb (fun c => (32 <=? c) && (c <? 127))%N) (kname d :: kvalues d) = true -> plain_text wide_env d.
Proof.
  rewrite forallb_forall. intros H. split; [apply wplain_all; reflexivity|]. split; [apply wplain_all; reflexivity|].
  split; [apply wplain_all, H; now left|]. apply Forall_forall. intros x Hx. apply wplain_all, H. now right.
Qed.
Lemma ex_drawable d : forallb (fun c => (c <? 65536)%N) (opening ++ closing ++ kname d ++ concat (kvalues d)) = true -> drawable demo_shown d.
Proof.
  rewrite forallb_forall. intros H. apply Forall_forall. intros c Hc. specialize (H c Hc). unfold demo_shown. rewrite H. discriminate.
Qed.

Example C140_screen_console_example :
  places demo_draw demo_shown /\ env_ok wide_env /\ (32767 <= Z.of_nat (umax wide_env))%Z /\
  wpainted demo_draw demo_shown wide_env ex_wide (blank_canvas (Size 2 26)) false /\
  Forall (plain_text wide_env) ex_kids /\ Forall (drawable demo_shown) ex_kids /\ own_lines ex_kids /\ Forall (has_room (Size 2 26)) ex_kids /\
  exists tr c, wrun (screen_access demo_draw wide_env (g_state ex_wide) (g_old ex_wide))
      (wstart (main_task 3 :: map draw_task ex_kids) (wshare ex_wide)) tr c /\ wfinished c /\ S_Together.no_failure tr /\ no_new_size tr /\
    Prop_WinTogether.ex_shows [(0, 0, 91, 7); (0, 1, 97, 12); (0, 2, 93, 7); (0, 20, 49, 7); (0, 21, 48, 7); (0, 22, 48, 7);
      (1, 0, 91, 7); (1, 1, 98, 9); (1, 2, 99, 9); (1, 3, 93, 7); (1, 23, 55, 7)]%N (fst (wshared c)) (snd (wshared c)) = true.
Proof.
  split; [exact demo_places|]. split; [exact wide_env_ok|]. split; [exact wide_env_max|]. split; [exact ex_wide_painted|].
  split; [|split; [|split; [|split]]].
  - apply Forall_cons; [|apply Forall_cons; [|apply Forall_nil]]; apply wplain_kid; reflexivity.
  - apply Forall_cons; [|apply Forall_cons; [|apply Forall_nil]]; apply ex_drawable; reflexivity.
  - repeat constructor; cbn; intuition discriminate.
  - repeat (apply Forall_cons; [split; [cbn; lia|]|]); try apply Forall_nil; intros x Hx; cbn in Hx; intuition subst; cbn; lia.
  - apply (wlends_ok (screen_access demo_draw wide_env (g_state ex_wide) (g_old ex_wide)) (main_task 3 :: map draw_task ex_kids) (wshare ex_wide)
      (map (fun i => (i, COther 113%N)) ([0] ++ repeat 1 14 ++ repeat 2 14 ++ [0] ++ repeat 1 14 ++ [0]))
      (Prop_WinTogether.ex_shows [(0, 0, 91, 7); (0, 1, 97, 12); (0, 2, 93, 7); (0, 20, 49, 7); (0, 21, 48, 7); (0, 22, 48, 7);
      (1, 0, 91, 7); (1, 1, 98, 9); (1, 2, 99, 9); (1, 3, 93, 7); (1, 23, 55, 7)]%N)).
    vm_compute. reflexivity.
Qed.

(** The lines of C140_threads's example, on a simple console of 1 line and 80 columns on which
    every character, also a line feed, takes a position. *)
Definition ex_tape : con :=
  Con (View (Coord 80 1) (Coord 0 0) (Rect 0 0 0 79) (fun _ _ => (32, 7)%N)) 7 [] (25%N, true) (repeat (CTake 30) 12).
Definition ex_rows (w : option wins) : bool :=
  match w with
  | Some s' => forallb (fun x => let '(x, g, w) := x in let '(g', w') := v_cell (c_view (w_con s')) 0 (Z.of_N x) in (g =? g')%N && (w =? w')%N)
      [(0, 91, 7); (1, 97, 12); (2, 93, 7); (21, 49, 7); (22, 50, 7); (23, 10, 7); (24, 91, 7); (25, 98, 9); (26, 99, 9); (27, 93, 7); (47, 55, 7); (49, 91, 7); (50, 97, 12); (69, 49, 7)]%N
  | None => false
  end.
Example C140_threads_console_example :
  let E := demo_env (Z.to_nat 65536) in
  let s := Wins no_attrs ex_tape in
  S_WinApi.draws demo_draw /\ (65536 <= Z.of_nat (umax E))%Z /\
  (forall e x, In e ex_kids -> In x (kvalues e) -> Forall scalar_text (line_calls e x)) /\
  faces 7 (w_con s) (Face (c_view ex_tape) no_attrs (25%N, true)) /\ view_ok (c_view ex_tape) /\
  exists tr c, wrun (console_access demo_draw E 7) (wstart (map say_task ex_kids) (Some s, tt)) tr c /\ wfinished c /\
    S_Together.no_failure tr /\ ex_rows (fst (wshared c)) = true.
Proof.
  cbv zeta. split; [exact demo_draws|]. split; [cbn [umax demo_env]; lia|].
  split.
  { intros e x He Hx. cbn in He. destruct He as [<-|[<-|[]]]; cbn in Hx; intuition subst;
      repeat constructor; unfold scalar; cbn; lia. }
  split; [split; [reflexivity|]; split; [exact (P_WinWriter.word_shows 7 no_attrs eq_refl)|reflexivity]|].
  split; [vm_compute; intuition discriminate|].
  destruct (wlends_ok (console_access demo_draw (demo_env (Z.to_nat 65536)) 7) (map say_task ex_kids) (Some (Wins no_attrs ex_tape), tt)
    (map (fun i => (i, COther 113%N)) (repeat 0 8 ++ repeat 1 8 ++ repeat 0 8)) (fun w _ => ex_rows w)) as (tr & c & H1 & H2 & H3 & _ & H4).
  - vm_compute. reflexivity.
  - exists tr, c. auto.
Qed.
