(** Property theorems for drawing on a screen on Windows (C100). *)
From Verif Require Import Base M_Utf8 S_Utf8 M_Geom S_Geom M_Attr M_Signal M_Util M_Input M_Buf S_Buf M_Writer M_Prepare M_Reader
  M_WinWriter M_WinReader S_WinReader M_WinScreen S_WinScreen P_WinDraw P_WinDraw2 M_ScreenApi S_WinCanvas P_WinCanvas.
From Verif Require S_WinWriter S_Canvas P_Canvas.

(** C100: in any history of drawing methods, cursor modes, refreshes and resizes, with text
    that takes one position per character, [size] and [cursor] tell what the canvas says and
    a refresh makes the console show the canvas, with the cursor at the pen (or the last
    position, if the pen is off the canvas). *)
Theorem C100_refresh_displays_the_canvas : forall draw shown E, places draw shown -> env_ok E ->
  (32767 <= Z.of_nat (umax E))%Z -> forall s k r, wpainted draw shown E s k r ->
  screen_get_size (g_sb s) = S_Canvas.ksize k /\ screen_get_cursor (g_sb s) = S_Canvas.pen k /\
  forall s' u, (r = true -> covers (sees s)) -> win_refresh draw E s = Ret s' u ->
    wdisplays shown (t_default (g_t s)) (sees s') k /\
    v_cur (sees s') = Coord (Z.of_nat (column (S_Canvas.pen_goal k))) (Z.of_nat (line (S_Canvas.pen_goal k))).
Proof. intros draw shown E HP HE HU s k r H. exact (winpainting_shows draw shown E HP HE s k r HU H). Qed.
Print Assumptions C100_refresh_displays_the_canvas.

(** A screen of 3 lines and 4 columns; "abcde" on red, refreshed; the console becomes 2
    lines of 3 columns full of "x"; "fg" is written at its last position, and the cursor is
    put off the screen; then it is refreshed. *)
Definition ex_1 : wscr := wrote (wrote (some_screen (some_view 4 3 0 2 SPACE) [])
  (BSetBg (Some Red))) (BWriteStr [97; 98; 99; 100; 101]%N).
Definition ex_2 : wscr := done (win_refresh demo_draw wide_env ex_1).
Definition ex_v : view := some_view 3 2 0 1 120.
Definition ex_3 : wscr := done (win_update_size wide_env (Size 2 3) (seeing ex_v ex_2)).
Definition ex_4 : wscr := wrote (wrote ex_3 (BWriteAt (Cursor 1 2) [102; 103]%N)) (BSetCursor (Cursor 7 7)).
Definition ex_5 : wscr := done (win_refresh demo_draw wide_env ex_4).
Definition ex_k : S_Canvas.canvas :=
  S_Canvas.draw wide_env (SSetCursor (Pair 7 7)) (S_Canvas.draw wide_env (SWriteAt (At (Cursor 1 2)) [102; 103]%N)
   (S_Canvas.refit (Size 2 3) (S_Canvas.draw wide_env (SWriteStr [97; 98; 99; 100; 101]%N)
     (S_Canvas.draw wide_env (SSetBg (Some Red)) (S_Canvas.blank_canvas (Size 3 4)))))).

Example C100_example :
  places demo_draw demo_shown /\ env_ok wide_env /\ (32767 <= Z.of_nat (umax wide_env))%Z /\
  wpainted demo_draw demo_shown wide_env ex_4 ex_k true /\ covers (sees ex_4) /\
  win_refresh demo_draw wide_env ex_4 = Ret ex_5 tt /\
  map (fun p => fst (S_Canvas.ink ex_k (fst p) (snd p))) [(0, 0); (0, 1); (0, 2); (1, 0); (1, 1); (1, 2)]
    = [[97]; [98]; [99]; [101]; [32]; [102]]%N /\
  map (fun p => fst (v_cell (sees ex_5) (fst p) (snd p))) [(0, 0); (0, 1); (0, 2); (1, 0); (1, 1); (1, 2)]%Z
    = [97; 98; 99; 101; 32; 102]%N /\
  v_cell (sees ex_5) 1 0 = (101%N, 0x47%N) /\ v_cur (sees ex_5) = Coord 2 1.
Proof.
  split; [exact demo_places|]. split; [exact wide_env_ok|]. split; [exact wide_env_max|].
  assert (T : forall s, forallb (fun c => (32 <=? c) && (c <? 127))%N s = true -> Forall (single wide_env demo_shown) s).
  { intros s. rewrite forallb_forall, Forall_forall. intros H c Hc. specialize (H c Hc). right. right. right.
    unfold wide_env. cbn [demo_env combining cwidth]. split; [lia|]. split.
    - intros (_ & Hw). cbn [demo_env cwidth] in Hw. unfold demo_width in Hw.
      destruct (_ || _) in Hw; [discriminate Hw|]. replace ((768 <=? c) && (c <=? 879))%N with false in Hw by lia.
      replace ((65281 <=? c) && (c <=? 65376))%N with false in Hw by lia. discriminate Hw.
    - intros _. unfold demo_shown. replace (c <? 65536)%N with true by lia. intros Q; discriminate Q. }
  assert (M : forall s k r m, wpainted demo_draw demo_shown wide_env s k r ->
    forallb (fun c => (32 <=? c) && (c <? 127))%N (S_Canvas.method_text m) = true ->
    is_val (screen_method wide_env m (g_sb s)) = true ->
    wpainted demo_draw demo_shown wide_env (wrote s (sforward m)) (S_Canvas.draw wide_env m k) r).
  { intros s k r m H1 H2 H3. unfold wrote. unfold screen_method in H3.
    destruct (run_buf_op wide_env (g_sb s) (sforward m)) as [b|] eqn:Eb; [|discriminate H3].
    eapply WP_method; [exact H1|exact (T _ H2)|exact Eb]. }
  split; [|split; [split; vm_compute; reflexivity|split; [apply done_ok; vm_compute; reflexivity|
    split; [vm_compute; reflexivity|split; [vm_compute; reflexivity|split; vm_compute; reflexivity]]]]].
  refine (M _ _ _ (SSetCursor (Pair 7 7)) _ _ _); [|reflexivity|vm_compute; reflexivity].
  refine (M _ _ _ (SWriteAt (At (Cursor 1 2)) [102; 103]%N) _ _ _); [|reflexivity|vm_compute; reflexivity].
  refine (WP_resize demo_draw demo_shown wide_env ex_2 _ false ex_v ex_3 tt _ _ _).
  - refine (WP_refresh demo_draw demo_shown wide_env ex_1 _ false ex_2 tt _ _ _).
    + refine (M _ _ _ (SWriteStr [97; 98; 99; 100; 101]%N) _ _ _); [|reflexivity|vm_compute; reflexivity].
      refine (M _ _ _ (SSetBg (Some Red)) _ _ _); [|reflexivity|vm_compute; reflexivity].
      assert (H : is_ret (win_screen_new wide_env default_config (some_term (some_view 4 3 0 2 SPACE) [])) = true)
        by (vm_compute; reflexivity).
      apply made_ok in H. destruct H as (t1 & H). 
      refine (WP_new demo_draw demo_shown wide_env default_config (some_term (some_view 4 3 0 2 SPACE) []) t1 _ _ _ _ _ _ H).
      * split; [reflexivity|]. intros [].
      * unfold S_WinWriter.view_ok; cbn; lia.
      * reflexivity.
      * reflexivity.
      * reflexivity.
    + intros Q; discriminate Q.
    + apply done_ok. vm_compute. reflexivity.
  - unfold S_WinWriter.view_ok; cbn; lia.
  - apply done_ok. vm_compute. reflexivity.
Qed.
