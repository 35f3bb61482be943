(** C79: refreshing a Windows screen shows its buffer. *)
From Verif Require Import Base M_Utf8 S_Utf8 M_Geom S_Geom M_Attr M_Signal M_Util M_Input M_Buf S_Buf M_Writer M_Prepare M_Reader
  M_WinWriter M_WinReader S_WinReader M_WinScreen S_WinScreen P_WinDraw P_WinDraw2.
From Verif Require S_WinWriter S_Screen.

(** After a successful refresh the console shows the buffer and its cursor is at the
    buffer's (at the last position if that is outside).  Missing: text that takes other than
    one position (wide characters, marks), and windows smaller than the buffer when the
    screen has to be redrawn from the start with the cursor at the origin. *)
Theorem C79_refresh_shows_partial draw shown E s s' u :
  places draw shown -> env_ok E -> (32767 <= Z.of_nat (umax E))%Z ->
  whistory draw E (fun s => one_position E shown (g_sb s) /\ window_fits s) s ->
  one_position E shown (g_sb s) -> window_fits s ->
  win_refresh draw E s = Ret s' u ->
  shows_buffer shown (t_default (g_t s)) (sees s') (g_sb s') /\
  v_cur (sees s') = Coord (Z.of_nat (column (S_Screen.cursor_goal (g_sb s)))) (Z.of_nat (line (S_Screen.cursor_goal (g_sb s)))) /\
  buffer (g_sb s') = buffer (g_sb s) /\ bsize (g_sb s') = bsize (g_sb s) /\ bcur (g_sb s') = bcur (g_sb s).
Proof. intros HP HE HU Hh H1 H2 Hr. exact (history_shows draw shown E HP HE s s' u HU Hh (conj H1 H2) Hr). Qed.
Print Assumptions C79_refresh_shows_partial.

(** Without the condition on the window it does not. *)
Theorem C79_window_refuted : exists draw shown E s s' u,
  env_ok E /\ (32767 <= Z.of_nat (umax E))%Z /\ places draw shown /\
  whistory draw E (fun s => one_position E shown (g_sb s) /\ window_fits s) s /\ one_position E shown (g_sb s) /\
  win_refresh draw E s = Ret s' u /\ ~ shows_buffer shown (t_default (g_t s)) (sees s') (g_sb s').
Proof. exact window_wrong. Qed.
Print Assumptions C79_window_refuted.

(** A screen made while attributes are in force never shows its blank cells without them. *)
Theorem C79_attributes_refuted draw shown E cfg t t1 s s' u :
  env_ok E -> (32767 <= Z.of_nat (umax E))%Z ->
  displayed t -> S_WinWriter.view_ok (c_view (w_con (t_w t))) ->
  ~ S_WinWriter.shows (t_default t) no_attrs (c_attr (w_con (t_w t))) ->
  win_screen_new E cfg t = Ret t1 s -> win_refresh draw E s = Ret s' u ->
  ~ shows_buffer shown (t_default (g_t s')) (sees s') (g_sb s').
Proof. intros HE. exact (attrs_lost draw E HE shown cfg t t1 s s' u). Qed.
Print Assumptions C79_attributes_refuted.

(** After a refresh that fails, a successful one need not show the buffer. *)
Theorem C79_failure_refuted : exists draw shown E s s1 e s' u,
  env_ok E /\ (32767 <= Z.of_nat (umax E))%Z /\ places draw shown /\
  whistory draw E (fun s => one_position E shown (g_sb s) /\ window_fits s) s /\
  one_position E shown (g_sb s) /\ window_fits s /\
  win_refresh draw E s = Fail s1 e /\ g_clr s1 = false /\
  win_refresh draw E s1 = Ret s' u /\ ~ shows_buffer shown (t_default (g_t s)) (sees s') (g_sb s').
Proof. exact failure_wrong. Qed.
Print Assumptions C79_failure_refuted.

(** A screen is made, written to in colours, refreshed, the console resized and full of
    other text, the screen written to and refreshed again: it shows the buffer. *)
Definition ex_1 : wscr := wrote (wrote (wrote (some_screen (some_view 4 3 0 2 SPACE) [])
  (BSetBg (Some Red))) (BWriteStr [97; 98; 99; 100; 101]%N)) (BSetStyle 1%N).
Definition ex_2 : wscr := done (win_refresh demo_draw wide_env ex_1).
Definition ex_v : view := some_view 3 2 0 1 120.
Definition ex_3 : wscr := done (win_update_size wide_env (Size 2 3) (seeing ex_v ex_2)).
Definition ex_4 : wscr := wrote (wrote ex_3 (BWriteAt (Cursor 1 2) [102; 103]%N)) (BSetCursor (Cursor 7 7)).
Definition ex_5 : wscr := done (win_refresh demo_draw wide_env ex_4).

Example C79_example :
  places demo_draw demo_shown /\ env_ok wide_env /\ (32767 <= Z.of_nat (umax wide_env))%Z /\
  whistory demo_draw wide_env fine ex_4 /\ fine ex_4 /\
  win_refresh demo_draw wide_env ex_4 = Ret ex_5 tt /\
  map (fun p => fst (v_cell (sees ex_5) (fst p) (snd p))) [(0, 0); (0, 1); (0, 2); (1, 0); (1, 1); (1, 2)]%Z
    = [97; 98; 99; 101; 32; 102]%N /\
  v_cell (sees ex_5) 1 0 = (101%N, 0x47%N) /\ v_cur (sees ex_5) = Coord 2 1.
Proof.
  split; [exact demo_places|]. split; [exact wide_env_ok|]. split; [exact wide_env_max|].
  split.
  - apply write_history; [|intros sz Q; discriminate Q|vm_compute; reflexivity].
    apply write_history; [|intros sz Q; discriminate Q|vm_compute; reflexivity].
    apply (WH_resize demo_draw wide_env fine ex_2 ex_v ex_3 tt).
    + apply (WH_refresh demo_draw wide_env fine ex_1 ex_2 tt).
      * do 3 (apply write_history; [|intros sz Q; discriminate Q|vm_compute; reflexivity]).
        apply some_history; [unfold S_WinWriter.view_ok; cbn; lia|]. vm_compute. reflexivity.
      * split; [apply ascii_one; vm_compute; reflexivity|]. intros Q. vm_compute in Q. discriminate Q.
      * apply done_ok. vm_compute. reflexivity.
    + unfold S_WinWriter.view_ok; cbn; lia.
    + apply done_ok. vm_compute. reflexivity.
  - split; [split; [apply ascii_one; vm_compute; reflexivity|intros _; left; split; vm_compute; reflexivity]|].
    split; [apply done_ok; vm_compute; reflexivity|]. split; [vm_compute; reflexivity|]. split; vm_compute; reflexivity.
Qed.
Definition ex_red : wterm :=
  let t := some_term (some_view 4 3 0 2 SPACE) [] in
  WTerm (match win_set_bg 7 (Some Red) (t_w t) with Ret w _ => w | _ => t_w t end) 3 5 [] 5 1 7 (t_in t).
Example C79_attributes_example :
  displayed ex_red /\ S_WinWriter.view_ok (c_view (w_con (t_w ex_red))) /\
  ~ S_WinWriter.shows (t_default ex_red) no_attrs (c_attr (w_con (t_w ex_red))) /\
  exists t1 s s', win_screen_new wide_env default_config ex_red = Ret t1 s /\ win_refresh demo_draw wide_env s = Ret s' tt.
Proof.
  split; [split; [reflexivity|intros []]|]. split; [unfold S_WinWriter.view_ok; cbn; lia|].
  split; [intros H; specialize (H 6%N); vm_compute in H; discriminate H|].
  assert (H1 : is_ret (win_screen_new wide_env default_config ex_red) = true) by (vm_compute; reflexivity).
  apply made_ok in H1. destruct H1 as (t1 & H1).
  exists t1, (made (win_screen_new wide_env default_config ex_red)),
    (done (win_refresh demo_draw wide_env (made (win_screen_new wide_env default_config ex_red)))).
  split; [exact H1|]. apply done_ok. vm_compute. reflexivity.
Qed.
