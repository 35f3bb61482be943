(** Property theorems for the visibility of a screen's cursor (C115). *)
From Verif Require Import Base M_Utf8 S_Utf8 M_Geom S_Geom M_Attr M_Buf S_Buf M_Writer S_Tty S_Writer M_Screen S_Screen
  P_Buf3 S_Emu P_Emu P_Screen P_Screen5 S_CursorMode P_CursorMode P_CursorMode2.
From Verif Require M_WinWriter M_WinScreen S_WinScreen S_WinCursor P_WinCursor Prop_WinScreen.

(** C115 for single-width text, on a terminal that can hide its cursor and show it: the
    cursor is visible or not as the last [set_cursor_mode] said, or as it was when the
    screen was opened, whatever was drawn and however often the screen was refreshed. *)
Theorem C115_cursor_visibility :
  forall E C K, env_ok E -> env_chars E -> caps_coherent C -> implements E C K ->
  forall s t b, has C CursorNormal = true -> has C CursorInvisible = true ->
    watched E C K (single_width E) anyhow s t b ->
    exists v, look K t = Some v /\ vvis v = b.
Proof. exact narrow_visible. Qed.
Print Assumptions C115_cursor_visibility.

(** The same with double-width text, under the condition of C24. *)
Theorem C115_wide_text :
  forall E C K, env_ok E -> env_chars E -> caps_coherent C -> implements E C K ->
  forall s t b, has C CursorNormal = true -> has C CursorInvisible = true ->
    watched E C K any_text (wides_mend E) s t b ->
    exists v, look K t = Some v /\ vvis v = b.
Proof. exact wide_visible. Qed.
Print Assumptions C115_wide_text.

Example C115_example :
  let E := demo_env 1000 in
  env_ok E /\ env_chars E /\ caps_coherent ansi_cfg /\ implements E ansi_cfg (ansi_tty E) /\
  has ansi_cfg CursorNormal = true /\ has ansi_cfg CursorInvisible = true /\
  (exists s t b v, watched E ansi_cfg (ansi_tty E) (single_width E) anyhow s t b /\ look (ansi_tty E) t = Some v /\
     negb b && negb (vvis v) && cursor_eqb (vcur v) (Cursor 2 1) = true) /\
  (exists s t b v, watched E ansi_cfg (ansi_tty E) (single_width E) anyhow s t b /\ look (ansi_tty E) t = Some v /\
     b && vvis v && cursor_eqb (vcur v) (Cursor 0 0) = true).
Proof.
  cbv zeta. split; [apply demo_env_ok|]. split; [apply demo_chars|]. split; [apply ansi_coherent|].
  split; [apply ansi_implements, demo_env_ok|]. split; [reflexivity|]. split; [reflexivity|]. split.
  - apply (coutcome_ok (demo_env 1000) _ (Size 3 4) (alls 9)
      [CBuf (BWriteAt (Cursor 0 1) [98; 99; 100]%N); CRefresh; CMode CInvisible; CBuf (BSetFg (Some Red)); CRefresh;
       CBuf (BWriteStyledAt (Cursor 1 0) (Attrs (Some Red) None 4%N) [120; 97; 769]%N);
       CBuf (BSetCursor (Cursor 2 1)); CRefresh]
      (fun s v b => negb b && negb (vvis v) && cursor_eqb (vcur v) (Cursor 2 1))).
    + apply demo_env_ok.
    + small.
    + apply alls_whole.
    + repeat (apply Forall_cons; [try exact I; unfold single_width, no_wide; cbn [op_text];
        repeat (apply Forall_cons; [intros (_ & H); discriminate|]); constructor|]). constructor.
    + vm_compute. reflexivity.
  - apply (coutcome_ok (demo_env 1000) _ (Size 3 4) (alls 9)
      [CMode CInvisible; CBuf (BWriteAt (Cursor 0 1) [98; 99; 100]%N); CRefresh; CMode COverwrite;
       CBuf (BSetCursor (Cursor 0 0)); CRefresh]
      (fun s v b => b && vvis v && cursor_eqb (vcur v) (Cursor 0 0))).
    + apply demo_env_ok.
    + small.
    + apply alls_whole.
    + repeat (apply Forall_cons; [try exact I; unfold single_width, no_wide; cbn [op_text];
        repeat (apply Forall_cons; [intros (_ & H); discriminate|]); constructor|]). constructor.
    + vm_compute. reflexivity.
Qed.

(** On Windows: whatever a program did with its screen, and whichever calls failed, the
    console's cursor has the size and visibility of the mode set last without an error, or
    those it had at first. *)
Theorem C115_windows :
  forall draw E ops s s', S_WinScreen.run_wsops draw E ops s = Some s' ->
  M_WinWriter.c_cursor (M_WinWriter.w_con (M_WinScreen.t_w (M_WinScreen.g_t s'))) =
  S_WinCursor.expects draw E ops s (M_WinWriter.c_cursor (M_WinWriter.w_con (M_WinScreen.t_w (M_WinScreen.g_t s)))).
Proof. exact P_WinCursor.cursor_kept. Qed.
Print Assumptions C115_windows.

Example C115_windows_example :
  let ops := [M_WinScreen.SCursorMode CInvisible; M_WinScreen.SBuffer (BWriteStr [97; 98]%N);
              M_WinScreen.SRefresh; M_WinScreen.SReadEvent None; M_WinScreen.SRefresh] in
  match M_WinScreen.win_screen_new Prop_WinScreen.demo_env_w M_Prepare.default_config (Prop_WinScreen.demo_term [] []) with
  | Ret _ s => match S_WinScreen.run_wsops Prop_WinScreen.demo_same Prop_WinScreen.demo_env_w ops s with
               | Some s' => S_WinCursor.expects Prop_WinScreen.demo_same Prop_WinScreen.demo_env_w ops s (25, true)%N = (1, false)%N /\
                            bsize (M_WinScreen.g_sb s') = Size 2 5
               | None => False
               end
  | _ => False
  end.
Proof. vm_compute. split; reflexivity. Qed.
