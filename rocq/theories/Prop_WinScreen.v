(** Property theorems for Windows screens: opening, dropping and reading (C72, C78). *)
From Verif Require Import Base M_Utf8 M_Geom M_Attr M_Signal M_Util M_Input M_Buf S_Buf M_Writer M_Prepare M_Reader
  M_WinWriter M_WinReader S_WinReader M_WinScreen S_WinScreen P_WinScreen.
From Verif Require S_WinWriter.
Local Open Scope N_scope.

(** C72: whatever a program did with a screen, dropping it shows the original buffer again,
    as it was, with the output mode the terminal found; the screen's buffer is closed; the
    cursor is visible; the input mode and the control handler are as before.  (If no call
    fails then.) *)
Theorem C72_round_trip :
  forall draw E cfg ops t t1 s s',
  displayed t -> win_screen_new E cfg t = Ret t1 s -> run_wsops draw E ops s = Some s' -> calls_work (g_t s') ->
  exists t', win_screen_drop s' = Ret t' tt /\ same_buffers t t' /\ t_mode t' = t_old t /\
    c_cursor (w_con (t_w t')) = (25, true) /\
    w_mode (t_in t') = N.lor (w_mode (t_in t)) ENABLE_EXTENDED_FLAGS /\ w_regs (t_in t') = w_regs (t_in t).
Proof. exact round_trip. Qed.
Print Assumptions C72_round_trip.

(** The mode a terminal restores is the one it found. *)
Theorem C72_terminal_mode :
  forall t t' u, win_terminal_new t = Ret t' u ->
  same_buffers t t' /\ t_old t' = t_mode t /\ t_default t' = c_attr (w_con (t_w t)) /\ w_at (t_w t') = no_attrs /\
  t_mode t' = N.lor (N.lor (t_mode t) ENABLE_PROCESSED_OUTPUT) ENABLE_WRAP_AT_EOL_OUTPUT.
Proof. exact terminal_new_inv. Qed.
Print Assumptions C72_terminal_mode.

(** C57: a new terminal has seen no button go down and does not track motion: it reports
    the mouse records it is given as if they were the first ones.  (Missing: as in
    [C57_mouse_partial].) *)
Theorem C57_new_terminal_partial :
  forall E t t' u rs is,
  (32768 <= Z.of_nat (umax E))%Z -> win_terminal_new t = Ret t' u -> Forall mouse_ok rs -> says_all false 0 rs is ->
  exists rd', run_mouse E rs (w_rd (t_in t')) = Val (rd', map (fun ri => as_event (fst ri) (snd ri)) (combine rs is)).
Proof. exact new_terminal_mouse. Qed.
Print Assumptions C57_new_terminal_partial.

(** If making a screen fails in one of its first five calls (up to displaying the new
    buffer), the console is left as it was.  (The third of them, which creates the buffer,
    fails unnoticed: the error reported is that of using the missing buffer.)  Missing: the
    later calls, for which it is not true (below). *)
Theorem C72_failed_early_partial :
  forall E cfg t l e rest,
  (32767 <= Z.of_nat (umax E))%Z -> displayed t -> S_WinWriter.view_ok (c_view (w_con (t_w t))) ->
  answers t = l ++ CFail e :: rest -> S_WinWriter.no_failure l -> (length l < 5)%nat -> S_WinWriter.no_failure rest ->
  exists t', win_screen_new E cfg t = Fail t' (if (length l =? 2)%nat then ERROR_INVALID_HANDLE else e) /\ same_buffers t t' /\ t_mode t' = t_old t /\
    c_cursor (w_con (t_w t')) = (25, true) /\ t_in t' = t_in t.
Proof. exact failed_early. Qed.
Print Assumptions C72_failed_early_partial.

(** If it fails later (reading or setting the mode of the new buffer, or preparing), the
    console goes on displaying the new buffer, though the program has no screen. *)
Theorem C72_failed_late_refuted :
  forall E cfg t e,
  (32767 <= Z.of_nat (umax E))%Z -> displayed t -> S_WinWriter.view_ok (c_view (w_con (t_w t))) ->
  (exists l rest, answers t = l ++ CFail e :: rest /\ S_WinWriter.no_failure l /\ (length l = 5 \/ length l = 6)%nat) \/
  (S_WinWriter.no_failure (answers t) /\ exists l, w_os (t_in t) = Some e :: l) ->
  exists t', win_screen_new E cfg t = Fail t' e /\ strayed t t'.
Proof. exact failed_late. Qed.
Print Assumptions C72_failed_late_refuted.

(** If, on dropping, the first call to restore the input fails, the screen's buffer stays
    displayed. *)
Theorem C72_drop_refuted :
  forall E cfg draw ops t t1 s s' e l,
  displayed t -> win_screen_new E cfg t = Ret t1 s -> run_wsops draw E ops s = Some s' ->
  w_os (t_in (g_t s')) = Some e :: l ->
  exists t', win_screen_drop s' = Ret t' tt /\ strayed t t'.
Proof. exact drop_unrestored. Qed.
Print Assumptions C72_drop_refuted.

(** A console with a buffer of 3 lines and 4 columns, and another one that is not displayed. *)
Definition demo_term (l : list cans) (os : list (option N)) : wterm :=
  let v := View (Coord 4 3) (Coord 2 1) (Rect 0 2 0 3) (fun y x => (Z.to_N (65 + 4 * y + x), 7)) in
  WTerm (Wins no_attrs (Con v 7 [] (25, true) l)) 3 5 [(9, WBuf v 8 (100, true) 0)] 5 1 7
    (WSys (WReader false 0) 0 NO_SIGNAL 0x1f7 0 [] None os []
       [WRec (SizeRec (Coord 5 2)); WTime; WStep; WRec (KeyRec true 0x41 0 0x61); WTime; WStep; WTime; WStep; WTime; WStep; WTime]).
Example C57_new_terminal_example :
  (exists t', win_terminal_new (demo_term [] []) = Ret t' tt) /\
  Forall mouse_ok [MouseRec (Coord 3 5) 0 0 1; MouseRec (Coord 1 5) 1 0 0] /\
  says_all false 0 [MouseRec (Coord 3 5) 0 0 1; MouseRec (Coord 1 5) 1 0 0] [None; Some (MPressed MLeft)].
Proof.
  split; [eexists; reflexivity|]. split; [repeat (constructor; [cbn; lia|]); constructor|].
  apply says_cons with (p' := 0); [apply says_nothing; reflexivity|].
  apply says_cons with (p' := 1); [|constructor].
  change MLeft with (button_no 0). apply says_press; try reflexivity.
  intros [|[j|j|]]; cbn; split; try congruence; try discriminate.
Qed.

Definition demo_env_w : env := demo_env (Z.to_nat 40000).
Definition demo_same (_l : list N) (_a : N) (v : view) : view := v.

Example C72_example :
  displayed (demo_term [] []) /\ S_WinWriter.view_ok (c_view (w_con (t_w (demo_term [] [])))) /\
  (exists t1 s s', win_screen_new demo_env_w default_config (demo_term [] []) = Ret t1 s /\
     run_wsops demo_same demo_env_w [SBuffer (BWriteStr [97; 98]); SRefresh; SCursorMode CInvisible; SReadEvent None; SRefresh] s = Some s' /\
     calls_work (g_t s') /\ t_out (g_t s') = 10 /\ t_active (g_t s') = 10 /\ bsize (g_sb s') = Size 2 5) /\
  (exists t', win_screen_new demo_env_w default_config (demo_term [CTake 0; CTake 0; CTake 0; CTake 0; CFail 8] []) = Fail t' 8 /\
     t_active t' = 5 /\ map fst (t_else t') = [9]) /\
  (exists t', win_screen_new demo_env_w default_config (demo_term [] [Some 6]) = Fail t' 6 /\
     t_active t' = 10 /\ t_out t' = 10).
Proof.
  split; [split; [reflexivity|cbn; intuition discriminate]|]. split; [vm_compute; intuition discriminate|].
  split; [eexists _, _, _; split; [vm_compute; reflexivity|]; split; [vm_compute; reflexivity|];
          split; [split; constructor|]; vm_compute; repeat split|].
  split; eexists; (split; [vm_compute; reflexivity|]); vm_compute; auto.
Qed.

(** C109: a terminal is opened exactly if the process has a standard input and writes to a
    console, and the three calls that read and set up the console succeed. *)
Theorem C109_opens :
  forall i o t,
  (exists t', win_terminal_open i o t = Ret t' tt) <->
  (forall e, i <> SNull e) /\ o = SConsole /\ (forall e, ~ In (CFail e) (firstn 3 (answers t))).
Proof. exact terminal_opens. Qed.
Print Assumptions C109_opens.

(** A terminal that cannot be opened leaves the console as it was. *)
Theorem C109_unopened :
  forall i o t t' e, win_terminal_open i o t = Fail t' e ->
  same_buffers t t' /\ t_mode t' = t_mode t /\ c_cursor (w_con (t_w t')) = c_cursor (w_con (t_w t)) /\ t_in t' = t_in t.
Proof. exact terminal_unopened_same. Qed.
Print Assumptions C109_unopened.

(** A standard input that is no console, or even invalid, is not noticed. *)
Theorem C109_input_refuted :
  forall o t, win_terminal_open SInvalid o t = win_terminal_open SConsole o t /\
              win_terminal_open SFile o t = win_terminal_open SConsole o t.
Proof. exact input_unnoticed. Qed.
Print Assumptions C109_input_refuted.

(** If the console refuses to create the screen's buffer, the program is told that a handle
    was invalid, whatever the console's reason was. *)
Theorem C109_creation_refuted :
  forall E cfg t l e rest,
  (32767 <= Z.of_nat (umax E))%Z -> displayed t -> S_WinWriter.view_ok (c_view (w_con (t_w t))) ->
  answers t = l ++ CFail e :: rest -> S_WinWriter.no_failure l -> length l = 2%nat -> S_WinWriter.no_failure rest ->
  exists t', win_screen_new E cfg t = Fail t' ERROR_INVALID_HANDLE.
Proof. exact creation_lost. Qed.
Print Assumptions C109_creation_refuted.

Example C109_example :
  (exists t', win_terminal_open SFile SConsole (demo_term [] []) = Ret t' tt) /\
  (exists t', win_terminal_open SConsole SFile (demo_term [] []) = Fail t' 6) /\
  (exists t', win_terminal_open SConsole SConsole (demo_term [CTake 0; CTake 0; CFail 5] []) = Fail t' 5) /\
  (exists t', win_screen_new demo_env_w default_config (demo_term [CTake 0; CTake 0; CFail 8] []) = Fail t' 6 /\
     t_active t' = 5 /\ map fst (t_else t') = [9]).
Proof.
  split; [eexists; vm_compute; reflexivity|]. split; [eexists; vm_compute; reflexivity|]. split; [eexists; vm_compute; reflexivity|].
  eexists. split; [vm_compute; reflexivity|]. vm_compute. auto.
Qed.

(** C78: through any calls but [read_raw], the size of the screen is the size of the last
    size record taken from the console's queue. *)
Theorem C78_size_followed_partial :
  forall draw E ops s s',
  env_ok E -> Forall not_raw ops -> run_wsops draw E ops s = Some s' ->
  exists rs, records (t_in (g_t s)) = rs ++ records (t_in (g_t s')) /\
    bsize (g_sb s') = size_after E rs (bsize (g_sb s)).
Proof. exact (fun draw E ops s s' HE => took_ops draw E ops HE s s'). Qed.
Print Assumptions C78_size_followed_partial.

(** [read_raw] takes size records and says nothing: the screen keeps its old size, and the
    size record is gone. *)
Theorem C78_read_raw_refuted :
  forall E len t s p r u,
  as_millis t <> Boom -> (0 < len)%nat -> rec_char r = Some u ->
  w_queue (t_in (g_t s)) = [SizeRec p; r] -> w_failing (t_in (g_t s)) = None -> unreported (t_in (g_t s)) = [] ->
  Forall quiet_tick (w_time (t_in (g_t s))) ->
  exists s', gs_read_raw E len t s = Ret s' (Some (ERaw 1), [u]) /\ w_queue (t_in (g_t s')) = [] /\
    bsize (g_sb s') = bsize (g_sb s).
Proof. exact raw_loses_size. Qed.
Print Assumptions C78_read_raw_refuted.

Definition demo_screen : wscr :=
  WScr (SBuf [] [] (Size 0 0) (Cursor 0 0) no_attrs) false (Cursor 0 0) (WPState 0 false) 5
    (with_in (WSys (WReader false 0) 0 NO_SIGNAL 0x1f7 0 [SizeRec (Coord 5 2); KeyRec true 0x41 0 0x61; SizeRec (Coord 4 4)] None [] []
       [WRec (SizeRec (Coord 3 3)); WTime; WStep; WTime; WStep; WTime; WStep; WTime; WStep; WTime]) (demo_term [] [])).
Example C78_example :
  Forall not_raw [SReadRawEvent 2 None; SReadEvent None; SRefresh] /\
  exists s1 s2,
    run_wsops demo_same (demo_env 1000) [SReadRawEvent 2 None] demo_screen = Some s1 /\ bsize (g_sb s1) = Size 2 5 /\
    run_wsops demo_same (demo_env 1000) [SReadEvent None; SRefresh; SReadEvent None] s1 = Some s2 /\ bsize (g_sb s2) = Size 3 3 /\
    records (t_in (g_t s2)) = [] /\
    exists s', gs_read_raw (demo_env 1000) 10 None demo_screen = Ret s' (Some (ERaw 1), [0x61]) /\ bsize (g_sb s') = Size 0 0.
Proof.
  split; [repeat constructor|]. eexists _, _. split; [vm_compute; reflexivity|]. split; [reflexivity|].
  split; [vm_compute; reflexivity|]. split; [reflexivity|]. split; [reflexivity|]. eexists. split; [vm_compute; reflexivity|reflexivity].
Qed.
