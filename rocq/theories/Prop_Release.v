(** Property theorems for builds without overflow checks (C130). *)
From Verif Require Import Base M_Utf8 M_Geom S_Geom M_Attr M_Buf S_Buf P_Buf3 M_Seq S_Seq M_Signal M_Util M_Writer S_Writer S_Emu M_Input S_Input
  M_Screen M_Prepare M_Reader S_Prepare S_Reader M_UnixScreen S_UnixScreen M_WinWriter M_WinReader M_WinScreen S_WinWriter S_WinReader S_WinScreen
  M_RelBuf M_RelScreen M_RelReader M_RelRun M_RelWin S_Overrun S_NoPanic S_WinNoPanic S_Release
  P_Release P_Release2 P_Release3 P_Release4 Prop_Input Prop_Prepare Prop_Reader Prop_UnixScreen Prop_NoPanic Prop_WinScreen Prop_WinNoPanic.
Local Open Scope nat_scope.

(** ** Drawing *)

(** C130: without checks, every sequence of drawing calls does what it does with checks,
    unless it panics with checks. *)
Theorem C130_drawing :
  forall E sz ops, same_val (buf_history E sz ops) (buf_history_r E sz ops).
Proof. exact (fun E sz ops => psame_val _ _ (history_same E sz ops)). Qed.
Print Assumptions C130_drawing.

(** Which sequences panic without checks, exactly: those for which the walk of the cursor
    that wraps around below the last line says so. *)
Theorem C130_drawing_panics_exactly :
  forall E sz ops, env_ok E ->
    match free_story E sz ops with
    | None => buf_history_r E sz ops = Boom
    | Some (sz', p) => exists b, buf_history_r E sz ops = Val b /\ bsize b = sz' /\ bcur b = p
    end.
Proof. exact (fun E sz ops HE => free_panics_exactly E HE sz ops). Qed.
Print Assumptions C130_drawing_panics_exactly.

(** On a screen that has not exactly one column, no drawing call panics without checks,
    other than a change of size. *)
Theorem C130_drawing_returns :
  forall E sz ops b o, env_ok E -> buf_history_r E sz ops = Val b -> columns (bsize b) <> 1 -> (forall z, o <> BResize z) ->
  exists b', run_buf_op_r E b o = Val b'.
Proof. exact free_draws. Qed.
Print Assumptions C130_drawing_returns.

Example C130_drawing_example :
  let E := demo_env 20 in
  (* the same *)
  buf_history_r E (Size 2 3) [BWriteStr [97; 65313; 10; 98]%N; BNextLine 0; BWriteAt (Cursor 1 2) [9; 99]%N] =
    buf_history E (Size 2 3) [BWriteStr [97; 65313; 10; 98]%N; BNextLine 0; BWriteAt (Cursor 1 2) [9; 99]%N] /\
  buf_history E (Size 2 3) [BWriteStr [97; 65313; 10; 98]%N] <> Boom /\
  (* a panic only with checks *)
  forallb (fun x => match buf_history E (fst x) (snd x) with Boom => true | _ => false end &&
                    match buf_history_r E (fst x) (snd x) with Val _ => true | _ => false end)
    [(Size 3 0, [BWriteStr [10; 769]%N]); (Size 2 2, [BSetCursor (Cursor 20 0); BNextLine 1; BWriteChar 97%N])] = true /\
  free_story E (Size 2 2) [BSetCursor (Cursor 20 0); BNextLine 1; BWriteChar 97%N] = Some (Size 2 2, Cursor 1 0) /\
  (* a panic in both *)
  free_story E (Size 2 1) [BWriteStr [65313]%N] = None /\ free_story E (Size 3 2) [BResize (Size 3 0)] = None.
Proof. vm_compute. repeat split; discriminate. Qed.

(** Below line [usize::MAX] there is the first: text after a newline there is drawn at the
    top left of the screen.  With checks this panics. *)
Theorem C130_wraps_to_the_top :
  forall E sz ops c s,
  buf_history E sz (ops ++ [BSetCursor (Cursor (umax E) c); BWriteStr (10%N :: s)]) = Boom /\
  buf_history_r E sz (ops ++ [BSetCursor (Cursor (umax E) c); BWriteStr (10%N :: s)]) =
  buf_history_r E sz (ops ++ [BSetCursor (Cursor 0 0); BWriteStr s]).
Proof. exact to_the_top. Qed.
Print Assumptions C130_wraps_to_the_top.

Example C130_top_example :
  match buf_history_r (demo_env 20) (Size 2 2) [BWriteStr [97; 98]%N; BSetCursor (Cursor 20 1); BWriteStr [10; 99]%N] with
  | Val b => map ctext (buffer b) = [[99]; [98]; [32]; [32]]%N
  | Boom => False
  end.
Proof. vm_compute. reflexivity. Qed.

(** ** Unix *)

(** C130: a program on a Unix screen that runs to its end with checks does exactly the same
    without: the same replies, the same bytes to the terminal, the same state. *)
Theorem C130_unix_program :
  forall E C m ops u u' rs, Forall real_call ops -> urun E C m ops u = Some (u', rs) -> urun_r E C m ops u = Some (u', rs).
Proof. exact (fun E C m ops u u' rs H => urun_same E C m ops u (u', rs) H). Qed.
Print Assumptions C130_unix_program.

(** Creating the screen, too. *)
Theorem C130_unix_creation :
  forall E C cfg s, same_out (unix_screen_new E C cfg s) (unix_screen_new_r E C cfg s).
Proof. exact (fun E C cfg s => osame_out _ _ (unix_new_same E C cfg s)). Qed.
Print Assumptions C130_unix_creation.

(** On a terminal whose window always has a line and two columns, without mouse reports, a
    modest program (C107) is the same in both builds, also if it waits for ever. *)
Theorem C130_unix_modest :
  forall E C m cfg s0 s1 u ops, env_ok E -> key_map m -> whole_writes (script (M_Prepare.wr s0)) ->
  decent E s0 -> no_mouse m -> unix_screen_new E C cfg s0 = Ret s1 u ->
  Forall public_op ops -> modest E ops -> Forall modest_timeout ops -> Forall real_call ops ->
  urun_r E C m ops u = urun E C m ops u.
Proof. exact modest_same. Qed.
Print Assumptions C130_unix_modest.

(** Refreshing a screen with a cell never panics without checks, whatever was drawn, and
    does what it does with checks. *)
Theorem C130_unix_refresh :
  forall E C sz ops s, env_ok E -> buf_history_r E sz ops = Val (sb s) -> 0 < lines (bsize (sb s)) -> 0 < columns (bsize (sb s)) ->
  whole_writes (script (M_Screen.wr s)) -> refresh_r E C s = refresh E C s /\ refresh_r E C s <> Panic.
Proof. exact free_refresh. Qed.
Print Assumptions C130_unix_refresh.

(** C130: a program that uses a Unix terminal without a screen. *)
Theorem C130_unix_reading :
  forall C m ops s s' rs, Forall real_rop ops -> rrun C m ops s = Some (s', rs) -> rrun_r C m ops s = Some (s', rs).
Proof. exact (fun C m ops s s' rs H => rrun_same C m ops s (s', rs) H). Qed.
Print Assumptions C130_unix_reading.

(** Timeouts are the same in both builds: what is too long panics in both. *)
Theorem C130_unix_timeouts :
  forall d, (nanos d < 1000000000)%N -> to_timeval_r d = to_timeval d.
Proof. exact timeval_same. Qed.
Print Assumptions C130_unix_timeouts.

Example C130_unix_example : Forall real_call np_ops /\
  match unix_screen_new_r ux_env ansi_cfg ex_cfg np_sys with
  | Ret _ u =>
      match urun_r ux_env ansi_cfg np_map np_ops u with
      | Some (u', rs) =>
          rs = [YUnit; YErr (RW (EOs 5)); YEvent (Some (EResize (Size 3 4))); YUnit; YUnit; YUnit; YEvent (Some (EKey (KChar 120))); YBool false; YUnit]
      | None => False
      end
  | _ => False
  end.
Proof. split; [repeat constructor; vm_compute; reflexivity|vm_compute; reflexivity]. Qed.
Example C130_timeouts_example :
  to_timeval_r (Duration 5 7000000) = Val 5007%N /\ to_timeval_r (Duration (2 ^ 63) 0) = Boom /\
  to_timeval_r (Duration (2 ^ 62) 999999999) = Boom.
Proof. vm_compute. auto. Qed.

(** A mouse report with a zero coordinate: a panic with checks (C39), and without checks an
    event far away from the screen. *)
Theorem C130_zero_mouse :
  forall C m code x y f rest t s, key_map m -> longest m (S_Input.sgr code x y f ++ rest) XTERM_MOUSE_INTRO XTermMouse ->
  (code <= U32_MAX)%N -> (x <= U32_MAX)%N -> (y <= U32_MAX)%N -> x = 0%N \/ y = 0%N -> f = 77%N \/ f = 109%N ->
  inbuf s = S_Input.sgr code x y f ++ rest ->
  read_event C m t s = Panic /\
  exists d, read_event_r C m t s = Ret (with_inbuf rest (incap s) s) (Some (EMouse d)) /\
    mpos d = Cursor (told_coordinate y) (told_coordinate x).
Proof. exact zero_mouse_far. Qed.
Print Assumptions C130_zero_mouse.

Example C130_mouse_report : S_Input.sgr 0 0 5 77 = [27; 91; 60; 48; 59; 48; 59; 53; 77]%N /\
  longest ex_map (S_Input.sgr 0 0 5 77 ++ [65]%N) XTERM_MOUSE_INTRO XTermMouse.
Proof.
  split; [reflexivity|]. split.
  - split; [do 4 right; left; reflexivity|]. split; [discriminate|].
    exists [48; 59; 48; 59; 53; 77; 65]%N. reflexivity.
  - change (length XTERM_MOUSE_INTRO) with 3%nat. intros q v (H & _ & (r & Hr)). vm_compute in H.
    repeat (destruct H as [H|H]; [injection H as <- <-; cbn [length]; try lia; discriminate Hr|]). destruct H.
Qed.

(** ** Windows *)

(** C130: the writing methods of a Windows terminal are the same in both builds, for all
    arguments and all answers of the console. *)
Theorem C130_windows_writing :
  forall draw d E o s, keeps_order draw -> S_WinWriter.view_ok (c_view (w_con s)) -> run_win_r draw d E o s = run_win draw d E o s.
Proof. exact win_ops_equal. Qed.
Print Assumptions C130_windows_writing.

(** C130: a program on a Windows screen that runs to its end with checks does exactly the
    same without. *)
Theorem C130_windows_program :
  forall draw E l s s', wacts draw E l s = Some s' -> free_acts draw E l s = Some s'.
Proof. exact wacts_same. Qed.
Print Assumptions C130_windows_program.

(** C130: waiting and reading on a Windows terminal. *)
Theorem C130_windows_reading :
  forall E t len s,
  same_out (win_wait_event t s) (win_wait_event_r t s) /\ same_out (win_read_event E t s) (win_read_event_r E t s) /\
  same_out (win_read_raw len t s) (win_read_raw_r len t s) /\ same_out (win_read_raw_event len t s) (win_read_raw_event_r len t s).
Proof.
  exact (fun E t len s => conj (osame_out _ _ (wwait_same t s)) (conj (osame_out _ _ (wread_same E t s))
    (conj (osame_out _ _ (wraw_same len t s)) (osame_out _ _ (wraw_event_same len t s))))).
Qed.
Print Assumptions C130_windows_reading.

(** Timeouts on Windows are counted modulo 2^32 milliseconds without checks: 50 days (less
    some hours) are no time at all. *)
Theorem C130_windows_timeouts :
  forall d, as_millis_r (Some d) = Val ((secs d * 1000 + nanos d / 1000000) mod 2 ^ 32)%N.
Proof. exact millis_modulo. Qed.
Print Assumptions C130_windows_timeouts.

Example C130_windows_example :
  match win_screen_new demo_env_w default_config wn_term with
  | Ret _ s => match free_acts demo_draw demo_env_w wn_acts s with
               | Some s' => bsize (g_sb s') = Size 2 5
               | None => False
               end
  | _ => False
  end /\
  as_millis_r (Some (Duration 4294967 296000000)) = Val 0%N /\ as_millis (Some (Duration 4294967 296000000)) = Boom /\
  as_millis_r (Some (Duration 5 7000000)) = Val 5007%N.
Proof. vm_compute. repeat split; reflexivity. Qed.
