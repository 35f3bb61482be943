(** Property theorems for programs that panic while they use a Unix screen (C84, C85). *)
From Verif Require Import Base M_Utf8 M_Geom M_Attr M_Buf S_Buf P_Buf3 M_Seq M_Signal M_Util M_Input S_Input M_Writer S_Writer S_Emu
  M_Screen M_Prepare M_Reader S_Prepare M_UnixScreen S_UnixScreen S_Drawing M_Poison S_Poison P_Poison P_Poison2 Prop_Input Prop_Prepare Prop_UnixScreen.

(** For the examples: a screen after a program. *)
Definition px_after (l : list tick) (ops : list xop) : option (pscr * list xreply) :=
  match unix_screen_new ux_env ansi_cfg ex_cfg (ux_sys l) with
  | Ret s u => xrun ux_env ansi_cfg ex_map ops (unpoisoned u)
  | _ => None
  end.

(** C84, of programs that never panic while they have a guard of the screen: when the
    screen is dropped, by unwinding or not, the terminal's settings and handlers are put
    back, and the modes, the alternate screen and the cursor are reset, as in C80. *)
Theorem C84_given_back_partial :
  forall E C m cfg ops s0 s1 u x rs, key_map m -> plain_caps C ->
  unix_screen_new E C cfg s0 = Ret s1 u -> xrun E C m ops (unpoisoned u) = Some (x, rs) ->
  Forall (fun o => ~ guard_panic o) ops -> works (u_sys (x_u x)) ->
  match xdrop C x with
  | Given s2 printed =>
      printed = (None, None) /\ same_terminal s0 s2 /\ obuf (M_Prepare.wr s2) = [] /\
      exists off k k', modes_off C (cfg_mouse cfg && xterm C) (cfg_keypad cfg && has C KeypadXmit) off /\
        dev (M_Prepare.wr s2) = stream (M_Prepare.wr (u_sys (x_u x))) ++ off ++ cap_bytes C ExitCaMode k ++ cap_bytes C CursorNormal k'
  | DLost => True
  | _ => False
  end.
Proof. exact given_back. Qed.
Print Assumptions C84_given_back_partial.

(** The program draws, reads a key and panics. *)
Example C84_example :
  match px_after [TStep; TInput [120]%N; TStep] [XDo (UBuffer (BWriteStr [104; 105]%N)); XDo URefresh; XForce [GMode CInvisible]; XDo (URead None); XPanic] with
  | Some (x, rs) =>
      perfect (script (M_Prepare.wr (u_sys (x_u x)))) /\ os (u_sys (x_u x)) = [] /\ tio (u_sys (x_u x)) = raw_tio ex_cfg ex_tio /\
      rs = [XReply YUnit; XReply YUnit; XReply YUnit; XReply (YEvent (Some (EKey (KChar 120)))); XPanicked] /\
      match xdrop ansi_cfg x with
      | Given s2 p => p = (None, None) /\ tio s2 = ex_tio /\ disp s2 SIGINT = Other SIGINT
      | _ => False
      end
  | None => False
  end.
Proof. vm_compute. split; [repeat constructor|]. repeat split; reflexivity. Qed.

(** C84 is not true of programs that panic while they have a guard, whatever they do
    before and after: the terminal stays in raw mode with the library's handlers, the
    alternate screen is not left, and at most the cursor is made visible. *)
Theorem C84_guard_panic_refuted :
  forall E C m cfg ops s0 s1 u x rs, plain_caps C ->
  unix_screen_new E C cfg s0 = Ret s1 u -> xrun E C m ops (unpoisoned u) = Some (x, rs) ->
  Exists guard_panic ops -> works (u_sys (x_u x)) ->
  match xdrop C x with
  | Given _ _ => False
  | Unwinds s => still_prepared cfg s0 s /\
      exists k, stream (M_Prepare.wr s) = stream (M_Prepare.wr (u_sys (x_u x))) ++ cap_bytes C CursorNormal k
  | Aborts s => still_prepared cfg s0 s /\ stream (M_Prepare.wr s) = stream (M_Prepare.wr (u_sys (x_u x)))
  | DLost => True
  end.
Proof. exact not_given_back. Qed.
Print Assumptions C84_guard_panic_refuted.

(** After a panic with a write guard, dropping the screen aborts the process. *)
Theorem C84_aborts_refuted :
  forall E C m ops x0 x rs, xrun E C m ops x0 = Some (x, rs) -> Exists write_panic ops ->
  match xdrop C x with Aborts _ | DLost => True | _ => False end.
Proof. exact aborted. Qed.
Print Assumptions C84_aborts_refuted.

(** A panic with the read guard; with the write guard. *)
Example C84_refuted_example :
  match px_after [] [XDo (UBuffer (BWriteStr [104; 105]%N)); XPanicRead; XDo URefresh],
        px_after [] [XPanicWrite [GBuffer (BWriteStr [104; 105]%N)]; XForce [GMode CInvisible]] with
  | Some (x, rs), Some (x', rs') =>
      perfect (script (M_Prepare.wr (u_sys (x_u x)))) /\ os (u_sys (x_u x)) = [] /\
      perfect (script (M_Prepare.wr (u_sys (x_u x')))) /\ os (u_sys (x_u x')) = [] /\
      rs = [XReply YUnit; XPanicked; XReply YUnit] /\ rs' = [XPanicked; XReply YUnit] /\
      match xdrop ansi_cfg x, xdrop ansi_cfg x' with
      | Unwinds s, Aborts s' => tio s <> ex_tio /\ tio s' <> ex_tio /\ disp s SIGINT = Ours
      | _, _ => False
      end
  | _, _ => False
  end.
Proof. vm_compute. do 3 (split; [first [reflexivity|repeat constructor]|]). split; [reflexivity|].
  split; [reflexivity|]. split; [reflexivity|]. split; [discriminate|]. split; [discriminate|reflexivity]. Qed.

(** C85: with a guard taken out of the error of [lock_write], a program draws as if there
    had been no panic, whichever mutexes are poisoned. *)
Theorem C85_forced_partial :
  forall E C m l x, xstep E C m (XForce l) x =
  match ustep E C m (ULocked l) (x_u x) with
  | Some (u, _) => Some (with_u u x, XReply YUnit)
  | None => None
  end.
Proof. exact forced. Qed.
Print Assumptions C85_forced_partial.

(** Whichever mutexes are poisoned: a call that does not panic does what it does on a
    screen nobody panicked with. *)
Theorem C85_told_partial :
  forall E C m o x x' a, xstep E C m (XDo o) x = Some (x', XReply a) ->
  ustep E C m o (x_u x) = Some (x_u x', a) /\ x' = with_u (x_u x') x.
Proof. exact told_same. Qed.
Print Assumptions C85_told_partial.

(** After panics, none of them with a write guard, the calls on a screen's output do what
    they do without panics. *)
Theorem C85_output_partial :
  forall E C m ops u x rs o, xrun E C m ops (unpoisoned u) = Some (x, rs) -> Forall (fun o => ~ write_panic o) ops -> output_call o ->
  xstep E C m (XDo o) x = as_if_unpoisoned (ustep E C m o (x_u x)) x.
Proof. exact output_same. Qed.
Print Assumptions C85_output_partial.

(** Reading goes on unless the reader's mutex is poisoned, as long as neither the window's
    size changes nor the process is continued while the terminal is prepared. *)
Theorem C85_reading_partial :
  forall E C m o x, x_r x = false -> read_call o ->
  no_signal SIGWINCH (u_sys (x_u x)) -> no_signal SIGCONT (u_sys (x_u x)) \/ resume_cfg (u_sys (x_u x)) = None ->
  xstep E C m (XDo o) x = as_if_unpoisoned (ustep E C m o (x_u x)) x.
Proof. exact reading_same. Qed.
Print Assumptions C85_reading_partial.

(** A panic with a read guard, then a key that arrives and a redrawing; a panic with a
    write guard, then the key is read. *)
Example C85_partial_example :
  match px_after [TStep; TInput [120]%N; TStep] [XPanicRead], px_after [TStep; TInput [120]%N; TStep] [XPanicWrite []] with
  | Some (x, _), Some (y, _) =>
      match xstep ux_env ansi_cfg ex_map (XDo URefresh) x, xstep ux_env ansi_cfg ex_map (XDo (URead None)) x,
            xstep ux_env ansi_cfg ex_map (XDo (URead None)) y with
      | Some (_, r1), Some (_, r2), Some (_, r3) =>
          r1 = XReply YUnit /\ r2 = XPanicked /\ r3 = XReply (YEvent (Some (EKey (KChar 120)))) /\ x_r y = false /\ x_w y = true /\
          no_signal SIGWINCH (u_sys (x_u y)) /\ no_signal SIGCONT (u_sys (x_u y))
      | _, _, _ => False
      end
  | _, _ => False
  end.
Proof.
  vm_compute. do 5 (split; [reflexivity|]).
  split; (split; [discriminate|]); intros H; repeat (destruct H as [H|H]; [discriminate|]); exact H.
Qed.

(** C85 is not true otherwise: after one thread panicked with a write guard, every call
    on the screen's output panics, for ever; nothing is drawn by it. *)
Theorem C85_output_refuted :
  forall E C m ops x0 x rs o x' r, xrun E C m ops x0 = Some (x, rs) -> Exists write_panic ops -> output_call o ->
  xstep E C m (XDo o) x = Some (x', r) -> r = XPanicked /\ same_drawing (u_sb (x_u x)) (u_sb (x_u x')).
Proof. exact output_panics. Qed.
Print Assumptions C85_output_refuted.

(** Then reading panics as well when the window's size changes, and for ever after. *)
Theorem C85_resize_refuted :
  forall E C m ops x0 x rs t x' r, xrun E C m ops x0 = Some (x, rs) -> Exists write_panic ops ->
  peek_event (inbuf (u_sys (x_u x))) m = Val PNone -> last_sig (advance (u_sys (x_u x))) = SIGWINCH ->
  xstep E C m (XDo (URead t)) x = Some (x', r) -> r = XPanicked /\ x_r x' = true.
Proof. exact resize_panics. Qed.
Print Assumptions C85_resize_refuted.

(** And when the process is continued after it was stopped: the terminal is not prepared
    again, reading panics, and for ever after. *)
Theorem C85_continue_refuted :
  forall E C m ops x0 x rs t x' r, xrun E C m ops x0 = Some (x, rs) -> Exists write_panic ops ->
  resume_cfg (u_sys (x_u x)) <> None ->
  peek_event (inbuf (u_sys (x_u x))) m = Val PNone -> last_sig (advance (u_sys (x_u x))) = SIGCONT ->
  xstep E C m (XDo (URead t)) x = Some (x', r) -> r = XPanicked /\ x_r x' = true.
Proof. exact continue_panics. Qed.
Print Assumptions C85_continue_refuted.

(** After a panic with a read guard, every call on the screen's input panics, for ever. *)
Theorem C85_input_refuted :
  forall E C m ops x0 x rs o, xrun E C m ops x0 = Some (x, rs) -> Exists read_panic ops -> read_call o ->
  xstep E C m (XDo o) x = Some (x, XPanicked).
Proof. exact input_panics. Qed.
Print Assumptions C85_input_refuted.

(** A key can be read after the panic, then the window's size changes. *)
Example C85_example :
  match px_after [TStep; TInput [120]%N; TStep; TStep; TStep; TWin (inr (Size 3 4)); TSig SIGWINCH; TStep; TInput [121]%N; TStep]
    [XPanicWrite []; XDo (UBuffer (BWriteStr [104; 105]%N)); XDo (UMode CInvisible); XDo URefresh; XForce [GBuffer (BWriteStr [104]%N)];
     XDo (URead None); XDo (URead None); XDo (URead None)] with
  | Some (x, rs) => rs = [XPanicked; XPanicked; XPanicked; XPanicked; XReply YUnit; XReply (YEvent (Some (EKey (KChar 120)))); XPanicked; XPanicked] /\
                    x_r x = true
  | None => False
  end.
Proof. vm_compute. split; reflexivity. Qed.

(** The process is continued after a panic with a write guard. *)
Example C85_continue_example :
  match px_after [TSig SIGCONT; TStep; TInput [121]%N; TStep] [XPanicWrite []] with
  | Some (x, _) =>
      resume_cfg (u_sys (x_u x)) <> None /\ inbuf (u_sys (x_u x)) = [] /\ last_sig (advance (u_sys (x_u x))) = SIGCONT /\
      match xstep ux_env ansi_cfg ex_map (XDo (URead None)) x, ustep ux_env ansi_cfg ex_map (URead None) (x_u x) with
      | Some (x', r), Some (_, r') => r = XPanicked /\ x_r x' = true /\ r' = YEvent None
      | _, _ => False
      end
  | None => False
  end.
Proof. vm_compute. split; [discriminate|]. repeat split; reflexivity. Qed.
