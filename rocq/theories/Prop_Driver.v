(** Property theorems for what typed keys come to (C131). *)
From Verif Require Import Base M_Utf8 S_Utf8 M_Geom M_Seq S_Seq M_Attr M_Signal M_Util M_Input S_Input M_Writer S_Writer S_Emu
  M_Prepare S_Prepare M_Reader S_Reader S_Typing M_WinWriter M_WinReader S_WinReader S_Buf P_Prepare P_Input S_Driver P_Driver
  Prop_Input Prop_Prepare Prop_WinReader.
Local Open Scope N_scope.

(** C131: once [prepare] has succeeded, the tty driver does with each byte typed what the
    configuration promises, whatever the settings were before and whichever characters
    the user has chosen ([chars] finds them in the settings, which keep them). *)
Theorem C131_as_configured :
  forall C cfg s s' st chars, prepare C cfg s = Ret s' st -> plain (tio s) ->
    forall b, driver (chars (others (tio s'))) (tio s') b = configured (chars (others (tio s))) cfg b.
Proof. exact as_configured. Qed.
Print Assumptions C131_as_configured.

(** The usual characters: Ctrl-C, Ctrl-\, Ctrl-Z, Ctrl-Q, Ctrl-S. *)
Definition ex_chars (o : N) : specials := Specials 3 28 26 17 19.
Example C131_example :
  plain ex_tio /\ driver (ex_chars 7) ex_tio 3 = Raises SIGINT /\ driver (ex_chars 7) ex_tio 13 = Edits /\
  match prepare ansi_cfg default_config (ex_sys []) with
  | Ret s' _ => map (driver (ex_chars 7) (tio s')) [3; 13; 19; 97] = [Gives 3; Gives 13; Gives 19; Gives 97]
  | _ => False
  end /\
  match prepare ansi_cfg ex_cfg (ex_sys []) with
  | Ret s' _ => map (driver (ex_chars 7) (tio s')) [3; 28; 13; 19] = [Raises SIGINT; Raises SIGQUIT; Gives 13; Flow]
  | _ => False
  end.
Proof. vm_compute. repeat split; reflexivity. Qed.

(** C131: with the default configuration any text can be typed, control characters
    included, and each character is told as the key it is.  In particular Ctrl-C is told
    as [Key(Ctrl('c'))]. *)
Theorem C131_text :
  forall C m cfg s s' st chars text, key_map m -> (forall c n, (n <= grow C c n)%nat) ->
    prepare C cfg s = Ret s' st -> plain (tio s) -> block_signals cfg = true -> enable_control_flow cfg = false ->
    inbuf s = [] -> queue s = [] -> failing s = None -> conv_signal (last_sig s) = None ->
    Forall (fun c => scalar c /\ begins_nothing m c) text ->
    types (chars (others (tio s'))) (tio s') (utf8s text) (time s) ->
    exists n s2 es, rrun C m (repeat (RRead None) n) s' = Some (s2, map YEvent es) /\
      somes es = map (fun c => EKey (key_from_char c)) text /\ stream s2 = [].
Proof. exact typed_text. Qed.
Print Assumptions C131_text.

Example C131_text_example :
  match prepare ansi_cfg default_config (ex_sys [TInput [3; 97]; TStep; TInput [26]]) with
  | Ret s' _ => types (ex_chars 7) (tio s') (utf8s [3; 97; 26]) [TInput [3; 97]; TStep; TInput [26]] /\
      match rrun ansi_cfg ex_map (repeat (RRead None) 3) s' with
      | Some (_, ys) => ys = map (fun k => YEvent (Some (EKey k))) [KCtrl 99; KChar 97; KCtrl 122]
      | None => False
      end
  | _ => False
  end /\ begins_nothing ex_map 3 /\ begins_nothing ex_map 97.
Proof.
  split.
  - destruct (prepare _ _ _) as [s' st| | |] eqn:E; vm_compute in E; try discriminate E. injection E as <- _. split.
    + apply (TyPortion _ _ [3; 97] [3; 97] [26]); [discriminate|repeat constructor|].
      apply TyElse; [exact I|]. apply (TyPortion _ _ [26] [26] []); [discriminate|repeat constructor|apply TyDone].
    + vm_compute. reflexivity.
  - split; intros q v H (r & Hr); vm_compute in H;
      repeat (destruct H as [H|H]; [injection H as <- <-; discriminate Hr|]); destruct H.
Qed.

(** C131: with [block_signals] off, Ctrl-C, Ctrl-\ and Ctrl-Z raise their signals.  One in
    [report_signals] is told, whether it comes before [read_event] looks or while it is
    waiting; for one that isn't, what is to happen stays as it was. *)
Theorem C131_signals :
  forall C m cfg s s' st chars b n sig, prepare C cfg s = Ret s' st -> plain (tio s) -> inbuf s = [] ->
    configured (chars (others (tio s))) cfg b = Raises n -> conv_signal n = Some sig ->
    driver (chars (others (tio s'))) (tio s') b = Raises n /\
    (ss_contains (report_signals cfg) sig = true ->
       (forall t l, time s = TSig n :: TStep :: l -> exists s2, read_event C m t s' = Ret s2 (Some (ESignal sig)) /\ time s2 = l) /\
       (forall idle l, Forall idle_tick idle -> queue s = [] -> failing s = None -> conv_signal (last_sig s) = None ->
          time s = TStep :: TStep :: TStep :: idle ++ TSig n :: TStep :: TStep :: l ->
          exists s2, read_event C m None s' = Ret s2 (Some (ESignal sig)) /\ time s2 = l)) /\
    (ss_contains (report_signals cfg) sig = false -> disp s' n = disp s n).
Proof. exact key_signal. Qed.
Print Assumptions C131_signals.

Example C131_signals_example :
  configured (ex_chars 7) ex_cfg 3 = Raises SIGINT /\ configured (ex_chars 7) ex_cfg 26 = Raises SIGTSTP /\
  ss_contains (report_signals ex_cfg) Interrupt = true /\ ss_contains (report_signals ex_cfg) Suspend = false /\
  match prepare ansi_cfg ex_cfg (ex_sys [TStep; TStep; TStep; TTime; TSig SIGINT; TStep; TStep]) with
  | Ret s' _ => match read_event ansi_cfg ex_map None s' with Ret _ r => r = Some (ESignal Interrupt) | _ => False end
  | _ => False
  end.
Proof. vm_compute. repeat split; reflexivity. Qed.

(** C131 fails: "[block_signals] must be [false] for any of these signals to be received".
    A signal from elsewhere is received and told all the same. *)
Theorem C131_still_received_refuted :
  forall C m cfg s s' st n sig, prepare C cfg s = Ret s' st -> block_signals cfg = true -> inbuf s = [] ->
    conv_signal n = Some sig -> typed_signal sig -> ss_contains (report_signals cfg) sig = true ->
    (forall t l, time s = TSig n :: TStep :: l -> exists s2, read_event C m t s' = Ret s2 (Some (ESignal sig)) /\ time s2 = l) /\
    (forall idle l, Forall idle_tick idle -> queue s = [] -> failing s = None -> conv_signal (last_sig s) = None ->
       time s = TStep :: TStep :: TStep :: idle ++ TSig n :: TStep :: TStep :: l ->
       exists s2, read_event C m None s' = Ret s2 (Some (ESignal sig)) /\ time s2 = l).
Proof. exact (fun C m cfg s s' st n sig Hp _ => signal_told C m cfg s s' st n sig Hp). Qed.
Print Assumptions C131_still_received_refuted.

Example C131_still_received_witness :
  match prepare ansi_cfg (Config true false true false false (ss_insert ss_new Interrupt)) (ex_sys [TSig SIGINT; TStep]) with
  | Ret s' _ => match read_event ansi_cfg ex_map None s' with Ret _ r => r = Some (ESignal Interrupt) | _ => False end
  | _ => False
  end.
Proof. vm_compute. reflexivity. Qed.

(** C131 fails: after an inner [prepare] that does not report the signal, and its
    [restore], the key still raises the signal and the library still catches it, but
    [read_event] says nothing happened: Ctrl-C is lost, whoever it was meant for. *)
Theorem C131_nested_refuted :
  forall C m outer inner s0 s1 st1 s2 st2 s3 u chars b n sig,
    prepare C outer s0 = Ret s1 st1 -> prepare C inner s1 = Ret s2 st2 -> restore C st2 s2 = Ret s3 u ->
    plain (tio s0) -> configured (chars (others (tio s0))) outer b = Raises n -> conv_signal n = Some sig ->
    ss_contains (report_signals outer) sig = true -> ss_contains (report_signals inner) sig = false ->
    driver (chars (others (tio s3))) (tio s3) b = Raises n /\ disp s3 n = Ours /\
    (inbuf s0 = [] -> forall t l, time s0 = TSig n :: TStep :: l ->
       exists s4, read_event C m t s3 = Ret s4 None /\ last_sig s4 = 0 /\ time s4 = l).
Proof. exact nested_swallows. Qed.
Print Assumptions C131_nested_refuted.

Example C131_nested_witness :
  match prepare ansi_cfg ex_cfg (ex_sys [TSig SIGINT; TStep]) with
  | Ret s1 _ => match prepare ansi_cfg default_config s1 with
                | Ret s2 st2 => match restore ansi_cfg st2 s2 with
                                | Ret s3 _ => match read_event ansi_cfg ex_map None s3 with
                                              | Ret s4 r => r = None /\ last_sig s4 = 0
                                              | _ => False
                                              end
                                | _ => False
                                end
                | _ => False
                end
  | _ => False
  end.
Proof. vm_compute. split; reflexivity. Qed.

(** C131 after a stop: the [read_event] that notices that the program was continued has
    put the terminal back, and the driver does what the configuration promises. *)
Theorem C131_continued :
  forall C m t s s' e cfg chars, peek_event (inbuf s) m = Val PNone ->
    last_sig (advance s) = SIGCONT -> resume_cfg s = Some cfg -> read_event C m t s = Ret s' e -> plain (tio s) ->
    forall b, driver (chars (others (tio s'))) (tio s') b = configured (chars (others (tio s))) cfg b.
Proof. exact continued_configured. Qed.
Print Assumptions C131_continued.

(** The shell has put back its own settings meanwhile. *)
Example C131_continued_example :
  match prepare ansi_cfg ex_cfg (ex_sys [TSig SIGCONT; TStep]) with
  | Ret s1 _ =>
      let s := with_tio ex_tio s1 in
      resume_cfg s = Some ex_cfg /\ last_sig (advance s) = SIGCONT /\
      match read_event ansi_cfg ex_map None s with
      | Ret s' _ => map (driver (ex_chars 7) (tio s)) [3; 13] = [Raises SIGINT; Edits] /\
                    map (driver (ex_chars 7) (tio s')) [3; 13] = [Raises SIGINT; Gives 13]
      | _ => False
      end
  | _ => False
  end.
Proof. vm_compute. repeat split; reflexivity. Qed.

(** C131 fails: "Mouse events are only reported if [enable_mouse] is [true]".  One received
    under an earlier configuration is told under a later one without it. *)
Theorem C131_mouse_refuted :
  forall C m cfg t s s' st d rest, key_map m ->
    longest m (S_Input.report d ++ rest) XTERM_MOUSE_INTRO XTermMouse ->
    at_line d < U32_MAX -> at_column d < U32_MAX -> cfg_mouse cfg = false ->
    prepare C cfg s = Ret s' st -> inbuf s = S_Input.report d ++ rest ->
    exists s2, read_event C m t s' = Ret s2 (Some (EMouse (S_Input.told d))).
Proof. exact (fun C m cfg t s s' st d rest Hm Hl H1 H2 _ => mouse_anyway C m cfg t s s' st d rest Hm Hl H1 H2). Qed.
Print Assumptions C131_mouse_refuted.

(** A mouse report read together with a key before the first [restore]. *)
Example C131_mouse_witness :
  match prepare ansi_cfg ex_cfg (ex_sys [TInput (120 :: S_Input.report ex_deed ++ [65])]) with
  | Ret s1 st1 =>
      match read_event ansi_cfg ex_map None s1 with
      | Ret s2 r => r = Some (EKey (KChar 120)) /\
          match restore ansi_cfg st1 s2 with
          | Ret s3 _ => inbuf s3 = S_Input.report ex_deed ++ [65] /\
              match prepare ansi_cfg default_config s3 with
              | Ret s4 _ => match read_event ansi_cfg ex_map None s4 with
                            | Ret _ r => r = Some (EMouse (S_Input.told ex_deed))
                            | _ => False
                            end
              | _ => False
              end
          | _ => False
          end
      | _ => False
      end
  | _ => False
  end.
Proof. vm_compute. repeat split; reflexivity. Qed.

(** C131 on Windows: the console does with keys and the mouse what the configuration
    promises, whatever its mode was before. *)
Theorem C131_windows_as_configured :
  forall cfg s s' st w r, win_prepare cfg s = Ret s' st -> console (w_mode s') w r = configured_console cfg w r.
Proof. exact console_configured. Qed.
Print Assumptions C131_windows_as_configured.

(** C131 on Windows: with [block_signals], Ctrl-C is told as a key by the next
    [read_event]. *)
Theorem C131_windows_ctrl_c_key :
  forall E cfg s s' st w r l, win_prepare cfg s = Ret s' st -> block_signals cfg = true ->
    is_ctrl_c r = true -> (forall down vk ctl u, r = KeyRec down vk ctl u -> u = 3) ->
    w_queue s = [] -> w_failing s = None -> win_conv_signal (w_last s) = None ->
    w_time s = console (w_mode s') w r ++ WStep :: WStep :: WStep :: WStep :: l ->
    exists s2, win_read_event E None s' = Ret s2 (Some (EKey (KCtrl 99)), [r]) /\ w_time s2 = l.
Proof. exact win_ctrl_c_key. Qed.
Print Assumptions C131_windows_ctrl_c_key.

(** C131 on Windows: without it, and with [Interrupt] among the signals to be reported, as
    a signal. *)
Theorem C131_windows_ctrl_c_signal :
  forall E cfg s s' st w r t l, win_prepare cfg s = Ret s' st -> block_signals cfg = false ->
    ss_contains (report_signals cfg) Interrupt = true -> is_ctrl_c r = true ->
    w_time s = console (w_mode s') w r ++ WStep :: WStep :: l ->
    exists s2, win_read_event E t s' = Ret s2 (Some (ESignal Interrupt), []) /\ w_time s2 = l.
Proof. exact win_ctrl_c_signal. Qed.
Print Assumptions C131_windows_ctrl_c_signal.

(** C131 fails on Windows: "[block_signals] must be [false] for any of these signals to be
    received", and it is to block signals that result from user input.  Ctrl-Break is told
    as a signal all the same. *)
Theorem C131_windows_break_refuted :
  forall E cfg s s' st w r t l, win_prepare cfg s = Ret s' st -> block_signals cfg = true ->
    ss_contains (report_signals cfg) Break = true -> is_break r = true ->
    w_time s = console (w_mode s') w r ++ WStep :: WStep :: l ->
    exists s2, win_read_event E t s' = Ret s2 (Some (ESignal Break), []) /\ w_time s2 = l.
Proof. exact (fun E cfg s s' st w r t l Hp _ => win_break_signal E cfg s s' st w r t l Hp). Qed.
Print Assumptions C131_windows_break_refuted.

(** Ctrl (bit 3) and C, Ctrl and Break. *)
Definition ex_ctrl_c : record := KeyRec true 0x43 8 3.
Definition ex_break : record := KeyRec true 0x03 8 0.
Example C131_windows_example :
  is_ctrl_c ex_ctrl_c = true /\ is_break ex_break = true /\
  match win_prepare demo_cfg1 (demo_wsys [WRec ex_ctrl_c; WStep; WStep; WStep; WStep]) with
  | Ret s' _ => console (w_mode s') true ex_ctrl_c = [WRec ex_ctrl_c] /\
      match win_read_event (S_Buf.demo_env 8) None s' with Ret _ (r, _) => r = Some (EKey (KCtrl 99)) | _ => False end
  | _ => False
  end /\
  match win_prepare (Config false false true false false (ss_from Interrupt)) (demo_wsys [WCtrl CTRL_C_EVENT true; WStep; WStep]) with
  | Ret s' _ => console (w_mode s') true ex_ctrl_c = [WCtrl CTRL_C_EVENT true] /\
      match win_read_event (S_Buf.demo_env 8) None s' with Ret _ (r, _) => r = Some (ESignal Interrupt) | _ => False end
  | _ => False
  end /\
  match win_prepare (Config true false true false false (ss_from Break)) (demo_wsys [WCtrl CTRL_BREAK_EVENT true; WStep; WStep]) with
  | Ret s' _ => console (w_mode s') true ex_break = [WCtrl CTRL_BREAK_EVENT true] /\
      match win_read_event (S_Buf.demo_env 8) None s' with Ret _ (r, _) => r = Some (ESignal Break) | _ => False end
  | _ => False
  end.
Proof. vm_compute. repeat split; reflexivity. Qed.
