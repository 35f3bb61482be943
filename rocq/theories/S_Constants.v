(** The constants that the specifications name, written down a second time after their
    documentation: a wrong one in the model would otherwise be wrong in both. *)
From Verif Require Import Base M_Signal M_Buf M_Input M_Writer M_Prepare M_Reader M_Fds M_WinReader M_WinScreen M_WinWriter.
Local Open Scope N_scope.

(** Unicode: horizontal tab, line feed, carriage return, space. *)
Example control_characters : (TAB, LF, CR, SPACE) = (9, 10, 13, 32).
Proof. reflexivity. Qed.

(** signal(7), x86 and ARM; errno(3); <sys/select.h> *)
Example linux_signals : (SIGINT, SIGQUIT, SIGCONT, SIGTSTP, SIGWINCH) = (2, 3, 18, 20, 28).
Proof. reflexivity. Qed.
Example linux_other : (EINTR, FD_SETSIZE) = (4, 1024).
Proof. reflexivity. Qed.

(** <asm-generic/termbits.h>, octal there: 0100, 0400, 02000, 01, 02, 010 *)
Example linux_termios : (INLCR, ICRNL, IXON, ISIG, ICANON, ECHO)
  = (8 * 8, 4 * 8 * 8, 2 * 8 * 8 * 8, 1, 2, 8).
Proof. reflexivity. Qed.

(** Microsoft's documentation of INPUT_RECORD, KEY_EVENT_RECORD, MOUSE_EVENT_RECORD,
    SetConsoleMode, HandlerRoutine, console character attributes *)
Example windows_keys : (RIGHT_ALT_PRESSED, LEFT_ALT_PRESSED, RIGHT_CTRL_PRESSED, LEFT_CTRL_PRESSED, SHIFT_PRESSED)
  = (1, 2, 4, 8, 16).
Proof. reflexivity. Qed.
Example windows_mouse : (MOUSE_WHEELED, MOUSE_HWHEELED) = (4, 8).
Proof. reflexivity. Qed.
Example windows_input_modes :
  (ENABLE_PROCESSED_INPUT, ENABLE_LINE_INPUT, ENABLE_ECHO_INPUT, ENABLE_WINDOW_INPUT, ENABLE_MOUSE_INPUT,
   ENABLE_QUICK_EDIT_MODE, ENABLE_EXTENDED_FLAGS, ENABLE_VIRTUAL_TERMINAL_INPUT) = (1, 2, 4, 8, 16, 64, 128, 512).
Proof. reflexivity. Qed.
Example windows_output_modes : (ENABLE_PROCESSED_OUTPUT, ENABLE_WRAP_AT_EOL_OUTPUT, DISABLE_NEWLINE_AUTO_RETURN) = (1, 2, 8).
Proof. reflexivity. Qed.
Example windows_signals : (CTRL_C_EVENT, CTRL_BREAK_EVENT) = (0, 1).
Proof. reflexivity. Qed.
Example windows_colours :
  (FOREGROUND_BLUE, FOREGROUND_GREEN, FOREGROUND_RED, FOREGROUND_INTENSITY, BACKGROUND_BLUE, BACKGROUND_GREEN, BACKGROUND_RED)
  = (1, 2, 4, 8, 16, 32, 64).
Proof. reflexivity. Qed.

(** xterm's control sequences: DEC private modes are set with CSI ? Pm h and reset with
    CSI ? Pm l; 1006: mouse reports in the form CSI < .. M, 1002: reports of buttons and of
    motion with a button, 1003: reports of all motion.  The modifier bits of a report are 4
    (shift), 8 (meta) and 16 (control). *)
Definition dec_mode (digits : list N) (final : N) : list N := 0x1b :: 0x5b :: 0x3f :: map (fun d => 0x30 + d) digits ++ [final].
Example xterm_mouse :
  (XTERM_ENABLE_MOUSE, XTERM_ENABLE_MOUSE_MOTION, XTERM_DISABLE_MOUSE, XTERM_DISABLE_MOUSE_MOTION)
  = (dec_mode [1;0;0;6] 0x68 ++ dec_mode [1;0;0;2] 0x68, dec_mode [1;0;0;3] 0x68,
     dec_mode [1;0;0;6] 0x6c ++ dec_mode [1;0;0;2] 0x6c, dec_mode [1;0;0;3] 0x6c).
Proof. reflexivity. Qed.
Example xterm_reports : (XTERM_MOUSE_INTRO, XTERM_SHIFT_MASK, XTERM_META_MASK, XTERM_CTRL_MASK) = ([0x1b; 0x5b; 0x3c], 4, 8, 16).
Proof. reflexivity. Qed.

(** termios(3): in canonical mode [read] waits for a line whatever VMIN says; in noncanonical
    mode it waits unless VMIN is 0. *)
Example kernel_read :
  map (fun p => never_waits (Tio 0 0 0 (fst p) (snd p) 0 0)) [(0, 0); (8, 0); (2, 0); (10, 0); (0, 1); (2, 1)]
  = [true; true; false; false; false; false].
Proof. reflexivity. Qed.

(** [PrepareConfig]'s documentation (terminal.rs:381-445): [block_signals] and
    [enable_keypad] are true by default, the others false, and no signal is reported. *)
Example default_configuration :
  (block_signals default_config, enable_control_flow default_config, cfg_keypad default_config,
   cfg_mouse default_config, always_track_motion default_config) = (true, false, true, false, false) /\
  forall sig, ss_contains (report_signals default_config) sig = false.
Proof. split; [reflexivity|]. intros []; reflexivity. Qed.

(** winerror.h *)
Example windows_error : ERROR_INVALID_PARAMETER = 87.
Proof. reflexivity. Qed.
