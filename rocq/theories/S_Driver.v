(** Specification of what the system does with what the user types, from termios(3) for
    Linux and from the documentation of Windows' console modes; none of it is in /repo.
    And what [PrepareConfig] (terminal.rs:391-446) promises about it. *)
From Verif Require Import Base M_Utf8 S_Utf8 M_Geom M_Attr M_Signal M_Util M_Input M_Writer M_Prepare S_Prepare M_Reader S_Reader
  M_WinWriter M_WinReader S_WinReader.
Local Open Scope N_scope.

(** ** Linux *)

(** Flags the library does not touch: take off the eighth bit, drop carriage returns,
    make letters small. *)
Definition ISTRIP : N := 32.
Definition IGNCR : N := 128.
Definition IUCLC : N := 512.

(** The characters with a meaning of their own; 0 stands for none. *)
Record specials : Type := Specials { vintr : N; vquit : N; vsusp : N; vstart : N; vstop : N }.
Definition is_special (b k : N) : bool := (b =? k) && negb (k =? 0).

(** What comes of a byte typed: the program can read a byte, it is sent a signal, output
    is stopped or goes on, the byte becomes part of a line the user edits, or nothing. *)
Inductive effect : Type := Gives (b : N) | Raises (sig : N) | Flow | Edits | Dropped.

Definition driver (k : specials) (t : termios) (b : N) : effect :=
  let b := if bit (iflag t) ISTRIP then N.land b 127 else b in
  let b := if bit (iflag t) IUCLC && (65 <=? b) && (b <=? 90) then b + 32 else b in
  if bit (iflag t) IXON && (is_special b (vstart k) || is_special b (vstop k)) then Flow
  else if bit (lflag t) ISIG && is_special b (vintr k) then Raises SIGINT
  else if bit (lflag t) ISIG && is_special b (vquit k) then Raises SIGQUIT
  else if bit (lflag t) ISIG && is_special b (vsusp k) then Raises SIGTSTP
  else if (b =? 13) && bit (iflag t) IGNCR then Dropped
  else
    let b := if (b =? 13) && bit (iflag t) ICRNL then 10
             else if (b =? 10) && bit (iflag t) INLCR then 13 else b in
    if bit (lflag t) ICANON then Edits else Gives b.

(** The settings of a terminal on which nothing is taken off, dropped or changed but by
    the flags the library sets. *)
Definition plain (t : termios) : Prop :=
  bit (iflag t) ISTRIP = false /\ bit (iflag t) IGNCR = false /\ bit (iflag t) IUCLC = false.

(** What the configuration promises: [enable_control_flow] gives the two characters for
    it their meaning, [block_signals] takes that of the other three, and everything else
    can be read as it was typed. *)
Definition configured (k : specials) (cfg : config) (b : N) : effect :=
  if enable_control_flow cfg && (is_special b (vstart k) || is_special b (vstop k)) then Flow
  else if block_signals cfg then Gives b
  else if is_special b (vintr k) then Raises SIGINT
  else if is_special b (vquit k) then Raises SIGQUIT
  else if is_special b (vsusp k) then Raises SIGTSTP
  else Gives b.

(** The user types some bytes, and the program can read them in portions; meanwhile time
    passes, the window changes its size and the library works. *)
Inductive types (k : specials) (t : termios) : bytes -> list tick -> Prop :=
| TyDone : types k t [] []
| TyElse x bs l : idle_tick x -> types k t bs l -> types k t bs (x :: l)
| TyPortion typed p bs l : p <> [] -> Forall2 (fun b c => driver k t b = Gives c) typed p -> types k t bs l ->
    types k t (typed ++ bs) (TInput p :: l)
| TySignal b n bs l : driver k t b = Raises n -> types k t bs l -> types k t (b :: bs) (TSig n :: l)
| TyNothing b bs l : driver k t b = Flow \/ driver k t b = Dropped -> types k t bs l -> types k t (b :: bs) l.

(** The signals a key can raise. *)
Definition typed_signal (sig : signal) : Prop := sig = Interrupt \/ sig = Quit \/ sig = Suspend.

(** ** Windows *)

(** Ctrl and C, or Ctrl and Break, go down. *)
Definition is_ctrl_c (r : record) : bool :=
  match r with KeyRec true vk ctl _ => (vk =? 0x43) && ctrl_held ctl && negb (alt_held ctl) | _ => false end.
Definition is_break (r : record) : bool :=
  match r with KeyRec true vk ctl _ => (vk =? 0x03) && ctrl_held ctl | _ => false end.

(** What comes of something the user does, which would be told by the record [r]: with
    processed input (bit 0) Ctrl-C is a control event; Ctrl-Break always is one; mouse
    and window records need bits 4 and 3.  [w]: see [WCtrl]. *)
Definition console (mode : N) (w : bool) (r : record) : list wtick :=
  if is_break r then [WCtrl CTRL_BREAK_EVENT w]
  else if is_ctrl_c r && N.testbit mode 0 then [WCtrl CTRL_C_EVENT w]
  else match r with
       | MouseRec _ _ _ _ => if N.testbit mode 4 then [WRec r] else []
       | SizeRec _ => if N.testbit mode 3 then [WRec r] else []
       | _ => [WRec r]
       end.

(** What the configuration promises. *)
Definition configured_console (cfg : config) (w : bool) (r : record) : list wtick :=
  if is_break r then [WCtrl CTRL_BREAK_EVENT w]
  else if is_ctrl_c r && negb (block_signals cfg) then [WCtrl CTRL_C_EVENT w]
  else match r with
       | MouseRec _ _ _ _ => if cfg_mouse cfg then [WRec r] else []
       | _ => [WRec r]
       end.
