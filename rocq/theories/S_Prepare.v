(** Specifications for [prepare] and [restore]. *)
From Verif Require Import Base M_Geom M_Signal M_Seq M_Input M_Writer M_Prepare M_Reader.
Local Open Scope N_scope.

(** The signals for which a configuration asks a handler. *)
Definition handled (cfg : config) (n : N) : bool :=
  (n =? SIGCONT) || (n =? SIGWINCH)
  || ((n =? SIGINT) && ss_contains (report_signals cfg) Interrupt)
  || ((n =? SIGTSTP) && ss_contains (report_signals cfg) Suspend)
  || ((n =? SIGQUIT) && ss_contains (report_signals cfg) Quit).

(** Terminal settings as [prepare] promises them: bit by bit. *)
Definition bit (x : N) (mask : N) : bool := N.testbit x (N.log2 mask).
Definition prepared (cfg : config) (old new : termios) : Prop :=
  bit (lflag new) ICANON = false /\ bit (lflag new) ECHO = false /\
  bit (iflag new) INLCR = false /\ bit (iflag new) ICRNL = false /\
  bit (lflag new) ISIG = negb (block_signals cfg) /\
  bit (iflag new) IXON = enable_control_flow cfg /\
  vmin new = 0 /\ vtime new = 0 /\
  oflag new = oflag old /\ cflag new = cflag old /\ others new = others old /\
  (forall k, k <> N.log2 INLCR -> k <> N.log2 ICRNL -> k <> N.log2 IXON ->
     N.testbit (iflag new) k = N.testbit (iflag old) k) /\
  (forall k, k <> N.log2 ICANON -> k <> N.log2 ECHO -> k <> N.log2 ISIG ->
     N.testbit (lflag new) k = N.testbit (lflag old) k).

(** Properly nested use of a terminal's input half: reading, and pairs of [prepare] and
    [restore] with such use in between.  Reading includes whatever signals bring about,
    such as preparing the terminal again on SIGCONT, and may fail; [prepare] and
    [restore] themselves succeed. *)
Definition reading (o : rop) : Prop :=
  match o with RWait _ | RRead _ | RRaw _ _ => True | _ => False end.
Inductive session (C : tcfg) (m : seq_map) : sys -> sys -> Prop :=
| SDone s : session C m s s
| SRead s o s1 r s' : reading o -> rstep C m o s = Some (s1, r) -> session C m s1 s' -> session C m s s'
| SNest s cfg s1 st s2 s3 s' :
    rstep C m (RPrepare cfg) s = Some (s1, YState st) -> session C m s1 s2 ->
    rstep C m (RRestore st) s2 = Some (s3, YUnit) -> session C m s3 s' -> session C m s s'.

(** The first two calls to the operating system succeed. *)
Definition settings_set (l : list (option N)) : Prop :=
  match l with Some _ :: _ | _ :: Some _ :: _ => False | _ => True end.

(** If the call fails, [P] holds after it; if it succeeds, [Q] does, with its result. *)
Definition ends {A} (P : sys -> Prop) (Q : sys -> A -> Prop) (r : rres A) : Prop :=
  match r with Ret s a => Q s a | Fail s _ => P s | Panic | Blocked => True end.
