(** Specification vocabulary for the events a program can be told (C129). *)
From Verif Require Import Base M_Utf8 S_Utf8 M_Geom M_Signal M_Util M_Input M_Buf M_Writer M_Prepare M_Reader M_WinWriter M_WinReader.
Local Open Scope N_scope.

(** The characters of [Key::Ctrl] on Unix: '@', the lowercase letters but i, j and m, '\',
    ']', '^' and '_'. *)
Definition ctrl_char (c : N) : Prop :=
  c = 64 \/ (97 <= c <= 122 /\ c <> 105 /\ c <> 106 /\ c <> 109) \/ 92 <= c <= 95.

(** The keys a program can be told: control characters are told as such, function keys are
    F1 to F12. *)
Definition key_told (ctrl : N -> Prop) (k : key) : Prop :=
  match k with
  | KChar c => scalar c /\ 32 <= c /\ c <> 127
  | KCtrl c => ctrl c
  | KF n => 1 <= n <= 12
  | _ => True
  end.

(** Modifiers other than Alt, Ctrl and Shift do not exist. *)
Definition modifiers (n : N) : Prop := forall i, N.testbit n i = true -> i < 3.

(** The buttons of mouse events on Unix: the three that have names; 3 is what old mouse
    protocols send for "some button". *)
Definition named_button (i : mouse_input) : Prop :=
  match i with MPressed (MOther n) | MReleased (MOther n) => n = 3 | _ => True end.

(** The signals that a program asked for, with [prepare], or when it went back to a
    configuration with [restore]. *)
Definition asked (before : list rop) (sig : signal) : Prop :=
  exists cfg, (In (RPrepare cfg) before \/ exists st, In (RRestore st) before /\ prev_resume st = Some cfg) /\
    ss_contains (report_signals cfg) sig = true.

(** What [read_event] can tell on Unix. *)
Definition event_told (before : list rop) (e : event) : Prop :=
  match e with
  | EKey k => key_told ctrl_char k
  | EMouse m => named_button (minput m) /\ modifiers (mmods m)
  | EResize _ => True
  | ESignal sig => sig <> Resize /\ asked before sig
  | ERaw _ | ENoEvent => False
  end.

(** What [read_raw] can tell, with a buffer of [room] bytes. *)
Definition raw_told (before : list rop) (room : nat) (e : event) (bs : bytes) : Prop :=
  match e with
  | ERaw n => n = length bs /\ (n <= room)%nat
  | EResize _ => bs = []
  | ESignal sig => bs = [] /\ sig <> Resize /\ asked before sig
  | EKey _ | EMouse _ | ENoEvent => False
  end.

(** Programs on Windows. *)
Inductive xop : Type :=
| XWait (t : option duration)
| XRead (t : option duration)
| XRawEvents (len : nat) (t : option duration)
| XRawText (len : nat) (t : option duration)
| XPrepare (cfg : config)
| XRestore (st : wpstate).
(** The answers; [None] is one without an event. *)
Inductive xreply : Type :=
| ZEvent (e : option event) | ZRecords (e : option event) (rs : list record) | ZText (e : option event) (us : list N)
| ZOther | ZErr (e : N).
Definition xstep (E : env) (o : xop) (s : wsys) : option (wsys * xreply) :=
  let fin {A} (r : wsres A) (f : A -> xreply) : option (wsys * xreply) :=
    match r with Ret s a => Some (s, f a) | Fail s e => Some (s, ZErr e) | _ => None end in
  match o with
  | XWait t => fin (win_wait_event t s) (fun _ => ZOther)
  | XRead t => fin (win_read_event E t s) (fun a => ZEvent (fst a))
  | XRawEvents len t => fin (win_read_raw_event len t s) (fun a => ZRecords (fst a) (snd a))
  | XRawText len t => fin (win_read_raw len t s) (fun a => ZText (fst a) (snd a))
  | XPrepare cfg => fin (win_prepare cfg s) (fun _ => ZOther)
  | XRestore st => fin (win_restore st s) (fun _ => ZOther)
  end.
Fixpoint xrun (E : env) (ops : list xop) (s : wsys) : option (wsys * list xreply) :=
  match ops with
  | [] => Some (s, [])
  | o :: ops =>
      match xstep E o s with
      | Some (s, r) => match xrun E ops s with Some (s, rs) => Some (s, r :: rs) | None => None end
      | None => None
      end
  end.

(** No capital ASCII letter. *)
Definition no_capital (c : N) : Prop := 64 <= c < 256 /\ ~ 65 <= c <= 90.
(** The capital letters of Latin-1. *)
Definition capital (c : N) : Prop := 65 <= c <= 90 \/ (192 <= c <= 222 /\ c <> 215).

Definition win_asked (before : list xop) (sig : signal) : Prop :=
  (sig = Break \/ sig = Interrupt) /\
  exists cfg, In (XPrepare cfg) before /\ ss_contains (report_signals cfg) sig = true.

(** What [read_event] can tell on Windows. *)
Definition win_event_told (before : list xop) (e : event) : Prop :=
  match e with
  | EKey k => key_told no_capital k
  | EMouse m => modifiers (mmods m)
  | EResize _ | ENoEvent => True
  | ESignal sig => win_asked before sig
  | ERaw _ => False
  end.

(** What [read_raw] and [read_raw_event] can tell there, with a buffer of [room] units or
    records and [n] of them put into it. *)
Definition win_raw_told (before : list xop) (room : nat) (e : event) (n : nat) : Prop :=
  match e with
  | ERaw k => k = n /\ (n <= room)%nat
  | ESignal sig => n = 0%nat /\ win_asked before sig
  | _ => False
  end.
