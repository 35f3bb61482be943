(** Which calls can panic on Windows (C108), told from the console, the program's calls and
    the size and cursor of the screen. *)
From Verif Require Import Base M_Utf8 M_Geom S_Geom M_Attr M_Buf S_Overrun M_Signal M_Util M_Input M_Writer M_Screen M_Prepare M_Reader
  M_WinWriter M_WinReader M_WinScreen S_WinReader S_WinWriter S_WinScreen S_UnixScreen S_NoPanic.
Local Open Scope nat_scope.

(** Drawing keeps the console's buffer in order: cursor and window within it. *)
Definition keeps_order (draw : list N -> N -> view -> view) : Prop :=
  forall l a v, view_ok v -> view_ok (draw l a v).

(** A timeout that cannot be told in milliseconds: the product of [u64] or the sum of [u32]
    overflows. *)
Definition win_overflows (t : option duration) : Prop :=
  exists d, t = Some d /\
    (2 ^ 64 <= secs d * 1000 \/ 2 ^ 32 <= (secs d * 1000) mod 2 ^ 32 + (nanos d / 1000000) mod 2 ^ 32)%N.

(** A program's call, or the console changes its buffer (its user resizes the window, other
    programs write). *)
Inductive wact : Type := WCall (o : wsop) | WConsole (v : view).
Definition act_ok (a : wact) : Prop :=
  match a with
  | WCall (SBuffer (BResize _)) => False     (* no method *)
  | WCall _ => True
  | WConsole v => view_ok v
  end.
Fixpoint wacts (draw : list N -> N -> view -> view) (E : env) (l : list wact) (s : wscr) : option wscr :=
  match l with
  | [] => Some s
  | WCall o :: l => match run_wsop draw E o s with
                    | Ret s _ | Fail s _ => wacts draw E l s
                    | _ => None
                    end
  | WConsole v :: l => wacts draw E l (seeing v s)
  end.

(** The size of a record that waits or will come. *)
Definition told_size (E : env) (s : wsys) (z : size) : Prop :=
  exists p, (In (SizeRec p) (w_queue s) \/ In (WRec (SizeRec p)) (w_time s)) /\
            z = Size (as_usize E (cY p)) (as_usize E (cX p)).

(** What can make a call panic, on a screen of the size and with the cursor [st]; [s0]: the
    input side when the screen was made. *)
Definition win_reason (E : env) (s0 : wsys) (st : size * cursor) (o : wsop) : Prop :=
  match o with
  | SBuffer b => go E st b = None
  | SRefresh => total (fst st) = 0
  | SCursorMode _ => False
  | SWait t | SReadRaw _ t => win_overflows t
  | SReadEvent t | SReadRawEvent _ t =>
      win_overflows t \/ exists z, told_size E s0 z /\ go E st (BResize z) = None
  end.
(** The calls that wait for input. *)
Definition waiting (o : wsop) : Prop :=
  match o with SWait _ | SReadEvent _ | SReadRaw _ _ | SReadRawEvent _ _ => True | _ => False end.
Definition screen_at (s : wscr) : size * cursor := (bsize (g_sb s), bcur (g_sb s)).

(** Size records that the library can show a screen for. *)
Definition decent_records (E : env) (s : wsys) : Prop :=
  forall z, told_size E s z -> 0 < lines z /\ 2 <= columns z /\ total z <= umax E.
Definition act_drawings (a : wact) : list buf_op := match a with WCall (SBuffer b) => [b] | _ => [] end.
Definition modest_acts (E : env) (l : list wact) : Prop := weights (flat_map act_drawings l) < umax E.
Definition modest_call (a : wact) : Prop :=
  match a with
  | WCall (SWait t) | WCall (SReadEvent t) | WCall (SReadRaw _ t) | WCall (SReadRawEvent _ t) => ~ win_overflows t
  | _ => True
  end.
