(** Specification vocabulary for threads that draw on one screen or write to one terminal
    on Windows (C111, C112). *)
From Verif Require Import Base M_Utf8 S_Utf8 M_Geom M_Attr M_Buf M_Writer M_Api M_Locks S_Together M_WinWriter S_WinWriter M_WinReader M_WinScreen
  S_WinScreen M_ScreenApi S_WinCanvas S_WinApi M_WinLocks M_WinShare.
From Verif Require S_Canvas.

(** The state of a Windows screen shared by threads. *)
Definition wshare (s : wscr) : option wterm * option sdata :=
  (Some (g_t s), Some (SData (g_sb s) (g_clr s) (g_real s))).

(** Drawing with text that takes one position per character. *)
Definition single_stroke (E : env) (shown : list N -> option N) (s : stroke) : Prop :=
  match s with Draw m => Forall (single E shown) (S_Canvas.method_text m) | Show => True end.
Definition single_doing (E : env) (shown : list N -> option N) (d : doing) : Prop :=
  Forall (single_stroke E shown) (strokes d).

(** What a thread does with a [Terminal] it shares: it acquires the write guard, calls
    methods of it and drops it; or it calls a method of the terminal. *)
Inductive writing : Type :=
| Message (l : list tmethod)
| Single (m : tmethod).

Fixpoint message_client (l : list tmethod) (k : client) : client :=
  match l with
  | [] => Call WDrop (fun _ => k)
  | m :: l => Call (WDo (forward m)) (fun _ => message_client l k)
  end.
Definition writing_client (x : writing) (k : client) : client :=
  match x with
  | Message l => Call TLockWrite (fun _ => message_client l k)
  | Single m => Call (TWrite (forward m)) (fun _ => k)
  end.
Definition writings_client (l : list writing) : client := fold_right writing_client Finish l.

(** The calls it is made of, for the documented effects (S_WinApi.v). *)
Definition calls (x : writing) : list api_call :=
  match x with Message l => map OnGuard l | Single m => [OnTerminal m] end.
Definition scalar_writing (x : writing) : Prop := Forall call_scalar (calls x).

(** The console shows a position of a canvas. *)
Definition cell_shows (shown : list N -> option N) (default : N) (v : view) (p : cursor) (x : list N * attrs) : Prop :=
  exists g w, v_cell v (Z.of_nat (line p)) (Z.of_nat (column p)) = (g, w) /\ shown (fst x) = Some g /\ shows default (snd x) w.
