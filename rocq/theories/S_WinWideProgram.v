(** Specification vocabulary for any programs that share a [Screen] on Windows, whatever
    text they write (C127).  What the programs do: [deed] of S_OneThread and [wdid_so] of
    S_WinOneThread. *)
From Verif Require Import Base M_Utf8 M_Geom M_Attr M_Buf S_Buf M_Writer M_ScreenApi M_Locks M_WinWriter M_WinReader
  S_WideCanvas S_WinWide S_Program S_WideProgram S_OneThread.

(** All that was done succeeded. *)
Definition all_well (l : list deed) : Prop := forall d, In d l -> exists x, d = Did x AOk.

(** What was done, without the answers. *)
Definition marks_of (l : list deed) : list mark :=
  flat_map (fun d => match d with Did x _ => [x] | _ => [] end) l.

(** What C126 excludes does not happen, and no call reads that the window has a new size.
    [last]: what the last refresh left; [None]: there was none since the size changed. *)
Fixpoint win_gentle (E : env) (shown : list N -> option N) (shown2 : list N -> option (N * N))
    (l : list mark) (k : wcanvas) (last : option shot) : Prop :=
  match l with
  | [] => True
  | Drawn m :: l => easy E m k /\ win_gentle E shown shown2 l (wdraw E m k) last
  | Shown :: l => readable E shown shown2 k /\ (forall h, last = Some h -> mends h k) /\
      win_gentle E shown shown2 l k (Some (next_shot last k))
  | Asked _ :: l => win_gentle E shown shown2 l k last
  | Fitted _ :: _ => False
  end.
