(** Specification vocabulary for errors met while waiting for input and reading it (C114). *)
From Verif Require Import Base M_Utf8 M_Geom M_Seq M_Signal M_Util M_Buf M_Input M_Writer M_Prepare M_Reader S_Reader M_WinReader.
Local Open Scope N_scope.

(** Failures and what is reported of them.  [met p es rs q]: with the failure [p] still to
    be met by the next access to the input, and the failures [es] coming to be, in order,
    while calls are made that report [rs] (an error or none), the failure [q] is still to
    be met in the end.  A failure that comes before the last one was met takes its place;
    accesses that fail with a [retried] error are repeated. *)
Inductive met (retried : N -> bool) : option N -> list N -> list (option N) -> option N -> Prop :=
| met_end p : met retried p [] [] p
| met_comes p e es rs q : met retried (Some e) es rs q -> met retried p (e :: es) rs q
| met_again e es rs q : retried e = true -> met retried None es rs q -> met retried (Some e) es rs q
| met_told e es rs q : retried e = false -> met retried None es rs q -> met retried (Some e) es (Some e :: rs) q
| met_fine p es rs q : met retried p es rs q -> met retried p es (None :: rs) q.

(** ** On Windows *)
Inductive wcall : Type :=
| CWait (t : option duration)
| CEvent (t : option duration)
| CRawEvent (len : nat) (t : option duration)
| CRaw (len : nat) (t : option duration).
Definition plainly {A} (r : wsres A) : wsres unit :=
  match r with Ret s _ => Ret s tt | Fail s e => Fail s e | Panic => Panic | Blocked => Blocked end.
Definition wcall_run (E : env) (o : wcall) (s : wsys) : wsres unit :=
  match o with
  | CWait t => plainly (win_wait_event t s)
  | CEvent t => plainly (win_read_event E t s)
  | CRawEvent len t => plainly (win_read_raw_event len t s)
  | CRaw len t => plainly (win_read_raw len t s)
  end.
(** Calls, one after the other, and the errors they report. *)
Fixpoint wcalls (E : env) (os : list wcall) (s : wsys) : option (wsys * list (option N)) :=
  match os with
  | [] => Some (s, [])
  | o :: os =>
      match wcall_run E o s with
      | Ret s _ => match wcalls E os s with Some (s, rs) => Some (s, None :: rs) | None => None end
      | Fail s e => match wcalls E os s with Some (s, rs) => Some (s, Some e :: rs) | None => None end
      | Panic | Blocked => None
      end
  end.
(** The failures in a timeline. *)
Fixpoint wfailures (l : list wtick) : list N :=
  match l with
  | [] => []
  | WFail e :: l => e :: wfailures l
  | _ :: l => wfailures l
  end.
(** No control event and no further failure comes. *)
Definition wuneventful (s : wsys) : Prop :=
  win_conv_signal (w_last s) = None /\
  Forall (fun t => match t with WCtrl _ _ | WFail _ => False | _ => True end) (w_time s).
(** The call looks at the input, and its timeout can be represented. *)
Definition wlooks (o : wcall) : Prop :=
  match o with CWait t | CEvent t | CRawEvent _ t | CRaw _ t => as_millis t <> Boom end.

(** ** On Unix *)
Definition reads (o : rop) : Prop := match o with RWait _ | RRead _ | RRaw _ _ => True | _ => False end.
(** The error of the operating system a reply reports. *)
Definition reported (r : reply) : option N := match r with YErr (RW (EOs e)) => Some e | _ => None end.
Fixpoint failures (l : list tick) : list N :=
  match l with
  | [] => []
  | TFail e :: l => e :: failures l
  | _ :: l => failures l
  end.
(** Neither a continuation nor a change of the window's size, whose handling accesses the
    output (C43, C83). *)
Definition undisturbed (s : sys) : Prop :=
  last_sig s <> SIGCONT /\ last_sig s <> SIGWINCH /\
  Forall (fun t => match t with TSig n => n <> SIGCONT /\ n <> SIGWINCH | _ => True end) (time s).

(** No signal is pending, and no signal and no further failure comes. *)
Definition uneventful (s : sys) : Prop :=
  conv_signal (last_sig s) = None /\
  Forall (fun t => match t with TSig _ | TFail _ => False | _ => True end) (time s).
(** The call has to look at the input: what was read before does not answer it; its timeout
    can be represented. *)
Definition looks (m : seq_map) (s : sys) (o : rop) : Prop :=
  match o with
  | RWait t | RRead t => ~ overflows t /\ peek_event (inbuf s) m = Val PNone
  | RRaw _ t => ~ overflows t /\ inbuf s = []
  | _ => False
  end.
