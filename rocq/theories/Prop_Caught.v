(** Property theorems for what becomes of signals (C44). *)
From Verif Require Import Base M_Utf8 S_Utf8 M_Geom M_Seq S_Seq M_Signal M_Util M_Input S_Input M_Writer S_Writer S_Emu
  M_Prepare M_Reader S_Prepare S_Reader S_Caught P_Caught Prop_Input Prop_Prepare Prop_Reader.
Local Open Scope N_scope.

(** C44, what holds: the newest signal (the last one caught so far and not yet told) is
    never lost.  A call leaves it waiting for the next call, and says nothing of it; or
    takes it and answers with the event it deserves; or, if asking for the size or
    preparing the terminal again fails, takes it and reports that failure.  Waiting
    never takes it.  (Signals before the newest: [C44_overtaken_refuted].) *)
Theorem C44_newest_is_kept_partial :
  forall C m,
    (forall t s s' b, wait_event m t s = Ret s' b -> exists x, newest s s' x /\ waits x s') /\
    (forall t s s' e, read_event C m t s = Ret s' e -> exists x, newest s s' x /\
      ((waits x s' /\ untold e) \/
       exists sig, x = Some sig /\ last_sig s' = 0 /\ e = deserved (M_Prepare.report s') sig (win s'))) /\
    (forall n t s s' e bs, read_raw C m n t s = Ret s' (e, bs) -> exists x, newest s s' x /\
      ((waits x s' /\ untold e) \/
       exists sig, x = Some sig /\ last_sig s' = 0 /\ e = deserved (M_Prepare.report s') sig (win s'))) /\
    (forall t s s' e, read_event C m t s = Fail s' e -> exists x, newest s s' x /\
      (waits x s' \/ exists sig, x = Some sig /\ last_sig s' = 0 /\ (sig = Resize \/ sig = Continue))).
Proof. exact signals_kept. Qed.
Print Assumptions C44_newest_is_kept_partial.

(** A key is told while a window change waits; the next read tells the window change. *)
Example C44_newest_example :
  match rrun ansi_cfg ex_map [RRead None; RRead None] (with_inbuf [97] 200 (ex_ready [TSig 28; TStep; TStep])) with
  | Some (_, rs) => rs = [YEvent (Some (EKey (KChar 97))); YEvent (Some (EResize (Size 24 80)))]
  | None => False
  end.
Proof. vm_compute. reflexivity. Qed.
