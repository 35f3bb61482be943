(** Property theorems for errors met while waiting for input and reading it (C114). *)
From Verif Require Import Base M_Utf8 M_Geom M_Seq M_Signal M_Util M_Buf S_Buf M_Input M_Writer S_Writer S_Emu M_Prepare M_Reader S_Reader M_WinReader
  S_Errs P_Errs Prop_Input Prop_Prepare Prop_Reader Prop_WinReader.
Local Open Scope N_scope.

(** C114, Windows: over any sequence of waits and reads and whatever happens, the errors
    reported are the failures met, each once and in order. *)
Theorem C114_windows_errors :
  forall E os s s' rs, wcalls E os s = Some (s', rs) ->
    exists l, w_time s = l ++ w_time s' /\
      met (fun _ => false) (w_failing s) (wfailures l) rs (w_failing s').
Proof. exact win_errors. Qed.
Print Assumptions C114_windows_errors.

(** A failure that is there is reported by the next call. *)
Theorem C114_windows_prompt :
  forall E o s e, w_failing s = Some e -> wuneventful s -> wlooks o ->
    exists s', wcall_run E o s = Fail s' e /\ w_failing s' = None.
Proof. exact win_prompt. Qed.
Print Assumptions C114_windows_prompt.

(** Unix: likewise, with an access that fails with [EINTR] being repeated. *)
Theorem C114_unix_errors :
  forall C m ops s s' rs, Forall reads ops -> undisturbed s -> rrun C m ops s = Some (s', rs) ->
    exists l, time s = l ++ time s' /\
      met (N.eqb EINTR) (failing s) (failures l) (map reported rs) (failing s').
Proof. exact unix_errors. Qed.
Print Assumptions C114_unix_errors.

Theorem C114_unix_prompt :
  forall C m o s e, failing s = Some e -> e <> EINTR -> uneventful s -> looks m s o ->
    exists s', rstep C m o s = Some (s', YErr (RW (EOs e))) /\ failing s' = None.
Proof. exact unix_prompt. Qed.
Print Assumptions C114_unix_prompt.

(** A record is there when the failure 6 is met; the next call meets the failure 5, the
    last one none. *)
Definition ex_wfails : list wtick :=
  [WRec OtherRec; WStep; WFail 6; WStep; WRec OtherRec; WStep; WFail 5; WStep].
Example C114_windows_example :
  match wcalls (demo_env 8) [CRawEvent 1 None; CWait None; CWait None] (demo_wsys ex_wfails) with
  | Some (s', rs) => rs = [Some 6; Some 5; None] /\ w_failing s' = None
  | None => False
  end /\
  (let s := with_wfailing (Some 7) (demo_wsys [WRec OtherRec; WStep]) in
   wuneventful s /\ wlooks (CEvent (Some (Duration 1 0)))).
Proof. split; [vm_compute; auto|]. split; [split; [reflexivity|repeat constructor]|discriminate]. Qed.

(** Interrupted accesses are repeated, two failures are reported, and what was typed is
    read afterwards. *)
Definition ex_fails : list tick :=
  [TInput [97]; TStep; TFail EINTR; TStep; TFail 5; TStep; TFail EINTR; TStep; TInput [98]; TStep; TStep; TFail 5;
   TStep; TStep; TStep; TStep].
Example C114_unix_example :
  Forall reads [RRead None; RWait None; RRaw 3 None; RRead None] /\ undisturbed (ex_ready ex_fails) /\
  match rrun ansi_cfg ex_map [RRead None; RWait None; RRaw 3 None; RRead None] (ex_ready ex_fails) with
  | Some (s', rs) =>
      rs = [YErr (RW (EOs 5)); YErr (RW (EOs 5)); YRaw (Some (ERaw 1)) [97]; YEvent (Some (EKey (KChar 98)))] /\
      failing s' = None
  | None => False
  end /\
  (let s := with_failing (Some 5) (ex_ready [TInput [97]; TStep]) in
   uneventful s /\ looks ex_map s (RRead None) /\ looks ex_map s (RRaw 3 None)).
Proof.
  split; [repeat constructor|]. split; [split; [discriminate|split; [discriminate|repeat constructor]]|].
  split; [vm_compute; auto|]. split; [split; [reflexivity|repeat constructor]|].
  assert (N : ~ overflows None) by (intros (d & H & _); discriminate).
  split; (split; [exact N|reflexivity]).
Qed.
