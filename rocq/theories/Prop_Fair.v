(** Property theorems for waiting (C93). *)
From Verif Require Import Base M_Geom M_Attr M_Buf M_Writer M_Locks S_Locks S_Fair P_Locks P_Fair M_WinLocks S_WinLocks S_WinFair P_WinFair.

(** C93: any number of threads whose programs follow the documented rules and do not
    read events while they hold the write guard.  A thread that is reading an event or
    raw input, from a terminal or a screen, holds no guard for output. *)
Theorem C93_reading_holds_no_output :
  forall E C l s tr c i k,
  Forall (follows true None None) l -> run E C (start l s) tr c ->
  threads c i = read_block k \/ threads c i = screen_read_block k ->
  awaiting c i.
Proof. exact reading_is_awaiting. Qed.
Print Assumptions C93_reading_holds_no_output.

(** C93: at any moment of any schedule, a thread that is about to write, draw, ask for
    the size or acquire the guard for output can complete the call although nothing
    happens that the threads waiting for input wait for: each of them stays where it
    is. *)
Theorem C93_output_while_others_wait :
  forall E C l s tr c j x k,
  Forall (follows true None None) l -> run E C (start l s) tr c ->
  threads c j = compile (Call x k) -> output_call x = true ->
  exists tr' c' a, run E C c tr' c' /\ threads c' j = compile (k a) /\
    forall i, i <> j -> awaiting c i -> threads c' i = threads c i /\ awaiting c' i.
Proof. exact output_goes_on. Qed.
Print Assumptions C93_output_while_others_wait.

(** C93: a thread that waits for a lock on the output needs nobody but the threads
    that hold one. *)
Theorem C93_waits_for_holders_only :
  forall E C l s tr c j lk k,
  Forall (follows true None None) l -> run E C (start l s) tr c ->
  threads c j = Acq lk k -> lk <> LReader ->
  exists tr' c', run E C c tr' c' /\ threads c' j = k /\ owner c' lk = Some j /\
    forall i, i <> j -> owner c LWriter <> Some i -> owner c LData <> Some i -> threads c' i = threads c i.
Proof. exact waits_for_holders. Qed.
Print Assumptions C93_waits_for_holders_only.

(** A thread reads an event; meanwhile another one, which waits for the guard that a
    third one holds, is about to write. *)
Definition fair_reader : client := Call TRead (fun _ => Finish).
Definition fair_holder : client := Call TLockWrite (fun _ => Call (WDo (OWriteStr [120]%N)) (fun _ => Call WDrop (fun _ => Finish))).
Definition fair_writer : client := Call (TWrite (OWriteStr [121]%N)) (fun _ => Finish).

Example C93_example : forall E C s, exists tr c,
  Forall (follows true None None) [fair_reader; fair_holder; fair_writer] /\
  run E C (start [fair_reader; fair_holder; fair_writer] s) tr c /\
  (exists k, threads c 0 = read_block k) /\ owner c LWriter = Some 1 /\
  threads c 2 = compile fair_writer /\ output_call (TWrite (OWriteStr [121]%N)) = true.
Proof.
  intros E C s. do 2 eexists. split.
  { repeat constructor; unfold fair_reader, fair_holder, fair_writer; cbn; auto. }
  split.
  - eapply run_snoc.
    1: eapply run_snoc.
    1: apply run_nil.
    + apply step_acq with (i := 0) (l := LReader); reflexivity.
    + apply step_acq with (i := 1) (l := LWriter); reflexivity.
  - cbn. split; [eexists; reflexivity|]. repeat split; reflexivity.
Qed.

(** C93 on Windows, for threads that follow the documented rules and do not read
    through a screen's read guard while they hold its write guard. *)
Theorem C93_windows_output_while_others_wait :
  forall (Wd Dd : Type) (M : access Wd Dd) l s tr c j x k,
  Forall (wfollows true None None) l -> wrun M (wstart l s) tr c ->
  wthreads c j = wcompile (Call x k) -> output_call x = true ->
  exists tr' c' a, wrun M c tr' c' /\ wthreads c' j = wcompile (k a) /\
    forall i, i <> j -> wawaiting c i -> wthreads c' i = wthreads c i /\ wawaiting c' i.
Proof. intros Wd Dd. exact woutput_goes_on. Qed.
Print Assumptions C93_windows_output_while_others_wait.

Example C93_windows_example : forall (Wd Dd : Type) (M : access Wd Dd) s, exists tr c,
  Forall (wfollows true None None) [fair_reader; fair_holder; fair_writer] /\
  wrun M (wstart [fair_reader; fair_holder; fair_writer] s) tr c /\
  wawaiting c 0 /\ wowner c LWriter = Some 1 /\
  wthreads c 2 = wcompile fair_writer /\ output_call (TWrite (OWriteStr [121]%N)) = true.
Proof.
  intros Wd Dd M s. do 2 eexists. split.
  { repeat (apply Forall_cons; [|]); [..|apply Forall_nil]; unfold fair_reader, fair_holder, fair_writer; cbn;
      repeat match goal with
             | |- _ /\ _ => split
             | |- wallowed _ _ _ _ => unfold wallowed; cbn
             | |- forall _ : ans, _ => intros
             | |- _ = SRRead -> _ => let X := fresh in intros X; discriminate X
             | |- _ = _ => reflexivity
             end. }
  split.
  - eapply wrun_snoc.
    1: eapply wrun_snoc.
    1: apply wrun_nil.
    + apply wstep_acq with (i := 0) (l := LReader); reflexivity.
    + apply wstep_acq with (i := 1) (l := LWriter); reflexivity.
  - cbn. split; [|repeat split; reflexivity].
    split; [eexists; reflexivity|]. split; intros X; discriminate X.
Qed.
