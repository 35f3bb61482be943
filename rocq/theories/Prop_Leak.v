(** Property theorems for guards that are never dropped (C133). *)
From Verif Require Import Base M_Geom M_Attr M_Buf M_Writer M_Locks S_Locks S_Fair M_WinLocks S_WinLocks S_WinFair M_Leak S_Leak
  P_Leak P_WinLeak P_LeakDrop.

(** C133: any programs, whether they follow the rules or not, at any point of any schedule.
    A lock is held for a guard that is not dropped any more, since the thread that has it
    has ended, or is the calling thread itself.  A call that needs the lock does not return
    and does nothing, whatever happens. *)
Theorem C133_locked_out :
  forall E C l s tr c i j lk x k,
  run E C (start l s) tr c -> keeps c i j lk ->
  threads c j = compile (Call x k) -> waits_for lk x = true ->
  waits_for_ever E C c j.
Proof. intros E C l s tr c i j lk x k _ H Ht Hx. exact (locked_out E C c i j lk x _ H Ht Hx). Qed.
Print Assumptions C133_locked_out.

(** C133: trying to acquire it answers that it would block. *)
Theorem C133_try :
  forall E C l s tr c i j lk x k,
  run E C (start l s) tr c -> owner c lk = Some i ->
  threads c j = compile (Call x k) -> tries lk x = true ->
  forall e c', step E C c e c' -> mover e = j -> threads c' j = compile (k AWouldBlock).
Proof.
  intros E C l s tr c i j lk x k _ H Ht Hx. exact (tried_in_vain E C c i j lk x (fun r => compile (k r)) H Ht Hx).
Qed.
Print Assumptions C133_try.

(** C133: programs that follow the rules, but may end without dropping their read guards.
    Then a thread that is about to write, draw, ask for the size or acquire the guard for
    output can complete the call, at any moment, while those that wait for input stay where
    they are. *)
Theorem C133_read_guard_kept :
  forall E C l s tr c j x k,
  Forall (may_keep_read None None) l -> run E C (start l s) tr c ->
  threads c j = compile (Call x k) -> output_call x = true ->
  exists tr' c' a, run E C c tr' c' /\ threads c' j = compile (k a) /\
    forall i, i <> j -> awaiting c i -> threads c' i = threads c i /\ awaiting c' i.
Proof. exact koutput_goes_on. Qed.
Print Assumptions C133_read_guard_kept.

(** C133: a write guard that is not dropped does not only keep others from writing.  There
    is a schedule of three threads, of which one acquires the write guard and ends, one
    reads an event and one acquires the read guard and drops it, after which the last two
    wait for ever. *)
Theorem C133_write_guard_kept_stops_reading :
  forall E C s, exists l tr c,
  nth 0 l Finish = Call TLockWrite (fun _ => Finish) /\ Forall (follows true None None) (skipn 1 l) /\
  run E C (start l s) tr c /\ threads c 0 = Done /\ owner c LWriter = Some 0 /\
  nth 1 l Finish = Call TRead (fun _ => Finish) /\ nth 2 l Finish = Call TLockRead (fun _ => Call RDrop (fun _ => Finish)) /\
  waits_for_ever E C c 1 /\ waits_for_ever E C c 2.
Proof. exact reading_hangs_so. Qed.
Print Assumptions C133_write_guard_kept_stops_reading.

(** C133: dropping a terminal or a screen does not return if a write guard of it has not
    been dropped.  Dropping a screen that has prepared its terminal does not return if a
    read guard has not been dropped. *)
Theorem C133_drop_waits :
  forall E C c i j lk state k, keeps c i j lk ->
  lk = LWriter /\ (threads c j = drop_terminal k \/ threads c j = drop_screen state k) \/
  lk = LReader /\ state <> None /\ threads c j = drop_screen state k ->
  waits_for_ever E C c j.
Proof. exact drop_locked_out. Qed.
Print Assumptions C133_drop_waits.

(** C133: otherwise it does, without the help of other threads. *)
Theorem C133_drop_returns :
  forall E C c j state k, owner c LWriter = None ->
  threads c j = drop_terminal k \/ threads c j = drop_screen state k /\ (state <> None -> owner c LReader = None) ->
  exists tr c', run E C c tr c' /\ threads c' j = k /\ forall i, i <> j -> threads c' i = threads c i.
Proof. exact drops. Qed.
Print Assumptions C133_drop_returns.

(** The first thread keeps a read guard, the second one reads, the third one writes, the
    fourth one tries to acquire the read guard. *)
Definition keeper : client := Call TLockRead (fun _ => Finish).
Definition reading : client := Call TRead (fun _ => Finish).
Definition writing : client := Call (TWrite (OWriteStr [121]%N)) (fun _ => Finish).
Definition trying : client := Call TTryLockRead (fun a => match a with AOk => Call RDrop (fun _ => Finish) | _ => Finish end).

Example C133_example : forall E C s, exists tr c,
  Forall (may_keep_read None None) [keeper; reading; writing; trying] /\
  run E C (start [keeper; reading; writing; trying] s) tr c /\ keeps c 0 1 LReader /\ keeps c 0 3 LReader /\
  threads c 1 = compile reading /\ waits_for LReader TRead = true /\
  threads c 2 = compile writing /\ output_call (TWrite (OWriteStr [121]%N)) = true /\
  threads c 3 = compile trying /\ tries LReader TTryLockRead = true.
Proof.
  intros E C s. do 2 eexists. split.
  { repeat (apply Forall_cons; [|]); [..|apply Forall_nil]; cbn; auto 6.
    split; [reflexivity|]. intros [| | | | |]; cbn; auto. }
  split.
  - eapply run_snoc; [apply run_nil|]. apply step_acq with (i := 0) (l := LReader); reflexivity.
  - cbn. unfold keeps. cbn. auto 12.
Qed.

(** The program of one thread: it acquires the read guard of a screen that has prepared its
    terminal and the write guard, and forgets them; then it drops the screen. *)
Example C133_drop_example : forall s o,
  let o' := set_owner LData (Some 0) (set_owner LWriter (Some 0) (set_owner LReader (Some 0) o)) in
  let c := Config (fun i => if i =? 0 then drop_screen (Some (true, true)) Done else Done) o' s in
  keeps c 0 0 LWriter /\ keeps c 0 0 LReader /\ threads c 0 = drop_screen (Some (true, true)) Done /\
  let c1 := Config (fun i => if i =? 0 then drop_screen None Done else Done) (set_owner LReader (Some 1) (fun _ => None)) s in
  owner c1 LWriter = None /\ threads c1 0 = drop_screen None Done.
Proof. intros s o. cbv zeta. unfold keeps. cbn. auto 10. Qed.

(** ** Windows *)

Theorem C133_windows_locked_out :
  forall (Wd Dd : Type) (M : access Wd Dd) l s tr c i j lk x k,
  wrun M (wstart l s) tr c -> wkeeps c i j lk ->
  wthreads c j = wcompile (Call x k) -> waits_for lk x = true ->
  wwaits_for_ever M c j.
Proof. intros Wd Dd M l s tr c i j lk x k _ H Ht Hx. exact (wlocked_out M c i j lk x _ H Ht Hx). Qed.
Print Assumptions C133_windows_locked_out.

Theorem C133_windows_try :
  forall (Wd Dd : Type) (M : access Wd Dd) l s tr c i j lk x k,
  wrun M (wstart l s) tr c -> wowner c lk = Some i ->
  wthreads c j = wcompile (Call x k) -> tries lk x = true ->
  forall e c', wstep M c e c' -> mover e = j -> wthreads c' j = wcompile (k AWouldBlock).
Proof.
  intros Wd Dd M l s tr c i j lk x k _ H Ht Hx. exact (wtried_in_vain M c i j lk x (fun r => wcompile (k r)) H Ht Hx).
Qed.
Print Assumptions C133_windows_try.

Theorem C133_windows_read_guard_kept :
  forall (Wd Dd : Type) (M : access Wd Dd) l s tr c j x k,
  Forall (wmay_keep_read None None) l -> wrun M (wstart l s) tr c ->
  wthreads c j = wcompile (Call x k) -> output_call x = true ->
  exists tr' c' a, wrun M c tr' c' /\ wthreads c' j = wcompile (k a) /\
    forall i, i <> j -> wawaiting c i -> wthreads c' i = wthreads c i /\ wawaiting c' i.
Proof. intros Wd Dd. exact kwoutput_goes_on. Qed.
Print Assumptions C133_windows_read_guard_kept.

Theorem C133_windows_drop_waits :
  forall (Wd Dd : Type) (M : access Wd Dd) c i j lk state k, wkeeps c i j lk ->
  lk = LWriter /\ (wthreads c j = wdrop_terminal k \/ wthreads c j = wdrop_screen state k) \/
  lk = LReader /\ state <> None /\ wthreads c j = wdrop_screen state k ->
  wwaits_for_ever M c j.
Proof. intros Wd Dd. exact wdrop_locked_out. Qed.
Print Assumptions C133_windows_drop_waits.

Theorem C133_windows_drop_returns :
  forall (Wd Dd : Type) (M : access Wd Dd) c j state k, wowner c LWriter = None ->
  wthreads c j = wdrop_terminal k \/ wthreads c j = wdrop_screen state k /\ (state <> None -> wowner c LReader = None) ->
  exists tr c', wrun M c tr c' /\ wthreads c' j = k /\ forall i, i <> j -> wthreads c' i = wthreads c i.
Proof. intros Wd Dd. exact wdrops. Qed.
Print Assumptions C133_windows_drop_returns.

Example C133_windows_example : forall (Wd Dd : Type) (M : access Wd Dd) s, exists tr c,
  Forall (wmay_keep_read None None) [keeper; reading; writing] /\
  wrun M (wstart [keeper; reading; writing] s) tr c /\ wkeeps c 0 1 LReader /\
  wthreads c 1 = wcompile reading /\ waits_for LReader TRead = true /\
  wthreads c 2 = wcompile writing /\ output_call (TWrite (OWriteStr [121]%N)) = true.
Proof.
  intros Wd Dd M s. do 2 eexists. split.
  { repeat (apply Forall_cons; [|]); [..|apply Forall_nil]; cbn;
      repeat match goal with
             | |- _ /\ _ => split
             | |- wallowed _ _ _ _ => unfold wallowed; cbn
             | |- forall _ : ans, _ => intros
             | |- _ = SRRead -> _ => let X := fresh in intros X; discriminate X
             | |- _ = _ => reflexivity
             end. }
  split.
  - eapply wrun_snoc; [apply wrun_nil|]. apply wstep_acq with (i := 0) (l := LReader); reflexivity.
  - cbn. unfold wkeeps. cbn. auto 12.
Qed.
