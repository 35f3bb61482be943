(** Property theorems for threads that share the input of a terminal (C119). *)
From Verif Require Import Base M_Utf8 S_Utf8 M_Geom M_Seq S_Seq M_Signal M_Util M_Input S_Input M_Buf S_Buf M_Writer S_Emu M_Prepare
  M_Reader S_Reader S_Typing Prop_Prepare Prop_Typing M_WinWriter M_WinReader S_WinReader S_Together
  M_ReadShare S_ReadShare P_ReadShare P_ReadShare2.
Local Open Scope N_scope.

(** C119: any number of threads read from one terminal, each running any program that uses
    its guards properly.  When all are done, the calls they made can be put in an order in
    which the calls with one guard are uninterrupted, each thread did what its program
    asks for, and one thread alone making these calls gets the same answers and leaves the
    terminal in the same state. *)
Theorem C119_same_as_one_thread :
  forall C m ps s l c, Forall (proper false) ps ->
  reader_run (unix_act C m) (reader_start ps s) l c -> all_ended c ->
  exists order, (forall i, did None (nth i ps HEnd) (done_by i order)) /\
    rrun C m (map fst (concat (map snd order))) s = Some (r_state c, map snd (concat (map snd order))).
Proof. exact unix_share. Qed.
Print Assumptions C119_same_as_one_thread.

(** C119: so every character typed is given to exactly one thread: the keys that the
    threads were given, in this order, are those at the front of the text, and the rest is
    still to be read. *)
Theorem C119_typed_once :
  forall C m, key_map m -> forall ps text s l c,
  Forall (proper false) ps -> Forall (calls_only not_raw) ps ->
  Forall (fun c => scalar c /\ begins_nothing m c) text -> S_Reader.stream s = utf8s text ->
  reader_run (unix_act C m) (reader_start ps s) l c -> all_ended c ->
  exists order t1 t2, (forall i, did None (nth i ps HEnd) (done_by i order)) /\
    text = t1 ++ t2 /\
    flat_map key_or_mouse (map snd (concat (map snd order))) = map (fun c => EKey (key_from_char c)) t1 /\
    S_Reader.stream (r_state c) = utf8s t2.
Proof. exact unix_typed_once. Qed.
Print Assumptions C119_typed_once.

(** C119: on Windows, too, and every record is handed to exactly one thread. *)
Theorem C119_records_once :
  forall E ps s l c, Forall (proper false) ps ->
  reader_run (win_act E) (reader_start ps s) l c -> all_ended c ->
  exists order, (forall i, did None (nth i ps HEnd) (done_by i order)) /\
    run_wr E (map fst (concat (map snd order))) s = Some (r_state c, map snd (concat (map snd order))) /\
    records s = concat (map handed (map snd (concat (map snd order)))) ++ records (r_state c).
Proof. exact win_share. Qed.
Print Assumptions C119_records_once.

(** C119: the threads do not block one another for ever: if none can go on, the one that
    has the reader waits for input that does not come. *)
Theorem C119_only_input_is_waited_for :
  forall C m ps s l c, Forall (proper false) ps ->
  reader_run (unix_act C m) (reader_start ps s) l c -> stuck (unix_act C m) c ->
  exists i o k, r_owner c = Some i /\ r_threads c i = KDo o k /\ rstep C m o (r_state c) = None.
Proof. exact (fun C m => stuck_waiting (unix_act C m)). Qed.
Print Assumptions C119_only_input_is_waited_for.

Theorem C119_only_input_is_waited_for_windows :
  forall E ps s l c, Forall (proper false) ps ->
  reader_run (win_act E) (reader_start ps s) l c -> stuck (win_act E) c ->
  exists i o k, r_owner c = Some i /\ r_threads c i = KDo o k /\ win_act E o (r_state c) = None.
Proof. exact (fun E => stuck_waiting (win_act E)). Qed.
Print Assumptions C119_only_input_is_waited_for_windows.

(** C119, what does not hold: that a call with a timeout returns in time.  If one thread
    waits in a call that does not return, every other call ([read_event] with a timeout of
    zero, [restore], ...) waits with it for ever. *)
Theorem C119_timeout_refuted :
  forall C m o k ps s, rstep C m o s = None -> Forall (proper false) ps ->
  exists c, reader_run (unix_act C m) (reader_start (HCall o k :: ps) s) [0%nat] c /\
    forall l c', reader_run (unix_act C m) c l c' -> forall j o' k', nth_error ps j = Some (HCall o' k') ->
      r_threads c' (S j) = code (HCall o' k').
Proof. exact (fun C m => kept_waiting (unix_act C m)). Qed.
Print Assumptions C119_timeout_refuted.

Theorem C119_timeout_windows_refuted :
  forall E o k ps s, win_act E o s = None -> Forall (proper false) ps ->
  exists c, reader_run (win_act E) (reader_start (HCall o k :: ps) s) [0%nat] c /\
    forall l c', reader_run (win_act E) c l c' -> forall j o' k', nth_error ps j = Some (HCall o' k') ->
      r_threads c' (S j) = code (HCall o' k').
Proof. exact (fun E => kept_waiting (win_act E)). Qed.
Print Assumptions C119_timeout_windows_refuted.

(** Two threads: one reads two events, the other, if it finds the reader free, reads two
    with a guard, and else asks whether there is input.  The first half of a character
    arrives with one event and the second half with the next. *)
Definition ex_first : reader_prog M_Reader.rop reply :=
  HCall (RPrepare ex_cfg) (fun st => HCall (RRead None) (fun _ => HCall (RRead None) (fun _ =>
    match st with YState st => HCall (RRestore st) (fun _ => HEnd) | _ => HEnd end))).
Definition ex_second : reader_prog M_Reader.rop reply :=
  HTry (HGuard (RRead None) (fun _ => HGuard (RRead None) (fun _ => HDrop HEnd)))
       (HCall (M_Reader.RWait (Some (Duration 0 0))) (fun _ => HEnd)).
Lemma ex_proper : Forall (proper false) [ex_first; ex_second; ex_second].
Proof.
  assert (H : proper false ex_first).
  { split; [reflexivity|]. intro st. split; [reflexivity|]. intros _. split; [reflexivity|]. intros _.
    destruct st; cbn; repeat split. }
  constructor; [exact H|]. repeat constructor.
Qed.
Lemma ex_not_raw : Forall (calls_only not_raw) [ex_first; ex_second; ex_second].
Proof.
  assert (H : calls_only not_raw ex_first).
  { split; [exact I|]. intro st. split; [exact I|]. intros _. split; [exact I|]. intros _. destruct st; cbn; repeat split. }
  constructor; [exact H|]. repeat constructor.
Qed.
Definition ex_input : sys :=
  ex_sys [TInput [97; 195]; TSig 28; TStep; TStep; TStep; TStep; TStep; TInput [169; 98; 99; 100]; TStep; TStep; TStep; TStep; TStep; TStep].
(** Thread 1 takes the reader between the two reads of thread 0, and thread 2 finds it
    taken and waits. *)
Definition ex_order : list nat :=
  [0; 0; 0; 0; 0; 0; 1; 1; 2; 1; 1; 2; 2; 2; 0; 0; 0; 0; 0; 0]%nat.
Example C119_example :
  S_Reader.stream ex_input = utf8s [97; 233; 98; 99; 100] /\
  match exec (unix_act ansi_cfg ex_clear) (reader_start [ex_first; ex_second; ex_second] ex_input) ex_order with
  | Some c => forallb (fun i => match r_threads c i with KEnd => true | _ => false end) (seq 0 3) = true /\
              S_Reader.stream (r_state c) = utf8s [99; 100]
  | None => False
  end.
Proof. vm_compute. repeat split. Qed.
Example C119_example_run :
  exists c, reader_run (unix_act ansi_cfg ex_clear) (reader_start [ex_first; ex_second; ex_second] ex_input) ex_order c /\
    all_ended c /\ S_Reader.stream (r_state c) = utf8s [99; 100].
Proof.
  destruct (exec (unix_act ansi_cfg ex_clear) (reader_start [ex_first; ex_second; ex_second] ex_input) ex_order) as [c|] eqn:E;
    [|vm_compute in E; discriminate E].
  exists c. pose proof (exec_ok _ _ _ _ E) as Hr. split; [exact Hr|].
  pose proof C119_example as (_ & X). rewrite E in X. destruct X as (X & Y). split; [|exact Y].
  exact (ended_all _ _ _ _ _ Hr X).
Qed.

(** A call that does not return, although time passes, and one that does when alone. *)
Example C119_timeout_example :
  let s := ex_sys (repeat TTime 9) in
  rstep ansi_cfg ex_clear (RRead None) s = None /\
  match rstep ansi_cfg ex_clear (RRead (Some (Duration 0 0))) s with Some (_, r) => r = YEvent None | None => False end.
Proof. vm_compute. repeat split. Qed.

(** A Windows console with two threads, and one whose calls wait for ever. *)
Definition ex_win (l : list wtick) : wsys := WSys (WReader false 0) 3 NO_SIGNAL 0x1a8 1 [SizeRec (Coord 80 25)] None [] [] l.
Definition ex_wprogs : list (reader_prog wrop wreply) :=
  [HCall (REvent None) (fun _ => HEnd); HLock (HGuard (RRawEvent 4 (Some (Duration 0 0))) (fun _ => HDrop HEnd))].
Example C119_windows_example :
  Forall (proper false) ex_wprogs /\
  match exec (win_act (demo_env 1000)) (reader_start ex_wprogs (ex_win [WStep; WStep; WStep; WStep; WRec (KeyRec true 0x41 0 0x61); WStep])) [1; 1; 1; 0; 0; 0]%nat with
  | Some c => forallb (fun i => match r_threads c i with KEnd => true | _ => false end) (seq 0 2) = true /\
              records (r_state c) = []
  | None => False
  end.
Proof. split; [repeat constructor; auto|]. vm_compute. repeat split. Qed.
Example C119_timeout_windows_example :
  let s := WSys (WReader false 0) 3 NO_SIGNAL 0x1a8 1 [] None [] [] (repeat WTime 9) in
  win_act (demo_env 1000) (REvent None) s = None /\
  match win_act (demo_env 1000) (REvent (Some (Duration 0 0))) s with Some (_, r) => r = RGot None [] | None => False end.
Proof. vm_compute. repeat split. Qed.
