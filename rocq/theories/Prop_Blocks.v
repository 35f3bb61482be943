(** Property theorems for what several threads write to one terminal (C92). *)
From Verif Require Import Base M_Utf8 M_Geom M_Attr M_Buf S_Buf M_Writer S_Tty S_Writer S_Emu M_Screen M_Locks S_Locks S_Blocks P_Blocks P_Blocks2.

(** C92: threads that follow the documented rules, however scheduled, up to a point
    where nobody holds the output, on a device that takes what it is given whole or
    fails (short writes: C30): what the terminal was given is a sequence of pieces,
    one per session, each thread's in its order; a piece is the bytes of its session
    and of nothing else. *)
Theorem C92_one_piece_per_session :
  forall E C l w d tr c w',
  Forall (follows false None None) l -> run E C (start l (Some w, d)) tr c ->
  owner c LWriter = None -> owner c LData = None ->
  whole_writes (script w) -> fst (shared c) = Some w' ->
  exists blocks : list (nat * bytes),
    stream w' = stream w ++ concat (map snd blocks) /\
    forall i : nat, Forall2 piece (sessions i tr) (of_thread i blocks).
Proof. exact sessions_in_pieces. Qed.
Print Assumptions C92_one_piece_per_session.

(** Threads that call [term_write!] on the terminal any number of times: each call
    sends its bytes in one piece, whatever the others do. *)
Theorem C92_one_piece_per_macro :
  forall E C (progs : list (list (list wop))) w d tr c w',
  run E C (start (map macros_client progs) (Some w, d)) tr c -> finished c ->
  whole_writes (script w) -> fst (shared c) = Some w' ->
  exists blocks : list (nat * bytes),
    stream w' = stream w ++ concat (map snd blocks) /\
    forall i : nat, Forall2 macro_bytes (nth i progs []) (of_thread i blocks).
Proof. exact macros_in_pieces. Qed.
Print Assumptions C92_one_piece_per_macro.

(** With text only, and a device that takes everything: the device receives the
    messages, none lost, none twice, none broken up, each thread's in its order. *)
Theorem C92_messages_whole :
  forall E C (progs : list (list (list (list N)))) w d tr c w',
  run E C (start (map (fun l => macros_client (map (map OWriteStr) l)) progs) (Some w, d)) tr c ->
  finished c -> perfect (script w) -> obuf w = [] -> fst (shared c) = Some w' ->
  obuf w' = [] /\
  exists blocks : list (nat * bytes),
    dev w' = dev w ++ concat (map snd blocks) /\
    forall i : nat, of_thread i blocks = map (fun strs => utf8s (concat strs)) (nth i progs []).
Proof. exact texts_in_order. Qed.
Print Assumptions C92_messages_whole.

(** Two threads, two messages against one; the second thread is served in between. *)
Definition demo_messages : list (list (list (list N))) :=
  [[[[97]; [98]]; [[99]]]; [[[120]; [121]]]]%N.

Example C92_example :
  let E := demo_env 1000 in
  let w0 := writer_new 16 [WAll; WIntr; WAll; WAll] in
  exists tr c w', run E ansi_cfg
      (start (map (fun l => macros_client (map (map OWriteStr) l)) demo_messages) (Some w0, None)) tr c /\
    finished c /\ perfect (script w0) /\ obuf w0 = [] /\ whole_writes (script w0) /\
    fst (shared c) = Some w' /\ dev w' = [97; 98; 120; 121; 99]%N.
Proof.
  cbv zeta. do 3 eexists. split.
  - eapply run_snoc.
    1: eapply run_snoc.
    1: eapply run_snoc.
    1: eapply run_snoc.
    1: eapply run_snoc.
    1: eapply run_snoc.
    1: eapply run_snoc.
    1: eapply run_snoc.
    1: eapply run_snoc.
    1: eapply run_snoc.
    1: eapply run_snoc.
    1: eapply run_snoc.
    1: eapply run_snoc.
    1: eapply run_snoc.
    1: apply run_nil.
    + eapply (step_acq _ _ 0 LWriter); reflexivity.
    + eapply (step_act _ _ 0); reflexivity.
    + eapply (step_act _ _ 0); reflexivity.
    + eapply (step_act _ _ 0); reflexivity.
    + eapply (step_rel _ _ 0 LWriter); reflexivity.
    + eapply (step_acq _ _ 1 LWriter); reflexivity.
    + eapply (step_act _ _ 1); reflexivity.
    + eapply (step_act _ _ 1); reflexivity.
    + eapply (step_act _ _ 1); reflexivity.
    + eapply (step_rel _ _ 1 LWriter); reflexivity.
    + eapply (step_acq _ _ 0 LWriter); reflexivity.
    + eapply (step_act _ _ 0); reflexivity.
    + eapply (step_act _ _ 0); reflexivity.
    + eapply (step_rel _ _ 0 LWriter); reflexivity.
  - split; [intros [|[|i]]; [reflexivity|reflexivity|]|].
    + cbn. now destruct i.
    + split; [repeat (constructor; [auto|]); constructor|]. split; [reflexivity|]. split; [repeat constructor|]. split; reflexivity.
Qed.
