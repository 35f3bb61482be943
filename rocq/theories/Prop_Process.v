(** Property theorems for programs with several terminals (C87). *)
From Verif Require Import Base M_Utf8 S_Utf8 M_Geom M_Seq S_Seq M_Signal M_Util M_Input S_Input P_Input M_Writer S_Writer S_Emu
  M_Prepare M_Reader S_Prepare S_Reader P_Prepare P_Reader M_Process S_Process P_Process Prop_Input Prop_Prepare Prop_Reader.
Local Open Scope N_scope.

(** C87 holds for properly nested use, also of terminals on one device: every device gets
    back its settings, and the process its handlers. *)
Theorem C87_nested_partial :
  forall C m on, (forall i, key_map (m i)) -> forall p p', nested C m on p p' -> (forall i, resume_cfg (term p i) = None) ->
    (forall d, d_tio (dev p' d) = d_tio (dev p d)) /\ (forall n, acts p' n = acts p n) /\ forall i, resume_cfg (term p' i) = None.
Proof. exact nested_restores. Qed.
Print Assumptions C87_nested_partial.

(** Terminals 0 and 1 are on one device, 2 is on another. *)
Definition ex_on (i : nat) : nat := match i with 2 => 1 | _ => 0 end%nat.
Definition ex_proc : process := Proc (fun _ => ex_sys []) (fun _ => Device ex_tio [] None (inr (Size 24 80))) 0 (fun n => Other n).
Definition ex_Cs (_ : nat) : tcfg := ansi_cfg.
Definition ex_ms (_ : nat) : seq_map := ex_map.
Definition pdo (i : nat) (l : list tick) (o : rop) (x : option (process * reply)) : option (process * reply) :=
  match x with Some (p, _) => pstep ex_Cs ex_ms ex_on i l o p | None => None end.
Definition pstate_of (x : option (process * reply)) : pstate :=
  match x with Some (_, YState st) => st | _ => PState ex_tio None None None None None false false None end.

(** Terminal 1 within terminal 0, with SIGCONT read by terminal 0 in between. *)
Definition ex_a := pdo 0 [] (RPrepare ex_cfg) (Some (ex_proc, YUnit)).
Definition ex_b := pdo 1 [] (RPrepare ex_both) ex_a.
Definition ex_c := pdo 0 [TSig SIGCONT; TStep] (RRead None) ex_b.
Definition ex_d := pdo 1 [] (RRestore (pstate_of ex_b)) ex_c.
Definition ex_e := pdo 0 [] (RRestore (pstate_of ex_a)) ex_d.
Example C87_nested_example :
  match ex_c, ex_e with
  | Some (p, YEvent None), Some (p', YUnit) =>
      map (acts p) [SIGCONT; SIGWINCH; SIGINT; SIGQUIT; SIGTSTP] = [Ours; Ours; Ours; Ours; Other SIGTSTP] /\
      map (acts p') [SIGCONT; SIGWINCH; SIGINT; SIGQUIT; SIGTSTP] = map Other [SIGCONT; SIGWINCH; SIGINT; SIGQUIT; SIGTSTP] /\
      d_tio (dev p 0%nat) <> ex_tio /\ d_tio (dev p' 0%nat) = ex_tio
  | _, _ => False
  end.
Proof. vm_compute. repeat split; try reflexivity. intros H. discriminate H. Qed.

(** It fails if the terminal prepared first is restored first.  The signals that it handles
    then have their old handlers although the other terminal is still prepared; on one
    device, its old settings too.  When the other is restored as well, the signals that
    both handle (SIGCONT and SIGWINCH among them) keep the library's handler, for good,
    and one device the settings of the first [prepare]. *)
Theorem C87_crossed_refuted :
  forall C m on i j cfg cfg' la lb lc ld p p1 p2 p3 p4 st st', i <> j ->
    pstep C m on i la (RPrepare cfg) p = Some (p1, YState st) -> pstep C m on j lb (RPrepare cfg') p1 = Some (p2, YState st') ->
    pstep C m on i lc (RRestore st) p2 = Some (p3, YUnit) -> pstep C m on j ld (RRestore st') p3 = Some (p4, YUnit) ->
    (resume_cfg (term p3 j) = Some cfg' /\
     (forall n, acts p3 n = if handled cfg n then acts p n else if handled cfg' n then Ours else acts p n) /\
     (on i = on j -> d_tio (dev p3 (on j)) = d_tio (dev p (on j)))) /\
    (resume_cfg (term p4 i) = resume_cfg (term p i) /\ resume_cfg (term p4 j) = resume_cfg (term p j) /\
     (forall n, acts p4 n = if handled cfg n && handled cfg' n then Ours else acts p n) /\
     (on i = on j -> d_tio (dev p4 (on j)) = raw_tio cfg (d_tio (dev p (on j))))).
Proof. exact crossed. Qed.
Print Assumptions C87_crossed_refuted.

Definition ex_d' := pdo 0 [] (RRestore (pstate_of ex_a)) ex_b.
Definition ex_e' := pdo 1 [] (RRestore (pstate_of ex_b)) ex_d'.
Example C87_crossed_example :
  match ex_d', ex_e' with
  | Some (p, YUnit), Some (p', YUnit) =>
      map (acts p) [SIGCONT; SIGWINCH; SIGINT; SIGQUIT] = [Other SIGCONT; Other SIGWINCH; Other SIGINT; Ours] /\
      map (acts p') [SIGCONT; SIGWINCH; SIGINT; SIGQUIT] = [Ours; Ours; Ours; Other SIGQUIT] /\
      d_tio (dev p' 0%nat) = Tio (N.lor IXON 1) 5 191 (N.lor ISIG 32768) 0 0 7
  | _, _ => False
  end.
Proof. vm_compute. repeat split; reflexivity. Qed.

(** And a signal reaches one terminal: once one has read it (also one that is not
    prepared and reports nothing), it is gone, and the others are as if it had not
    arrived.  After SIGCONT only one is prepared again; only one reports a new size. *)
Theorem C87_one_reader_refuted :
  forall C m on i t l p p' r sig, peek_event (inbuf (term p i)) (m i) = Val PNone -> conv_signal (slot p) = Some sig ->
    Forall no_signal l -> pstep C m on i l (RRead t) p = Some (p', r) ->
    slot p' = 0 /\ (forall j, j <> i -> term p' j = term p j) /\ forall d, d <> on i -> dev p' d = dev p d.
Proof. exact taken. Qed.
Print Assumptions C87_one_reader_refuted.

(** Terminal 2, never prepared, takes the SIGINT that terminal 0 wants to report. *)
Definition ex_f := pdo 2 [TSig SIGINT; TStep] (RRead None) ex_a.
Definition ex_g := pdo 0 [TStep; TStep; TStep] (RRead (Some (Duration 0 0))) ex_f.
Example C87_one_reader_example :
  match ex_f, ex_g, pdo 0 [TSig SIGINT; TStep] (RRead (Some (Duration 0 0))) ex_a with
  | Some (_, r), Some (_, r'), Some (_, r'') => r = YEvent None /\ r' = YEvent None /\ r'' = YEvent (Some (ESignal Interrupt))
  | _, _, _ => False
  end.
Proof. vm_compute. repeat split; reflexivity. Qed.
