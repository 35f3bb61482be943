(** Property theorems for [prepare] and [restore] (C48-C51). *)
From Verif Require Import Base M_Utf8 M_Geom M_Seq M_Signal M_Util M_Attr M_Input S_Input M_Writer S_Writer S_Emu
  M_Prepare M_Reader S_Prepare P_Prepare P_Prepare2 P_Reader Prop_Input.
Local Open Scope N_scope.

(** A terminal for the examples: usual settings, nothing handled, an xterm that accepts
    all output. *)
Definition ex_tio : termios :=
  Tio (N.lor ICRNL (N.lor IXON 1)) 5 191 (N.lor ISIG (N.lor ICANON (N.lor ECHO 32768))) 1 0 7.
Definition ex_sys (l : list tick) : sys :=
  Sys [] 0 None ss_new (W [] 512 no_attrs 0 [] (repeat WAll 9)) 0 ex_tio (fun n => Other n) [] None (inr (Size 24 80)) [] l.
Definition ex_cfg : config := Config false true true true true (ss_insert ss_new Interrupt).
Definition fst_sys {A} (r : rres A) : option sys := match r with Ret s _ | Fail s _ => Some s | _ => None end.

(** C48: properly nested [prepare] and [restore], with any reading and any resumptions in
    between, leave the settings and the handlers as they were. *)
Theorem C48_nested_restore :
  forall C m s s', key_map m -> session C m s s' -> resume_cfg s = None ->
    tio s' = tio s /\ (forall n, disp s' n = disp s n) /\ resume_cfg s' = None.
Proof. exact session_restores. Qed.
Print Assumptions C48_nested_restore.

(** Two levels, with SIGCONT arriving in the inner one. *)
Definition ex_nested : option sys :=
  match prepare ansi_cfg default_config (ex_sys [TSig SIGCONT; TStep]) with
  | Ret s1 st1 =>
      match prepare ansi_cfg ex_cfg s1 with
      | Ret s2 st2 =>
          match read_event ansi_cfg ex_map None s2 with
          | Ret s3 _ => match restore ansi_cfg st2 s3 with
                        | Ret s4 _ => fst_sys (restore ansi_cfg st1 s4)
                        | _ => None
                        end
          | _ => None
          end
      | _ => None
      end
  | _ => None
  end.
Example C48_example : match ex_nested with
  | Some s => tio s = ex_tio /\ disp s SIGCONT = Other SIGCONT /\ disp s SIGINT = Other SIGINT /\ resume_cfg s = None
  | None => False
  end.
Proof. vm_compute. repeat split; reflexivity. Qed.
Example C48_session : match ex_nested with
  | Some s => session ansi_cfg ex_map (ex_sys [TSig SIGCONT; TStep]) s
  | None => False
  end.
Proof.
  unfold ex_nested.
  destruct (prepare ansi_cfg default_config (ex_sys [TSig SIGCONT; TStep])) as [s1 st1| | |] eqn:E1; try (vm_compute in E1; discriminate E1).
  destruct (prepare ansi_cfg ex_cfg s1) as [s2 st2| | |] eqn:E2; try (vm_compute in E1; injection E1 as <- <-; vm_compute in E2; discriminate E2).
  destruct (read_event ansi_cfg ex_map None s2) as [s3 r3| | |] eqn:E3;
    try (vm_compute in E1; injection E1 as <- <-; vm_compute in E2; injection E2 as <- <-; vm_compute in E3; discriminate E3).
  destruct (restore ansi_cfg st2 s3) as [s4 u4| | |] eqn:E4;
    try (vm_compute in E1; injection E1 as <- <-; vm_compute in E2; injection E2 as <- <-; vm_compute in E3; injection E3 as <- <-; vm_compute in E4; discriminate E4).
  destruct (restore ansi_cfg st1 s4) as [s5 []| | |] eqn:E5;
    try (vm_compute in E1; injection E1 as <- <-; vm_compute in E2; injection E2 as <- <-; vm_compute in E3; injection E3 as <- <-; vm_compute in E4; injection E4 as <- <-; vm_compute in E5; discriminate E5).
  cbn [fst_sys]. destruct u4.
  eapply (SNest ansi_cfg ex_map _ default_config s1 st1 s4 s5).
  - cbn [rstep ret]. now rewrite E1.
  - eapply (SNest ansi_cfg ex_map _ ex_cfg s2 st2 s3 s4).
    + cbn [rstep ret]. now rewrite E2.
    + eapply (SRead ansi_cfg ex_map s2 (RRead None) s3); [exact I| |apply SDone]. cbn [rstep]. now rewrite E3.
    + cbn [rstep]. now rewrite E4.
    + apply SDone.
  - cbn [rstep]. now rewrite E5.
  - apply SDone.
Qed.

(** C49, for an outermost [prepare]: [restore] turns off exactly what [prepare] turned
    on: mouse reports and keypad mode. *)
Theorem C49_resets_partial :
  forall C cfg s0 s1 st s2 s3 u, prepare C cfg s0 = Ret s1 st -> whole_writes (script (wr s2)) ->
    restore C st s2 = Ret s3 u ->
    exists k, stream (wr s3) = stream (wr s2) ++
      (if cfg_mouse cfg && xterm C then XTERM_DISABLE_MOUSE ++ XTERM_DISABLE_MOUSE_MOTION else []) ++
      (if cfg_keypad cfg && has C KeypadXmit
       then match info C KeypadLocal with Some e => fst (fst (e k [])) | None => [] end else []).
Proof. exact restore_resets. Qed.
Print Assumptions C49_resets_partial.

(** C49 fails for nested calls: restoring an inner [prepare] with mouse reports turns
    them off although the outer one, in force again, asked for them. *)
Theorem C49_mouse_refuted :
  forall C cfg outer s0 s1 st s2 s3 u, xterm C = true -> cfg_mouse cfg = true -> cfg_keypad cfg = false ->
    resume_cfg s0 = Some outer -> cfg_mouse outer = true ->
    prepare C cfg s0 = Ret s1 st -> whole_writes (script (wr s2)) -> restore C st s2 = Ret s3 u ->
    stream (wr s3) = stream (wr s2) ++ XTERM_DISABLE_MOUSE ++ XTERM_DISABLE_MOUSE_MOTION /\
    resume_cfg s3 = Some outer.
Proof.
  exact (fun C cfg outer s0 s1 st s2 s3 u Hx Hm Hk Ho _ Hp Hw Hr =>
    let H := mouse_goes_off C cfg s0 s1 st s2 s3 u Hx Hm Hk Hp Hw Hr in
    conj (proj1 H) (eq_trans (proj2 H) Ho)).
Qed.
Print Assumptions C49_mouse_refuted.

(** And the set of reported signals stays that of the inner [prepare]. *)
Theorem C49_report_refuted :
  forall C cfg s0 s1 st s2 u, prepare C cfg s0 = Ret s1 st -> restore C st s1 = Ret s2 u ->
    report s2 = report_signals cfg.
Proof. exact report_stays. Qed.
Print Assumptions C49_report_refuted.

Definition ex_mouse_cfg : config := Config true false false true false (ss_insert ss_new Quit).
Example C49_example :
  match prepare ansi_cfg ex_cfg (ex_sys []) with
  | Ret s1 _ => match prepare ansi_cfg ex_mouse_cfg s1 with
                | Ret s2 st => match restore ansi_cfg st s2 with
                               | Ret s3 _ => report s1 = ss_insert ss_new Interrupt /\ report s3 = ss_insert ss_new Quit /\
                                             resume_cfg s3 = Some ex_cfg
                               | _ => False
                               end
                | _ => False
                end
  | _ => False
  end.
Proof. vm_compute. repeat split; reflexivity. Qed.

(** C50: [prepare] changes exactly the settings and handlers it documents. *)
Theorem C50_prepare_exact :
  forall C cfg s s' st, prepare C cfg s = Ret s' st ->
    prepared cfg (tio s) (tio s') /\
    (forall n, disp s' n = if handled cfg n then Ours else disp s n) /\
    report s' = report_signals cfg.
Proof. exact prepare_exact. Qed.
Print Assumptions C50_prepare_exact.

Example C50_example :
  match prepare ansi_cfg ex_cfg (ex_sys []) with
  | Ret s' _ => tio s' = Tio (N.lor IXON 1) 5 191 (N.lor ISIG 32768) 0 0 7 /\
                disp s' SIGINT = Ours /\ disp s' SIGQUIT = Other SIGQUIT /\ disp s' SIGWINCH = Ours
  | _ => False
  end.
Proof. vm_compute. repeat split; reflexivity. Qed.

(** C51 holds if reading or changing the settings fails. *)
Theorem C51_early_failure_partial :
  forall C cfg s e l, (os s = Some e :: l \/ exists l', os s = None :: Some e :: l') ->
    ends (fun s' => tio s' = tio s /\ disp s' = disp s /\ resume_cfg s' = resume_cfg s /\ report s' = report s)
         (fun _ _ => False) (prepare C cfg s).
Proof. exact prepare_early. Qed.
Print Assumptions C51_early_failure_partial.

(** C51 fails otherwise: whatever later step fails (output or installing a handler),
    the changed settings stay. *)
Theorem C51_late_failure_refuted :
  forall C cfg s s' e, settings_set (os s) -> prepare C cfg s = Fail s' e ->
    tio s' = raw_tio cfg (tio s) /\ resume_cfg s' = resume_cfg s /\ report s' = report s.
Proof. exact prepare_late. Qed.
Print Assumptions C51_late_failure_refuted.

Example C51_example :
  match prepare ansi_cfg ex_cfg (with_os [None; None; None; Some 22] (ex_sys [])) with
  | Fail s' e => e = RW (EOs 22) /\ tio s' = Tio (N.lor IXON 1) 5 191 (N.lor ISIG 32768) 0 0 7 /\ disp s' SIGCONT = Ours
  | _ => False
  end.
Proof. vm_compute. repeat split; reflexivity. Qed.
