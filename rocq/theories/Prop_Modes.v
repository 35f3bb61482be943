(** Property theorems for the modes of the terminal (C97). *)
From Verif Require Import Base M_Utf8 M_Geom M_Seq M_Signal M_Util M_Attr M_Buf S_Buf M_Writer S_Tty S_Writer S_Emu
  M_Prepare S_Prepare P_Buf3 S_Modes P_Modes Prop_Prepare.

(** C97: [prepare] sends what turns on the modes its configuration asks for, and leaves
    nothing unsent. *)
Theorem C97_prepare_turns_on :
  forall E C M, obeys E C M ->
  forall cfg s s' st x, whole_writes (script (wr s)) -> prepare C cfg s = Ret s' st -> stream (wr s') = stream (wr s) ++ x ->
    obuf (wr s') = [] /\
    forall t m, mlook M t = Some m -> exists m', mlook M (mfeed M t x) = Some m' /\ turned_on C cfg m m'.
Proof. exact prepare_turns_on. Qed.
Print Assumptions C97_prepare_turns_on.

(** C97: so does the resumption after a stop, whatever the modes have become meanwhile. *)
Theorem C97_resume_turns_on :
  forall E C M, obeys E C M ->
  forall cfg s s' x, whole_writes (script (wr s)) -> resume_cfg s = Some cfg -> resume C s = Ret s' tt ->
    stream (wr s') = stream (wr s) ++ x ->
    obuf (wr s') = [] /\
    forall t m, mlook M t = Some m -> exists m', mlook M (mfeed M t x) = Some m' /\ turned_on C cfg m m'.
Proof. exact resume_turns_on. Qed.
Print Assumptions C97_resume_turns_on.

(** C97: [restore] turns them off again, whatever happened in between. *)
Theorem C97_restore_turns_off :
  forall E C M, obeys E C M ->
  forall cfg s0 s1 st s2 s3 x, prepare C cfg s0 = Ret s1 st -> whole_writes (script (wr s2)) ->
    restore C st s2 = Ret s3 tt -> stream (wr s3) = stream (wr s2) ++ x ->
    obuf (wr s3) = [] /\
    forall t m, mlook M t = Some m -> exists m', mlook M (mfeed M t x) = Some m' /\ turned_off C cfg m m'.
Proof. exact restore_turns_off. Qed.
Print Assumptions C97_restore_turns_off.

(** C97: no output method touches them. *)
Theorem C97_output_keeps_the_modes :
  forall E C M, obeys E C M ->
  forall os w w' x, outputs C os w w' -> Forall (fun o => Forall (texty E) (wop_text o)) os ->
    whole_writes (script w) -> stream w' = stream w ++ x ->
    forall t m, mlook M t = Some m -> exists m', mlook M (mfeed M t x) = Some m' /\ same_modes m m'.
Proof. exact outputs_keep. Qed.
Print Assumptions C97_output_keeps_the_modes.

(** C97: a whole session, judged by what reached the terminal. *)
Theorem C97_session :
  forall E C M, obeys E C M ->
  forall cfg s0 s1 st os w s3 t m,
    whole_writes (script (wr s0)) -> obuf (wr s0) = [] -> mlook M (mfeed M t (dev (wr s0))) = Some m ->
    prepare C cfg s0 = Ret s1 st ->
    outputs C os (wr s1) w -> Forall (fun o => Forall (texty E) (wop_text o)) os ->
    restore C st (with_wr w s1) = Ret s3 tt ->
    exists m1 m3, mlook M (mfeed M t (dev (wr s1))) = Some m1 /\ turned_on C cfg m m1 /\
      mlook M (mfeed M t (dev (wr s3))) = Some m3 /\ turned_off C cfg m1 m3.
Proof. exact session. Qed.
Print Assumptions C97_session.

(** The terminal taken for granted exists: an xterm with its usual capabilities. *)
Theorem C97_xterm_obeys : forall E, env_ok E -> obeys E ansi_cfg xterm_modes.
Proof. exact xterm_obeys. Qed.
Print Assumptions C97_xterm_obeys.

Definition ex_shown (f : N -> bool) (bs : bytes) : option (list bool) :=
  option_map (fun m => [private m 1002; private m 1003; private m 1006; application_keypad m]%N)
    (mlook xterm_modes (mfeed xterm_modes (XGround, f) bs)).
Example C97_example :
  match prepare ansi_cfg (Config true false true true true ss_new) (ex_sys []) with
  | Ret s1 st =>
      ex_shown (fun _ => false) (dev (wr s1)) = Some [true; true; true; true] /\
      match run_wop ansi_cfg (OWriteStyled (Attrs (Some Red) None BOLD) [104; 105]%N) (wr s1) with
      | Ret w _ => match restore ansi_cfg st (with_wr w s1) with
                   | Ret s3 _ => ex_shown (fun _ => false) (dev (wr s3)) = Some [false; false; false; false] /\
                                 ex_shown (fun _ => true) (dev (wr s3)) = Some [false; false; false; false]
                   | _ => False
                   end
      | _ => False
      end
  | _ => False
  end.
Proof. vm_compute. repeat split; reflexivity. Qed.
(** Modes that were lost while the program was stopped are on again. *)
Example C97_resume_example :
  match prepare ansi_cfg (Config true false true true true ss_new) (ex_sys []) with
  | Ret s1 st =>
      match resume_cfg s1, resume ansi_cfg s1 with
      | Some cfg, Ret s2 _ => (cfg_mouse cfg, cfg_keypad cfg, ex_shown (fun _ => false) (skipn (length (dev (wr s1))) (dev (wr s2))), obuf (wr s2)) =
          (true, true, Some [true; true; true; true], [])
      | _, _ => False
      end
  | _ => False
  end.
Proof. vm_compute. reflexivity. Qed.
