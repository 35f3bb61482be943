(** Property theorems for the Unix screen as a whole (C80, C81). *)
From Verif Require Import Base M_Utf8 M_Geom M_Attr M_Buf S_Buf P_Buf3 M_Seq M_Signal M_Util M_Input S_Input M_Writer S_Writer S_Emu
  M_Screen M_Prepare M_Reader S_Prepare M_UnixScreen S_UnixScreen P_UnixScreen2 P_UnixScreen3 Prop_Input Prop_Prepare.

(** For the examples: a window of 2 lines and 3 columns, an xterm that accepts all output. *)
Definition ux_sys (l : list tick) : sys :=
  Sys [] 0 None ss_new (W [] 512 no_attrs 0 [] (repeat WAll 60)) 0 ex_tio (fun n => Other n) [] None (inr (Size 2 3)) [] l.
Definition ux_env : env := demo_env 1000.
Definition ux_ops : list uop :=
  [UBuffer (BWriteStr [104; 105]%N); URefresh; ULocked [GBuffer (BSetCursor (Cursor 1 1)); GMode CInvisible]; URead None; URead None; UWait (Some (Duration 0 0))].
(** A screen after a program; its state when it is dropped; the replies. *)
Definition ux_after (C : tcfg) (l : list tick) (ops : list uop) : option (uscr * list reply) :=
  match unix_screen_new ux_env C ex_cfg (ux_sys l) with
  | Ret s u => urun ux_env C ex_map ops u
  | _ => None
  end.
Lemma ux_plain : plain_caps ansi_cfg.
Proof. intros c e k H [= <-]. cbn in H. intuition (subst; reflexivity). Qed.

(** C80: whatever a program did with a screen, dropping it puts back the terminal's
    settings and signal handlers; the terminal is sent all that was written before, then
    what turns off the mouse and the keypad (exactly if they were turned on), then what
    leaves the alternate screen and makes the cursor visible.  (If nothing the operating
    system is asked for fails then.) *)
Theorem C80_gives_back :
  forall E C m cfg ops s0 s1 u u' rs, key_map m -> plain_caps C ->
  unix_screen_new E C cfg s0 = Ret s1 u -> urun E C m ops u = Some (u', rs) -> works (u_sys u') ->
  match screen_drop C u' with
  | Ret s2 printed =>
      printed = (None, None) /\ same_terminal s0 s2 /\ obuf (M_Prepare.wr s2) = [] /\
      exists off k k', modes_off C (cfg_mouse cfg && xterm C) (cfg_keypad cfg && has C KeypadXmit) off /\
        dev (M_Prepare.wr s2) = stream (M_Prepare.wr (u_sys u')) ++ off ++ cap_bytes C ExitCaMode k ++ cap_bytes C CursorNormal k'
  | Blocked => True
  | _ => False
  end.
Proof. intros E C m cfg ops s0 s1 u u' rs Hm. exact (gives_back E C m Hm cfg ops s0 s1 u u' rs). Qed.
Print Assumptions C80_gives_back.

(** The program writes, refreshes, hides the cursor, reads a key and waits; it is stopped
    and continued in between. *)
Example C80_example :
  match ux_after ansi_cfg [TStep; TSig SIGCONT; TStep; TInput [120]%N; TStep] ux_ops with
  | Some (u, rs) =>
      perfect (script (M_Prepare.wr (u_sys u))) /\ os (u_sys u) = [] /\ tio (u_sys u) = raw_tio ex_cfg ex_tio /\
      disp (u_sys u) SIGINT = Ours /\ rs = [YUnit; YUnit; YUnit; YEvent None; YEvent (Some (EKey (KChar 120))); YBool false] /\
      match screen_drop ansi_cfg u with
      | Ret s2 p => p = (None, None) /\ tio s2 = ex_tio /\ disp s2 SIGINT = Other SIGINT /\ disp s2 SIGCONT = Other SIGCONT
      | _ => False
      end
  | None => False
  end.
Proof. vm_compute. split; [repeat constructor|]. repeat split; reflexivity. Qed.

(** C80: if a screen cannot be created though all calls succeed (the size is not available
    or the terminal cannot do it), everything is as before and nothing is left in the
    output buffer. *)
Theorem C80_failed_creation :
  forall E C cfg s0 s1 e, plain_caps C -> works s0 ->
  unix_screen_new E C cfg s0 = Fail s1 e -> same_terminal s0 s1 /\ obuf (M_Prepare.wr s1) = [].
Proof. exact failed_creation. Qed.
Print Assumptions C80_failed_creation.

(** A terminal that cannot set the scroll region. *)
Definition no_scroll : tcfg :=
  TCfg (fun c => match c with ChangeScrollRegion => None | _ => ansi_info c end) (fun cap need => Nat.max (2 * cap) need) true.
Example C80_creation_example :
  match unix_screen_new ux_env no_scroll ex_cfg (ux_sys []) with
  | Fail s e => e = RW (ENotSupported ChangeScrollRegion) /\ tio s = ex_tio /\ disp s SIGINT = Other SIGINT /\ dev (M_Prepare.wr s) <> []
  | _ => False
  end.
Proof. vm_compute. repeat split; try reflexivity. discriminate. Qed.
Lemma no_scroll_plain : plain_caps no_scroll.
Proof. intros c e k H. cbn in H. destruct H as [<-|[<-|[<-|[<-|[]]]]]; intros [= <-]; reflexivity. Qed.

(** C80 is not true if preparing the terminal fails after the settings were changed: the
    terminal stays in raw mode though the program has no screen. *)
Theorem C80_creation_refuted :
  forall E C cfg s0 sa z sb e s1 e', settings_set (os s0) -> term_size s0 = Ret sa z -> prepare C cfg sa = Fail sb e ->
  unix_screen_new E C cfg s0 = Fail s1 e' -> e' = e /\ tio s1 = raw_tio cfg (tio s0).
Proof. exact unprepared. Qed.
Print Assumptions C80_creation_refuted.
Example C80_creation_refuted_example :
  match unix_screen_new ux_env ansi_cfg ex_cfg (with_os [None; None; None; Some 22%N] (ux_sys [])) with
  | Fail s e => e = RW (EOs 22) /\ tio s = raw_tio ex_cfg ex_tio /\ tio s <> ex_tio /\ disp s SIGCONT = Ours
  | _ => False
  end.
Proof. vm_compute. repeat split; try reflexivity. discriminate. Qed.

(** C80 is not true if, on dropping, the first call fails: changing the settings.  Then
    the handlers stay, and the alternate screen is not left, though these calls would
    have succeeded. *)
Theorem C80_settings_refuted :
  forall C u e l, plain_caps C -> perfect (script (M_Prepare.wr (u_sys u))) -> os (u_sys u) = Some e :: l ->
  match screen_drop C u with
  | Ret s printed =>
      printed = (Some (RW (EOs e)), None) /\ tio s = tio (u_sys u) /\ disp s = disp (u_sys u) /\
      exists off k, modes_off C (restore_mouse (u_st u)) (restore_keypad (u_st u)) off /\
        dev (M_Prepare.wr s) = stream (M_Prepare.wr (u_sys u)) ++ off ++ cap_bytes C CursorNormal k
  | Blocked => True
  | _ => False
  end.
Proof. exact settings_fail. Qed.
Print Assumptions C80_settings_refuted.

(** Nor if the first write of dropping fails: the settings and the handlers stay. *)
Theorem C80_output_refuted :
  forall C u e l s printed, script (M_Prepare.wr (u_sys u)) = WErr e :: l ->
  (obuf (M_Prepare.wr (u_sys u)) <> [] \/ restore_mouse (u_st u) = true) ->
  screen_drop C u = Ret s printed ->
  fst printed <> None /\ tio s = tio (u_sys u) /\ disp s = disp (u_sys u).
Proof. exact output_fails. Qed.
Print Assumptions C80_output_refuted.

Definition jam (u : uscr) : uscr :=
  let w := M_Prepare.wr (u_sys u) in
  UScr (u_sb u) (u_clr u) (u_real u) (u_st u)
    (M_Prepare.with_wr (W (obuf w) (ocap w) (wat w) (wctx w) (dev w) (WErr 5%N :: repeat WAll 9)) (u_sys u)).
Definition unset (u : uscr) : uscr :=
  UScr (u_sb u) (u_clr u) (u_real u) (u_st u) (with_os [Some 5%N] (u_sys u)).
Example C80_refuted_example :
  match ux_after ansi_cfg [TStep; TSig SIGCONT; TStep; TInput [120]%N; TStep] ux_ops with
  | Some (u, _) =>
      match screen_drop ansi_cfg (jam u), screen_drop ansi_cfg (unset u) with
      | Ret s p, Ret s' p' =>
          p = (Some (RW (EOs 5)), None) /\ tio s = raw_tio ex_cfg ex_tio /\ disp s SIGINT = Ours /\
          p' = (Some (RW (EOs 5)), None) /\ tio s' = raw_tio ex_cfg ex_tio /\ disp s' SIGINT = Ours
      | _, _ => False
      end
  | None => False
  end.
Proof. vm_compute. repeat split; reflexivity. Qed.

(** C81: the size of a screen is the window's when the screen was created, until a size is
    reported to the program, then the last one reported. *)
Theorem C81_size_followed :
  forall E C m cfg ops s0 s1 u u' rs, env_ok E ->
  unix_screen_new E C cfg s0 = Ret s1 u -> Forall public_op ops -> urun E C m ops u = Some (u', rs) ->
  exists z, win s0 = inr z /\ bsize (u_sb u') = last_reported z rs.
Proof. intros E C m cfg ops s0 s1 u u' rs HE. exact (size_followed E C m HE cfg ops s0 s1 u u' rs). Qed.
Print Assumptions C81_size_followed.

(** A size is reported only if it is the window's at that time; then the whole screen is
    redrawn next time. *)
Theorem C81_report_is_window :
  forall E C m o u u' r z, ustep E C m o u = Some (u', r) -> resize_of r = Some z ->
  win (u_sys u') = inr z /\ u_clr u' = true.
Proof. exact ustep_report. Qed.
Print Assumptions C81_report_is_window.

(** None is reported unless SIGWINCH arrived. *)
Theorem C81_no_report_without_signal :
  forall E C m ops u u' rs, no_winch (u_sys u) -> urun E C m ops u = Some (u', rs) ->
  Forall (fun r => resize_of r = None) rs.
Proof.
  intros E C m ops u u' rs H. exact (urun_no_winch E C m ops u u' rs (gone_no_winch (u_sys u) H)).
Qed.
Print Assumptions C81_no_report_without_signal.

(** If SIGWINCH is the last signal that arrived before the program reads, and no event is
    waiting in the buffer, the window's size is reported. *)
Theorem C81_reported_partial :
  forall E C m t u u' r z, peek_event (inbuf (u_sys u)) m = Val PNone ->
  last_sig (advance (u_sys u)) = SIGWINCH -> win (advance (u_sys u)) = inr z ->
  ustep E C m (URead t) u = Some (u', r) ->
  r = YEvent (Some (EResize z)) /\ bsize (u_sb u') = z.
Proof. exact winch_reported. Qed.
Print Assumptions C81_reported_partial.

Example C81_example :
  match ux_after ansi_cfg [TWin (inr (Size 3 4)); TSig SIGWINCH; TStep; TWin (inr (Size 1 5)); TInput [120]%N; TStep]
          [URead None; UBuffer (BWriteStr [104]%N); URefresh; UWait None; URead None] with
  | Some (u, rs) =>
      bsize (u_sb u) = Size 3 4 /\ win (u_sys u) = inr (Size 1 5) /\
      rs = [YEvent (Some (EResize (Size 3 4))); YUnit; YUnit; YBool true; YEvent (Some (EKey (KChar 120)))]
  | None => False
  end.
Proof. vm_compute. repeat split; reflexivity. Qed.
Example C81_example_ops : Forall public_op [URead None; UBuffer (BWriteStr [104]%N); URefresh; UWait None; URead None].
Proof. repeat constructor. Qed.

(** C81 fails if another handled signal follows a change of the size before the program
    looks (only the last signal is kept): whatever the program does, the change is never
    reported, and the screen keeps a size that is not the window's. *)
Theorem C81_overtaken_refuted :
  forall E C m z n ops u u' rs, env_ok E -> overtaken_winch z n (u_sys u) ->
  Forall public_op ops -> urun E C m ops u = Some (u', rs) ->
  win (advance (u_sys u)) = inr z /\ Forall (fun r => resize_of r = None) rs /\ bsize (u_sb u') = bsize (u_sb u).
Proof. exact overtaken_forever. Qed.
Print Assumptions C81_overtaken_refuted.

Example C81_refuted_example :
  match unix_screen_new ux_env ansi_cfg ex_cfg (ux_sys [TWin (inr (Size 3 4)); TSig SIGWINCH; TSig SIGINT; TStep; TInput [120]%N; TStep]) with
  | Ret _ u =>
      match urun ux_env ansi_cfg ex_map [URead None; URead None] u with
      | Some (u', rs) =>
          bsize (u_sb u') = Size 2 3 /\ win (u_sys u') = inr (Size 3 4) /\
          rs = [YEvent (Some (ESignal Interrupt)); YEvent (Some (EKey (KChar 120)))]
      | None => False
      end
  | _ => False
  end.
Proof. vm_compute. repeat split; reflexivity. Qed.
Example C81_refuted_example_overtaken :
  match unix_screen_new ux_env ansi_cfg ex_cfg (ux_sys [TWin (inr (Size 3 4)); TSig SIGWINCH; TSig SIGINT; TStep; TInput [120]%N; TStep]) with
  | Ret _ u => overtaken_winch (Size 3 4) SIGINT (u_sys u)
  | _ => False
  end.
Proof.
  vm_compute. eexists. split; [reflexivity|]. repeat split; try discriminate.
  - intros [H|[H|[H|[]]]]; discriminate H.
  - intros r [H|[H|[H|[]]]]; discriminate H.
Qed.
