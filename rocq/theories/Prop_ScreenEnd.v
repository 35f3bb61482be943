(** C143: the end of the example program examples/screen.rs. *)
From Verif Require Import Base M_Utf8 M_Geom M_Attr M_Seq M_Signal M_Util M_Input S_Input M_Buf M_Writer M_Prepare M_Reader
  M_ScreenApi M_UnixScreen S_UnixScreen M_WinWriter M_WinReader M_WinScreen S_WinScreen M_ScreenExample M_WinScreenExample P_ScreenEnd.
From Verif Require S_Writer S_Emu P_Screen5 P_SamePicture Prop_Prepare Prop_UnixScreen Prop_Typing Prop_ScreenExample Prop_WinScreenExample P_WinDraw2 S_SamePicture.

(** C143: whatever the terminal and the user do: when the program ends, because of [q] or with
    an error, and no call fails from then on, it prints nothing; the terminal's settings and
    the signal handlers are as before the program; the terminal was sent what turns off the
    mouse and the keypad, leaves the alternate screen and makes the cursor visible. *)
Theorem C143_gives_back :
  forall debug E C m, key_map m -> plain_caps C -> forall n s0,
    match demo_main debug E C m n s0 with
    | EEnded u ok r => works (u_sys u) ->
        match r with
        | Ret s printed =>
            printed = (None, None) /\ same_terminal s0 s /\ obuf (M_Prepare.wr s) = [] /\
            exists off k k', modes_off C (xterm C) (S_Writer.has C KeypadXmit) off /\
              dev (M_Prepare.wr s) = S_Writer.stream (M_Prepare.wr (u_sys u)) ++ off ++ cap_bytes C ExitCaMode k ++ cap_bytes C CursorNormal k'
        | Blocked => True
        | _ => False
        end
    | _ => True
    end.
Proof. exact screen_example_ends. Qed.
Print Assumptions C143_gives_back.

(** The example of Prop_ScreenExample.v ends because of [q]; and where the first write fails,
    with an error. *)
Definition failing_sys : sys :=
  M_Prepare.with_wr (W [] 512 no_attrs 0 [] (WAll :: WAll :: WErr 5%N :: P_Screen5.alls (53 * 40))) Prop_ScreenExample.ex_sys0.
Definition all_fine (s : sys) : bool :=
  forallb (fun r => match r with WAll | WIntr => true | _ => false end) (script (M_Prepare.wr s)) && forallb (fun r => match r with None => true | _ => false end) (os s).
Definition ended (s0 : sys) : option (bool * bool * bool) :=
  match demo_main Prop_ScreenExample.ex_debug P_WinDraw2.wide_env S_Emu.ansi_cfg Prop_Typing.ex_clear 4 s0 with
  | EEnded u ok (Ret s _) => Some (ok, all_fine (u_sys u), xterm S_Emu.ansi_cfg)
  | _ => None
  end.
Example C143_example_ends :
  ended Prop_ScreenExample.ex_sys0 = Some (true, true, true) /\ ended failing_sys = Some (false, true, true).
Proof. split; vm_compute; reflexivity. Qed.

(** C143: the same on Windows: the original buffer is displayed again, as it was, with the
    output mode the terminal found; the cursor is visible; the input mode and the control
    handlers are as before. *)
Theorem C143_gives_back_console :
  forall debug draw E n t, displayed t ->
    match wdemo_main debug draw E n t with
    | WEnded w ok r => calls_work (g_t w) ->
        exists t', r = Ret t' tt /\ same_buffers t t' /\ t_mode t' = t_old t /\ c_cursor (w_con (t_w t')) = (25%N, true) /\
          w_mode (t_in t') = N.lor (w_mode (t_in t)) ENABLE_EXTENDED_FLAGS /\ w_regs (t_in t') = w_regs (t_in t)
    | _ => True
    end.
Proof. exact screen_example_ends_console. Qed.
Print Assumptions C143_gives_back_console.
Example C143_example_ends_console :
  displayed Prop_WinScreenExample.ex_term /\
  match wdemo_main Prop_ScreenExample.ex_debug demo_draw P_WinDraw2.wide_env 5 Prop_WinScreenExample.ex_term with
  | WEnded w ok (Ret _ _) => ok = true /\ c_answers (w_con (t_w (g_t w))) = [] /\ w_os (t_in (g_t w)) = []
  | _ => False
  end.
Proof. split; [split; [reflexivity|intros []]|]. vm_compute. repeat split. Qed.
