(** Model of the example program /repo/examples/screen.rs on the Windows [Screen]
    (M_WinScreen.v).  Its parts that do not depend on the system are in M_ScreenExample.v. *)
From Verif Require Import Base M_Utf8 M_Geom M_Attr M_Seq M_Signal M_Util M_Input M_Buf M_Writer M_WinWriter M_WinReader M_WinScreen M_ScreenApi M_ScreenExample.

Section Example_screen.
  Variable debug : event -> list (list N).
  Variables (draw : list N -> N -> view -> view) (E : env).

  (** Where the program is, as in M_ScreenExample.v. *)
  Inductive wstage : Type :=
  | WGoing (w : wscr) | WWaiting (w : wscr) | WQuit (w : wscr) | WFailed (w : wscr) | WPanicked | WStuck.

  (** Some methods, then [refresh] (16-17, 29-33), whose write guard refreshes once more when it
      is dropped and only prints an error (windows/screen.rs:264-270). *)
  Definition wshow (ms : list smethod) (w : wscr) : wstage :=
    match screen_methods E ms (g_sb w) with
    | Val b => match win_refresh draw E (with_gsb b w) with
               | Ret w _ => match win_refresh draw E w with
                            | Ret w _ | Fail w _ => WGoing w
                            | Panic => WPanicked
                            | Blocked => WStuck
                            end
               | Fail w _ => match win_refresh draw E w with
                             | Ret w _ | Fail w _ => WFailed w
                             | Panic => WPanicked
                             | Blocked => WStuck
                             end
               | Panic => WPanicked
               | Blocked => WStuck
               end
    | Boom => WPanicked
    end.

  (** The body of the loop (20-34). *)
  Definition wdemo_round (w : wscr) : wstage :=
    match gs_read_event E None w with
    | Ret w (e, _) =>
        match e with
        | None => WGoing w
        | Some e => match e with
                    | ENoEvent => WGoing w
                    | _ => if is_q e then WQuit w else wshow (show_event debug e) w
                    end
        end
    | Fail w _ => WFailed w
    | Panic => WPanicked
    | Blocked => WWaiting w
    end.
  Fixpoint wdemo_rounds (n : nat) (w : wscr) : wstage :=
    match n with
    | O => WGoing w
    | S n => match wdemo_round w with WGoing w => wdemo_rounds n w | o => o end
    end.
  (** After [Screen::new]: the greeting, and at most [n] times the loop (16-35). *)
  Definition wdemo (n : nat) (w : wscr) : wstage :=
    match wshow draw_screen w with WGoing w => wdemo_rounds n w | o => o end.
  (** The whole program, with at most [n] times the loop, as [demo_main]. *)
  Inductive wdend : Type :=
  | WEnded (w : wscr) (ok : bool) (r : tres unit)
  | WNoScreen | WNotYet.
  Definition wdemo_main (n : nat) (t : wterm) : wdend :=
    match win_screen_new E demo_config t with
    | Ret _ w => match wdemo n w with
                 | WQuit w => WEnded w true (win_screen_drop w)
                 | WFailed w => WEnded w false (win_screen_drop w)
                 | _ => WNotYet
                 end
    | _ => WNoScreen
    end.
End Example_screen.
