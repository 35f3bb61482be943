(** Model of the example program /repo/examples/screen.rs, which shows what it is told, on the
    Unix [Screen] (M_UnixScreen.v).  The [Debug] text of an event ([{:#?}]) is a parameter:
    the pieces in which the standard library's formatting writes it. *)
From Coq Require Import String.
From Verif Require Import Base M_Utf8 M_Geom M_Attr M_Seq M_Signal M_Util M_Input M_Buf M_Writer M_Prepare M_Reader M_ScreenApi M_Lines.
From Verif Require M_Screen M_UnixScreen.

(** [draw_screen] (examples/screen.rs:40-47). *)
Definition draw_screen : list smethod :=
  [SClearScreen;
   SWriteAt (Pair 0 0) (chars "Reading input. Press 'q' to stop.");
   SWriteStyledAt (Pair 2 5) (Some Red) None (Some BOLD) (chars "Hello, world!")].

(** [Event::Key(Key::Char('q'))] (25). *)
Definition is_q (e : event) : bool := match e with EKey (KChar c) => (c =? 113)%N | _ => false end.

(** The configuration of its screen (10-14). *)
Definition demo_config : config := Config true false true true false ss_new.

Section Example_screen.
  Variable debug : event -> list (list N).

  (** What it does for an event (29-31). *)
  Definition show_event (e : event) : list smethod := draw_screen ++ [SSetCursor (Pair 4 0); SWriteFmt (debug e)].

  (** Where the program is: it goes on, it waits in [read_event] for ever, it has left its loop,
      it returns an error, it panicked, or something else than reading does not return. *)
  Inductive dstage : Type :=
  | DGoing (u : M_UnixScreen.uscr) | DWaiting (u : M_UnixScreen.uscr) | DQuit (u : M_UnixScreen.uscr)
  | DFailed (u : M_UnixScreen.uscr) | DPanicked | DStuck.

  Variables (E : env) (C : tcfg) (m : seq_map).

  (** Some methods, then [refresh] (16-17, 29-33). *)
  Definition show (ms : list smethod) (u : M_UnixScreen.uscr) : dstage :=
    match screen_methods E ms (M_UnixScreen.u_sb u) with
    | Val b => match M_Screen.screen_refresh E C (M_Screen.with_sb b (M_UnixScreen.out_side u)) with
               | Ret y _ => DGoing (M_UnixScreen.with_out y u)
               | Fail y _ => DFailed (M_UnixScreen.with_out y u)
               | Panic => DPanicked
               | Blocked => DStuck
               end
    | Boom => DPanicked
    end.

  (** The body of the loop (20-34). *)
  Definition demo_round (u : M_UnixScreen.uscr) : dstage :=
    match read_event C m None (M_UnixScreen.u_sys u) with
    | Ret s e =>
        match M_UnixScreen.follow E e (M_UnixScreen.with_sys s u) with
        | Val u => match e with
                   | None => DGoing u
                   | Some e => match e with
                               | ENoEvent => DGoing u
                               | _ => if is_q e then DQuit u else show (show_event e) u
                               end
                   end
        | Boom => DPanicked
        end
    | Fail s _ => DFailed (M_UnixScreen.with_sys s u)
    | Panic => DPanicked
    | Blocked => DWaiting u
    end.
  Fixpoint demo_rounds (n : nat) (u : M_UnixScreen.uscr) : dstage :=
    match n with
    | O => DGoing u
    | S n => match demo_round u with DGoing u => demo_rounds n u | o => o end
    end.
  (** After [Screen::new]: the greeting, and at most [n] times the loop (16-35). *)
  Definition demo (n : nat) (u : M_UnixScreen.uscr) : dstage :=
    match show draw_screen u with DGoing u => demo_rounds n u | o => o end.
  (** The whole program, with at most [n] times the loop: it ends, having dropped its screen
      ([r]: what that does, with the errors it prints), whether it leaves the loop or
      returns an error of [refresh] or [read_event]; or it made no screen; or it has not ended. *)
  Inductive dend : Type :=
  | EEnded (u : M_UnixScreen.uscr) (ok : bool) (r : rres (option rerr * option rerr))
  | ENoScreen | ENotYet.
  Definition demo_main (n : nat) (s : sys) : dend :=
    match M_UnixScreen.unix_screen_new E C demo_config s with
    | Ret _ u => match demo n u with
                 | DQuit u => EEnded u true (M_UnixScreen.screen_drop C u)
                 | DFailed u => EEnded u false (M_UnixScreen.screen_drop C u)
                 | _ => ENotYet
                 end
    | _ => ENoScreen
    end.
End Example_screen.
