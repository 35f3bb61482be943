(** C95: the public output methods do what their documentation says. *)
From Verif Require Import Base M_Utf8 S_Utf8 M_Geom S_Geom M_Attr M_Buf S_Buf M_Writer S_Tty S_Writer P_Buf3 S_Emu P_Emu
  M_Api S_Api P_Api.

(** C95.  A program calls any methods of [TerminalWriteGuard] and [Terminal] on a
    terminal that shows [v] and implements a terminfo entry with attributes and cursor
    visibility.  If the calls succeed, the terminal shows, once the output has reached
    it, what the effects the documentation gives for the calls, one after the other,
    make of [v]. *)
Theorem C95_methods_do_what_they_say :
  forall E C K t0 cs, implements E C K -> full_caps C ->
  forall w w' v, Forall (on_api (sensible E)) cs ->
    whole_writes (script w) -> style_ok (sty (wat w)) ->
    look K (feed K t0 (stream w)) = Some v -> vattrs v = wat w ->
    api_run C cs w = Some w' ->
    exists v', look K (feed K t0 (stream w')) = Some v' /\ effects E cs v v' /\ vattrs v' = wat w' /\
      whole_writes (script w') /\ style_ok (sty (wat w')).
Proof. exact api_does. Qed.
Print Assumptions C95_methods_do_what_they_say.

(** C95.  When a method of [Terminal] returns, and the device works, its effect has
    already happened. *)
Theorem C95_terminal_methods_arrive :
  forall E C K t0 m w w' u v, implements E C K -> full_caps C -> sensible E m ->
    perfect (script w) -> obuf w = [] -> style_ok (sty (wat w)) ->
    look K (feed K t0 (dev w)) = Some v -> vattrs v = wat w ->
    terminal_method C m w = Ret w' u ->
    exists v', look K (feed K t0 (dev w')) = Some v' /\ effect E m v v' /\ vattrs v' = wat w' /\
      perfect (script w') /\ obuf w' = [] /\ style_ok (sty (wat w')).
Proof. exact terminal_does. Qed.
Print Assumptions C95_terminal_methods_arrive.

(** A program with most of the methods, on the ANSI terminal of S_Emu.v. *)
Example C95_example :
  let E := demo_env 1000 in
  let cs := [OnTerminal TClearScreen; OnGuard (TSetCursorMode CInvisible); OnGuard TBold; OnGuard (TSetFg (Some Red));
             OnGuard (TWriteFmt [[97; 98]; [99]]%N); OnGuard (TMoveDown 1); OnGuard TUnderline;
             OnTerminal (TWriteStyled None (Some Blue) None [100]%N); OnTerminal (TMoveLeft 0);
             OnGuard TReverse; OnGuard (TSetStyle None); OnGuard TItalic; OnGuard TMoveToFirstColumn;
             OnGuard (TWriteChar 101%N); OnGuard TFlush] in
  let w := writer_new 64 (repeat WAll 9) in
  let t0 := emu_new (Size 2 5) in
  implements E ansi_cfg (ansi_tty E) /\ full_caps ansi_cfg /\ perfect (script w) /\
  Forall (on_api (sensible E)) cs /\ style_ok (sty (wat w)) /\
  (exists v0, look (ansi_tty E) (feed (ansi_tty E) t0 (stream w)) = Some v0 /\ vattrs v0 = wat w) /\
  match api_run ansi_cfg cs w with
  | Some w' => obuf w' = [] /\
      look (ansi_tty E) (feed (ansi_tty E) t0 (dev w')) =
        let red := Attrs (Some Red) None 1%N in
        let blank := VC [32%N] no_attrs in
        Some (View (Size 2 5)
          [VC [97%N] red; VC [98%N] red; VC [99%N] red; blank; blank;
           VC [101%N] (Attrs None None 2%N); blank; blank; VC [100%N] (Attrs None (Some Blue) 0%N); blank]
          (Cursor 1 1) (Attrs None None 2%N) false)
  | None => False
  end.
Proof.
  cbv zeta. split; [apply ansi_implements, demo_env_ok|].
  split; [split; [apply ansi_all_caps|split; reflexivity]|]. split; [repeat (constructor; [left; reflexivity|]); constructor|].
  split.
  - repeat constructor; unfold texty, scalar, printable; cbn; intuition discriminate.
  - split; [reflexivity|]. split; [eexists; split; vm_compute; reflexivity|].
    vm_compute. split; reflexivity.
Qed.
