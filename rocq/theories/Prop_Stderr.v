(** Property theorems for errors that can only be printed (C110). *)
From Verif Require Import Base M_Utf8 M_Geom M_Attr M_Buf S_Buf M_Seq M_Signal M_Util M_Input M_Writer S_Writer S_Emu
  M_Screen M_Prepare M_Reader M_UnixScreen S_UnixScreen M_Stderr S_Stderr P_Stderr Prop_Input Prop_Prepare Prop_UnixScreen.

(** C110: as long as standard error can be written, printing changes nothing: methods of
    [Terminal], refreshing a screen, and dropping a terminal, a screen or its write guard
    end as they do in the models without printing (all other properties). *)
Theorem C110_printed :
  forall E C l, printable l ->
  (forall unw o w, same_end (terminal_op_p C unw l o w) (run_terminal_op C o w) (fun e => e)) /\
  (forall s, same_end (screen_refresh_p E C l s) (screen_refresh E C s) (fun e => e)) /\
  (forall s, same_end (screen_guard_drop_p E C false l s) (s_guard_drop E C s) (fun _ => tt)) /\
  (forall u, same_end (screen_drop_p C l u)
     (match screen_drop C u with Ret s _ => Ret s tt | Fail s e => Fail s e | Panic => Panic | Blocked => Blocked end : rres unit)
     (fun _ => tt)).
Proof.
  exact (fun E C l H => conj (fun unw o w => op_works C unw l o w H) (conj (fun s => refresh_works E C l s H)
    (conj (fun s => screen_guard_works E C l s H) (fun u => screen_drop_works C l u H)))).
Qed.
Print Assumptions C110_printed.

(** C110: while the terminal takes all output, a method of [Terminal] prints nothing, so
    that standard error does not matter to it. *)
Theorem C110_silent :
  forall C unw l o w, perfect (script w) ->
  match terminal_op_p C unw l o w with
  | Goes _ l' _ => l' = l
  | Ends false => True
  | _ => False
  end.
Proof. exact op_prints_nothing. Qed.
Print Assumptions C110_silent.

(** C110: a terminal is gone and standard error with it (they are mostly the same device).
    One would expect that each method of [Terminal] replies an error or succeeds.  It
    panics exactly if output is left that could not be written; the device gets nothing. *)
Theorem C110_gone_method :
  forall C l o w, gone w ->
  match terminal_op_p C false (false :: l) o w with
  | Goes w' l' _ => (obuf w' = [] \/ w' = w) /\ dev w' = dev w /\ l' = false :: l
  | Unwinds w' _ => obuf w' <> [] /\ dev w' = dev w
  | Aborts | Ends _ => False
  end.
Proof. exact gone_op. Qed.
Print Assumptions C110_gone_method.

(** With output pending every method panics that locks the terminal. *)
Theorem C110_method_refuted :
  forall C l o w, gone w -> obuf w <> [] -> ~ idle o ->
  exists w', terminal_op_p C false (false :: l) o w = Unwinds w' l.
Proof. exact gone_op_pending. Qed.
Print Assumptions C110_method_refuted.

(** C110: a screen on such a terminal.  One would expect that dropping a guard reports the
    error at most.  With output pending the whole process is aborted: refreshing fails, so
    does printing that, and in the unwinding the guard inside fails the same way. *)
Theorem C110_guard_refuted :
  forall E C l s, gone (M_Screen.wr s) -> refresh E C s <> Panic -> obuf (M_Screen.wr s) <> [] ->
  screen_guard_drop_p E C false (false :: false :: l) s = Aborts.
Proof. exact gone_guard. Qed.
Print Assumptions C110_guard_refuted.

(** C110: dropping a screen on such a terminal aborts the process, whatever the state of
    the screen is and whatever the operating system's other calls reply, if leaving the
    alternate screen and showing the cursor take any output; and with output pending in
    any case. *)
Theorem C110_screen_refuted :
  forall C l u, gone (M_Prepare.wr (u_sys u)) ->
  obuf (M_Prepare.wr (u_sys u)) <> [] \/
  (forall k, cap_bytes C ExitCaMode k <> []) /\ (forall k, cap_bytes C CursorNormal k <> []) ->
  screen_drop_p C (false :: false :: l) u = Aborts.
Proof.
  exact (fun C l u H D => match D with
    | or_introl D => gone_screen C (false :: l) u H D
    | or_intror (conj D1 D2) => gone_any_screen C l u H D1 D2
    end).
Qed.
Print Assumptions C110_screen_refuted.

(** The terminal of the examples is closed, and standard error with it. *)
Definition closed (w : wst) : wst := W (obuf w) (ocap w) (wat w) (wctx w) (dev w) (repeat (WErr 5) 20).
Definition mute : list bool := repeat false 8.

(** Text is written to it by the method that does so: a panic.  An empty text: no panic.
    If messages can be printed: an error is not even replied (the call itself succeeded). *)
Example C110_method_example :
  let w := closed (M_Prepare.wr (ux_sys [])) in
  gone w /\ ~ idle (OWriteStr [104]%N) /\
  match terminal_op_p ansi_cfg false mute (OWriteStr [104]%N) w with Unwinds w' _ => obuf w' = [104]%N | _ => False end /\
  terminal_op_p ansi_cfg false mute (OWriteStr []) w = Goes w mute None /\
  match terminal_op_p ansi_cfg false [] (OWriteStr [104]%N) w with Goes w' _ r => obuf w' = [104]%N /\ r = None | _ => False end.
Proof.
  cbv zeta. split; [split; [repeat constructor; now exists 5%N|cbn; lia]|]. split; [intros []|]. vm_compute. repeat split; reflexivity.
Qed.

(** A screen is made and text is written to it, and then the terminal is closed.  Dropping
    the screen aborts the process; with standard error at hand it is dropped in peace.
    Refreshing it fails and leaves output pending; dropping the guard then aborts. *)
Example C110_screen_example :
  match ux_after ansi_cfg [] [UBuffer (BWriteStr [104; 105]%N)] with
  | Some (u, _) =>
      let w := closed (M_Prepare.wr (u_sys u)) in
      let u' := UScr (u_sb u) (u_clr u) (u_real u) (u_st u) (M_Prepare.with_wr w (u_sys u)) in
      gone (M_Prepare.wr (u_sys u')) /\
      screen_drop_p ansi_cfg mute u' = Aborts /\
      match screen_drop_p ansi_cfg [] u' with Goes _ _ _ => True | _ => False end /\
      match refresh ux_env ansi_cfg (Scr (u_sb u) (u_clr u) (u_real u) w) with
      | Fail v _ => gone (M_Screen.wr v) /\ obuf (M_Screen.wr v) <> [] /\ refresh ux_env ansi_cfg v <> Panic /\
                    screen_guard_drop_p ux_env ansi_cfg false mute v = Aborts
      | _ => False
      end
  | None => False
  end.
Proof.
  vm_compute. split; [split; [repeat constructor; now exists 5%N|repeat constructor]|]. split; [reflexivity|]. split; [exact I|]. split; [split|].
  - repeat constructor; now exists 5%N.
  - repeat constructor.
  - repeat split; discriminate.
Qed.
Lemma ansi_exit : (forall k, cap_bytes ansi_cfg ExitCaMode k <> []) /\ (forall k, cap_bytes ansi_cfg CursorNormal k <> []).
Proof. split; intros k; discriminate. Qed.
