(** Property theorems for programs on a Unix screen and the terminal they draw on (C82,
    C83). *)
From Verif Require Import Base M_Utf8 M_Geom M_Attr M_Buf S_Buf P_Buf3 M_Seq M_Signal M_Util M_Input S_Input M_Writer S_Tty S_Writer S_Emu P_Emu
  M_Screen S_Screen P_Screen5 M_Prepare M_Reader S_Prepare M_UnixScreen S_UnixScreen S_WholeScreen P_WholeScreen3 P_WholeScreen4 P_Continue
  Prop_Input Prop_Prepare Prop_UnixScreen.

(** C82: whatever a program did before with a screen (writing, hiding the cursor, refreshing,
    using guards, waiting, reading keys, signals and raw input, being told of new sizes of
    the window), when it refreshes the screen or drops a write guard the terminal shows
    every cell of the buffer, at the buffer's size, with its cursor where the buffer's is.
    [t] is the terminal before, [x] what is sent.  After a successful [refresh] nothing is
    left in the output buffer. *)
Theorem C82_drawing_shows :
  forall E C m K, env_ok E -> env_chars E -> caps_coherent C -> implements E C K -> plain_caps C ->
  forall u t o u' r x, program E C m K u (Some t) -> draws o -> public_op o -> single_op E o -> calm E C o u ->
    ustep E C m o u = Some (u', r) -> stream (M_Prepare.wr (u_sys u')) = stream (M_Prepare.wr (u_sys u)) ++ x ->
    (o = URefresh -> r = YUnit -> obuf (M_Prepare.wr (u_sys u')) = []) /\
    exists v, look K (feed K t x) = Some v /\ vsize v = bsize (u_sb u') /\ vattrs v = no_attrs /\ vcur v = cursor_goal (u_sb u') /\
      forall i c, cell_at (u_sb u') i = Some c -> nth_error (vcells v) i = Some (VC (ctext c) (shown_attrs C (cattrs c))).
Proof. exact drawing_shows. Qed.
Print Assumptions C82_drawing_shows.

(** The program writes, refreshes, hides the cursor, is stopped and continued, reads a key,
    is told that the window is larger now (the terminal shows anything, here blanks at
    another size), writes again in red through a guard, and drops the guard. *)
Definition wp_env : env := demo_env 1000.
Definition wp_tty : tty := ansi_tty wp_env.
Definition wp_time : list tick :=
  [TStep; TSig SIGCONT; TStep; TInput [120]%N; TStep; TStep; TStep; TStep; TStep; TStep; TStep; TWin (inr (Size 3 4)); TSig SIGWINCH; TStep].
Definition wp_acts : list (pact wp_tty) :=
  [PDo (UBuffer (BWriteStr [104; 105]%N)); PDo URefresh; PDo (UMode CInvisible); PDo (URead None); PDo (URead None);
   PTold (K := wp_tty) (URead None) (emu_new (Size 3 4)); PDo (UWait (Some (Duration 0 0)))].
Definition wp_last : uop := ULocked [GBuffer (BSetFg (Some Red)); GBuffer (BWriteAt (Cursor 1 2) [122]%N); GMode CNormal].
Definition wp_seen (u : uscr) (r : reply) (v : view) : bool :=
  size_eqb (bsize (u_sb u)) (Size 3 4) && cursor_eqb (vcur v) (Cursor 1 3) &&
  match nth_error (vcells v) 1, nth_error (vcells v) 6 with
  | Some (VC a p), Some (VC b q) => bytes_eqb a [105]%N && attrs_eqb p no_attrs && bytes_eqb b [122]%N && attrs_eqb q (Attrs (Some Red) None 0%N)
  | _, _ => false
  end.
Example C82_example :
  env_ok wp_env /\ env_chars wp_env /\ caps_coherent ansi_cfg /\ implements wp_env ansi_cfg wp_tty /\ plain_caps ansi_cfg /\
  draws wp_last /\ public_op wp_last /\ single_op wp_env wp_last /\
  exists u t u' r x v, program wp_env ansi_cfg ex_map wp_tty u (Some t) /\ calm wp_env ansi_cfg wp_last u /\
    ustep wp_env ansi_cfg ex_map wp_last u = Some (u', r) /\
    stream (M_Prepare.wr (u_sys u')) = stream (M_Prepare.wr (u_sys u)) ++ x /\ look wp_tty (feed wp_tty t x) = Some v /\
    wp_seen u' r v = true.
Proof.
  split; [apply demo_env_ok|]. split; [apply demo_chars|]. split; [apply ansi_coherent|]. split; [apply ansi_implements, demo_env_ok|].
  split; [exact ux_plain|]. split; [exact I|]. split; [repeat constructor|].
  split; [repeat constructor; intros (_ & H); discriminate H|].
  apply (whole_outcome_ok wp_env ansi_cfg ex_map wp_tty ex_cfg (ux_sys wp_time) (emu_new (Size 2 3)) wp_acts wp_last wp_seen).
  - repeat constructor; intros (_ & H); discriminate H.
  - vm_compute. reflexivity.
Qed.

(** C83 fails: a program that is stopped and continued is not drawn again.  After a
    successful refresh, whatever signal, key or byte is read (unless it is a change of the
    size), the next refresh sends nothing, and reading sends nothing that the terminal shows
    ([x] is all that is sent): what other programs wrote meanwhile stays. *)
Theorem C83_continue_refuted :
  forall E C m K, implements E C K -> plain_caps C ->
  forall u u1 o u2 r u3, ustep E C m URefresh u = Some (u1, YUnit) -> whole_writes (script (M_Prepare.wr (u_sys u1))) ->
    (exists t, o = URead t) \/ (exists n t, o = URaw n t) -> ustep E C m o u1 = Some (u2, r) -> resize_of r = None ->
    ustep E C m URefresh u2 = Some (u3, YUnit) ->
    exists x, stream (M_Prepare.wr (u_sys u3)) = stream (M_Prepare.wr (u_sys u1)) ++ x /\
      forall t v, look K t = Some v -> look K (feed K t x) = Some v.
Proof. exact not_redrawn. Qed.
Print Assumptions C83_continue_refuted.

(** The program is told that it was continued (its terminal is prepared again, the mouse is
    turned on again), and refreshes. *)
Definition cont_cfg : config := Config false true true true true (ss_insert ss_new Continue).
Example C83_example :
  match unix_screen_new wp_env ansi_cfg cont_cfg (ux_sys [TStep; TSig SIGCONT; TStep]) with
  | Ret _ u =>
      match urun wp_env ansi_cfg ex_map [UBuffer (BWriteStr [104; 105]%N); URefresh; URead None; URefresh] u with
      | Some (u3, rs) => rs = [YUnit; YUnit; YEvent (Some (ESignal Continue)); YUnit] /\ disp (u_sys u3) SIGCONT = Ours
      | None => False
      end
  | _ => False
  end.
Proof. vm_compute. split; reflexivity. Qed.

(** C83 and C27, as far as they hold: after any history of a program, in which it may have
    been stopped and continued, other programs may have written to the terminal and drawing
    may have failed half-way, once the program is told the size of the window (a SIGWINCH,
    even if the size is the same) the next drawing makes the terminal show the buffer, whatever
    the terminal showed before.  Missing: without such a report. *)
Theorem C83_shown_after_a_size_report_partial :
  forall E C m K, env_ok E -> env_chars E -> caps_coherent C -> implements E C K -> plain_caps C ->
  forall u t o1 u1 r1 z t' v' o u' r x, program E C m K u t -> public_op o1 -> single_op E o1 ->
    ustep E C m o1 u = Some (u1, r1) -> resize_of r1 = Some z -> screen_size z ->
    whole_writes (script (M_Prepare.wr (u_sys u1))) ->
    look K (feed K t' (obuf (M_Prepare.wr (u_sys u1)))) = Some v' -> vsize v' = z -> vattrs v' = shown_attrs C (wat (M_Prepare.wr (u_sys u1))) ->
    draws o -> public_op o -> single_op E o -> calm E C o u1 ->
    ustep E C m o u1 = Some (u', r) -> stream (M_Prepare.wr (u_sys u')) = stream (M_Prepare.wr (u_sys u1)) ++ x ->
    exists v, look K (feed K (feed K t' (obuf (M_Prepare.wr (u_sys u1)))) x) = Some v /\ vsize v = bsize (u_sb u') /\ vattrs v = no_attrs /\ vcur v = cursor_goal (u_sb u') /\
      forall i c, cell_at (u_sb u') i = Some c -> nth_error (vcells v) i = Some (VC (ctext c) (shown_attrs C (cattrs c))).
Proof. exact told_shows. Qed.
Print Assumptions C83_shown_after_a_size_report_partial.

(** A refresh fails half-way; SIGWINCH reports the size, which has not changed; the terminal
    shows blanks; the next refresh shows the buffer. *)
Definition tp_sys : sys :=
  Sys [] 0 None ss_new (W [] 60 no_attrs 0 [] ([WAll; WAll; WErr 5%N] ++ repeat WAll 60)) 0 ex_tio (fun n => Other n) [] None (inr (Size 2 3)) []
    [TStep; TSig SIGWINCH; TStep].
Definition tp_seen (u : uscr) (r1 r : reply) (v : view) : bool :=
  match r1, r with YErr _, YUnit => true | _, _ => false end &&
  match nth_error (vcells v) 0, nth_error (vcells v) 1 with
  | Some (VC a p), Some (VC b q) => bytes_eqb a [104]%N && attrs_eqb p no_attrs && bytes_eqb b [105]%N && attrs_eqb q no_attrs
  | _, _ => false
  end.
Example C83_told_example :
  exists u1 u2 u3 r1 r2 z v' u4 r x v, program wp_env ansi_cfg ex_map wp_tty u2 None /\
    ustep wp_env ansi_cfg ex_map URefresh u1 = Some (u2, r1) /\
    ustep wp_env ansi_cfg ex_map (URead None) u2 = Some (u3, r2) /\ resize_of r2 = Some z /\ screen_size z /\
    whole_writes (script (M_Prepare.wr (u_sys u3))) /\
    look wp_tty (feed wp_tty (emu_new (Size 2 3)) (obuf (M_Prepare.wr (u_sys u3)))) = Some v' /\ vsize v' = z /\
    vattrs v' = shown_attrs ansi_cfg (wat (M_Prepare.wr (u_sys u3))) /\
    calm wp_env ansi_cfg URefresh u3 /\ ustep wp_env ansi_cfg ex_map URefresh u3 = Some (u4, r) /\
    stream (M_Prepare.wr (u_sys u4)) = stream (M_Prepare.wr (u_sys u3)) ++ x /\
    look wp_tty (feed wp_tty (feed wp_tty (emu_new (Size 2 3)) (obuf (M_Prepare.wr (u_sys u3)))) x) = Some v /\ tp_seen u4 r1 r v = true.
Proof.
  apply (told_outcome_ok wp_env ansi_cfg ex_map wp_tty ex_cfg tp_sys (emu_new (Size 2 3)) [PDo (UBuffer (BWriteStr [104; 105]%N))]
    URefresh (URead None) (emu_new (Size 2 3)) URefresh tp_seen).
  - repeat constructor; intros (_ & H); discriminate H.
  - exact I.
  - exact I.
  - exact I.
  - exact I.
  - vm_compute. reflexivity.
Qed.
