(** C138: a refresh succeeds when the terminal takes the output, with few calls of [write]. *)
From Verif Require Import Base M_Utf8 M_Geom S_Geom M_Attr M_Seq S_Seq M_Input S_Input M_Buf S_Buf M_Writer S_Writer M_Prepare M_Reader
  M_UnixScreen S_UnixScreen S_NoPanic S_Emu P_WinDraw2.
From Verif Require M_WinWriter S_WinWriter M_WinScreen S_WinScreen P_WinDraw M_Screen Prop_NoPanic Prop_UnixScreen Prop_Prepare P_Buf3 Prop_WinDraw.
From Verif Require Import S_Succeeds P_Succeeds P_Succeeds2 P_Succeeds3 P_Succeeds4.
Local Open Scope nat_scope.

(** C138: after any calls of a program on a Unix screen (some may have failed), if the
    terminal has what drawing needs, the window has a cell, and from now on the OS takes what
    is written (calls may be interrupted) often enough, a refresh succeeds.  It makes at most
    two calls of [write] for each cell that has changed, and one more; and if no cell's text
    is longer than the output buffer, at most one for each cell that has changed and one
    more, and every call but the last hands over so much that the buffer had no room for
    another such text. *)
Theorem C138_unix_refresh_succeeds :
  forall E C m cfg ops s0 s1 u u' rs, env_ok E -> key_map m -> whole_writes (script (M_Prepare.wr s0)) ->
  unix_screen_new E C cfg s0 = Ret s1 u -> Forall public_op ops -> urun E C m ops u = Some (u', rs) ->
  drawable C -> (forall c n, n <= grow C c n) -> 0 < lines (bsize (u_sb u')) -> 0 < columns (bsize (u_sb u')) ->
  let w := M_Prepare.wr (u_sys u') in
  perfect (script w) -> 2 * stale (u_sb u') < writes_left (script w) ->
  exists u'', ustep E C m URefresh u' = Some (u'', YUnit) /\
    let w' := M_Prepare.wr (u_sys u'') in
    perfect (script w') /\ writes_made w w' <= 2 * stale (u_sb u') + 1 /\
    forall k, short_cells k (u_sb u') -> k <= ocap w ->
      writes_made w w' <= stale (u_sb u') + 1 /\ (writes_made w w' - 1) * (ocap w + 1 - k) <= bytes_taken w w'.
Proof. exact program_goes. Qed.
Print Assumptions C138_unix_refresh_succeeds.

(** C138: a refresh of a Windows screen, after any history (C79), succeeds if the console's
    calls do. *)
Theorem C138_windows_refresh_succeeds :
  forall draw shown E s, S_WinScreen.places draw shown -> env_ok E -> (32767 <= Z.of_nat (umax E))%Z ->
  S_WinScreen.whistory draw E (fun s => S_WinScreen.one_position E shown (M_WinScreen.g_sb s) /\ S_WinScreen.window_fits s) s ->
  S_WinScreen.one_position E shown (M_WinScreen.g_sb s) ->
  S_WinWriter.no_failure (M_WinWriter.c_answers (M_WinWriter.w_con (M_WinScreen.t_w (M_WinScreen.g_t s)))) ->
  exists s', M_WinScreen.win_refresh draw E s = Ret s' tt.
Proof. exact whistory_goes. Qed.
Print Assumptions C138_windows_refresh_succeeds.

(** The terminal of the examples has what drawing needs. *)
Example C138_example_drawable : drawable ansi_cfg /\ (forall c n, n <= grow ansi_cfg c n).
Proof. exact ansi_drawable. Qed.

(** The program of C107, in which a refresh fails and the window grows. *)
Example C138_example :
  match unix_screen_new Prop_UnixScreen.ux_env ansi_cfg Prop_Prepare.ex_cfg Prop_NoPanic.np_sys with
  | Ret _ u =>
      match urun Prop_UnixScreen.ux_env ansi_cfg Prop_NoPanic.np_map (Prop_NoPanic.np_ops ++ [UBuffer (BWriteAt (Cursor 0 1) [120; 121]%N)]) u with
      | Some (u', rs) =>
          let w := M_Prepare.wr (u_sys u') in
          (forallb (fun r => match r with WAll | WIntr => true | _ => false end) (script w), bsize (u_sb u'), stale (u_sb u'),
           2 * stale (u_sb u') <? writes_left (script w),
           forallb (fun c => length (utf8s (ctext c)) <=? 3) (buffer (u_sb u')), ocap w,
           match ustep Prop_UnixScreen.ux_env ansi_cfg Prop_NoPanic.np_map URefresh u' with
           | Some (u'', YUnit) => (writes_made w (M_Prepare.wr (u_sys u'')), 0 <? bytes_taken w (M_Prepare.wr (u_sys u'')))
           | _ => (9, false)
           end) = (true, Size 3 4, 3, true, true, 512, (1, true))
      | None => False
      end
  | _ => False
  end.
Proof. vm_compute. reflexivity. Qed.

(** The Windows screen of C79, which is resized on the way. *)
Example C138_example_windows :
  S_WinScreen.whistory S_WinScreen.demo_draw wide_env fine Prop_WinDraw.ex_4 /\ fine Prop_WinDraw.ex_4 /\
  S_WinWriter.no_failure (M_WinWriter.c_answers (M_WinWriter.w_con (M_WinScreen.t_w (M_WinScreen.g_t Prop_WinDraw.ex_4)))).
Proof.
  destruct Prop_WinDraw.C79_example as (_ & _ & _ & H & F & _). split; [exact H|]. split; [exact F|].
  assert (Q : M_WinWriter.c_answers (M_WinWriter.w_con (M_WinScreen.t_w (M_WinScreen.g_t Prop_WinDraw.ex_4))) = []) by (vm_compute; reflexivity).
  rewrite Q. constructor.
Qed.
