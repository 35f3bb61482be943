(** Property theorems for where C101 does not hold. *)
From Verif Require Import Base M_Utf8 S_Utf8 M_Geom S_Geom M_Attr S_Buf M_Writer S_Tty S_Writer
  M_Screen S_Screen P_Buf3 S_Emu P_Emu P_Screen5 M_Api M_ScreenApi M_Buf S_Canvas S_WideCanvas P_WideCanvas P_WideCanvas2
  S_WideExact P_WideExact P_WideExact2.

(** On every screen of two columns or more, whatever was drawn: a double-width character
    at the last column, or a mark behind a double-width character, and the screen does not
    hold the drawing.  (With C101_methods_draw_the_canvas_partial: these characters are
    exactly the ones that are not drawn as they should be.) *)
Theorem C101_hard_character_refuted : forall E, env_ok E -> forall sz b0 ms b c,
  2 <= columns sz -> all_easy E ms (wblank sz) ->
  sb_new E sz = Val b0 -> screen_methods E ms b0 = Val b -> hard_char E c (wdraws E ms (wblank sz)) ->
  exists b', screen_method E (SWriteChar c) b = Val b' /\
    ~ wholds b' (wdraw E (SWriteChar c) (wdraws E ms (wblank sz))).
Proof. exact first_hard. Qed.
Print Assumptions C101_hard_character_refuted.

Example C101_hard_example :
  let E := demo_env 1000 in let sz := Size 2 3 in
  env_ok E /\ 2 <= columns sz /\
  all_easy E [SWriteStr [65345]%N] (wblank sz) /\
  hard_char E 65346%N (wdraws E [SWriteStr [65345]%N] (wblank sz)) /\
  hard_char E 769%N (wdraws E [SWriteStr [65345]%N] (wblank sz)) /\
  match sb_new E sz with
  | Val b0 => match screen_methods E [SWriteStr [65345]%N] b0 with Val _ => True | Boom => False end
  | Boom => False
  end.
Proof.
  cbv zeta. split; [apply demo_env_ok|]. split; [cbn; lia|]. split; [apply all_easyb_ok; vm_compute; reflexivity|].
  split; [left; split; [narrow_tac|split; vm_compute; reflexivity]|].
  split; [right; split; [narrow_tac|exists (Cursor 0 1); split; [|split]; vm_compute; reflexivity]|].
  vm_compute. exact Logic.I.
Qed.

(** A refresh after a double-width character was torn apart: the program draws "xy", then
    a double-width character over it, then "xy" again, with refreshes in between; the "y"
    is drawn and not shown. *)
Theorem C101_torn_refuted :
  let E := demo_env 1000 in
  exists s t k last s' x v, wpainted E ansi_cfg (ansi_tty E) s t k last /\
    refresh E ansi_cfg s = Ret s' tt /\ stream (wr s') = stream (wr s) ++ x /\
    look (ansi_tty E) (feed (ansi_tty E) t x) = Some v /\
    wink k 0 1 = Glyph [121]%N plain_attrs /\ nth_error (vcells v) (cell_no (wsize k) (Cursor 0 1)) <> Some (VC [121]%N plain_attrs).
Proof. exact torn_hides. Qed.
Print Assumptions C101_torn_refuted.

(** The terminal's new right edge cuts a double-width character in line 0: the refresh
    does not show what the program drew at the beginning of line 1. *)
Theorem C101_cut_refuted :
  let E := demo_env 1000 in let new := Size 2 3 in
  exists s t k last v s1 t' v' s2 x v2, wpainted E ansi_cfg (ansi_tty E) s t k last /\
    look (ansi_tty E) t = Some v /\ obuf (wr s) = [] /\
    look (ansi_tty E) t' = Some v' /\ vsize v' = new /\ vattrs v' = vattrs v /\
    update_size E new s = Val s1 /\
    refresh E ansi_cfg s1 = Ret s2 tt /\ stream (wr s2) = stream (wr s1) ++ x /\
    look (ansi_tty E) (feed (ansi_tty E) t' x) = Some v2 /\
    wink k 1 0 = Glyph [120]%N plain_attrs /\ nth_error (vcells v2) (cell_no new (Cursor 1 0)) <> Some (VC [120]%N plain_attrs).
Proof. exact cut_hides. Qed.
Print Assumptions C101_cut_refuted.
